(** Properties of the population fits: C80-C84. *)
From Coq Require Import Reals Lra Lia ZArith List Bool String.
From Verif Require Import XReal ModelUtils ModelKernels ModelSfh ModelPopTables ModelPop ModelHist ModelLoad ModelIO ModelTargets ModelPopFit
  SpecCore SpecPop SpecHist SpecTargets SpecPopFit PopParamProofs LossProofs LossDataProofs LossTargetProofs SsfrDataProofs PopFitTop
  FitLoopProofs SaveProofs SentinelProofs.
Import List ListNotations.
Local Notation length := List.length (only parsing).
Open Scope R_scope.

(** C80: data of the stellar-mass fits, for all halos, centrals or satellites: the cells used,
    the halos drawn for each and the target distributions. *)
Theorem C80_mstar_data : forall key split sing kern choice, timewise sing kern -> draws_ok choice ->
  (forall (k : key) n, length (split k n) = n) ->
  forall f nz nm nms nsf c3 cc cs n1 n2, files_are f nz nm nms nsf c3 cc cs n1 n2 ->
  forall nhalos lgt0 k fb rk z0 k0, exists d,
  mstar_data key split sing choice k f nhalos (Fin lgt0) fb rk = Some d /\
  ml_lgt0 key d = Fin lgt0 /\ ml_fb key d = fb /\ ml_bins key d = pf_mstar_bins f /\
  let h := f_haloes (pf_f f) in
  let U := usable k h nz nm in
  length (ml_zs key d) = length U /\ length (ml_target key d) = length U /\
  forall m, (m < length U)%nat ->
  let i := fst (nth m U (0%nat, 0%nat)) in let j := snd (nth m U (0%nat, 0%nat)) in
  let z := nth m (ml_zs key d) z0 in
  let q := mass_counts k nsf c3 cc cs i j in
  (exists P, length P = nhalos /\ incl P (sampled k h i j) /\
    ((nhalos <= length (sampled k h i j))%nat -> NoDup P) /\ drawn kern h lgt0 z P) /\
  z_tobs key z = nth i (f_age (pf_f f)) NaN /\ z_key key z = nth m (split rk (length U)) k0 /\
  (total nms q <> 0 -> nth m (ml_target key d) [] = map (fun b => Fin (q b / total nms q)) (seq 0 nms)).
Proof. exact mstar_data_spec. Qed.
Print Assumptions C80_mstar_data.

(** C80: one used cell without counts makes the loss NaN for all parameters. *)
Theorem C80_empty_cell : forall key split sing kern choice, timewise sing kern -> draws_ok choice ->
  forall f nz nm nms nsf c3 cc cs n1 n2, files_are f nz nm nms nsf c3 cc cs n1 n2 ->
  forall nhalos lgt0 k fb rk d i j jran_split uniform mvn u v, (0 < nms)%nat ->
  mstar_data key split sing choice k f nhalos (Fin lgt0) fb rk = Some d ->
  In (i, j) (usable k (f_haloes (pf_f f)) nz nm) -> (forall b, (b < nms)%nat -> mass_counts k nsf c3 cc cs i j b = 0) ->
  loss_mstar key jran_split uniform mvn kern u d = Some v -> v = NaN.
Proof. exact mstar_zero_total. Qed.
Print Assumptions C80_empty_cell.

(** C80: the populations are fit for simulation when every sampled halo has a history. *)
Theorem C80_simulable : forall key split sing kern choice, timewise sing kern -> draws_ok choice ->
  forall f nz nm nms nsf c3 cc cs n1 n2, files_are f nz nm nms nsf c3 cc cs n1 n2 ->
  forall k nhalos lgt0 fb rk d,
  (forall i j n, (i < nz)%nat -> In n (sampled k (f_haloes (pf_f f)) i j) -> exists t m tp hh,
    nth i (f_age (pf_f f)) NaN = Fin t /\ 1 / 10 < t /\
    kern (halo_mah (f_haloes (pf_f f)) n) (Fin (Rpower 10 lgt0)) (Fin lgt0) = Fin m /\
    t_peak (halo_mah (f_haloes (pf_f f)) n) = Fin tp /\
    halo_history kern (halo_mah (f_haloes (pf_f f)) n) (Fin lgt0) hh (obs_times t)) ->
  mstar_data key split sing choice k f nhalos (Fin lgt0) fb rk = Some d ->
  zs_ok key kern (Fin lgt0) (ml_zs key d).
Proof. exact mstar_simulable. Qed.
Print Assumptions C80_simulable.

Example C80_hyp : timewise the_mah (fun _ _ _ => Fin 12) /\ draws_ok the_choice /\ (forall k n, length (the_split k n) = n) /\
  files_are (demo_files 49) 1 2 20 2 (fun _ _ _ => 1) demo_c demo_c (fun _ _ => 1) (fun _ _ => 1) /\
  usable All (demo_halos 49) 1 2 = [(0, 0)]%nat /\ usable Cen (demo_halos 49) 1 2 = [(0, 0)]%nat /\
  usable Sat (demo_halos 49) 1 2 = [] /\ usable Cen (demo_halos 50) 1 2 = [(0, 0); (0, 1)]%nat /\
  total 20 (mass_counts All 2 (fun _ _ _ => 1) demo_c demo_c 0 0) <> 0.
Proof.
  split; [exact the_mah_ok|]. split; [exact the_choice_ok|]. split; [exact the_split_ok|]. split; [apply demo_ok|].
  do 4 (split; [vm_compute; reflexivity|]). unfold total, mass_counts, Rsum. cbn. lra.
Qed.

(** C81: data of the sSFR fits. *)
Theorem C81_ssfr_data : forall key split sing kern choice, timewise sing kern -> draws_ok choice ->
  (forall (k : key) n, length (split k n) = n) ->
  forall f nz nm nms nsf c3 cc cs n1 n2, files_are f nz nm nms nsf c3 cc cs n1 n2 ->
  forall nhalos lgt0 (sat : bool) fb rk z0 k0,
  let h := f_haloes (pf_f f) in
  let kd := if sat then Sat else Cen in
  let n := if sat then n2 else n1 in
  let c := if sat then cs else cc in
  let U := usable kd h nz nm in
  (0 < nz)%nat -> (20 <= nms)%nat -> (forall i, (i < nz)%nat -> total nm (n i) <> 0) ->
  (forall i, (i < nz)%nat -> used_bins kd h nm i <> []) -> exists d,
  ssfr_data key split sing choice sat f nhalos (Fin lgt0) fb rk = Some d /\
  sl_lgt0 key d = Fin lgt0 /\ sl_fb key d = fb /\
  s_mbins (sl_data key d) = pf_mstar_bins f /\ s_sbins (sl_data key d) = pf_ssfr_bins f /\ s_ids (sl_data key d) = fitted_bins /\
  s_lo (sl_data key d) = flat_map (fun a => map (fun b => [nth a (pf_mstar_bins f) NaN; nth b (pf_ssfr_bins f) NaN]) (seq 0 nsf)) (seq 0 nms) /\
  s_hi (sl_data key d) = flat_map (fun a => map (fun b => [nth (a + 1) (pf_mstar_bins f) NaN; nth (b + 1) (pf_ssfr_bins f) NaN]) (seq 0 nsf)) (seq 0 nms) /\
  length (sl_target key d) = nz /\
  (forall i, (i < nz)%nat -> length (nth i (sl_target key d) []) = 5%nat /\
   forall t, (t < 5)%nat ->
   let q := blend (seq 0 nm) (bin_weight nm (n i)) (fun j => share nms nsf (c i j)) (nth t fitted_bins 0%nat) in
   nth t (nth i (sl_target key d) []) [] =
     if Rlt_dec 0 (total nsf q) then map (fun b => Fin (q b / total nsf q)) (seq 0 nsf) else repeat (Fin 0) nsf) /\
  length (sl_zs key d) = length U /\
  forall m, (m < length U)%nat ->
  let i := fst (nth m U (0%nat, 0%nat)) in let j := snd (nth m U (0%nat, 0%nat)) in
  let z := nth m (sl_zs key d) z0 in
  (exists P, length P = nhalos /\ incl P (sampled kd h i j) /\
    ((nhalos <= length (sampled kd h i j))%nat -> NoDup P) /\ drawn kern h lgt0 z P) /\
  z_tobs key z = nth i (f_age (pf_f f)) NaN /\ z_key key z = nth m (split rk (length U)) k0.
Proof. exact ssfr_data_spec. Qed.
Print Assumptions C81_ssfr_data.

(** C81: a target time at which no mass bin has 50 sampled halos makes the helper raise. *)
Theorem C81_no_bin_raises : forall key split sing kern choice, timewise sing kern -> draws_ok choice ->
  forall f nz nm nms nsf c3 cc cs n1 n2, files_are f nz nm nms nsf c3 cc cs n1 n2 ->
  forall nhalos lgt0 (sat : bool) fb rk i, (i < nz)%nat ->
  used_bins (if sat then Sat else Cen) (f_haloes (pf_f f)) nm i = [] ->
  ssfr_data key split sing choice sat f nhalos (Fin lgt0) fb rk = None.
Proof. exact ssfr_data_raises. Qed.
Print Assumptions C81_no_bin_raises.

(** C81: simulated distributions are averaged over the used bins with those bins' shares of
    all galaxies. *)
Theorem C81_prediction : forall key split sing kern choice, timewise sing kern -> draws_ok choice ->
  forall f nz nm nms nsf c3 cc cs n1 n2, files_are f nz nm nms nsf c3 cc cs n1 n2 ->
  forall nhalos lgt0 (sat : bool) fb rk d (p : nat * nat -> nat -> nat -> R),
  let h := f_haloes (pf_f f) in
  let kd := if sat then Sat else Cen in
  let n := if sat then n2 else n1 in
  (0 < nz)%nat -> (20 <= nms)%nat -> (forall i, (i < nz)%nat -> total nm (n i) <> 0) ->
  ssfr_data key split sing choice sat f nhalos (Fin lgt0) fb rk = Some d ->
  exists r, conditional_pdfs nms nsf (map (fun x => tbl nms nsf (p x)) (usable kd h nz nm))
      (s_nmhalo (sl_data key d)) (s_indx (sl_data key d)) (s_ids (sl_data key d)) = Some r /\
  length r = nz /\ forall i t, (i < nz)%nat -> (t < 5)%nat ->
   let q := blend (used_bins kd h nm i) (bin_weight nm (n i)) (fun j => p (i, j)) (nth t fitted_bins 0%nat) in
   (total nsf q <> 0 -> nth t (nth i r []) [] = map (fun b => Fin (q b / total nsf q)) (seq 0 nsf)) /\
   ((forall b, (b < nsf)%nat -> q b = 0) -> nth t (nth i r []) [] = repeat NaN nsf).
Proof. exact ssfr_prediction_spec. Qed.
Print Assumptions C81_prediction.

(** C81: a simulation that reproduces the measured distributions reproduces the targets, when
    every bin left out is empty. *)
Theorem C81_consistent : forall key split sing kern choice, timewise sing kern -> draws_ok choice ->
  forall f nz nm nms nsf c3 cc cs n1 n2, files_are f nz nm nms nsf c3 cc cs n1 n2 ->
  forall nhalos lgt0 (sat : bool) fb rk d,
  let h := f_haloes (pf_f f) in
  let kd := if sat then Sat else Cen in
  let n := if sat then n2 else n1 in
  let c := if sat then cs else cc in
  (0 < nz)%nat -> (20 <= nms)%nat -> (forall i, (i < nz)%nat -> total nm (n i) <> 0) ->
  ssfr_data key split sing choice sat f nhalos (Fin lgt0) fb rk = Some d ->
  (forall i j, (i < nz)%nat -> (j < nm)%nat -> (length (sampled kd h i j) < 50)%nat ->
     n i j = 0 \/ forall a b, (a < nms)%nat -> (b < nsf)%nat -> c i j a b <= 0) ->
  (forall i t, (i < nz)%nat -> (t < 5)%nat ->
     0 < total nsf (blend (seq 0 nm) (bin_weight nm (n i)) (fun j => share nms nsf (c i j)) (nth t fitted_bins 0%nat))) ->
  conditional_pdfs nms nsf (map (fun x => tbl nms nsf (share nms nsf (c (fst x) (snd x)))) (usable kd h nz nm))
    (s_nmhalo (sl_data key d)) (s_indx (sl_data key d)) (s_ids (sl_data key d)) = Some (sl_target key d).
Proof. exact ssfr_consistent. Qed.
Print Assumptions C81_consistent.

(** C81: not so when a bin with galaxies is left out for having 49 sampled halos: its
    galaxies stay in the target. *)
Theorem C81_skipped_bin_refuted : exists d p,
  ssfr_data unit the_split the_mah the_choice false (demo_files 49) 100 (Fin 1) (Fin 0) tt = Some d /\
  (forall x, In x (usable Cen (demo_halos 49) 1 2) -> p x = share 20 2 (demo_c (fst x) (snd x))) /\
  exists r, conditional_pdfs 20 2 (map (fun x => tbl 20 2 (p x)) (usable Cen (demo_halos 49) 1 2))
      (s_nmhalo (sl_data unit d)) (s_indx (sl_data unit d)) (s_ids (sl_data unit d)) = Some r /\
    nth 0 (nth 0 r []) [] = [Fin 1; Fin 0] /\ nth 0 (nth 0 (sl_target unit d) []) [] = [Fin (1 / 2); Fin (1 / 2)].
Proof. exact skipped_bin. Qed.
Print Assumptions C81_skipped_bin_refuted.

Theorem C81_simulable : forall key split sing kern choice, timewise sing kern -> draws_ok choice ->
  forall f nz nm nms nsf c3 cc cs n1 n2, files_are f nz nm nms nsf c3 cc cs n1 n2 ->
  forall (sat : bool) nhalos lgt0 fb rk d, (0 < nz)%nat -> (20 <= nms)%nat ->
  (forall i, (i < nz)%nat -> total nm ((if sat then n2 else n1) i) <> 0) ->
  (forall i j n, (i < nz)%nat -> In n (sampled (if sat then Sat else Cen) (f_haloes (pf_f f)) i j) -> exists t m tp hh,
    nth i (f_age (pf_f f)) NaN = Fin t /\ 1 / 10 < t /\
    kern (halo_mah (f_haloes (pf_f f)) n) (Fin (Rpower 10 lgt0)) (Fin lgt0) = Fin m /\
    t_peak (halo_mah (f_haloes (pf_f f)) n) = Fin tp /\
    halo_history kern (halo_mah (f_haloes (pf_f f)) n) (Fin lgt0) hh (obs_times t)) ->
  ssfr_data key split sing choice sat f nhalos (Fin lgt0) fb rk = Some d ->
  zs_ok key kern (Fin lgt0) (sl_zs key d).
Proof. exact ssfr_simulable. Qed.
Print Assumptions C81_simulable.

Example C81_hyp : used_bins Cen (demo_halos 49) 2 0 = [0%nat] /\ used_bins Sat (demo_halos 49) 2 0 = [] /\
  total 2 (fun _ => 1) <> 0 /\ exists d, ssfr_data unit the_split the_mah the_choice false (demo_files 49) 100 (Fin 1) (Fin 0) tt = Some d.
Proof.
  split; [exact demo_used|]. split; [vm_compute; reflexivity|]. split; [unfold total, Rsum; cbn; lra|].
  destruct skipped_bin as (d & _ & E & _). now exists d.
Qed.

(** C82: the population fit raises exactly when asked for no step, or when the loss of the
    initial parameters is not finite. *)
Theorem C82_raises : forall St opt_init opt_update get_params loss p0, get_params (opt_init p0) = p0 -> forall n,
  fit_population St opt_init opt_update get_params loss n p0 = None <-> n = 0%nat \/ isfinite (fst (loss p0)) = false.
Proof. exact fit_raises. Qed.
Print Assumptions C82_raises.

(** C82: when the initial parameters, loss and gradient are finite, so are the result's, and
    its loss is no larger. *)
Theorem C82_no_worse : forall St opt_init opt_update get_params loss p0, get_params (opt_init p0) = p0 -> forall n b r0 g0,
  fit_population St opt_init opt_update get_params loss n p0 = Some b ->
  loss p0 = (Fin r0, g0) -> all_finite p0 = true -> all_finite g0 = true ->
  exists r g, loss b = (Fin r, g) /\ r <= r0 /\ all_finite b = true /\ all_finite g = true.
Proof. exact fit_improves. Qed.
Print Assumptions C82_no_worse.

(** C82: one more step never makes the result worse. *)
Theorem C82_longer : forall St opt_init opt_update get_params loss p0, get_params (opt_init p0) = p0 -> forall n b c r0 g0,
  fit_population St opt_init opt_update get_params loss n p0 = Some b ->
  fit_population St opt_init opt_update get_params loss (S n) p0 = Some c ->
  loss p0 = (Fin r0, g0) -> all_finite p0 = true -> all_finite g0 = true ->
  exists r g s h, loss b = (Fin r, g) /\ loss c = (Fin s, h) /\ s <= r.
Proof. exact fit_longer. Qed.
Print Assumptions C82_longer.

(** C82: along a descent that stays finite the result is the first of the best points. *)
Theorem C82_first_best : forall St opt_init opt_update get_params loss_kernel p0 n (s : nat -> St),
  s 0%nat = opt_init p0 -> forall (loss : nat -> R) (grad : nat -> list xr),
  (forall i, (i < n)%nat -> loss_kernel (get_params (s i)) = (Fin (loss i), grad i) /\
     all_finite (get_params (s i)) = true /\ all_finite (grad i) = true /\ s (S i) = opt_update i (grad i) (s i)) ->
  (0 < n)%nat -> exists k, (k < n)%nat /\
    fit_population St opt_init opt_update get_params loss_kernel n p0 = Some (get_params (s k)) /\
    (forall i, (i < n)%nat -> loss k <= loss i) /\ (forall i, (i < k)%nat -> loss k < loss i).
Proof. exact fit_plain. Qed.
Print Assumptions C82_first_best.

(** C82: with a finite initial loss but a gradient (or parameters) that are not, the result is
    the zero vector; it can be worse than the initial parameters. *)
Theorem C82_zeros : forall St opt_init opt_update get_params loss p0, get_params (opt_init p0) = p0 -> forall n r0 g0,
  loss p0 = (Fin r0, g0) -> all_finite p0 = false \/ all_finite g0 = false ->
  fit_population St opt_init opt_update get_params loss (S n) p0 = Some (repeat (Fin 0) (length p0)).
Proof. exact fit_zeros. Qed.
Print Assumptions C82_zeros.

Theorem C82_never_worse_refuted : exists p0 b r0 r g0 g,
  fit_population _ ex_init ex_update ex_params bad_loss 10 p0 = Some b /\ all_finite p0 = true /\
  bad_loss p0 = (Fin r0, g0) /\ bad_loss b = (Fin r, g) /\ r0 < r.
Proof. exact zeros_worse. Qed.
Print Assumptions C82_never_worse_refuted.

Example C82_hyp : ex_params (ex_init [Fin 1]) = [Fin 1] /\ ex_loss [Fin 1] = (Fin (1 * 1), [Fin (2 * 1)]) /\
  (forall i, (i < 3)%nat ->
    ex_loss (ex_params [Fin (/ 2 ^ i)]) = (Fin (/ 2 ^ i * / 2 ^ i), [Fin (2 * / 2 ^ i)]) /\
    all_finite (ex_params [Fin (/ 2 ^ i)]) = true /\ all_finite [Fin (2 * / 2 ^ i)] = true /\
    [Fin (/ 2 ^ S i)] = ex_update i [Fin (2 * / 2 ^ i)] [Fin (/ 2 ^ i)]).
Proof. split; [reflexivity|]. split; [reflexivity|exact ex_plain]. Qed.

(** C83: loss data saved and loaded again, as long as no list has more than 10000 arrays. *)
Theorem C83_round_trip : forall arr num (shape : arr -> list nat) stack (m c s : list (value arr num)),
  length m = 12%nat -> length c = 18%nat -> length s = 18%nat ->
  (forall l, In (VSeq _ _ l) (m ++ c ++ s) -> (Z.of_nat (length l) <= 10000)%Z) ->
  exists f m' c' s', save_loss_data_h5 arr num shape stack m c s = Some f /\ load_loss_data_h5 arr num f = Some (m', c', s') /\
    Forall2 (read_back shape stack) m m' /\ Forall2 (read_back shape stack) c c' /\ Forall2 (read_back shape stack) s s'.
Proof. exact save_ok. Qed.
Print Assumptions C83_round_trip.

(** C83: the tuples must have 12, 18 and 18 entries. *)
Theorem C83_wrong_length : forall arr num (shape : arr -> list nat) stack (m c s : list (value arr num)),
  (length m <> 12 \/ length c <> 18 \/ length s <> 18)%nat -> save_loss_data_h5 arr num shape stack m c s = None.
Proof. exact save_wrong. Qed.
Print Assumptions C83_wrong_length.

(** C83: a list of 10001 differently shaped arrays comes back in another order: its last array
    moves to position 1001. *)
Theorem C83_long_list_refuted : forall arr num (shape : arr -> list nat) stack (l : list arr) a b,
  Z.of_nat (length l) = 10001%Z -> In a l -> In b l -> shape a <> shape b ->
  load_item arr num (save_value arr num shape stack (VSeq arr num l)) =
  Some (VSeq arr num (firstn 1001 l ++ skipn (N.to_nat 10000) l ++ firstn (N.to_nat 8999) (skipn 1001 l))).
Proof. exact save_load_over. Qed.
Print Assumptions C83_long_list_refuted.

Example C83_hyp : exists m c s : list (value (list nat) nat),
  length m = 12%nat /\ length c = 18%nat /\ length s = 18%nat /\
  (forall l, In (VSeq _ _ l) (m ++ c ++ s) -> (Z.of_nat (length l) <= 10000)%Z) /\
  read_back (fun a => [length a]) (@List.concat nat) (nth 0 m (VNum _ _ 0%nat)) (VSeq _ _ [[1]; [2; 3]]%nat) /\
  read_back (fun a => [length a]) (@List.concat nat) (nth 1 m (VNum _ _ 0%nat)) (VArr _ _ [1; 2]%nat).
Proof.
  exists (VSeq _ _ [[1]; [2; 3]]%nat :: VSeq _ _ [[1]; [2]]%nat :: repeat (VNum _ _ 7%nat) 10),
    (repeat (VNum _ _ 7%nat) 18), (repeat (VArr _ _ [7]%nat) 18).
  do 3 (split; [reflexivity|]). split; [|split].
  - intros l Hl. cbn in Hl. repeat (destruct Hl as [E|Hl]; [try discriminate E; injection E as <-; cbn; lia|]). contradiction.
  - apply (rb_list _ _ _ [1]%nat [2; 3]%nat); cbn; auto. discriminate.
  - apply (rb_stack (fun a => [length a]) (@List.concat nat) [[1]; [2]]%nat). cbn. intros a b [<-|[<-|[]]] [<-|[<-|[]]]; reflexivity.
Qed.
Example C83_long_hyp : exists l : list (list nat), Z.of_nat (length l) = 10001%Z /\ In [] l /\ In [1]%nat l.
Proof.
  exists ([] :: repeat [1]%nat (N.to_nat 10000)). split; [cbn [length]; rewrite repeat_length; lia|]. split; [now left|].
  right. replace (N.to_nat 10000) with (S (N.to_nat 9999)) by lia. now left.
Qed.

(** C84: the fits give every halo -99 Gyr since infall (C80, C81).  Then the nine parameters of
    the dependence on infall change the satellite quenched fraction by less than [exp (-470)],
    and nothing else. *)
Theorem C84_infall_blind : forall p P p' P' m tp mu mh, holds "" p P -> holds "" p' P' -> pop_in_bounds P -> pop_in_bounds P' ->
  (forall n, In n pop_names -> ~ In n infall_names -> P n = P' n) ->
  exists mc mc' f f',
    diffstarpop_means_covs p (Fin m) (Fin tp) (Fin mu) (Fin mh) (Fin (-99)) = Some mc /\
    diffstarpop_means_covs p' (Fin m) (Fin tp) (Fin mu) (Fin mh) (Fin (-99)) = Some mc' /\
    mc_frac_sat mc = Fin f /\ mc_frac_sat mc' = Fin f' /\ Rabs (f - f') <= exp (-470) /\
    mc_frac_cen mc = mc_frac_cen mc' /\ mu_mseq mc = mu_mseq mc' /\ mu_qseq mc = mu_qseq mc' /\
    cov_mseq_ms mc = cov_mseq_ms mc' /\ cov_qseq_ms mc = cov_qseq_ms mc' /\ cov_qseq_q mc = cov_qseq_q mc'.
Proof. exact infall_blind. Qed.
Print Assumptions C84_infall_blind.

Example C84_hyp : exists p P P', DEFAULT_DIFFSTARPOP_PARAMS = Some p /\ holds "" p P /\ holds "" (pop_params P') P' /\
  pop_in_bounds P /\ pop_in_bounds P' /\ (forall n, In n pop_names -> ~ In n infall_names -> P n = P' n) /\
  P "td_mlo"%string <> P' "td_mlo"%string.
Proof.
  destruct default_in_bounds as (P & U & H1 & H2 & _). pose proof (proj1 (Forall_forall _ _) H2) as B.
  destruct (assoc "td_mlo" POP_BOUNDS) as [[lo hi]|] eqn:E; [|vm_compute in E; discriminate].
  set (P' := fun n => if String.eqb n "td_mlo" then (P n + Q2R hi) / 2 else P n).
  assert (A : P "td_mlo"%string < Q2R hi /\ Q2R lo < P "td_mlo"%string).
  { specialize (B ("td_mlo"%string, (lo, hi))). cbn [fst snd] in B. enough (In ("td_mlo"%string, (lo, hi)) POP_BOUNDS) by (specialize (B H); lra).
    vm_compute in E. injection E as <- <-. unfold POP_BOUNDS. repeat first [left; reflexivity | right]. }
  exists (pop_params P), P, P'. split; [exact H1|]. split; [apply holds_params|]. split; [apply holds_params|]. split; [exact H2|].
  split; [|split].
  - apply Forall_forall. intros [n [a b]] Hn. specialize (B _ Hn). cbn [fst snd] in *. unfold P'. destruct (String.eqb_spec n "td_mlo") as [->|_]; [|exact B].
    assert (a = lo /\ b = hi) as [-> ->].
    { clear - Hn E. revert Hn. unfold POP_BOUNDS. vm_compute in E. injection E as <- <-. cbn [In]. intros Hn.
      repeat (destruct Hn as [F|Hn]; [first [discriminate F | injection F as <- <-; split; reflexivity]|]). contradiction. }
    lra.
  - intros n _ Hn. unfold P'. destruct (String.eqb_spec n "td_mlo") as [->|_]; [|reflexivity]. exfalso. apply Hn. unfold infall_names. cbn. tauto.
  - unfold P'. cbn. lra.
Qed.
