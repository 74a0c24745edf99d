(** The measured targets: values of [create_target_data] and [create_pdf_target_data]. *)
From Coq Require Import Reals List Bool ZArith Lia Lra Permutation.
From Coquelicot Require Import Coquelicot.
From Verif Require Import XReal ModelUtils ModelKernels ModelSfh ModelPop ModelHist ModelFit ModelLoad ModelTargets.
From Verif Require Import RealFacts XFacts SpecCore SpecHist SpecTargets PopProofs DtProofs HistProofs SmhmProofs LossProofs FitProofs SnapshotProofs TargetProofs.
Import List ListNotations.
Open Scope R_scope.

Lemma F2_len {A B} (P : A -> B -> Prop) l m : Forall2 P l m -> length l = length m.
Proof. intro F. induction F; cbn; auto. Qed.
Lemma redshift_index_length age T zs ids : return_target_redshift_index age T zs = Some ids -> length ids = length zs.
Proof. unfold return_target_redshift_index. intros H. apply vmap_spec in H. symmetry. exact (F2_len _ _ _ H). Qed.

Lemma mask_values (f : nat -> R) n (P : list bool) : length P = n ->
  mask P (map Fin (map f (seq 0 n))) = Some (map Fin (map f (those n (fun k => nth k P false)))).
Proof.
  intros L. rewrite (mask_those _ _ NaN) by (rewrite !map_length, seq_length; exact L). f_equal.
  rewrite !map_length, seq_length, !map_map. apply map_ext_in. intros k Hk. apply in_those in Hk.
  rewrite (nth_map_nat _ _ _ 0%nat) by (rewrite seq_length; lia). rewrite seq_nth by lia. reflexivity.
Qed.

Section Data.
Variable age : xr -> xr.
Variable choice : nat -> nat -> list nat -> nat -> bool -> list nat.
Hypothesis CH : choice_ok choice.
Variables (tb : Tables) (n : nat) (T : list R) (M Sm F : list (list R)).
Hypothesis TA : tables_are tb n T M Sm F.
Variables (zs : list xr) (ids : list nat).
Hypothesis Hids : return_target_redshift_index age (tb_t tb) zs = Some ids.
Hypothesis Hlt : Forall (fun t => (t < length T)%nat) ids.

Lemma cols_value : vmap (fun tid => match column (length (tb_t tb)) (tb_log_mah tb) tid, column (length (tb_t tb)) (tb_log_smh tb) tid with
                           | Some m, Some s => Some (m, s) | _, _ => None end) ids
  = Some (map (fun t => (map Fin (map (val M t) (seq 0 n)), map Fin (map (val Sm t) (seq 0 n)))) ids).
Proof.
  apply vmap_map_some. intros t Ht. rewrite Forall_forall in Hlt. specialize (Hlt t Ht). destruct TA.
  rewrite ta_t, ta_m, ta_s, map_length. rewrite !column_fin by assumption. rewrite ta_nm, ta_ns. reflexivity.
Qed.

Definition rdiff (E : list R) (w : nat -> nat -> R) : list (list xr) :=
  map (fun t => map Fin (map (fun j => Rsum (map (fun k => tw_mass (val M t k) (mean_bin E) (nth j E 0) (nth (S j) E 0) * w t k) (seq 0 n)))
    (seq 0 (length E - 1)))) ids.
Definition rcount (E : list R) (P : nat -> bool) : list (list xr) :=
  map (fun t => map Fin (map (fun j => INR (length (those n (fun k => P k && inbin E j (val M t k))))) (seq 0 (length E - 1)))) ids.
Definition rhist (E : list R) : list (list xr) :=
  map (fun t => map Fin (map (fun j => Rsum (map (val Sm t) (those n (fun k => inbin E j (val M t k))))) (seq 0 (length E - 1)))) ids.
Definition samples (per_bin : nat) (E : list R) : list (nat * nat * nat) :=
  flat_map (fun i => map (fun jk => (i, fst jk, snd jk)) (Lof choice i n per_bin E (val M (nth i ids 0%nat)))) (seq 0 (length ids)).

Lemma seq_as_those : seq 0 n = those n (fun _ => true).
Proof. unfold those. generalize (seq 0 n). intros s. induction s; [reflexivity|]. cbn [filter]. f_equal. assumption. Qed.

Lemma some_member (P : list bool) : length P = n -> In true P -> those n (fun k => nth k P false) <> [].
Proof.
  intros L H E. apply (In_nth _ _ false) in H. destruct H as (k & Hk & H).
  assert (Q : In k (those n (fun k => nth k P false))) by (apply in_those; split; [lia|exact H]). rewrite E in Q. contradiction.
Qed.
Theorem target_value cen sat upid skip per_bin E : zs <> [] -> In true cen -> In true sat ->
  length cen = n -> length sat = n -> length upid = n -> increasing E -> (2 <= length E)%nat ->
  (skip = true -> forall t, In t ids -> exists j k, (j < length E - 1)%nat /\ (k < n)%nat /\ half_open E j (val M t k) = true) ->
  exists h, create_target_data age choice tb cen sat upid skip per_bin zs (map Fin E)
    = Some (mkTarget (rdiff E (fun _ _ => 1)) (rdiff E (fun t k => val Sm t k)) (rcount E (fun _ => true)) (rhist E)
        (map (fun t => nth t (tb_t tb) NaN) ids) h (rcount E (fun k => nth k cen false)) (rcount E (fun k => nth k sat false)))
    /\ sample_is tb upid E ids zs h (samples per_bin E).
Proof.
  intros Hz Tc Ts Lc Ls Lu HE H2 NE. pose proof (some_member cen Lc Tc) as Mc. pose proof (some_member sat Ls Ts) as Ms.
  assert (Mn : seq 0 n <> []) by (rewrite <- Lc; destruct cen; [contradiction|discriminate]).
  pose proof (redshift_index_length _ _ _ _ Hids) as Lz.
  pose proof TA as [tT tM tS tF nM nS nF wM wS wF cM cS].
  unfold create_target_data. rewrite Hids. cbv zeta. rewrite cols_value.
  assert (V : forall B C (f : B -> option C) (g : nat -> B) (v : nat -> C), (forall t, f (g t) = Some (v t)) ->
     vmap f (map g ids) = Some (map v ids)).
  { intros B C f g v H. rewrite (vmap_map_some _ (fun b => match f b with Some c => c | None => v 0%nat end)).
    - f_equal. rewrite map_map. apply map_ext. intros t. rewrite H. reflexivity.
    - intros b Hb. apply in_map_iff in Hb. destruct Hb as (t & <- & _). rewrite H. reflexivity. }
  erewrite (V _ _ (fun ms => compute_diff_histograms_atz (map Fin E) (fst ms) (snd ms)))
    by (intros t; apply (diff_histograms_ks (val M t) (val Sm t)); assumption).
  erewrite (V _ _ (fun ms => compute_histograms_atz (map Fin E) (fst ms) (snd ms)))
    by (intros t; apply (histograms_ks (val M t) (val Sm t)); exact Mn).
  erewrite (V _ _ (fun ms => match mask cen (fst ms), mask cen (snd ms) with
                            | Some m, Some s => compute_histograms_atz (map Fin E) m s | _, _ => None end))
    by (intros t; cbn [fst snd]; rewrite !mask_values by assumption; apply histograms_ks; assumption).
  erewrite (V _ _ (fun ms => match mask sat (fst ms), mask sat (snd ms) with
                            | Some m, Some s => compute_histograms_atz (map Fin E) m s | _, _ => None end))
    by (intros t; cbn [fst snd]; rewrite !mask_values by assumption; apply histograms_ks; assumption).
  rewrite (rows_ok n (cols_mah (tb_mah tb))) by (assumption || discriminate).
  rewrite (rows_ok n (ds_cols (tb_sfh tb))) by (assumption || discriminate).
  rewrite (vmap_map_some (nth_error (tb_t tb)) (fun t => nth t (tb_t tb) NaN)).
  2:{ intros t Ht. apply nth_error_nth'. rewrite tT, map_length. rewrite Forall_forall in Hlt. apply Hlt, Ht. }
  assert (CB : combine (seq 0 (length ids)) (combine
      (map (fun t => (map Fin (map (val M t) (seq 0 n)), map Fin (map (val Sm t) (seq 0 n)))) ids)
      (combine (map (fun t => nth t (tb_t tb) NaN) ids) zs))
    = map (fun i => (i, ((map Fin (map (val M (nth i ids 0%nat)) (seq 0 n)), map Fin (map (val Sm (nth i ids 0%nat)) (seq 0 n))),
        (nth (nth i ids 0%nat) (tb_t tb) NaN, nth i zs NaN)))) (seq 0 (length ids))).
  { rewrite (list_as_seq zs NaN) at 1. rewrite <- Lz. rewrite (list_as_seq ids 0%nat) at 2 3. rewrite !map_map.
    rewrite !combine_map. rewrite <- (map_id (seq 0 (length ids))) at 1. rewrite combine_map. reflexivity. }
  rewrite CB. clear CB.
  set (SH := fun i => let L := Lof choice i n per_bin E (val M (nth i ids 0%nat)) in
     mkHaloes (map fst L) (map (fun jk => Fin ((nth (fst jk) E 0 + nth (S (fst jk)) E 0) / 2)) L)
      (map (fun jk => map (fun c => at_ c (snd jk)) (cols_mah (tb_mah tb))) L)
      (map (fun jk => map (fun c => at_ c (snd jk)) (firstn 4 (ds_cols (tb_sfh tb)))) L)
      (map (fun jk => map (fun c => at_ c (snd jk)) (skipn 4 (ds_cols (tb_sfh tb)))) L)
      (map (fun jk => nth (snd jk) upid 0%Z) L) (map (fun _ => i) L) (map (fun _ => nth (nth i ids 0%nat) (tb_t tb) NaN) L)
      (map (fun _ => nth i zs NaN) L)).
  rewrite (vmap_map_some _ (fun a => SH (fst a))).
  2:{ intros a Ha. apply in_map_iff in Ha. destruct Ha as (i & <- & Hi). apply in_seq in Hi. cbn [fst].
      rewrite !map_map. rewrite <- (map_map (val M (nth i ids 0%nat)) Fin).
      rewrite (map_ext (fun x => firstn 4 _) (fun x => map (fun c => at_ c x) (firstn 4 (ds_cols (tb_sfh tb))))) by (intros; apply firstn_map).
      rewrite (map_ext (fun x => skipn 4 _) (fun x => map (fun c => at_ c x) (skipn 4 (ds_cols (tb_sfh tb))))) by (intros; apply skipn_map).
      apply (sample_value choice CH i n per_bin E (val M (nth i ids 0%nat)) H2 skip); [exact Lu|].
      intros Sk. apply NE; [exact Sk|]. apply nth_In. lia. }
  rewrite (map_map _ (fun a => SH (fst a))). cbn [fst]. change (fun x : nat => SH x) with SH.
  assert (NI : exists d ds, map SH (seq 0 (length ids)) = d :: ds).
  { rewrite Lz. destruct zs; [contradiction|]. cbn [length seq map]. eauto. }
  destruct NI as (d & ds & NI). unfold concatenate_samples_haloes. rewrite NI. cbv zeta. rewrite <- NI. clear NI d ds.
  eexists. split.
  - f_equal. rewrite !map_map. cbn [fst snd]. unfold rdiff, rcount, rhist. f_equal.
    + apply map_ext. intros t. f_equal. apply map_ext. intros j. f_equal. apply map_ext. intros k. ring.
    + apply map_ext. intros t. f_equal. apply map_ext. intros j. f_equal. f_equal. rewrite those_and. reflexivity.
    + apply map_ext. intros t. f_equal. apply map_ext. intros j. f_equal. f_equal. rewrite those_and. reflexivity.
  - assert (CC : forall B (f : Haloes -> list B) (g : nat * nat * nat -> B),
      (forall i, f (SH i) = map (fun jk => g (i, fst jk, snd jk)) (Lof choice i n per_bin E (val M (nth i ids 0%nat)))) ->
      List.concat (map (fun x => f (SH x)) (seq 0 (length ids))) = map g (samples per_bin E)).
    { intros B f g H. unfold samples. rewrite flat_map_concat_map, concat_map, !map_map. f_equal. apply map_ext. intros i.
      rewrite H, map_map. reflexivity. }
    constructor; cbn [h_logmh_id h_logmh_val h_mah h_ms h_q h_upid h_tobs_id h_tobs_val h_redshift]; (apply (CC _ h_logmh_id) || apply (CC _ h_logmh_val) || apply (CC _ h_mah) || apply (CC _ h_ms) || apply (CC _ h_q) || apply (CC _ h_upid) || apply (CC _ h_tobs_id) || apply (CC _ h_tobs_val) || apply (CC _ h_redshift)); intros i; reflexivity.
Qed.
End Data.

(** ** Probability targets *)
Section Joint.
Variables (g h : nat -> R) (ks : list nat).
Lemma mstar_histograms_ks E : increasing E -> (2 <= length E)%nat ->
  mstar_histograms (map Fin E) (map Fin (map g ks))
  = Some (map Fin (map (fun a => Rsum (map (fun k => tw_mass (g k) (mean_bin E) (nth a E 0) (nth (S a) E 0)) ks)) (seq 0 (length E - 1))),
          map Fin (map (fun a => INR (length (filter (fun k => inbin E a (g k)) ks))) (seq 0 (length E - 1)))).
Proof.
  intros HE H2. pose proof (diff_histograms_ks g g ks E HE H2) as D. unfold compute_diff_histograms_atz in D. cbv zeta in D.
  unfold mstar_histograms. cbv zeta.
  destruct (tw_ndhist_weighted _ _ (map Fin (map g ks)) _ _) as [w|] in D; [|discriminate].
  destruct (tw_ndhist_weighted _ _ (map (fun _ => Fin 1) _) _ _) as [c|] in D |- *; [|discriminate].
  inversion D; subst. f_equal. f_equal. unfold np_histogram. rewrite !map_map, nbins_fin. apply map_ext_in. intros a Ha. apply in_seq in Ha.
  unfold xcount. rewrite TargetProofs.filter_map, map_length. f_equal. f_equal. f_equal. apply filter_ext. intros k. apply in_np_bin_fin. lia.
Qed.

Lemma chunks_flat {A} (q : nat -> nat -> xr) n m (a : A) : forall b,
  chunks n m (flat_map (fun i => map (q i) (seq 0 m)) (seq b n)) = map (fun i => map (q i) (seq 0 m)) (seq b n).
Proof.
  induction n as [|n IH]; intros b; [reflexivity|]. cbn [seq flat_map chunks map].
  rewrite firstn_app, map_length, seq_length, Nat.sub_diag, firstn_O, app_nil_r.
  rewrite firstn_all2 by (rewrite map_length, seq_length; lia). f_equal.
  rewrite skipn_app, map_length, seq_length, Nat.sub_diag, skipn_O.
  rewrite skipn_all2 by (rewrite map_length, seq_length; lia). apply IH.
Qed.
Lemma flat_len (q : nat -> nat -> xr) n m : forall b, length (flat_map (fun i => map (q i) (seq 0 m)) (seq b n)) = (n * m)%nat.
Proof. induction n as [|n IH]; intros b; [reflexivity|]. cbn [seq flat_map]. rewrite app_length, map_length, seq_length, IH. reflexivity. Qed.
Lemma reshape_flat (q : nat -> nat -> xr) n m : 
  reshape2 n m (flat_map (fun i => map (q i) (seq 0 m)) (seq 0 n)) = Some (map (fun i => map (q i) (seq 0 m)) (seq 0 n)).
Proof. unfold reshape2, len. rewrite flat_len, Nat.eqb_refl. f_equal. apply (chunks_flat q n m tt). Qed.

Lemma map_flat_map {A B C} (u : B -> C) (v : A -> list B) l : map u (flat_map v l) = flat_map (fun a => map u (v a)) l.
Proof. rewrite !flat_map_concat_map, concat_map, map_map. reflexivity. Qed.
Lemma flat_map_ext_in {A B} (u v : A -> list B) l : (forall a, In a l -> u a = v a) -> flat_map u l = flat_map v l.
Proof. intros H. rewrite !flat_map_concat_map. f_equal. apply map_ext_in. exact H. Qed.
Lemma combine_flat {A B C D} (u : A -> C -> B) (v : A -> C -> D) (m : list C) l :
  combine (flat_map (fun i => map (u i) m) l) (flat_map (fun i => map (v i) m) l) = flat_map (fun i => map (fun j => (u i j, v i j)) m) l.
Proof.
  induction l as [|a l IH]; [reflexivity|]. cbn [flat_map]. rewrite combine_app by (rewrite !map_length; reflexivity).
  rewrite combine_map, IH. reflexivity.
Qed.

Lemma map2_map_same {A B C D} (u : A -> B) (v : A -> C) (o : B -> C -> D) l : map2 o (map u l) (map v l) = map (fun a => o (u a) (v a)) l.
Proof. induction l as [|a l IH]; [reflexivity|]. cbn [map map2]. rewrite IH. reflexivity. Qed.

Definition joint_mass (Em Es : list R) (a b : nat) : R :=
  Rsum (map (fun k => tw_mass (g k) (mean_bin Em) (nth a Em 0) (nth (S a) Em 0) * tw_mass (h k) (mean_bin Es) (nth b Es 0) (nth (S b) Es 0)) ks).
Lemma joint_ks Em Es : increasing Em -> (2 <= length Em)%nat -> increasing Es -> (2 <= length Es)%nat ->
  mstar_ssfr_histogram (map Fin (map g ks)) (map Fin (map h ks)) (joint_bins_lo (map Fin Em) (map Fin Es)) (joint_bins_hi (map Fin Em) (map Fin Es))
    (map Fin Em) (map Fin Es)
  = Some (flat_map (fun a => map (fun b => Fin (joint_mass Em Es a b)) (seq 0 (length Es - 1))) (seq 0 (length Em - 1))).
Proof.
  intros I1 L1 I2 L2. unfold mstar_ssfr_histogram. cbv zeta. rewrite !map_length. rewrite !mean_sigma by assumption.
  rewrite !pairs2_fin by (rewrite ?repeat_length, ?map_length; reflexivity).
  pose proof (mean_bin_pos Em I1 L1) as P1. pose proof (mean_bin_pos Es I2 L2) as P2.
  set (LO := flat_map (fun i => map (fun j => [nth i Em 0; nth j Es 0]) (seq 0 (length Es - 1))) (seq 0 (length Em - 1))).
  set (HI := flat_map (fun i => map (fun j => [nth (S i) Em 0; nth (S j) Es 0]) (seq 0 (length Es - 1))) (seq 0 (length Em - 1))).
  assert (EL : joint_bins_lo (map Fin Em) (map Fin Es) = map (map Fin) LO).
  { unfold joint_bins_lo, LO. rewrite !nbins_fin, map_flat_map. apply flat_map_ext_in. intros i Hi. apply in_seq in Hi.
    rewrite map_map. apply map_ext_in. intros j Hj. apply in_seq in Hj. rewrite !at_fin by lia. reflexivity. }
  assert (EH : joint_bins_hi (map Fin Em) (map Fin Es) = map (map Fin) HI).
  { unfold joint_bins_hi, HI. rewrite !nbins_fin, map_flat_map. apply flat_map_ext_in. intros i Hi. apply in_seq in Hi.
    rewrite map_map. apply map_ext_in. intros j Hj. apply in_seq in Hj. rewrite !at_fin by lia.
    replace (i + 1)%nat with (S i) by lia. replace (j + 1)%nat with (S j) by lia. reflexivity. }
  rewrite EL, EH.
  assert (O : map (fun _ => Fin 1) (map Fin (map g ks)) = map Fin (map (fun _ => 1) ks)) by (rewrite !map_map; reflexivity). rewrite O.
  pose proof (points2 (map g ks) (map h ks) (mean_bin Em) (mean_bin Es) ltac:(now rewrite !map_length) P1 P2) as PT.
  rewrite map_length in PT.
  rewrite (whist_fin 2); [|exact PT|rewrite map_length, map2_length, !map_length; lia|].
  2:{ unfold LO, HI. generalize (seq 0 (length Em - 1)). intros l. induction l as [|a l IH]; [constructor|]. cbn [flat_map].
      apply Forall2_app; [|exact IH]. generalize (seq 0 (length Es - 1)). intros q. induction q; constructor; auto. }
  f_equal. unfold LO, HI. rewrite combine_flat, !map_flat_map. apply flat_map_ext_in. intros a _. rewrite !map_map. apply map_ext. intros b.
  f_equal. unfold joint_mass. cbn [fst snd].
  assert (RM : forall w : R, repeat w (length ks) = map (fun _ => w) ks) by (intros w; clear; induction ks; cbn; congruence).
  rewrite !RM, !map2_map_same, !combine_map, map_map. cbn [fst snd cell_mass]. f_equal. apply map_ext. intros k. ring.
Qed.
End Joint.

Lemma and_mask_values n (P : nat -> bool) (Q : list bool) : length Q = n ->
  and_mask (map P (seq 0 n)) Q = Some (map (fun k => P k && nth k Q false) (seq 0 n)).
Proof.
  intros H. unfold and_mask. rewrite same_len_true by (rewrite map_length, seq_length; auto). f_equal.
  rewrite (list_as_seq Q false) at 1. rewrite H. apply map2_map_same.
Qed.
Lemma mask_fun (f : nat -> R) n (P : nat -> bool) :
  mask (map P (seq 0 n)) (map Fin (map f (seq 0 n))) = Some (map Fin (map f (those n P))).
Proof.
  rewrite mask_values by (rewrite map_length, seq_length; reflexivity). f_equal. f_equal. f_equal. apply those_ext. intros k Hk.
  rewrite (nth_map_nat _ _ _ 0%nat) by (rewrite seq_length; exact Hk). rewrite seq_nth by exact Hk. reflexivity.
Qed.

Lemma pdf_cell_value n f s q cen sat E Em Es j : length cen = n -> length sat = n -> (j < length E - 1)%nat ->
  increasing Em -> (2 <= length Em)%nat -> increasing Es -> (2 <= length Es)%nat ->
  let In_ P := those n (fun k => interior E j (f k) && P k) in
  let J P := map (fun a => map (fun b => Fin (joint_mass s q (In_ P) Em Es a b)) (seq 0 (length Es - 1))) (seq 0 (length Em - 1)) in
  pdf_cell cen sat (map Fin E) (map Fin Em) (map Fin Es)
    (map Fin (map f (seq 0 n)), map Fin (map s (seq 0 n)), map Fin (map q (seq 0 n))) j
  = Some (map Fin (map (fun a => Rsum (map (fun k => tw_mass (s k) (mean_bin Em) (nth a Em 0) (nth (S a) Em 0)) (In_ (fun _ => true)))) (seq 0 (length Em - 1))),
          map Fin (map (fun a => INR (length (filter (fun k => inbin Em a (s k)) (In_ (fun _ => true))))) (seq 0 (length Em - 1))),
          J (fun k => nth k cen false), J (fun k => nth k sat false)).
Proof.
  intros Lc Ls Hj I1 L1 I2 L2 In_ J. unfold pdf_cell. cbv zeta. rewrite !map_map.
  rewrite (map_ext _ (fun k => interior E j (f k))) by (intros k; apply in_open_bin_fin; exact Hj).
  rewrite <- (map_map s Fin), <- (map_map q Fin).
  rewrite !and_mask_values by assumption. rewrite !mask_fun. rewrite mstar_histograms_ks by assumption.
  rewrite !joint_ks by assumption. rewrite !nbins_fin. rewrite !reshape_flat.
  assert (T1 : those n (fun k => interior E j (f k)) = In_ (fun _ => true)) by (apply those_ext; intros; now rewrite andb_true_r).
  rewrite T1, !map_map. reflexivity.
Qed.

Section Pdf.
Variable age : xr -> xr.
Variables (tb : Tables) (n : nat) (T : list R) (M Sm F : list (list R)).
Hypothesis TA : tables_are tb n T M Sm F.
Variables (zs : list xr) (ids : list nat).
Hypothesis Hids : return_target_redshift_index age (tb_t tb) zs = Some ids.
Hypothesis Hlt : Forall (fun t => (t < length T)%nat) ids.
Variables (cen sat : list bool) (E Em Es : list R).
Hypotheses (Lc : length cen = n) (Ls : length sat = n).
Hypotheses (I1 : increasing Em) (L1 : (2 <= length Em)%nat) (I2 : increasing Es) (L2 : (2 <= length Es)%nat).

(** Members of halo mass bin [j] at time [t] with a property; their clipped sSFR. *)
Definition members (P : nat -> bool) (t j : nat) : list nat := those n (fun k => interior E j (val M t k) && P k).
Definition cssfr (t k : nat) : R := Rmax (val F t k) (-12).
Definition table2 {A} (v : nat -> nat -> A) : list (list A) := map (fun t => map (v t) (seq 0 (length E - 1))) ids.
Definition joint2 (P : nat -> bool) : list (list (list (list xr))) :=
  table2 (fun t j => map (fun a => map (fun b => Fin (joint_mass (val Sm t) (cssfr t) (members P t j) Em Es a b)) (seq 0 (length Es - 1))) (seq 0 (length Em - 1))).

Theorem pdf_value : create_pdf_target_data age tb cen sat zs (map Fin E) (map Fin Em) (map Fin Es)
  = Some (mkPdf
     (table2 (fun t j => map Fin (map (fun a => Rsum (map (fun k => tw_mass (val Sm t k) (mean_bin Em) (nth a Em 0) (nth (S a) Em 0)) (members (fun _ => true) t j))) (seq 0 (length Em - 1)))))
     (table2 (fun t j => map Fin (map (fun a => INR (length (filter (fun k => inbin Em a (val Sm t k)) (members (fun _ => true) t j)))) (seq 0 (length Em - 1)))))
     (joint2 (fun k => nth k cen false)) (joint2 (fun k => nth k sat false))).
Proof.
  pose proof TA as [tT tM tS tF nM nS nF wM wS wF cM cS].
  unfold create_pdf_target_data. cbv zeta. rewrite Hids.
  assert (CL : map (map (clip_lo (Fin (-12)))) (tb_log_ssfr tb) = map (map Fin) (map (map (fun x => Rmax x (-12))) F)).
  { rewrite tF, !map_map. apply map_ext. intros r. rewrite !map_map. apply map_ext. intros x. unfold clip_lo. apply xmax_fin. }
  rewrite CL, tM, tS, tT, map_length, nbins_fin.
  assert (wC : Forall (fun r => length r = length T) (map (map (fun x => Rmax x (-12))) F)).
  { apply Forall_forall. intros r Hr. apply in_map_iff in Hr. destruct Hr as (r' & <- & Hr). rewrite map_length. rewrite Forall_forall in wF. auto. }
  assert (VC : forall t, (t < length T)%nat -> map (fun k => val (map (map (fun x => Rmax x (-12))) F) t k) (seq 0 n) = map (cssfr t) (seq 0 n)).
  { intros t Ht. apply map_ext_in. intros k Hk. apply in_seq in Hk. unfold val, cssfr.
    rewrite (nth_map_nat _ F k []) by lia. unfold val. rewrite (nth_map_nat _ _ _ 0); [reflexivity|].
    rewrite Forall_forall in wF. rewrite wF by (apply nth_In; lia). exact Ht. }
  rewrite (vmap_map_some _ (fun t => map (fun j => 
      (map Fin (map (fun a => Rsum (map (fun k => tw_mass (val Sm t k) (mean_bin Em) (nth a Em 0) (nth (S a) Em 0)) (members (fun _ => true) t j))) (seq 0 (length Em - 1))),
       map Fin (map (fun a => INR (length (filter (fun k => inbin Em a (val Sm t k)) (members (fun _ => true) t j)))) (seq 0 (length Em - 1))),
       map (fun a => map (fun b => Fin (joint_mass (val Sm t) (cssfr t) (members (fun k => nth k cen false) t j) Em Es a b)) (seq 0 (length Es - 1))) (seq 0 (length Em - 1)),
       map (fun a => map (fun b => Fin (joint_mass (val Sm t) (cssfr t) (members (fun k => nth k sat false) t j) Em Es a b)) (seq 0 (length Es - 1))) (seq 0 (length Em - 1))))
     (seq 0 (length E - 1)))).
  - rewrite !map_map. unfold joint2, table2. f_equal. f_equal; apply map_ext; intros t; rewrite map_map; reflexivity.
  - intros t Ht. rewrite Forall_forall in Hlt. specialize (Hlt t Ht). rewrite !column_fin by assumption.
    rewrite map_length, nM, nS, nF, VC by exact Hlt. apply vmap_map_some. intros j Hj. apply in_seq in Hj.
    apply (pdf_cell_value n (val M t) (val Sm t) (cssfr t)); (assumption || lia).
Qed.
End Pdf.
