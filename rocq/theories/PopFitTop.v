(** Loss data: simulable populations and a worked example. *)
From Coq Require Import Reals List Bool ZArith Lia Lra.
From Coquelicot Require Import Coquelicot.
From Verif Require Import XReal ModelUtils ModelKernels ModelSfh ModelPop ModelHist ModelLoad ModelIO ModelTargets ModelPopFit
  RealFacts XFacts SpecCore SpecHist SpecTargets SpecPopFit SfhProofs DtProofs FstarProofs PopProofs PopParamProofs HistProofs SmhmProofs
  LossProofs FitProofs TableProofs SnapshotProofs TargetProofs TargetDataProofs TargetTopProofs LossDataProofs LossTargetProofs SsfrDataProofs.
Import List ListNotations.
Open Scope R_scope.

Lemma map2_In {A B C} (g : A -> B -> C) l m x : In x (map2 g l m) -> exists a b, In a l /\ x = g a b.
Proof.
  revert m. induction l as [|a l IH]; intros [|b m] H; try contradiction. cbn [map2] in H. destruct H as [<-|H].
  - exists a, b. split; [now left|reflexivity].
  - destruct (IH m H) as (a' & b' & Ha & E). exists a', b'. split; [now right|exact E].
Qed.
Lemma fin_list {A} (g : A -> xr) l : (forall a, In a l -> exists r, g a = Fin r) -> exists rs, map g l = map Fin rs /\ length rs = length l.
Proof.
  induction l as [|a l IH]; intros H; [exists []; split; reflexivity|].
  destruct (H a (or_introl eq_refl)) as (r & E). destruct IH as (rs & E2 & L); [intros; apply H; now right|].
  exists (r :: rs). cbn [map length]. rewrite E, E2. split; [reflexivity|lia].
Qed.
Lemma repeat_fin x m : repeat (Fin x) m = map Fin (repeat x m).
Proof. induction m as [|m IH]; [reflexivity|]. cbn [repeat map]. now rewrite IH. Qed.

Section Sim.
Variable key : Type.
Variable split : key -> nat -> list key.
Variable log_mah_kern : MahParams xr -> xr -> xr -> xr.
Variable choice : nat -> nat -> list nat -> nat -> bool -> list nat.
Hypothesis HC : draws_ok choice.
Variable f : PopFiles.
Variables nz nm : nat.
Variable k : kind.
Variable nhalos : nat.
Variable t0 : R.
Notation h := (f_haloes (pf_f f)).
Hypothesis HA : forall i j n, (i < nz)%nat -> In n (sampled k h i j) -> exists t m tp hh,
  nth i (f_age (pf_f f)) NaN = Fin t /\ 1 / 10 < t /\
  log_mah_kern (halo_mah h n) (Fin (Rpower 10 t0)) (Fin t0) = Fin m /\ t_peak (halo_mah h n) = Fin tp /\
  halo_history log_mah_kern (halo_mah h n) (Fin t0) hh (obs_times t).

Lemma pops_simulable rk : zs_ok key log_mah_kern (Fin t0) (pops key split log_mah_kern choice f nz nm k nhalos t0 rk).
Proof.
  apply Forall_forall. intros z Hz. apply map2_In in Hz. destruct Hz as (c & kk & Hc & ->).
  destruct (usable_in f nz nm k c Hc) as (Hi & _ & G).
  destruct (picked_ok choice HC f k nhalos (fst c) (snd c) G) as (L & I & _).
  unfold popc. set (P := picked choice f k nhalos (fst c) (snd c)) in *.
  assert (NE : sampled k h (fst c) (snd c) <> []) by (apply sampled_ne; exact G).
  destruct (sampled k h (fst c) (snd c)) as [|n0 r] eqn:ES; [congruence|].
  destruct (HA (fst c) (snd c) n0 Hi) as (t & _ & _ & _ & Et & Ht & _); [rewrite ES; now left|]. rewrite <- ES in *.
  assert (HP : forall n, In n P -> exists m tp hh, log_mah_kern (halo_mah h n) (Fin (Rpower 10 t0)) (Fin t0) = Fin m /\
     t_peak (halo_mah h n) = Fin tp /\ halo_history log_mah_kern (halo_mah h n) (Fin t0) hh (obs_times t)).
  { intros n Hn. apply I in Hn. destruct (HA (fst c) (snd c) n Hi Hn) as (t' & m & tp & hh & Et' & _ & A & B & D).
    rewrite Et in Et'. injection Et' as <-. exists m, tp, hh. auto. }
  exists (length P), t. 
  destruct (fin_list (fun n => log_mah_kern (halo_mah h n) (Fin (Rpower 10 t0)) (Fin t0)) P) as (ms & Em & Lm).
  { intros n Hn. destruct (HP n Hn) as (m & _ & _ & E & _). now exists m. }
  destruct (fin_list (fun n => t_peak (halo_mah h n)) P) as (tps & Etp & Ltp).
  { intros n Hn. destruct (HP n Hn) as (_ & tp & _ & _ & E & _). now exists tp. }
  exists ms, tps, (repeat (-1) (length P)), (repeat 13 (length P)), (repeat (-99) (length P)).
  unfold pop_of. cbn [z_logmp0 z_mah z_lgmu_infall z_logmhost_infall z_gyr_since_infall z_tobs z_upid].
  split; [exact Em|]. split; [exact Etp|]. split; [apply repeat_fin|]. split; [apply repeat_fin|]. split; [apply repeat_fin|].
  split; [exact Et|]. split; [exact Ht|]. rewrite !repeat_length, map_length. split; [exact Lm|]. split; [exact Ltp|].
  do 4 (split; [reflexivity|]). split; [apply pop_mah_cols|].
  intros q Hq. rewrite pop_mah_gal by exact Hq. destruct (HP (nth q P 0%nat)) as (_ & _ & hh & _ & _ & HH); [now apply nth_In|].
  now exists hh.
Qed.
End Sim.

(** Both loss data *)
Section SimData.
Variable key : Type.
Variable split : key -> nat -> list key.
Variable mah_singlehalo : MahParams xr -> list xr -> xr -> list xr * list xr.
Variable log_mah_kern : MahParams xr -> xr -> xr -> xr.
Variable choice : nat -> nat -> list nat -> nat -> bool -> list nat.
Hypothesis HT : timewise mah_singlehalo log_mah_kern.
Hypothesis HC : draws_ok choice.
Variable f : PopFiles.
Variables nz nm nms nsf : nat.
Variable c3 : nat -> nat -> nat -> R.
Variables cc cs : nat -> nat -> nat -> nat -> R.
Variables n1 n2 : nat -> nat -> R.
Hypothesis HF : files_are f nz nm nms nsf c3 cc cs n1 n2.
Notation h := (f_haloes (pf_f f)).
Lemma mstar_simulable k nhalos t0 fb rk d :
  (forall i j n, (i < nz)%nat -> In n (sampled k h i j) -> exists t m tp hh,
    nth i (f_age (pf_f f)) NaN = Fin t /\ 1 / 10 < t /\
    log_mah_kern (halo_mah h n) (Fin (Rpower 10 t0)) (Fin t0) = Fin m /\ t_peak (halo_mah h n) = Fin tp /\
    halo_history log_mah_kern (halo_mah h n) (Fin t0) hh (obs_times t)) ->
  mstar_data key split mah_singlehalo choice k f nhalos (Fin t0) fb rk = Some d ->
  zs_ok key log_mah_kern (Fin t0) (ml_zs key d).
Proof.
  intros HA Hd. rewrite (mstar_data_eq key split mah_singlehalo log_mah_kern choice HT HC f nz nm nms nsf c3 cc cs n1 n2 HF) in Hd.
  apply Some_inj in Hd. subst d. cbn [ml_zs]. apply pops_simulable; assumption.
Qed.
Lemma ssfr_simulable (sat : bool) nhalos t0 fb rk d : (0 < nz)%nat -> (20 <= nms)%nat ->
  (forall i, (i < nz)%nat -> total nm ((if sat then n2 else n1) i) <> 0) ->
  (forall i j n, (i < nz)%nat -> In n (sampled (if sat then Sat else Cen) h i j) -> exists t m tp hh,
    nth i (f_age (pf_f f)) NaN = Fin t /\ 1 / 10 < t /\
    log_mah_kern (halo_mah h n) (Fin (Rpower 10 t0)) (Fin t0) = Fin m /\ t_peak (halo_mah h n) = Fin tp /\
    halo_history log_mah_kern (halo_mah h n) (Fin t0) hh (obs_times t)) ->
  ssfr_data key split mah_singlehalo choice sat f nhalos (Fin t0) fb rk = Some d ->
  zs_ok key log_mah_kern (Fin t0) (sl_zs key d).
Proof.
  intros Hz Hm Hn HA Hd.
  assert (Hj : forall i, (i < nz)%nat -> used_bins (if sat then Sat else Cen) h nm i <> []).
  { intros i Hi E. rewrite (ssfr_data_raises key split mah_singlehalo log_mah_kern choice HT HC f nz nm nms nsf c3 cc cs n1 n2 HF nhalos t0 sat fb rk i Hi E) in Hd. discriminate. }
  rewrite (ssfr_data_eq key split mah_singlehalo log_mah_kern choice HT HC f nz nm nms nsf c3 cc cs n1 n2 HF) in Hd by assumption.
  apply Some_inj in Hd. subst d. cbn [sl_zs the_data]. apply pops_simulable; assumption.
Qed.
End SimData.

(** ** Worked example: one time, two halo-mass bins of equal weight, the second with 49
    sampled halos; distributions that do not overlap *)
Definition demo_halos (m : nat) : Haloes :=
  mkHaloes (repeat 0%nat 50 ++ repeat 1%nat m) [] (repeat [Fin 12; Fin 0; Fin 2; Fin 1; Fin 10] (50 + m)) [] []
    (repeat (-1)%Z (50 + m)) (repeat 0%nat (50 + m)) [] [].
Definition demo_c (i j a b : nat) : R := if Nat.eqb a 8 then if Nat.eqb b j then 1 else 0 else 0.
Definition demo_files (m : nat) : PopFiles :=
  mkFiles (mkFinal [] [] [] [] (tbl 1 2 (fun _ _ => 1)) (tbl 1 2 (fun _ _ => 1)) [] [] [Fin 10] (demo_halos m)
      (tbl3 1 2 20 (fun _ _ _ => 1)) [] (tbl4 1 2 20 2 demo_c) (tbl4 1 2 20 2 demo_c))
    [Fin 11; Fin 12; Fin 13] (map (fun b => Fin (INR b)) (seq 0 21)) [Fin (-12); Fin (-10); Fin (-8)].
Lemma demo_ok m : files_are (demo_files m) 1 2 20 2 (fun _ _ _ => 1) demo_c demo_c (fun _ _ => 1) (fun _ _ => 1).
Proof.
  constructor; try reflexivity; unfold demo_files, demo_halos; cbn [f_haloes pf_f h_logmh_id h_tobs_id h_upid h_mah].
  - rewrite app_length, !repeat_length. reflexivity.
  - rewrite !repeat_length. reflexivity.
  - rewrite !repeat_length. reflexivity.
  - apply Forall_forall. intros r Hr. apply repeat_spec in Hr. subst r. reflexivity.
Qed.
Definition the_choice (i j : nat) (a : list nat) (n : nat) (r : bool) : list nat :=
  if r then repeat (hd 0%nat a) n else firstn n a.
Lemma NoDup_firstn_l {A} n (l : list A) : NoDup l -> NoDup (firstn n l).
Proof.
  revert n. induction l as [|a l IH]; intros [|n] H; cbn [firstn]; try constructor.
  - inversion H; subst. intros Hi. apply H2. rewrite <- (firstn_skipn n l). apply in_or_app. now left.
  - inversion H; subst. now apply IH.
Qed.
Lemma the_choice_ok : draws_ok the_choice.
Proof.
  intros i j a n r Hd Hne Hr. unfold the_choice. destruct r.
  - split; [apply repeat_length|]. split; [|discriminate]. intros x Hx. apply repeat_spec in Hx. subst x. destruct a; [congruence|now left].
  - specialize (Hr eq_refl). split; [rewrite firstn_length; lia|]. split.
    + intros x Hx. rewrite <- (firstn_skipn n a). apply in_or_app. now left.
    + intros _. apply NoDup_firstn_l. exact Hd.
Qed.
Definition the_mah (p : MahParams xr) (ts : list xr) (lgt0 : xr) : list xr * list xr := (map (fun _ => Fin 0) ts, map (fun _ => Fin 12) ts).
Lemma the_mah_ok : timewise the_mah (fun _ _ _ => Fin 12).
Proof. intros p ts lgt0. reflexivity. Qed.
Definition the_split (k : unit) (n : nat) : list unit := repeat tt n.
Lemma the_split_ok k n : length (the_split k n) = n. Proof. apply repeat_length. Qed.

Lemma demo_used : used_bins Cen (demo_halos 49) 2 0 = [0%nat].
Proof. vm_compute. reflexivity. Qed.
Lemma demo_used_all : used_bins Cen (demo_halos 50) 2 0 = [0%nat; 1%nat].
Proof. vm_compute. reflexivity. Qed.
Lemma demo_usable : usable Cen (demo_halos 49) 1 2 = [(0%nat, 0%nat)].
Proof. vm_compute. reflexivity. Qed.

Lemma demo_total j : (j < 2)%nat -> total 20 (fun a => total 2 (fun b => Rmax (demo_c 0 j a b) 0)) = 1.
Proof.
  intros Hj. unfold total, demo_c.
  assert (J : j = 0%nat \/ j = 1%nat) by lia. destruct J as [->| ->]; unfold Rsum; cbn -[Rmax];
    rewrite ?(Rmax_left 1 0), ?(Rmax_left 0 0) by lra; lra.
Qed.
Lemma demo_share j a b : (j < 2)%nat -> share 20 2 (demo_c 0 j) a b = demo_c 0 j a b.
Proof.
  intros Hj. unfold share. rewrite demo_total by exact Hj. destruct (Req_EM_T 1 0); [lra|].
  rewrite Rmax_left; [field|]. unfold demo_c. destruct (Nat.eqb a 8), (Nat.eqb b j); lra.
Qed.
Lemma demo_weight j : bin_weight 2 (fun _ => 1) j = 1 / 2.
Proof. unfold bin_weight, total, Rsum. cbn. lra. Qed.

Lemma skipped_bin : exists d p,
  ssfr_data unit the_split the_mah the_choice false (demo_files 49) 100 (Fin 1) (Fin 0) tt = Some d /\
  (forall x, In x (usable Cen (demo_halos 49) 1 2) -> p x = share 20 2 (demo_c (fst x) (snd x))) /\
  exists r, conditional_pdfs 20 2 (map (fun x => tbl 20 2 (p x)) (usable Cen (demo_halos 49) 1 2))
      (s_nmhalo (sl_data unit d)) (s_indx (sl_data unit d)) (s_ids (sl_data unit d)) = Some r /\
    nth 0 (nth 0 r []) [] = [Fin 1; Fin 0] /\ nth 0 (nth 0 (sl_target unit d) []) [] = [Fin (1 / 2); Fin (1 / 2)].
Proof.
  destruct (ssfr_data_spec unit the_split the_mah (fun _ _ _ => Fin 12) the_choice the_mah_ok the_choice_ok the_split_ok
    (demo_files 49) 1 2 20 2 _ demo_c demo_c _ _ (demo_ok 49) 100 1 false (Fin 0) tt
    (pop_of unit (fun _ _ _ => Fin 12) (demo_files 49) 1 [] NaN tt) tt) as (d & Hd & _ & _ & _ & _ & _ & _ & _ & _ & T & _).
  - lia.
  - lia.
  - intros i Hi. cbv beta iota. unfold total, Rsum. cbn. lra.
  - intros i Hi. replace i with 0%nat by lia. change (f_haloes (pf_f (demo_files 49))) with (demo_halos 49). rewrite demo_used. discriminate.
  - exists d, (fun x => share 20 2 (demo_c (fst x) (snd x))). split; [exact Hd|]. split; [reflexivity|].
    destruct (ssfr_prediction_spec unit the_split the_mah (fun _ _ _ => Fin 12) the_choice the_mah_ok the_choice_ok
      (demo_files 49) 1 2 20 2 _ demo_c demo_c _ _ (demo_ok 49) 100 1 false (Fin 0) tt d
      (fun x => share 20 2 (demo_c (fst x) (snd x)))) as (r & Er & _ & V).
    + lia.
    + lia.
    + intros i Hi. cbv beta iota. unfold total, Rsum. cbn. lra.
    + exact Hd.
    + exists r. split; [exact Er|]. split.
      * destruct (V 0%nat 0%nat ltac:(lia) ltac:(lia)) as [V1 _]. cbv zeta in V1.
        change (f_haloes (pf_f (demo_files 49))) with (demo_halos 49) in V1. rewrite demo_used in V1. cbv iota in V1.
        assert (Q : forall b, blend [0%nat] (bin_weight 2 (fun _ => 1)) (fun j => share 20 2 (demo_c 0 j)) 8 b = if Nat.eqb b 0 then 1 / 2 else 0).
        { intros b. unfold blend, Rsum. cbn [map fold_right]. rewrite demo_weight, demo_share by lia. unfold demo_c. cbn. destruct (Nat.eqb b 0); lra. }
        assert (Z : total 2 (blend [0%nat] (bin_weight 2 (fun _ => 1)) (fun j => share 20 2 (demo_c 0 j)) 8) = 1 / 2).
        { unfold total, Rsum. cbn [seq map fold_right]. rewrite !Q. cbn. lra. }
        cbn [fst snd nth fitted_bins] in V1. rewrite V1 by (rewrite Z; lra). cbn [seq map]. rewrite Z, !Q. cbn [Nat.eqb]. repeat f_equal; lra.
      * destruct (T 0%nat ltac:(lia)) as [_ T0]. specialize (T0 0%nat ltac:(lia)). cbv zeta in T0. cbv iota in T0.
        assert (Q : forall b, (b < 2)%nat -> blend (seq 0 2) (bin_weight 2 (fun _ => 1)) (fun j => share 20 2 (demo_c 0 j)) 8 b = 1 / 2).
        { intros b Hb. unfold blend, Rsum. cbn [seq map fold_right]. rewrite !demo_weight, !demo_share by lia. unfold demo_c. cbn.
          assert (B : b = 0%nat \/ b = 1%nat) by lia. destruct B as [->| ->]; cbn; lra. }
        assert (Z : total 2 (blend (seq 0 2) (bin_weight 2 (fun _ => 1)) (fun j => share 20 2 (demo_c 0 j)) 8) = 1).
        { unfold total, Rsum. cbn [seq map fold_right]. rewrite !Q by lia. lra. }
        rewrite T0. cbn [nth fitted_bins]. rewrite Z. destruct (Rlt_dec 0 1); [|lra]. transitivity (map (fun b : nat => Fin (1 / 2)) (seq 0 2)); [|reflexivity].
        apply map_ext_in. intros b Hb. apply in_seq in Hb. rewrite Q by lia. f_equal. lra.
Qed.
