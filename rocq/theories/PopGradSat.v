(** Parameters of absent galaxies do not matter. *)
From Coq Require Import Reals Lra Lia.
From Coquelicot Require Import Coquelicot.
From Coq Require Import List Bool ZArith QArith String.
From Verif Require Import XReal XFacts RealFacts ModelUtils ModelKernels ModelSfh ModelPop ModelHist ModelFit ModelGrad ModelPopTables ModelPopGrad
  SpecCore SpecPop SpecHist SpecGrad SpecPopProgram SpecPopGrad SigmoidProofs HistProofs PopParamProofs PopKernelProofs PopGradTables PopGradTop PopGradClaims.
Import List ListNotations.
Open Scope R_scope.

Definition mem (n : string) (l : list string) : bool := existsb (String.eqb n) l.
Lemma mem_in n l : mem n l = true <-> In n l.
Proof. unfold mem. rewrite existsb_exists. split; [intros (m & H & E); apply String.eqb_eq in E; subst; exact H|intros H; exists n; rewrite String.eqb_refl; auto]. Qed.
Lemma same_q N P P' : same_but N P P' -> forall n, existsb (fun r => String.eqb n (fst r)) QROWS = true -> mem n pop_names = true -> mem n N = false -> attr (QP P) n = attr (QP P') n.
Proof. intros H n H1 H2 H3. rewrite !attr_q by exact H1. rewrite (H n); [reflexivity|apply mem_in, H2|]. intros I. apply mem_in in I. congruence. Qed.
Lemma same_s N P P' : same_but N P P' -> forall n, existsb (fun r => String.eqb n (fst r)) SROWS = true -> mem n pop_names = true -> mem n N = false -> attr (SP P) n = attr (SP P') n.
Proof. intros H n H1 H2 H3. rewrite !attr_s by exact H1. rewrite (H n); [reflexivity|apply mem_in, H2|]. intros I. apply mem_in in I. congruence. Qed.
Ltac sameq H := repeat match goal with |- context [attr (QP ?P) ?n] => match type of H with same_but _ P _ => rewrite (same_q _ _ _ H n eq_refl eq_refl eq_refl) end end;
  repeat match goal with |- context [attr (SP ?P) ?n] => match type of H with same_but _ P _ => rewrite (same_s _ _ _ H n eq_refl eq_refl eq_refl) end end.

Lemma sat_parts P P' m tp : same_but satellite_names P P' -> let a := sfh_pdf_scalar_kernel (QP P) m tp in let b := sfh_pdf_scalar_kernel (QP P') m tp in
  mc_frac_cen a = mc_frac_cen b /\ mu_mseq a = mu_mseq b /\ mu_qseq a = mu_qseq b /\ cov_mseq_ms a = cov_mseq_ms b /\ cov_qseq_ms a = cov_qseq_ms b /\ cov_qseq_q a = cov_qseq_q b.
Proof.
  intros H. cbv zeta. unfold sfh_pdf_scalar_kernel. cbn [mc_frac_cen mu_mseq mu_qseq cov_mseq_ms cov_qseq_ms cov_qseq_q].
  split; [unfold frac_quench_cen; sameq H; reflexivity|].
  split; [unfold get_mean_u_params_mseq; sameq H; reflexivity|].
  split; [unfold get_mean_u_params_qseq, delta_uqt; sameq H; reflexivity|].
  split; [unfold get_covariance_mseq_ms_block, get_cov_params_mseq_ms_block; sameq H; reflexivity|].
  split; [unfold get_covariance_qseq_ms_block, get_cov_params_qseq_ms_block; sameq H; reflexivity|].
  unfold get_covariance_qseq_q_block, get_cov_params_qseq_q_block; sameq H; reflexivity.
Qed.
Lemma cen_parts P P' m tp mu mh gy : same_but central_names P P' -> let a := sfh_pdf_scalar_kernel (QP P) m tp in let b := sfh_pdf_scalar_kernel (QP P') m tp in
  get_qprob_sat (SP P) mu mh gy (mc_frac_sat a) = get_qprob_sat (SP P') mu mh gy (mc_frac_sat b) /\
  mu_mseq a = mu_mseq b /\ mu_qseq a = mu_qseq b /\ cov_mseq_ms a = cov_mseq_ms b /\ cov_qseq_ms a = cov_qseq_ms b /\ cov_qseq_q a = cov_qseq_q b.
Proof.
  intros H. cbv zeta. unfold sfh_pdf_scalar_kernel. cbn [mc_frac_sat mu_mseq mu_qseq cov_mseq_ms cov_qseq_ms cov_qseq_q].
  split; [unfold frac_quench_sat, get_qprob_sat, predict_sat_frac_delta_qprob, t_delay_vs_logmhost, qprob_hi_vs_sub_host_mass; sameq H; reflexivity|].
  split; [unfold get_mean_u_params_mseq; sameq H; reflexivity|].
  split; [unfold get_mean_u_params_qseq, delta_uqt; sameq H; reflexivity|].
  split; [unfold get_covariance_mseq_ms_block, get_cov_params_mseq_ms_block; sameq H; reflexivity|].
  split; [unfold get_covariance_qseq_ms_block, get_cov_params_qseq_ms_block; sameq H; reflexivity|].
  unfold get_covariance_qseq_q_block, get_cov_params_qseq_q_block; sameq H; reflexivity.
Qed.

Section S.
Variable key : Type.
Variable split : key -> nat -> list key.
Variable uniform : key -> xr.
Variable mvn : key -> list xr -> list (list xr) -> list xr.
Variable lmk : MahParams xr -> xr -> xr -> xr.

Lemma single_unused N p p' P P' m tp up mu mh gy k : holds "" p P -> holds "" p' P' -> same_but N P P' -> unused N [up] ->
  mc_diffstar_u_params_singlegal key split uniform mvn p m tp up mu mh gy k = mc_diffstar_u_params_singlegal key split uniform mvn p' m tp up mu mh gy k.
Proof.
  intros Hp Hp' HS HN. unfold mc_diffstar_u_params_singlegal. rewrite (means_covs_eq p P), (means_covs_eq p' P') by assumption.
  destruct HN as [[-> HF]|[-> HF]]; inversion HF; subst.
  - generalize (sat_parts P P' m tp HS). cbv zeta. generalize (get_qprob_sat (SP P) mu mh gy) (get_qprob_sat (SP P') mu mh gy).
    generalize (sfh_pdf_scalar_kernel (QP P) m tp) (sfh_pdf_scalar_kernel (QP P') m tp). intros a b f f' (E1 & E2 & E3 & E4 & E5 & E6).
    cbn [mc_frac_cen mc_frac_sat mu_mseq mu_qseq cov_mseq_ms cov_qseq_ms cov_qseq_q]. rewrite E1, E2, E3, E4, E5, E6. reflexivity.
  - generalize (cen_parts P P' m tp mu mh gy HS). cbv zeta. generalize (get_qprob_sat (SP P) mu mh gy) (get_qprob_sat (SP P') mu mh gy).
    generalize (sfh_pdf_scalar_kernel (QP P) m tp) (sfh_pdf_scalar_kernel (QP P') m tp). intros a b f f' (E1 & E2 & E3 & E4 & E5 & E6).
    cbn [mc_frac_cen mc_frac_sat mu_mseq mu_qseq cov_mseq_ms cov_qseq_ms cov_qseq_q]. rewrite E1, E2, E3, E4, E5, E6.
    destruct (Z.eqb_spec up (-1)); [contradiction|]. reflexivity.
Qed.
Lemma unused_in N l u : unused N l -> In u l -> unused N [u].
Proof. intros [[E H]|[E H]] I; [left|right]; (split; [exact E|]); constructor; try constructor; rewrite Forall_forall in H; apply H, I. Qed.
Lemma vmap_ext_in {A B} (f g : A -> option B) l : (forall a, In a l -> f a = g a) -> vmap f l = vmap g l.
Proof. intros H. unfold vmap. f_equal. apply map_ext_in, H. Qed.
Lemma population_unused N p p' P P' mah lgm upid mu mh gy k tarr lgt0 fb : holds "" p P -> holds "" p' P' -> same_but N P P' -> unused N upid ->
  mc_diffstar_sfh_galpop key split uniform mvn lmk p mah lgm upid mu mh gy k tarr lgt0 fb = mc_diffstar_sfh_galpop key split uniform mvn lmk p' mah lgm upid mu mh gy k tarr lgt0 fb.
Proof.
  intros Hp Hp' HS HN. unfold mc_diffstar_sfh_galpop, mc_diffstar_params_galpop, mc_diffstar_u_params_galpop.
  destruct (zip6 _ _ _ _ _ _ _ _) as [gals|] eqn:EZ; [|reflexivity].
  rewrite (vmap_ext_in _ (fun g => let '(m, tp, up, mu, mh, gy, k) := g in mc_diffstar_u_params_singlegal key split uniform mvn p' m tp up mu mh gy k)); [reflexivity|].
  intros [[[[[[m tp] up] mu'] mh'] gy'] k'] I. apply (single_unused N p p' P P'); [assumption..|]. apply (unused_in N upid); [exact HN|].
  unfold zip6 in EZ. destruct (_ && _)%bool; [|discriminate EZ]. injection EZ as <-.
  do 4 apply in_combine_l in I. apply in_combine_r in I. exact I.
Qed.
Lemma tables_unused N p p' P P' z lgt0 fb : holds "" p P -> holds "" p' P' -> same_but N P P' -> unused N (z_upid key z) ->
  tobs_tables key split uniform mvn lmk p z lgt0 fb = tobs_tables key split uniform mvn lmk p' z lgt0 fb.
Proof. intros Hp Hp' HS HN. unfold tobs_tables, mc_sfh_at_tobs. rewrite (population_unused N p p' P P') by assumption. reflexivity. Qed.

Lemma bounded_same N U U' : same_but N U U' -> exists P P', get_bounded_diffstarpop_params (pop_u_params U) = Some (pop_params P) /\
  get_bounded_diffstarpop_params (pop_u_params U') = Some (pop_params P') /\ same_but N P P'.
Proof.
  intros H. rewrite (bounded_rows _ _ (holds_u_params U)), (bounded_rows _ _ (holds_u_params U')), !rows_as_params. do 2 eexists. do 2 (split; [reflexivity|]).
  intros n Hn HN. specialize (H n Hn HN). unfold pop_names in Hn. apply in_map_iff in Hn as (r & <- & Hr). rewrite !by_rows_ok by exact Hr. rewrite H. reflexivity.
Qed.
Lemma mstar_unused N U U' d : same_but N U U' -> Forall (fun z => unused N (z_upid key z)) (ml_zs key d) ->
  loss_mstar key split uniform mvn lmk (pop_u_params U) d = loss_mstar key split uniform mvn lmk (pop_u_params U') d.
Proof.
  intros HS HZ. destruct (bounded_same N U U' HS) as (P & P' & E1 & E2 & E3). unfold loss_mstar, loss_mstar_kern_tobs, mstar_kern_tobs. rewrite E1, E2.
  rewrite (vmap_ext_in _ (fun z => match tobs_tables key split uniform mvn lmk (pop_params P') z (ml_lgt0 key d) (ml_fb key d) with
     | Some (log_smh, _, weight) => compute_diff_histograms_mstar_atmobs_z (ml_bins key d) log_smh weight | None => None end)); [reflexivity|].
  intros z I. rewrite (tables_unused N _ _ P P' z _ _ (holds_params P) (holds_params P') E3); [reflexivity|]. rewrite Forall_forall in HZ. apply HZ, I.
Qed.
Lemma ssfr_unused N U U' d : same_but N U U' -> Forall (fun z => unused N (z_upid key z)) (sl_zs key d) ->
  loss_ssfr key split uniform mvn lmk (pop_u_params U) d = loss_ssfr key split uniform mvn lmk (pop_u_params U') d.
Proof.
  intros HS HZ. destruct (bounded_same N U U' HS) as (P & P' & E1 & E2 & E3). unfold loss_ssfr, loss_mstar_ssfr_kern_tobs, mstar_ssfr_kern_tobs. rewrite E1, E2. cbv zeta.
  match goal with |- context [vmap ?f (sl_zs key d)] => match f with context [pop_params P] => match goal with |- context [vmap ?g (sl_zs key d)] => match g with context [pop_params P'] => rewrite (vmap_ext_in f g); [reflexivity|] end end end end.
  intros z I. rewrite (tables_unused N _ _ P P' z _ _ (holds_params P) (holds_params P') E3); [reflexivity|]. rewrite Forall_forall in HZ. apply HZ, I.
Qed.
End S.

(** An unused parameter has zero gradient. *)
Definition only (n : string) : string -> R := fun m => if String.eqb m n then 1 else 0.
Lemma only_same N U n s : In n N -> same_but N U (pop_move U (only n) s).
Proof. intros Hn m _ Hm. unfold pop_move, only. destruct (String.eqb_spec m n) as [->|]; [contradiction|]. ring. Qed.
Lemma gradient_unused (loss : nt xr -> option xr) U g N : (forall n, In n N -> grad_along loss U g (only n)) -> length g = 88%nat ->
  (forall U', same_but N U U' -> loss (pop_u_params U) = loss (pop_u_params U')) ->
  forall i, (i < 88)%nat -> In (nth i pop_names ""%string) N -> nth i g 0 = 0.
Proof.
  intros HG HL HU i Hi HN. set (n := nth i pop_names ""%string) in *. specialize (HG n HN). unfold only in HG.
  set (V := fun m => if String.eqb m n then 1 else 0) in *. destruct HG as (f & F1 & F2).
  assert (C : forall s, loss (pop_u_params (pop_move U V s)) = loss (pop_u_params U)).
  { intros s. symmetry. apply HU. intros m _ Hm. unfold pop_move, V. destruct (String.eqb_spec m n) as [->|]; [contradiction|]. ring. }
  assert (D : is_derive f 0 0).
  { pose proof (locally_singleton _ _ F1) as F0. cbn beta in F0. rewrite (C 0) in F0.
    apply (is_derive_ext_loc (fun _ => f 0)); [|exact (@is_derive_const R_AbsRing R_NormedModule (f 0) 0)]. revert F1. apply filter_imp. intros s E. rewrite (C s), F0 in E. injection E as E. exact E. }
  pose proof (is_derive_unique _ _ _ D) as D1. pose proof (is_derive_unique _ _ _ F2) as D2. rewrite D1 in D2. symmetry. rewrite D2 at 1. clear D D1 D2.
  assert (IN : In n pop_names) by (apply nth_In; exact Hi).
  assert (IX : idx n = i).
  { assert (Q : nth i (map idx pop_names) 0%nat = nth i (seq 0 88) 0%nat) by (rewrite idx_all; reflexivity). rewrite seq_nth in Q by exact Hi.
    rewrite (nth_indep _ 0%nat (idx ""%string)) in Q by (rewrite map_length; exact Hi). rewrite map_nth in Q. exact Q. }
  assert (EG : g = map (fun j => nth j g 0) (seq 0 88)).
  { rewrite <- HL. clear. induction g as [|a g IH]; [reflexivity|]. cbn [length seq map nth]. f_equal. rewrite <- seq_shift, map_map. exact IH. }
  assert (EI : inner g (map V pop_names) = LV V (fun j => nth j g 0)) by (unfold LV, inner; rewrite <- EG; reflexivity).
  rewrite EI, LV_eq. rewrite (Rsum_ext _ (fun m => (if Nat.eqb (idx m) (idx n) then 1 else 0) * nth i g 0)).
  - apply (delta_sum (fun _ => nth i g 0) n pop_names); [rewrite idx_all; apply seq_NoDup|exact IN].
  - intros m Hm. unfold V. destruct (String.eqb_spec m n) as [->|ne]; [rewrite Nat.eqb_refl, IX; ring|].
    destruct (Nat.eqb_spec (idx m) (idx n)) as [E|E]; [|ring]. exfalso. apply ne.
    destruct (In_nth _ _ ""%string Hm) as (j & Hj & <-). assert (IJ : idx (nth j pop_names ""%string) = j).
    { assert (Q : nth j (map idx pop_names) 0%nat = nth j (seq 0 88) 0%nat) by (rewrite idx_all; reflexivity). rewrite seq_nth in Q by exact Hj.
      rewrite (nth_indep _ 0%nat (idx ""%string)) in Q by (rewrite map_length; exact Hj). rewrite map_nth in Q. exact Q. }
    rewrite IJ, IX in E. unfold n. rewrite E. reflexivity.
Qed.
Section G.
Variable key : Type.
Variable split : key -> nat -> list key.
Variable uniform : key -> xr.
Variable normal : key -> nat -> list xr.
Variable lmk : MahParams xr -> xr -> xr -> xr.
Hypothesis Hsplit : splits_ok split.
Hypothesis Hn : normals_ok normal.
Notation mvn := (mvn_of normal).
Variables U P : string -> R.
Hypothesis HP : get_bounded_diffstarpop_params (pop_u_params U) = Some (pop_params P).
Hypothesis HS : slopes_nonzero P.
(** Moving an unused parameter moves no galaxy. *)
Lemma unused_unmoved N n zs : In n N -> Forall (fun z => unused N (z_upid key z)) zs ->
  unmoved split uniform normal (fun s => pop_params (Pm U (only n) s)) zs.
Proof.
  intros Hn' HZ s z m i Hz Hi HL. unfold u_gal. rewrite Forall_forall in HZ.
  apply (single_unused key split uniform mvn N _ _ (Pm U (only n) s) (Pm U (only n) 0)); [apply holds_params..| |].
  - assert (B : forall s, same_but N P (Pm U (only n) s)); [|intros k H1 H2; rewrite <- (B s k H1 H2), <- (B 0 k H1 H2); reflexivity].
    clear s. intros s k Hk Hk'. destruct (bounded_same N U (pop_move U (only n) s) (only_same N U n s Hn')) as (Q & Q' & E1 & E2 & E3).
    rewrite HP in E1. rewrite bounded_move in E2. apply Some_inj in E1, E2.
    assert (X : forall A B : string -> R, pop_params A = pop_params B -> A k = B k).
    { intros A B E. pose proof (holds_params A k Hk) as HA. rewrite E, (holds_params B k Hk) in HA. apply Some_inj in HA. apply Fin_inj in HA. symmetry. exact HA. }
    rewrite (X _ _ E1), (X _ _ E2). apply E3; assumption.
  - apply (unused_in N (z_upid key z)); [apply HZ, Hz|]. apply nth_In. rewrite HL. exact Hi.
Qed.
Lemma mstar_gradient_unused N d fb v : mstar_data_ok key lmk d fb -> loss_mstar key split uniform mvn lmk (pop_u_params U) d = Some (Fin v) ->
  Forall (fun z => unused N (z_upid key z)) (ml_zs key d) ->
  exists g, List.length g = 88%nat /\ loss_mstar_kern_tobs_grad_wrapper key split normal lmk (flat U) d = Some (Fin v, map Fin g) /\
    forall i, (i < 88)%nat -> In (nth i pop_names ""%string) N -> nth i g 0 = 0.
Proof.
  intros Hd HV HZ. destruct (mstar_along split uniform normal lmk Hsplit Hn U P HP HS d fb v Hd HV) as (g & G1 & G2 & G3).
  exists g. split; [exact G1|]. split; [exact G2|]. refine (gradient_unused _ U g N _ G1 _).
  - intros n I. apply G3. right. apply (unused_unmoved N); assumption.
  - intros U' H. exact (mstar_unused key split uniform mvn lmk N U U' d H HZ).
Qed.
Lemma ssfr_gradient_unused N d fb v : ssfr_data_ok key lmk d fb -> loss_ssfr key split uniform mvn lmk (pop_u_params U) d = Some (Fin v) ->
  Forall (fun z => unused N (z_upid key z)) (sl_zs key d) ->
  exists g, List.length g = 88%nat /\ loss_mstar_ssfr_kern_tobs_grad_wrapper key split normal lmk (flat U) d = Some (Fin v, map Fin g) /\
    forall i, (i < 88)%nat -> In (nth i pop_names ""%string) N -> nth i g 0 = 0.
Proof.
  intros Hd HV HZ. destruct (ssfr_along split uniform normal lmk Hsplit Hn U P HP HS d fb v Hd HV) as (g & G1 & G2 & G3).
  exists g. split; [exact G1|]. split; [exact G2|]. refine (gradient_unused _ U g N _ G1 _).
  - intros n I. apply G3. right. apply (unused_unmoved N); assumption.
  - intros U' H. exact (ssfr_unused key split uniform mvn lmk N U U' d H HZ).
Qed.
Lemma combined_gradient_unused N dm dc fb fb' v : mstar_data_ok key lmk dm fb -> ssfr_data_ok key lmk dc fb' ->
  loss_combined_kern key split uniform mvn lmk (pop_u_params U) dm dc = Some (Fin v) ->
  Forall (fun z => unused N (z_upid key z)) (ml_zs key dm ++ sl_zs key dc) ->
  exists g, List.length g = 88%nat /\ loss_combined_wrapper key split normal lmk (flat U) dm dc = Some (Fin v, map Fin g) /\
    forall i, (i < 88)%nat -> In (nth i pop_names ""%string) N -> nth i g 0 = 0.
Proof.
  intros Hm Hc HV HZ. apply Forall_app in HZ as [Z1 Z2]. destruct (combined_along split uniform normal lmk Hsplit Hn U P HP HS dm dc fb fb' v Hm Hc HV) as (g & G1 & G2 & G3).
  exists g. split; [exact G1|]. split; [exact G2|]. refine (gradient_unused _ U g N _ G1 _).
  - intros n I. apply G3. split; right; apply (unused_unmoved N); assumption.
  - intros U' H. unfold loss_combined_kern. rewrite (mstar_unused key split uniform mvn lmk N U U' dm), (ssfr_unused key split uniform mvn lmk N U U' dc) by assumption. reflexivity.
Qed.
Lemma combined3_gradient_unused N dm dc ds fb fb' fb'' v : mstar_data_ok key lmk dm fb -> ssfr_data_ok key lmk dc fb' -> ssfr_data_ok key lmk ds fb'' ->
  loss_combined_3loss_kern key split uniform mvn lmk (pop_u_params U) dm dc ds = Some (Fin v) ->
  Forall (fun z => unused N (z_upid key z)) (ml_zs key dm ++ sl_zs key dc ++ sl_zs key ds) ->
  exists g, List.length g = 88%nat /\ loss_combined_3loss_wrapper key split normal lmk (flat U) dm dc ds = Some (Fin v, map Fin g) /\
    forall i, (i < 88)%nat -> In (nth i pop_names ""%string) N -> nth i g 0 = 0.
Proof.
  intros Hm Hc Hd HV HZ. apply Forall_app in HZ as [Z1 Z2]. apply Forall_app in Z2 as [Z2 Z3].
  destruct (combined3_along split uniform normal lmk Hsplit Hn U P HP HS dm dc ds fb fb' fb'' v Hm Hc Hd HV) as (g & G1 & G2 & G3).
  exists g. split; [exact G1|]. split; [exact G2|]. refine (gradient_unused _ U g N _ G1 _).
  - intros n I. apply G3. split; [|split]; right; apply (unused_unmoved N); assumption.
  - intros U' H. unfold loss_combined_3loss_kern.
    rewrite (mstar_unused key split uniform mvn lmk N U U' dm), (ssfr_unused key split uniform mvn lmk N U U' dc), (ssfr_unused key split uniform mvn lmk N U U' ds) by assumption. reflexivity.
Qed.
End G.
