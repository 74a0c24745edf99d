(** Derivatives of the parameters, histories and tables of simulated galaxies. *)
From Coq Require Import Reals Lra Lia.
From Coquelicot Require Import Coquelicot.
From Coq Require Import List Bool ZArith String.
From Verif Require Import XReal XFacts RealFacts ModelUtils ModelKernels ModelSfh ModelPop ModelHist ModelFit ModelGrad ModelPopTables ModelPopGrad
  SpecCore SpecPop SpecHist SpecPopGrad IntegralProofs PopProofs PopMcProofs LossProofs PopLossProofs PopParamProofs PopKernelProofs MatrixProofs CholeskyProofs PopGradProofs PopGradTables.
Import List ListNotations.
Open Scope R_scope.

Lemma vmap_map_ {A B C} (g : A -> B) (f : B -> option C) l : vmap f (map g l) = vmap (fun a => f (g a)) l.
Proof. unfold vmap. rewrite map_map. reflexivity. Qed.
Lemma combine_seq_map {A} (f : nat -> A) n : forall a, combine (seq a n) (map f (seq a n)) = map (fun i => (i, f i)) (seq a n).
Proof. induction n as [|n IH]; intros a; [reflexivity|]. cbn [seq map combine]. rewrite IH. reflexivity. Qed.
Section Gal.
Variable L : (nat -> R) -> R.
Hypothesis L_lin : forall a b f g h, (forall i, h i = a * f i + b * g i) -> L h = a * L f + b * L g.
Variable K : Prop.
Notation trx := (PopGradProofs.trx L K).
Notation trl := (PopGradProofs.trl L K).
Notation trd := (PopGradProofs.trd L K).
Notation pok := (PopGradProofs.pok L K).

Lemma len8 {A} (l : list A) : List.length l = 8%nat -> exists a b c d e f g h, l = [a; b; c; d; e; f; g; h].
Proof. destruct l as [|a [|b [|c [|d [|e [|f [|g [|h [|]]]]]]]]]; try discriminate. intros _. repeat eexists. Qed.
Definition pack (l : list xr) : DiffstarParams xr :=
  mkDiffstar (nth 0 l NaN) (nth 1 l NaN) (nth 2 l NaN) (nth 3 l NaN) (nth 4 l NaN) (nth 5 l NaN) (nth 6 l NaN) (nth 7 l NaN).
Lemma tr_unpack F ps : trl 8 F ps -> exists d,
  (forall s, unpack_d (F s) = Some (pack (F s))) /\ dunpack_d ps = Some d /\ trd (fun s => pack (F s)) d.
Proof.
  intros (A & B & C). destruct (len8 ps A) as (a & b & c & d & e & f & g & h & ->). eexists. split; [|split; [reflexivity|]].
  - intros s. destruct (len8 (F s) (B s)) as (? & ? & ? & ? & ? & ? & ? & ? & ->). reflexivity.
  - unfold PopGradProofs.trd. cbn [pack d_lgmcrit d_lgy_at_mcrit d_indx_lo d_indx_hi d_lg_qt d_qlglgdt d_lg_drop d_lg_rejuv].
    split; [apply (C 0%nat); lia|]. split; [apply (C 1%nat); lia|]. split; [apply (C 2%nat); lia|]. split; [apply (C 3%nat); lia|].
    split; [apply (C 4%nat); lia|]. split; [apply (C 5%nat); lia|]. split; [apply (C 6%nat); lia|apply (C 7%nat); lia].
Qed.

Context {key : Type}.
Variable split : key -> nat -> list key.
Variable uniform : key -> xr.
Variable normal : key -> nat -> list xr.
Variable lmk : MahParams xr -> xr -> xr -> xr.
Hypothesis Hsplit : splits_ok split.
Hypothesis Hn : normals_ok normal.
Notation mvn := (mvn_of normal).
Notation u_single := (mc_diffstar_u_params_singlegal key split uniform mvn).
Notation d_single := (dmc_diffstar_u_params_singlegal key split normal).

Variable p : R -> nt xr.
Variable Pr : R -> string -> R.
Variable dp : nt dual.
Hypothesis Hpr : forall s, holds "" (p s) (Pr s).
Hypothesis Hp : pok Pr dp.
Hypothesis Hb : pop_in_bounds (Pr 0).
Hypothesis Hs : slopes_nonzero (Pr 0).

Lemma pd_std (S : R -> list xr * list xr) :
  (exists a b c d, S 0 = ([Fin a; Fin b; Fin c; Fin d], zeros 6) /\ 0 < a /\ 0 < b /\ 0 < c /\ 0 < d) ->
  positive_definite 4 (covariance_block (fst (S 0), zeros 6)).
Proof. intros (a & b & c & d & -> & Ha & Hb' & Hc & Hd). apply pd_block; assumption. Qed.

Lemma tr_block k mu dmu (S : R -> list xr) dS : trl 4 mu dmu -> trl 4 S dS -> positive_definite 4 (covariance_block (S 0, zeros 6)) ->
  trl 4 (fun s => mvn k (mu s) (covariance_block (S s, zeros 6))) (dcholesky_draw dmu (dcovariance_block dS) (map dc (normal k (List.length dmu)))).
Proof.
  intros Hm HS HP. destruct (Hn k 4%nat) as (z & Ez & Lz). assert (Ld : List.length dmu = 4%nat) by apply Hm. rewrite Ld, Ez.
  apply (trl_ext L K 4 (fun s => xcholesky_draw (mu s) (covariance_block (S s, zeros 6)) (map Fin z))).
  - intros s. unfold mvn_of. rewrite (proj1 (proj2 Hm) s), Ez. reflexivity.
  - apply (trl_draw L L_lin K 4 mu dmu (fun s => covariance_block (S s, zeros 6))); [exact Hm|apply (trm_cov L L_lin K S dS HS)|exact HP|exact Lz].
Qed.

Lemma tr_single m tp upid mu mh gy k : exists (Ums Uq : R -> DiffstarParams xr) (f : R -> xr) (b : R -> bool) dms dq df,
  (forall s, u_single (p s) (Fin m) (Fin tp) upid (Fin mu) (Fin mh) (Fin gy) k = Some (Ums s, Uq s, f s, b s)) /\
  d_single dp (Fin m) (Fin tp) upid (Fin mu) (Fin mh) (Fin gy) k = Some (dms, dq, df) /\
  trd Ums dms /\ trd Uq dq /\ trx f df.
Proof.
  pose proof (Hsplit k 4%nat) as H4. destruct (split k 4) as [|k1 [|k2 [|k3 [|k4 [|]]]]] eqn:Ek; try discriminate. clear H4.
  assert (B1 := tr_block k1 _ _ _ _ (trl_mean_mseq L L_lin K Pr dp Hp Hb Hs m) (trl_std_mseq L L_lin K Pr dp Hp Hb Hs m)).
  assert (B2 := tr_block k2 _ _ _ _ (trl_firstn L K 4 8 _ _ ltac:(lia) (trl_mean_qseq L L_lin K Pr dp Hp Hb Hs m tp)) (trl_std_qseq L L_lin K Pr dp Hp Hb Hs m)).
  assert (B3 := tr_block k3 _ _ _ _ (trl_skipn L K 4 8 _ _ (trl_mean_qseq L L_lin K Pr dp Hp Hb Hs m tp)) (trl_std_q L L_lin K Pr dp Hp Hb Hs m)).
  cbn beta in B1, B2, B3.
  specialize (B1 (pd_std (fun s => get_cov_params_mseq_ms_block (QP (Pr s)) (Fin m)) ltac:(destruct (cov_params_mseq (Pr 0) Hb Hs m) as (a & b & c & d & E & R1 & R2 & R3 & R4); exists a, b, c, d; unfold std_ok in *; split; [exact E|lra]))).
  specialize (B2 (pd_std (fun s => get_cov_params_qseq_ms_block (QP (Pr s)) (Fin m)) ltac:(destruct (cov_params_qseq_ms (Pr 0) Hb Hs m) as (a & b & c & d & E & R1 & R2 & R3 & R4); exists a, b, c, d; unfold std_ok in *; split; [exact E|lra]))).
  specialize (B3 (pd_std (fun s => get_cov_params_qseq_q_block (QP (Pr s)) (Fin m)) ltac:(destruct (cov_params_qseq_q (Pr 0) Hb Hs m) as (a & b & c & d & E & R1 & R2 & R3 & R4); exists a, b, c, d; unfold std_ok in *; split; [exact E|lra]))).
  assert (DQ : trl 4 (fun _ => let dq := DEFAULT_Q_U_PARAMS_UNQUENCHED in [lg_qt dq; qlglgdt dq; lg_drop dq; lg_rejuv dq])
                 (let dq := DEFAULT_Q_U_PARAMS_UNQUENCHED in map dc [lg_qt dq; qlglgdt dq; lg_drop dq; lg_rejuv dq])).
  { cbv zeta. cbn [map]. repeat (apply trl_cons; [apply trx_c; exact L_lin|]). apply trl_nil. }
  destruct (tr_unpack _ _ (trl_app L K 4 4 _ _ _ _ (trl_firstn L K 4 4 _ _ (le_n 4) B1) DQ)) as (dms & E1 & D1 & T1).
  destruct (tr_unpack _ _ (trl_app L K 4 4 _ _ _ _ (trl_firstn L K 4 4 _ _ (le_n 4) B2) B3)) as (dq & E2 & D2 & T2).
  cbn beta zeta in E1, D1, T1, E2, D2, T2.
  pose proof (trx_where L K (Z.eqb upid (-1)) _ _ _ _ (trx_cen L L_lin K Pr dp Hp m tp)
    (trx_qprob_sat L L_lin K Pr dp Hp mu mh gy _ _ (trx_sat L L_lin K Pr dp Hp m tp))) as TF. cbn beta in TF.
  do 2 eexists. eexists. eexists. exists dms, dq. eexists. split; [|split; [|split; [exact T1|split; [exact T2|exact TF]]]].
  - intros s. unfold mc_diffstar_u_params_singlegal. rewrite (means_covs_eq (p s) (Pr s)) by apply Hpr. cbv zeta. rewrite Ek.
    cbn [mu_mseq mu_qseq cov_mseq_ms cov_qseq_ms cov_qseq_q mc_frac_cen mc_frac_sat sfh_pdf_scalar_kernel].
    unfold get_covariance_mseq_ms_block, get_covariance_qseq_ms_block, get_covariance_qseq_q_block.
    rewrite (surjective_pairing (get_cov_params_mseq_ms_block _ _)), (surjective_pairing (get_cov_params_qseq_ms_block _ _)), (surjective_pairing (get_cov_params_qseq_q_block _ _)).
    change (snd (get_cov_params_mseq_ms_block (QP (Pr s)) (Fin m))) with (zeros 6). change (snd (get_cov_params_qseq_ms_block (QP (Pr s)) (Fin m))) with (zeros 6).
    change (snd (get_cov_params_qseq_q_block (QP (Pr s)) (Fin m))) with (zeros 6). rewrite (E1 s), (E2 s).
    instantiate (1 := fun s => (uniform k4 <? (if (upid =? -1)%Z then frac_quench_cen (QP (Pr s)) (Fin m) (Fin tp)
      else get_qprob_sat (SP (Pr s)) (Fin mu) (Fin mh) (Fin gy) (frac_quench_sat (QP (Pr s)) (Fin m) (Fin tp))))%X). reflexivity.
  - unfold dmc_diffstar_u_params_singlegal. rewrite Ek. cbv zeta. rewrite D1, D2. reflexivity.
Qed.

(** ** Final star formation rate and stellar mass *)
Lemma trd_real U dU : trd U dU -> exists P : DiffstarParams R, U 0 = map_d Fin P.
Proof.
  intros (T0 & T1 & T2 & T3 & T4 & T5 & T6 & T7).
  destruct (trx_val _ _ _ _ T0) as (y0 & E0 & _). destruct (trx_val _ _ _ _ T1) as (y1 & E1 & _). destruct (trx_val _ _ _ _ T2) as (y2 & E2 & _).
  destruct (trx_val _ _ _ _ T3) as (y3 & E3 & _). destruct (trx_val _ _ _ _ T4) as (y4 & E4 & _). destruct (trx_val _ _ _ _ T5) as (y5 & E5 & _).
  destruct (trx_val _ _ _ _ T6) as (y6 & E6 & _). destruct (trx_val _ _ _ _ T7) as (y7 & E7 & _).
  exists (mkDiffstar y0 y1 y2 y3 y4 y5 y6 y7). destruct (U 0) as [u0 u1 u2 u3 u4 u5 u6 u7].
  cbn [d_lgmcrit d_lgy_at_mcrit d_indx_lo d_indx_hi d_lg_qt d_qlglgdt d_lg_drop d_lg_rejuv] in E0, E1, E2, E3, E4, E5, E6, E7. subst. reflexivity.
Qed.

Variable z : ZPop key.
Variable n : nat.
Variable tobs fb : R.
Variable lgt0 : xr.
Hypothesis Hz : sim_ok lmk lgt0 n tobs z.
Notation ts := (obs_times tobs).
Notation sfr := (fun U i => sfr_of lmk U z lgt0 (Fin fb) i).
Notation logm := (fun U i => logm_of lmk U z lgt0 (Fin fb) i).
Notation ssfr := (fun U i => ssfr_of lmk U z lgt0 (Fin fb) i).
(** no star formation rate of galaxy [i] with unbounded parameters [U] sits exactly on the floor *)
Definition off_floor (U : DiffstarParams xr) (i : nat) : Prop :=
  forall t, In t ts -> unfloored lmk (Fin t) (gal_mah (z_mah key z) i) (get_bounded_diffstar_params U) lgt0 (Fin fb) <> SFR_MIN.
Definition off_clip (U : DiffstarParams xr) (i : nat) : Prop :=
  (xlog10 (last_ (sfr U i)) - logm U i)%X <> Fin (-12).

Lemma zgrid : tobs_grid (z_tobs key z) = map Fin ts.
Proof. destruct Hz as (m & tp & mu & mh & gy & E1 & E2 & E3 & E4 & E5 & E6 & Ht & _). rewrite E6. apply grid_fin. lra. Qed.

Lemma tr_final U dU i : (i < n)%nat -> trd U dU -> (K -> off_floor (U 0) i \/ steady U) -> exists ds dm,
  dfinal lmk dU (mah_of (z_mah key z) i) (tobs_grid (z_tobs key z)) lgt0 (Fin fb) = Some (ds, dm) /\
  trx (fun s => logm (U s) i) (dlog10 dm) /\
  ((K -> off_clip (U 0) i \/ steady U) -> trx (fun s => ssfr (U s) i) (dmax (dsub (dlog10 ds) (dlog10 dm)) (dF (-12)))).
Proof.
  intros Hi HU HK. pose proof zgrid as G.
  destruct Hz as (m & tp & mu & mh & gy & E1 & E2 & E3 & E4 & E5 & E6 & Ht & L1 & L2 & L3 & L4 & L5 & L6 & Hc & Hh).
  destruct (Hh i Hi) as (h & Hist). pose proof (trd_bounded L L_lin K U dU HU) as HB.
  pose proof (trl_sfr L L_lin K lmk ts (gal_mah (z_mah key z) i) lgt0 fb h _ _ Hist HB
    (fun k => match HK k with or_introl H => or_introl H | or_intror HS => or_intror (steady_map get_bounded_diffstar_params U HS) end)) as TS. cbn beta in TS.
  destruct (trl_mass L L_lin K (length ts) ts _ _ eq_refl TS) as (Gm & dms & M1 & M2 & TM).
  assert (N : length ts <> 0%nat) by discriminate.
  pose proof (trl_last L K _ _ _ N TS) as LS. pose proof (trl_last L K _ _ _ N TM) as LM. cbn beta in LS, LM.
  destruct (trd_real _ _ HB) as (P & EP). cbn beta in EP.
  destruct (final_values lmk P _ _ lgt0 fb h Hist (obs_times_incr tobs Ht) ltac:(discriminate)) as (s1 & m1 & M & V1 & V2 & V3 & V4 & V5).
  rewrite <- EP in V1, V3. rewrite (M1 0) in V3. apply Some_inj in V3. rewrite <- V3 in V4.
  pose proof (trx_fst _ _ _ _ LS) as FS. pose proof (trx_fst _ _ _ _ LM) as FM. cbn beta in FS, FM. rewrite V1 in FS. rewrite V4 in FM.
  pose proof (trx_log10 L L_lin K _ _ _ FS V2 LS) as TLS. pose proof (trx_log10 L L_lin K _ _ _ FM V5 LM) as TLM. cbn beta in TLS, TLM.
  assert (EM : forall s, logm (U s) i = xlog10 (last_ (Gm s))).
  { intros s. unfold logm_of, sfr_of, mass_of. rewrite G, (M1 s). reflexivity. }
  eexists. eexists. split; [|split].
  - unfold dfinal. change (mah_of (z_mah key z) i) with (gal_mah (z_mah key z) i). rewrite G. cbv zeta. rewrite M2. reflexivity.
  - apply (trx_ext L K (fun s => xlog10 (last_ (Gm s)))); [intros s; symmetry; apply EM|exact TLM].
  - intros HC. pose proof (trx_sub L L_lin K _ _ _ _ TLS TLM) as TD. cbn beta in TD.
    apply (trx_ext L K (fun s => clip_lo (Fin (-12)) (xlog10 (last_ (calc_sfh_singlegal lmk (get_bounded_diffstar_params (U s)) (gal_mah (z_mah key z) i) (map Fin ts) lgt0 (Fin fb))) - xlog10 (last_ (Gm s)))%X)).
    + intros s. pose proof (EM s) as E. cbn beta in E. unfold ssfr_of. rewrite E. unfold sfr_of. rewrite G. reflexivity.
    + apply (trx_clip L L_lin K); [|exact TD]. intros k. rewrite (trx_fst _ _ _ _ TD). destruct (HC k) as [H|S]; [left|right].
      * unfold off_clip in H. pose proof (EM 0) as E. cbn beta in E. rewrite E in H. unfold sfr_of in H. rewrite G in H. exact H.
      * unfold steady in S |- *. revert S. apply filter_imp. intros s ES. pose proof (EM s) as Es. pose proof (EM 0) as E0. cbn beta in Es, E0. rewrite ES in Es. rewrite <- Es, <- E0, ES. reflexivity.
Qed.

Notation ug i s := (u_gal split uniform mvn n (p s) z i).
(** the condition, for all drawn galaxies *)
Definition all_off_floor (q : nt xr) : Prop := forall i ums uq f b, (i < n)%nat ->
  u_gal split uniform mvn n q z i = Some (ums, uq, f, b) -> off_floor ums i /\ off_floor uq i.
Definition all_off_clip (q : nt xr) : Prop := forall i ums uq f b, (i < n)%nat ->
  u_gal split uniform mvn n q z i = Some (ums, uq, f, b) -> off_clip ums i /\ off_clip uq i.

(** near 0 the same galaxies *)
Definition still : Prop := locally 0 (fun s => forall i, (i < n)%nat -> ug i s = ug i 0).

Lemma tr_tables : (K -> all_off_floor (p 0) \/ still) -> exists (X Y W : R -> list xr) dX dY dW,
  (forall s, tobs_tables key split uniform mvn lmk (p s) z lgt0 (Fin fb) = Some (X s, Y s, W s)) /\
  dtobs_tables key split normal lmk dp z lgt0 (Fin fb) = Some (dX, dY, dW) /\
  trl (n + n) X dX /\ trl (n + n) W dW /\ ((K -> all_off_clip (p 0) \/ still) -> trl (n + n) Y dY).
Proof.
  intros HK. pose proof Hz as (m & tp & mu & mh & gy & E1 & E2 & E3 & E4 & E5 & E6 & Ht & L1 & L2 & L3 & L4 & L5 & L6 & Hc & Hh).
  assert (AG : args_ok n z). { split; [exact Hc|]. unfold pop_args. rewrite E1, E2, E3, E4, E5, !map_length. tauto. }
  assert (D : forall i, (i < n)%nat -> exists v : (R -> DiffstarParams xr) * (R -> DiffstarParams xr) * (R -> xr) * (R -> bool) * (DiffstarParams dual * DiffstarParams dual * dual) * (dual * dual) * (dual * dual),
    let '(Ums, Uq, f, b, (dms, dq, df), fms, fq) := v in
    (forall s, ug i s = Some (Ums s, Uq s, f s, b s)) /\
    d_single dp (nth i (z_logmp0 key z) NaN) (nth i (t_peak (z_mah key z)) NaN) (nth i (z_upid key z) 0%Z) (nth i (z_lgmu_infall key z) NaN)
      (nth i (z_logmhost_infall key z) NaN) (nth i (z_gyr_since_infall key z) NaN) (nth i (split (z_key key z) n) (z_key key z)) = Some (dms, dq, df) /\
    dfinal lmk dms (mah_of (z_mah key z) i) (tobs_grid (z_tobs key z)) lgt0 (Fin fb) = Some fms /\
    dfinal lmk dq (mah_of (z_mah key z) i) (tobs_grid (z_tobs key z)) lgt0 (Fin fb) = Some fq /\
    trx f df /\ trx (fun s => logm (Ums s) i) (dlog10 (snd fms)) /\ trx (fun s => logm (Uq s) i) (dlog10 (snd fq)) /\
    ((K -> all_off_clip (p 0) \/ still) -> trx (fun s => ssfr (Ums s) i) (dmax (dsub (dlog10 (fst fms)) (dlog10 (snd fms))) (dF (-12))) /\
                                  trx (fun s => ssfr (Uq s) i) (dmax (dsub (dlog10 (fst fq)) (dlog10 (snd fq))) (dF (-12))))).
  { intros i Hi. destruct (tr_single (nth i m 0) (nth i tp 0) (nth i (z_upid key z) 0%Z) (nth i mu 0) (nth i mh 0) (nth i gy 0) (nth i (split (z_key key z) n) (z_key key z)))
      as (Ums & Uq & f & b & dms & dq & df & A1 & A2 & A3 & A4 & A5).
    assert (UG : forall s, ug i s = Some (Ums s, Uq s, f s, b s)).
    { intros s. unfold u_gal. rewrite E1, E2, E3, E4, E5, !nth_fin by lia. apply A1. }
    assert (ST : still -> steady Ums /\ steady Uq).
    { intros S. unfold still, steady in *. split; (revert S; apply filter_imp; intros s S; specialize (S i Hi); rewrite (UG s), (UG 0) in S; injection S; auto). }
    destruct (tr_final Ums dms i Hi A3) as (s1 & m1 & F1 & F2 & F3); [intros k; destruct (HK k) as [HA|S]; [left; apply (HA i _ _ _ _ Hi (UG 0))|right; apply ST, S]|].
    destruct (tr_final Uq dq i Hi A4) as (s2 & m2 & G1 & G2 & G3); [intros k; destruct (HK k) as [HA|S]; [left; apply (HA i _ _ _ _ Hi (UG 0))|right; apply ST, S]|].
    exists (Ums, Uq, f, b, (dms, dq, df), (s1, m1), (s2, m2)). cbn [fst snd].
    split; [exact UG|]. split; [rewrite E1, E2, E3, E4, E5, !nth_fin by lia; exact A2|].
    split; [exact F1|]. split; [exact G1|]. split; [exact A5|]. split; [exact F2|]. split; [exact G2|].
    intros HC. split; [apply F3|apply G3]; intros k; (destruct (HC k) as [HA|S]; [left; apply (HA i _ _ _ _ Hi (UG 0))|right; apply ST, S]). }
  pose (dd := mkDiffstar (dc NaN) (dc NaN) (dc NaN) (dc NaN) (dc NaN) (dc NaN) (dc NaN) (dc NaN)).
  destruct (choice_list _ n (fun _ => pack [], fun _ => pack [], fun _ => NaN, fun _ => false, (dd, dd, dc NaN), (dc NaN, dc NaN), (dc NaN, dc NaN)) D) as (vs & _ & HV). clear D.
  match type of HV with context [nth _ vs ?d] => pose (v := fun i => nth i vs d); change (nth ?i vs d) with (v i) in HV end.
  pose (Ums := fun i => fst (fst (fst (fst (fst (fst (v i))))))). pose (Uq := fun i => snd (fst (fst (fst (fst (fst (v i))))))).
  pose (f := fun i => snd (fst (fst (fst (fst (v i)))))). pose (b := fun i => snd (fst (fst (fst (v i))))). pose (dr := fun i => snd (fst (fst (v i)))).
  pose (fms := fun i => snd (fst (v i))). pose (fq := fun i => snd (v i)).
  assert (H : forall i, (i < n)%nat ->
    (forall s, ug i s = Some (Ums i s, Uq i s, f i s, b i s)) /\
    d_single dp (nth i (z_logmp0 key z) NaN) (nth i (t_peak (z_mah key z)) NaN) (nth i (z_upid key z) 0%Z) (nth i (z_lgmu_infall key z) NaN)
      (nth i (z_logmhost_infall key z) NaN) (nth i (z_gyr_since_infall key z) NaN) (nth i (split (z_key key z) n) (z_key key z)) = Some (dr i) /\
    dfinal lmk (fst (fst (dr i))) (mah_of (z_mah key z) i) (tobs_grid (z_tobs key z)) lgt0 (Fin fb) = Some (fms i) /\
    dfinal lmk (snd (fst (dr i))) (mah_of (z_mah key z) i) (tobs_grid (z_tobs key z)) lgt0 (Fin fb) = Some (fq i) /\
    trx (f i) (snd (dr i)) /\ trx (fun s => logm (Ums i s) i) (dlog10 (snd (fms i))) /\ trx (fun s => logm (Uq i s) i) (dlog10 (snd (fq i))) /\
    ((K -> all_off_clip (p 0) \/ still) -> trx (fun s => ssfr (Ums i s) i) (dmax (dsub (dlog10 (fst (fms i))) (dlog10 (snd (fms i)))) (dF (-12))) /\
                                  trx (fun s => ssfr (Uq i s) i) (dmax (dsub (dlog10 (fst (fq i))) (dlog10 (snd (fq i)))) (dF (-12))))).
  { intros i Hi. specialize (HV i Hi). unfold Ums, Uq, f, b, dr, fms, fq. destruct (v i) as [[[[[[a1 a2] a3] a4] [[a5 a6] a7]] a8] a9]. exact HV. }
  clear HV. do 3 eexists. do 3 eexists. split; [|split; [|split; [|split]]].
  - intros s. apply (tables_rows split uniform mvn lmk Hsplit n (p s) z lgt0 (Fin fb) (fun i => Ums i s) (fun i => Uq i s) (fun i => f i s) (fun i => b i s) AG).
    intros i Hi. apply H, Hi.
  - unfold dtobs_tables. assert (LN : List.length (z_logmp0 key z) = n) by (rewrite E1, map_length; exact L1). rewrite LN. cbv zeta.
    rewrite (zip6_ok n _ _ _ _ _ _ _ (z_key key z)) by (first [apply AG|apply Hsplit]).
    assert (DR : vmap (fun g => let '(m, tp, up, mu, mh, gy, k) := g in d_single dp m tp up mu mh gy k)
       (map (gal6 (z_logmp0 key z) (t_peak (z_mah key z)) (z_upid key z) (z_lgmu_infall key z) (z_logmhost_infall key z) (z_gyr_since_infall key z) (split (z_key key z) n) (z_key key z)) (seq 0 n))
       = Some (map dr (seq 0 n))).
    { rewrite vmap_map_. apply vmap_map_some. intros i Hi. apply in_seq in Hi. apply (H i). lia. }
    rewrite DR. rewrite combine_seq_map.
    rewrite !vmap_map_. rewrite (vmap_map_some _ fms), (vmap_map_some _ fq).
    2,3: intros i Hi; apply in_seq in Hi; cbn [fst snd]; apply (H i); lia.
    rewrite !map_app, !map_map. reflexivity.
  - apply (trl_app L K); apply (trl_map_seq L K); intros i Hi; apply (H i); lia.
  - apply (trl_app L K); apply (trl_map_seq L K); intros i Hi; (apply (trx_mul L L_lin K); [apply (trx_c L L_lin K)|]); [apply (trx_sub L L_lin K); [apply (trx_c L L_lin K)|]|]; apply (H i); lia.
  - intros HC. apply (trl_app L K); apply (trl_map_seq L K); intros i Hi; apply (H i); solve [lia|exact HC].
Qed.
End Gal.
