(** The gradient of the population losses is their derivative. *)
From Coq Require Import Reals Lra Lia.
From Coquelicot Require Import Coquelicot.
From Coq Require Import List Bool ZArith QArith String.
From Verif Require Import XReal XFacts RealFacts ModelUtils ModelKernels ModelSfh ModelPop ModelHist ModelFit ModelGrad ModelPopTables ModelPopGrad
  SpecCore SpecPop SpecHist SpecGrad SpecPopProgram SpecPopGrad SigmoidProofs QuenchProofs SfhProofs PopProofs HistProofs SmhmProofs LossProofs PopMcProofs PopLossProofs PopParamProofs MatrixProofs CholeskyProofs
  PopGradProofs PopGradTables PopGradGal PopGradHist PopGradLoss.
Import List ListNotations.
Open Scope R_scope.

(** ** Parameter positions *)
Fixpoint pos (n : string) (l : list string) : nat :=
  match l with [] => 0%nat | m :: l => if String.eqb n m then 0%nat else S (pos n l) end.
Definition idx (n : string) : nat := pos n pop_names.
Lemma idx_all : map idx pop_names = seq 0 88.
Proof. vm_compute. reflexivity. Qed.
Definition LV (V : string -> R) (g : nat -> R) : R := Rsum (map2 Rmult (map g (seq 0 88)) (map V pop_names)).
Lemma LV_eq V g : LV V g = Rsum (map (fun n => g (idx n) * V n) pop_names).
Proof. unfold LV. rewrite <- idx_all, map_map, map2_rows. reflexivity. Qed.
Lemma LV_lin V a b f g h : (forall i, h i = a * f i + b * g i) -> LV V h = a * LV V f + b * LV V g.
Proof.
  intros H. rewrite !LV_eq, <- !Rsum_scal_f, <- Rsum_plus. apply Rsum_ext. intros n _. rewrite H. ring.
Qed.
Lemma delta_sum V n l : NoDup (map idx l) -> In n l -> Rsum (map (fun m => (if Nat.eqb (idx m) (idx n) then 1 else 0) * V m) l) = V n.
Proof.
  assert (Z : forall l, ~ In (idx n) (map idx l) -> Rsum (map (fun m => (if Nat.eqb (idx m) (idx n) then 1 else 0) * V m) l) = 0).
  { induction l0 as [|a l0 IH]; intros H; [reflexivity|]. cbn [map]. change (Rsum (?x :: ?r)) with (x + Rsum r). rewrite IH by (intros I; apply H; right; exact I).
    destruct (Nat.eqb_spec (idx a) (idx n)) as [E|E]; [elim H; left; exact E|ring]. }
  induction l as [|a l IH]; intros HN [].
  - subst a. cbn [map] in *. inversion HN; subst. change (Rsum (?x :: ?r)) with (x + Rsum r). rewrite Nat.eqb_refl, Z by assumption. ring.
  - cbn [map] in *. inversion HN as [|? ? N1 N2]; subst. change (Rsum (?x :: ?r)) with (x + Rsum r). rewrite IH by assumption.
    destruct (Nat.eqb_spec (idx a) (idx n)) as [E|E]; [elim N1; rewrite E; apply in_map; assumption|ring].
Qed.
Lemma LV_delta V n : In n pop_names -> LV V (fun i => if Nat.eqb i (idx n) then 1 else 0) = V n.
Proof. intros H. rewrite LV_eq. apply delta_sum; [rewrite idx_all; apply seq_NoDup|exact H]. Qed.

(** ** Bounding *)
Definition dv (U : string -> R) (n : string) : dual := dvar (idx n) (Fin (U n)).
Definition du (U : string -> R) : nt dual := map (fun r => (u_name (fst r), dv U (fst r))) POP_BOUNDS.
Lemma du_made U : nt_make DIFFSTARPOP_UNAMES (map2 dvar (seq 0 (List.length (flat U))) (flat U)) = Some (du U).
Proof.
  assert (E : map2 dvar (seq 0 (List.length (flat U))) (flat U) = map (fun r => dv U (fst r)) POP_BOUNDS).
  { unfold flat. rewrite map_length. change (List.length pop_names) with 88%nat. rewrite <- idx_all, map2_rows. unfold pop_names. rewrite map_map. reflexivity. }
  rewrite E. unfold DIFFSTARPOP_UNAMES. rewrite pop_names_eq, map_map. apply nt_make_rows.
Qed.
Lemma du_get U rs : (forall r, In r rs -> In r POP_BOUNDS) ->
  vmap (getattr (du U)) (map u_name (map fst rs)) = Some (map (fun r => dv U (fst r)) rs).
Proof.
  intros H. rewrite map_map. unfold vmap. rewrite map_map. change (sequence (map ?f ?l)) with (vmap f l). apply sequence_spec. intros r Hr. rewrite getattr_assoc.
  unfold du. refine (assoc_map (fun r => u_name (fst r)) (fun r => dv U (fst r)) POP_BOUNDS r _ (H r Hr)).
  rewrite <- (map_map fst u_name). apply FinFun.Injective_map_NoDup; [intros a b; apply u_inj|apply names_nodup].
Qed.
Definition dpar (U : string -> R) (r : string * (Q * Q)) : dual := dget_p_from_u_p_scalar (dv U (fst r)) (QQ2X (snd r)).
Definition dpb (U : string -> R) : nt dual := map (fun r => (fst r, dpar U r)) POP_BOUNDS.
Lemma dbounded U : dget_bounded_diffstarpop_params (du U) = Some (dpb U).
Proof.
  unfold dget_bounded_diffstarpop_params, QSEQ_UNAMES, SATQ_UNAMES. rewrite qseq_names, satq_names.
  rewrite (du_get U QROWS in_q), (du_get U SROWS in_s), q_pbounds, s_pbounds, !map2_rows.
  assert (E : map (fun r : string * (Q * Q) => dget_bounded_satq_param (dv U (fst r)) (QQ2X (snd r))) SROWS = map (dpar U) SROWS) by reflexivity.
  rewrite E. change (map (fun d : string * (Q * Q) => dget_p_from_u_p_scalar (dv U (fst d)) (QQ2X (snd d))) QROWS) with (map (dpar U) QROWS).
  rewrite <- map_app, <- rows_split, pop_names_eq. apply nt_make_rows.
Qed.
Definition Pm (U V : string -> R) (s : R) : string -> R := by_rows (fun r => pbR (snd r) (pop_move U V s (fst r))).
Lemma bounded_move U V s : get_bounded_diffstarpop_params (pop_u_params (pop_move U V s)) = Some (pop_params (Pm U V s)).
Proof. rewrite (bounded_rows _ _ (holds_u_params _)), rows_as_params. reflexivity. Qed.
Lemma pm_0 U V P : get_bounded_diffstarpop_params (pop_u_params U) = Some (pop_params P) -> forall n, In n pop_names -> Pm U V 0 n = P n.
Proof.
  intros H n Hn. rewrite (bounded_rows _ _ (holds_u_params _)), rows_as_params in H. apply Some_inj in H.
  pose proof (holds_params P n Hn) as H2. rewrite <- H in H2. rewrite (holds_params _ n Hn) in H2. apply Some_inj in H2.
  apply (f_equal (fun x => match x with Fin r => r | _ => 0 end)) in H2. rewrite <- H2. unfold Pm. unfold pop_names in Hn. apply in_map_iff in Hn as (r & <- & Hr).
  rewrite !by_rows_ok by exact Hr. unfold pop_move. rewrite Rmult_0_l, Rplus_0_r. reflexivity.
Qed.
Lemma pok_bounded U V K : pok (LV V) K (Pm U V) (dpb U).
Proof.
  intros n Hn. assert (IN : In n pop_names). { apply existsb_exists in Hn as (m & Hm & E). apply String.eqb_eq in E. subst m. exact Hm. }
  pose proof IN as IN'. unfold pop_names in IN. apply in_map_iff in IN as (r & <- & Hr).
  unfold dattr. rewrite getattr_assoc. unfold dpb. rewrite (assoc_map fst (dpar U) POP_BOUNDS r names_nodup Hr).
  unfold dpar, QQ2X, Q2X. cbn [dget_p_from_u_p_scalar].
  assert (TV : trx (LV V) K (fun s => Fin (pop_move U V s (fst r))) (dv U (fst r))).
  { unfold pop_move. rewrite <- (LV_delta V (fst r) IN'). apply (trx_var (LV V) K). }
  apply (trx_ext (LV V) K (fun s => sigmoid (Fin (pop_move U V s (fst r))) (Fin (1 / 2) * (Fin (Q2R (fst (snd r))) + Fin (Q2R (snd (snd r)))))%X BOUNDING_K (Fin (Q2R (fst (snd r)))) (Fin (Q2R (snd (snd r)))))).
  { intros s. unfold Pm. rewrite by_rows_ok by exact Hr. rewrite <- p_scalar_fin. reflexivity. }
  apply (trx_sigmoid (LV V) (LV_lin V) K); [exact TV| | | |]; apply (trx_c (LV V) (LV_lin V) K).
Qed.

(** ** From the condition of the statement *)
Section Smooth.
Context {key : Type}.
Variable split : key -> nat -> list key.
Variable uniform : key -> xr.
Variable normal : key -> nat -> list xr.
Variable lmk : MahParams xr -> xr -> xr -> xr.
Hypothesis Hsplit : splits_ok split.
Variable p : nt xr.
Variable z : ZPop key.
Variable n : nat.
Variables tobs fb : R.
Variable lgt0 : xr.
Hypothesis Hz : sim_ok lmk lgt0 n tobs z.
Hypothesis Hsome : forall i, (i < n)%nat -> u_gal split uniform (mvn_of normal) n p z i <> None.
Lemma sim_res i ums uq f b : (i < n)%nat -> u_gal split uniform (mvn_of normal) n p z i = Some (ums, uq, f, b) -> exists res,
  simulated key split uniform (mvn_of normal) lmk p z lgt0 fb tobs res /\ List.length (z_logmp0 key z) = n /\
  gal_d (diffstar_params_ms res) i = get_bounded_diffstar_params ums /\ gal_d (diffstar_params_q res) i = get_bounded_diffstar_params uq /\
  nth i (sfh_ms res) [] = sfr_of lmk ums z lgt0 (Fin fb) i /\ nth i (sfh_q res) [] = sfr_of lmk uq z lgt0 (Fin fb) i.
Proof.
  intros Hi HU. pose proof Hz as (m & tp & mu & mh & gy & E1 & E2 & E3 & E4 & E5 & E6 & Ht & L1 & L2 & L3 & L4 & L5 & L6 & Hc & Hh).
  assert (A : pop_args n (z_logmp0 key z) (t_peak (z_mah key z)) (z_upid key z) (z_lgmu_infall key z) (z_logmhost_infall key z) (z_gyr_since_infall key z)).
  { unfold pop_args. rewrite E1, E2, E3, E4, E5, !map_length. tauto. }
  destruct (s_pop_total split uniform (mvn_of normal) lmk Hsplit n p (z_mah key z) (z_logmp0 key z) (z_upid key z) (z_lgmu_infall key z) (z_logmhost_infall key z)
              (z_gyr_since_infall key z) (z_key key z) (map Fin (obs_times tobs)) lgt0 (Fin fb) Hc A) as (res & ER).
  { intros j Hj. specialize (Hsome j Hj). unfold u_gal in Hsome. unfold mc_diffstar_params_singlegal.
    destruct (mc_diffstar_u_params_singlegal _ _ _ _ _ _ _ _ _ _ _ _) as [[[[? ?] ?] ?]|]; [discriminate|now elim Hsome]. }
  destruct (s_pop_inv split uniform (mvn_of normal) lmk Hsplit n _ _ _ _ _ _ _ _ _ _ _ _ Hc A ER) as (_ & _ & _ & _ & _ & _ & _ & _ & HR).
  exists res. split; [split; [exact E6|exact ER]|]. split; [rewrite E1, map_length; exact L1|].
  specialize (HR i Hi). unfold mc_diffstar_sfh_singlegal, mc_diffstar_params_singlegal in HR. cbv zeta in HR.
  change (t_peak (gal_mah (z_mah key z) i)) with (nth i (t_peak (z_mah key z)) NaN) in HR. unfold u_gal in HU. rewrite HU in HR.
  apply Some_inj in HR. pose proof (f_equal sfh_ms HR) as H1. pose proof (f_equal sfh_q HR) as H2. pose proof (f_equal diffstar_params_ms HR) as H3. pose proof (f_equal diffstar_params_q HR) as H4.
  cbn [sfh_ms sfh_q diffstar_params_ms diffstar_params_q] in H1, H2, H3, H4.
  rewrite <- H1, <- H2, <- H3, <- H4. unfold sfr_of. rewrite (zgrid lmk z n tobs lgt0 Hz). repeat split; reflexivity.
Qed.
Lemma unfloored_fin P t m mah : 0 < t -> lmk mah (Fin t) lgt0 = Fin m ->
  unfloored lmk (Fin t) mah (map_d Fin P) lgt0 (Fin fb) = Fin (sfr_unfloored P fb m t).
Proof.
  intros Ht H. unfold unfloored. rewrite (sfh_ms_fin lmk _ _ _ _ _ _ H), xlog10_fin by exact Ht. cbn [map_d d_lg_qt d_qlglgdt d_lg_drop d_lg_rejuv].
  change (xpow10 (Fin (d_qlglgdt P))) with (Fin (pow10R (d_qlglgdt P))). pose proof (pow10_pos (d_qlglgdt P)).
  rewrite QuenchProofs.quenching_kern_fin by lra. rewrite quench_spec_eq by assumption. reflexivity.
Qed.
Lemma real_off_floor U P i : (i < n)%nat -> get_bounded_diffstar_params U = map_d Fin P ->
  off_sfr_floor lmk lgt0 fb tobs (gal_mah (z_mah key z) i) (get_bounded_diffstar_params U) -> off_floor lmk z tobs fb lgt0 U i.
Proof.
  intros Hi EP H t Ht. destruct Hz as (m & tp & mu & mh & gy & E1 & E2 & E3 & E4 & E5 & E6 & Hto & L1 & L2 & L3 & L4 & L5 & L6 & Hc & Hh).
  destruct (Hh i Hi) as (h & HH). specialize (H P h EP HH). rewrite EP. destruct (proj1 (Forall_forall _ _) HH t Ht) as [T1 T2].
  rewrite (unfloored_fin P t _ _ T1 T2). rewrite Forall_forall in H. specialize (H t Ht). unfold SFR_MIN, SFR_MIN_R. intros E. apply H.
  exact (f_equal (fun x => match x with Fin r => r | _ => 0 end) E).
Qed.
Lemma real_off_clip U P i : (i < n)%nat -> get_bounded_diffstar_params U = map_d Fin P ->
  off_ssfr_floor tobs (sfr_of lmk U z lgt0 (Fin fb) i) -> off_clip lmk z fb lgt0 U i.
Proof.
  intros Hi EP H. pose proof (zgrid lmk z n tobs lgt0 Hz) as G.
  destruct Hz as (m & tp & mu & mh & gy & E1 & E2 & E3 & E4 & E5 & E6 & Hto & L1 & L2 & L3 & L4 & L5 & L6 & Hc & Hh).
  destruct (Hh i Hi) as (h & HH).
  destruct (final_values lmk P _ _ lgt0 fb h HH (obs_times_incr tobs Hto) ltac:(discriminate)) as (s1 & m1 & M & V1 & V2 & V3 & V4 & V5).
  unfold off_clip, logm_of, mass_of. unfold sfr_of in *. rewrite G, EP in *. rewrite V3, V1, V4, !xlog10_fin by assumption. cbn [xsub].
  intros E. apply (f_equal (fun x => match x with Fin r => r | _ => 0 end)) in E. cbn beta iota in E. apply (H s1 M); [|exact E].
  split; [exact V1|]. split; [exact V2|]. exists m1. auto.
Qed.
End Smooth.

Lemma vmap_some_in {A B} (f : A -> option B) l : forall r a, vmap f l = Some r -> In a l -> f a <> None.
Proof.
  unfold vmap. induction l as [|b l IH]; [intros r a _ []|]. intros r a. cbn [map sequence]. destruct (f b) eqn:E; [|discriminate].
  destruct (sequence (map f l)) eqn:E1; [|discriminate]. intros _ [->|Hin]; [rewrite E; discriminate|]. eapply IH; [reflexivity|exact Hin].
Qed.

(** ** Losses *)
Section Losses.
Variable L : (nat -> R) -> R.
Hypothesis L_lin : forall a b f g h, (forall i, h i = a * f i + b * g i) -> L h = a * L f + b * L g.
Variable K : Prop.
Notation trx := (PopGradProofs.trx L K).
Notation trl := (PopGradProofs.trl L K).
Notation trm := (PopGradProofs.trm L K).
Context {key : Type}.
Variable split : key -> nat -> list key.
Variable uniform : key -> xr.
Variable normal : key -> nat -> list xr.
Variable lmk : MahParams xr -> xr -> xr -> xr.
Hypothesis Hsplit : splits_ok split.
Hypothesis Hn : normals_ok normal.
Notation mvn := (mvn_of normal).
Variable u : R -> nt xr.
Variable p : R -> nt xr.
Variable Pr : R -> string -> R.
Variable u' dp : nt dual.
Hypothesis Hu : forall s, get_bounded_diffstarpop_params (u s) = Some (p s).
Hypothesis Hu' : dget_bounded_diffstarpop_params u' = Some dp.
Hypothesis Hpr : forall s, holds "" (p s) (Pr s).
Hypothesis Hp : PopGradProofs.pok L K Pr dp.
Hypothesis Hb : pop_in_bounds (Pr 0).
Hypothesis Hs : slopes_nonzero (Pr 0).
Variable zs : list (ZPop key).
Variable lgt0 : xr.
Variable fb : R.
Hypothesis Hz : zs_ok key lmk lgt0 zs.
(** the same galaxies for all [s] *)
Definition unmoved : Prop := forall s z n i, In z zs -> (i < n)%nat -> List.length (z_upid key z) = n ->
  u_gal split uniform mvn n (p s) z i = u_gal split uniform mvn n (p 0) z i.
Hypothesis HK : K -> smooth_sfr key split uniform mvn lmk (p 0) lgt0 fb zs \/ unmoved.

Lemma gal_some z n tobs i : sim_ok lmk lgt0 n tobs z -> (i < n)%nat -> exists a q f b,
  u_gal split uniform mvn n (p 0) z i = Some (map_d Fin a, map_d Fin q, f, b).
Proof.
  intros (m & tp & mu & mh & gy & E1 & E2 & E3 & E4 & E5 & E6 & Ht & L1 & L2 & L3 & L4 & L5 & L6 & Hc & Hh) Hi.
  destruct (tr_single L L_lin K split uniform normal Hsplit Hn p Pr dp Hpr Hp Hb Hs (nth i m 0) (nth i tp 0) (nth i (z_upid key z) 0%Z) (nth i mu 0) (nth i mh 0) (nth i gy 0) (nth i (split (z_key key z) n) (z_key key z)))
      as (Ums & Uq & f & b & dms & dq & df & A1 & A2 & A3 & A4 & A5).
  destruct (trd_real L K _ _ A3) as (a & EU). destruct (trd_real L K _ _ A4) as (q & EQ).
  exists a, q, (f 0), (b 0). unfold u_gal. rewrite E1, E2, E3, E4, E5, !nth_fin by lia. rewrite <- EU, <- EQ. apply A1.
Qed.
Lemma unmoved_still z n tobs : unmoved -> In z zs -> sim_ok lmk lgt0 n tobs z -> still split uniform normal p z n.
Proof.
  intros H Hin (m & tp & mu & mh & gy & E1 & E2 & E3 & E4 & E5 & E6 & Ht & L1 & L2 & L3 & L4 & L5 & L6 & _). unfold still. apply filter_forall. intros s i Hi. apply H; assumption.
Qed.
Lemma floors z n tobs : In z zs -> sim_ok lmk lgt0 n tobs z -> K -> all_off_floor split uniform normal lmk z n tobs fb lgt0 (p 0) \/ still split uniform normal p z n.
Proof.
  intros Hin Hsim k. destruct (HK k) as [HA|S]; [left|right; exact (unmoved_still z n tobs S Hin Hsim)]. intros i ums uq f b Hi HU. destruct (gal_some z n tobs i Hsim Hi) as (a1 & a2 & a3 & a4 & EA). rewrite HU in EA. injection EA as -> -> <- <-.
  assert (Hsome : forall j, (j < n)%nat -> u_gal split uniform mvn n (p 0) z j <> None).
  { intros j Hj. destruct (gal_some z n tobs j Hsim Hj) as (c1 & c2 & c3 & c4 & EC). rewrite EC. discriminate. }
  destruct (sim_res split uniform normal lmk Hsplit (p 0) z n tobs fb lgt0 Hsim Hsome i _ _ f b Hi HU) as (res & R1 & R2 & R3 & R4 & R5 & R6).
  destruct (proj1 (Forall_forall _ _) HA z Hin tobs res R1 i) as [S1 S2]; [rewrite R2; exact Hi|]. rewrite R3 in S1. rewrite R4 in S2.
  split; [apply (real_off_floor lmk z n tobs fb lgt0 Hsim _ _ i Hi (bounded_diffstar_fin a1) S1)|apply (real_off_floor lmk z n tobs fb lgt0 Hsim _ _ i Hi (bounded_diffstar_fin a2) S2)].
Qed.
Lemma clips (HC : K -> smooth_ssfr key split uniform mvn lmk (p 0) lgt0 fb zs \/ unmoved) z n tobs :
  In z zs -> sim_ok lmk lgt0 n tobs z -> K -> all_off_clip split uniform normal lmk z n fb lgt0 (p 0) \/ still split uniform normal p z n.
Proof.
  intros Hin Hsim k. destruct (HC k) as [HA|S]; [left|right; exact (unmoved_still z n tobs S Hin Hsim)]. intros i ums uq f b Hi HU. destruct (gal_some z n tobs i Hsim Hi) as (a1 & a2 & a3 & a4 & EA). rewrite HU in EA. injection EA as -> -> <- <-.
  assert (Hsome : forall j, (j < n)%nat -> u_gal split uniform mvn n (p 0) z j <> None).
  { intros j Hj. destruct (gal_some z n tobs j Hsim Hj) as (c1 & c2 & c3 & c4 & EC). rewrite EC. discriminate. }
  destruct (sim_res split uniform normal lmk Hsplit (p 0) z n tobs fb lgt0 Hsim Hsome i _ _ f b Hi HU) as (res & R1 & R2 & R3 & R4 & R5 & R6).
  destruct (proj1 (Forall_forall _ _) HA z Hin tobs res R1 i) as [S1 S2]; [rewrite R2; exact Hi|]. rewrite R5 in S1. rewrite R6 in S2.
  split; [apply (real_off_clip lmk z n tobs fb lgt0 Hsim _ _ i Hi (bounded_diffstar_fin a1) S1)|apply (real_off_clip lmk z n tobs fb lgt0 Hsim _ _ i Hi (bounded_diffstar_fin a2) S2)].
Qed.

Lemma trx_1000 l dl : trx l dl -> trx (fun s => l s * Fin 1000)%X (dmul dl (dF 1000)).
Proof. intros H. apply (trx_mul L L_lin K); [exact H|apply (trx_c L L_lin K)]. Qed.

Lemma tr_loss_mstar E T v : (2 <= List.length E)%nat -> increasing E ->
  loss_mstar key split uniform mvn lmk (u 0) (mkML key zs lgt0 (Fin fb) (map Fin E) (map (map Fin) T)) = Some (Fin v) ->
  exists l dl, (forall s, loss_mstar key split uniform mvn lmk (u s) (mkML key zs lgt0 (Fin fb) (map Fin E) (map (map Fin) T)) = Some (l s)) /\
    dloss_mstar key split normal lmk u' (mkML key zs lgt0 (Fin fb) (map Fin E) (map (map Fin) T)) = Some dl /\ trx l dl.
Proof.
  intros HE HI HV. unfold loss_mstar, dloss_mstar, loss_mstar_kern_tobs, mstar_kern_tobs in *. cbn [ml_zs ml_lgt0 ml_fb ml_bins ml_target] in *.
  rewrite Hu in HV. rewrite Hu'.
  destruct zs as [|z0 zs0] eqn:EZ.
  { exfalso. cbn in HV. apply scaled_fin in HV as (w & HV). destruct (mse2_all_fin _ _ _ HV) as [N _]. now apply N. }
  rewrite <- EZ in *. clear EZ zs0.
  destruct (trg_vmap (cond L K (List.length E - 1)) [] []
     (fun s z => match tobs_tables key split uniform mvn lmk (p s) z lgt0 (Fin fb) with
                 | Some (log_smh, _, weight) => compute_diff_histograms_mstar_atmobs_z (map Fin E) log_smh weight | None => None end)
     (fun z => match dtobs_tables key split normal lmk dp z lgt0 (Fin fb) with
                 | Some (log_smh, _, weight) => dcompute_diff_histograms_mstar_atmobs_z (map Fin E) log_smh weight | None => None end)
     (fun _ => zs) zs z0 z0 (List.length zs) (cond_ext L K _) eq_refl (fun _ => eq_refl)) as (Pd & dPd & V1 & V2 & V3).
  { intros i Hi. assert (IN : In (nth i zs z0) zs) by (apply nth_In, Hi). destruct (proj1 (Forall_forall _ _) Hz _ IN) as (n & tobs & Hsim).
    destruct (tr_tables L L_lin K split uniform normal lmk Hsplit Hn p Pr dp Hpr Hp Hb Hs _ n tobs fb lgt0 Hsim (floors _ _ _ IN Hsim)) as (X & Y & W & dX & dY & dW & T1 & T2 & T3 & T4 & _).
    destruct (tr_mstar L L_lin K E (n + n) X dX W dW HE HI T3 T4) as (H & dH & M1 & M2 & M3). exists H, dH. split; [intros s; rewrite T1; apply M1|]. split; [rewrite T2; exact M2|exact M3]. }
  pose proof (V1 0) as V0. cbn beta in V0. rewrite V0 in HV. apply scaled_fin in HV as (w & HV).
  destruct (mse2_all_fin _ _ _ HV) as [_ HF]. destruct V3 as (A & B & C).
  assert (TM : trm (List.length zs) (List.length E - 1) Pd dPd).
  { split; [exact A|]. split; [exact B|]. intros i Hi. destruct (C i Hi) as (C1 & C2 & C3). apply C3.
    assert (FI : Forall fin (nth i (Pd 0) [])) by (apply (proj1 (Forall_forall _ _) HF), nth_In; rewrite B; exact Hi).
    destruct (fin_nth _ 0 FI) as (y & Y); [rewrite (C2 0); lia|]. exists 0%nat, y. split; [lia|exact Y]. }
  assert (NZ : (List.length zs * (List.length E - 1) <> 0)%nat).
  { assert (List.length zs <> 0)%nat. { intros E0. apply length_zero_iff_nil in E0. destruct (mse2_all_fin _ _ _ HV) as [N _]. apply N.
      specialize (B 0). rewrite E0 in B. apply length_zero_iff_nil in B. rewrite B. reflexivity. } intros Q. apply Nat.eq_mul_0 in Q. lia. }
  destruct (tr_mse2 L L_lin K _ _ Pd dPd T NZ TM) as (l & dl & E1 & E2 & E3); [rewrite HV; discriminate|].
  exists (fun s => l s * Fin 1000)%X, (dmul dl (dF 1000)). split; [|split].
  - intros s. rewrite Hu. pose proof (V1 s) as Vs. cbn beta in Vs. rewrite Vs, E1. reflexivity.
  - rewrite V2, E2. reflexivity.
  - apply trx_1000, E3.
Qed.

Lemma tr_loss_ssfr (HC : K -> smooth_ssfr key split uniform mvn lmk (p 0) lgt0 fb zs \/ unmoved) LO HI Em Es Wt I ids T v :
  (2 <= List.length Em)%nat -> increasing Em -> (2 <= List.length Es)%nat -> increasing Es -> cells LO HI ->
  let d := mkSL key zs lgt0 (Fin fb) (mkSsfr (map (map Fin) LO) (map (map Fin) HI) (map Fin Em) (map Fin Es) (map (map Fin) Wt) I ids) (map (map (map Fin)) T) in
  loss_ssfr key split uniform mvn lmk (u 0) d = Some (Fin v) ->
  exists l dl, (forall s, loss_ssfr key split uniform mvn lmk (u s) d = Some (l s)) /\ dloss_ssfr key split normal lmk u' d = Some dl /\ trx l dl.
Proof.
  intros H1 H2 H3 H4 HCe d HV. unfold d, loss_ssfr, dloss_ssfr, loss_mstar_ssfr_kern_tobs, mstar_ssfr_kern_tobs in *. clear d.
  cbn [sl_zs sl_lgt0 sl_fb sl_data sl_target s_lo s_hi s_mbins s_sbins s_nmhalo s_indx s_ids] in *. cbv zeta in *. unfold len in *. rewrite !map_length in *.
  rewrite Hu in HV. rewrite Hu'. set (nms := (List.length Em - 1)%nat) in *. set (nsf := (List.length Es - 1)%nat) in *.
  assert (Hsf : (0 < nsf)%nat) by (unfold nsf; lia).
  set (FF := fun s z => match tobs_tables key split uniform mvn lmk (p s) z lgt0 (Fin fb) with
      | Some (log_smh, log_ssfrh, weight) => match compute_diff_histograms_mstar_ssfr_atz log_smh log_ssfrh weight (map (map Fin) LO) (map (map Fin) HI) (map Fin Em) (map Fin Es) with
          | Some h => reshape2 nms nsf h | None => None end | None => None end).
  set (DF := fun z => match dtobs_tables key split normal lmk dp z lgt0 (Fin fb) with
      | Some (log_smh, log_ssfrh, weight) => match dcompute_diff_histograms_mstar_ssfr_atz log_smh log_ssfrh weight (map (map Fin) LO) (map (map Fin) HI) (map Fin Em) (map Fin Es) with
          | Some h => dreshape2 nms nsf h | None => None end | None => None end).
  change (match (match vmap (FF 0) zs with Some ps => conditional_pdfs nms nsf ps (map (map Fin) Wt) I ids | None => None end) with
          | Some pred => option_map (fun l => l * Fin 1000)%X (mse3 pred (map (map (map Fin)) T)) | None => None end = Some (Fin v)) in HV.
  assert (TV : exists ps dps, (forall s, vmap (FF s) zs = Some (ps s)) /\ vmap DF zs = Some dps /\ trg (condm L K nms nsf) [] [] (List.length zs) ps dps).
  { destruct zs as [|z0 zs0] eqn:EZ.
    { exists (fun _ => []), []. split; [reflexivity|]. split; [reflexivity|]. split; [reflexivity|]. split; [reflexivity|]. intros i Hi. inversion Hi. }
    rewrite <- EZ in *. clear EZ zs0.
    assert (HS : forall z, In z zs -> FF 0 z <> None).
    { intros z Hin. destruct (vmap (FF 0) zs) as [r|] eqn:EV; [|discriminate]. exact (vmap_some_in _ _ r z EV Hin). }
    apply (trg_vmap (condm L K nms nsf) [] [] FF DF (fun _ => zs) zs z0 z0 (List.length zs) (condm_ext L K _ _) eq_refl (fun _ => eq_refl)).
    intros i Hi. assert (IN : In (nth i zs z0) zs) by (apply nth_In, Hi). destruct (proj1 (Forall_forall _ _) Hz _ IN) as (n & tobs & Hsim).
    destruct (tr_tables L L_lin K split uniform normal lmk Hsplit Hn p Pr dp Hpr Hp Hb Hs _ n tobs fb lgt0 Hsim (floors _ _ _ IN Hsim)) as (X & Y & W & dX & dY & dW & T1 & T2 & T3 & T4 & T5).
    specialize (T5 (clips HC _ _ _ IN Hsim)).
    destruct (tr_ssfr L L_lin K LO HI Em Es (n + n) X dX Y dY W dW H1 H2 H3 H4 HCe T3 T5 T4) as (H & dH & M1 & M2 & M3).
    specialize (HS _ IN). unfold FF, DF in *. rewrite T1, M1 in HS. unfold reshape2, dreshape2, len in *. pose proof M3 as (A & B & _). rewrite (B 0) in HS.
    destruct (Nat.eqb (List.length LO) (nms * nsf)) eqn:EL; [|now elim HS]. apply Nat.eqb_eq in EL.
    exists (fun s => chunks nms nsf (H s)), (chunks nms nsf dH). split; [|split].
    - intros s. rewrite T1, M1, (B s), EL, Nat.eqb_refl. reflexivity.
    - rewrite T2, M2, A, EL, Nat.eqb_refl. reflexivity.
    - apply (cond_reshape L K). rewrite <- EL. exact M3. }
  destruct TV as (ps & dps & V1 & V2 & V3). rewrite (V1 0) in HV.
  destruct (tr_conditional L L_lin K nms nsf Hsf ps dps _ V3 Wt I ids) as (C & dC & C1 & C2 & C3).
  { intros E. rewrite E in HV. discriminate. }
  rewrite (C1 0) in HV. apply scaled_fin in HV as (w & HV). destruct (mse3_all_fin _ _ _ HV) as [_ HF].
  assert (TG : trg (trm (List.length ids) nsf) [] [] (List.length Wt) C dC).
  { destruct C3 as (A & B & D). split; [exact A|]. split; [exact B|]. intros i Hi. apply (D i Hi). apply (proj1 (Forall_forall _ _) HF), nth_In. rewrite B. exact Hi. }
  destruct (tr_mse3 L L_lin K _ _ _ C dC T w TG HV) as (l & dl & E1 & E2 & E3).
  exists (fun s => l s * Fin 1000)%X, (dmul dl (dF 1000)). split; [|split].
  - intros s. rewrite Hu.
    change (match (match vmap (FF s) zs with Some ps => conditional_pdfs nms nsf ps (map (map Fin) Wt) I ids | None => None end) with
          | Some pred => option_map (fun l => l * Fin 1000)%X (mse3 pred (map (map (map Fin)) T)) | None => None end = Some (l s * Fin 1000)%X).
    rewrite (V1 s), (C1 s), (E1 s). reflexivity.
  - change (match vmap DF zs with Some ps => match dconditional_pdfs nms nsf ps (map (map Fin) Wt) I ids with
          | Some pred => option_map (fun l => dmul l (dF 1000)) (dmse3 pred (map (map (map Fin)) T)) | None => None end | None => None end = Some (dmul dl (dF 1000))).
    rewrite V2, C2, E2. reflexivity.
  - apply trx_1000, E3.
Qed.
End Losses.
