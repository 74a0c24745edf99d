(** Gradients of the four population losses. *)
From Coq Require Import Reals Lra Lia.
From Coquelicot Require Import Coquelicot.
From Coq Require Import List Bool ZArith QArith String.
From Verif Require Import XReal XFacts RealFacts ModelUtils ModelKernels ModelSfh ModelPop ModelHist ModelFit ModelGrad ModelPopTables ModelPopGrad
  SpecCore SpecPop SpecHist SpecGrad SpecPopProgram SpecPopGrad SigmoidProofs HistProofs PopParamProofs
  PopGradProofs PopGradTables PopGradGal PopGradHist PopGradLoss PopGradTop.
Import List ListNotations.
Open Scope R_scope.

Lemma move_0 U V : pop_u_params (pop_move U V 0) = pop_u_params U.
Proof. unfold pop_u_params. apply map_ext. intros n. unfold pop_move. rewrite Rmult_0_l, Rplus_0_r. reflexivity. Qed.
Lemma pm_params U V P : get_bounded_diffstarpop_params (pop_u_params U) = Some (pop_params P) -> pop_params (Pm U V 0) = pop_params P.
Proof. intros H. unfold pop_params. apply map_ext_in. intros n Hn. rewrite (pm_0 U V P H n Hn). reflexivity. Qed.
Lemma slopes_in : forallb (fun n => existsb (String.eqb n) pop_names) pop_slopes = true.
Proof. vm_compute. reflexivity. Qed.
Lemma pm_slopes U V P : get_bounded_diffstarpop_params (pop_u_params U) = Some (pop_params P) -> slopes_nonzero P -> slopes_nonzero (Pm U V 0).
Proof.
  intros H HS. unfold slopes_nonzero in *. rewrite Forall_forall in *. intros n Hn. rewrite (pm_0 U V P H); [apply HS, Hn|].
  pose proof slopes_in as Q. rewrite forallb_forall in Q. specialize (Q n Hn). apply existsb_exists in Q as (m & Hm & E). apply String.eqb_eq in E. subst m. exact Hm.
Qed.
Lemma pm_bounds U V s : pop_in_bounds (Pm U V s).
Proof.
  apply Forall_forall. intros r Hr. unfold Pm. rewrite by_rows_ok by exact Hr.
  assert (L := rows_lt). rewrite Forall_forall in L. unfold pbR. apply sigR_range. now apply L.
Qed.

(** The derivative along one direction. *)
Definition grad_along (loss : nt xr -> option xr) (U : string -> R) (g : list R) (V : string -> R) : Prop :=
  exists f : R -> R, locally 0 (fun s => loss (pop_u_params (pop_move U V s)) = Some (Fin (f s))) /\ is_derive f 0 (inner g (map V pop_names)).
Lemma grad_of (loss : nt xr -> option xr) (dloss : nt dual -> option dual) U v (K : (string -> R) -> Prop) : loss (pop_u_params U) = Some (Fin v) ->
  (forall V, exists l dl, (forall s, loss (pop_u_params (pop_move U V s)) = Some (l s)) /\ dloss (du U) = Some dl /\ trx (LV V) (K V) l dl) ->
  exists g, List.length g = 88%nat /\ value_and_grad dloss (flat U) = Some (Fin v, map Fin g) /\ (forall V, K V -> grad_along loss U g V).
Proof.
  intros HV H. destruct (H (fun _ => 0)) as (l0 & dl & A0 & B & C0).
  destruct C0 as (g0 & g' & _ & _ & _ & G' & _).
  exists (map g' (seq 0 88)). split; [rewrite map_length, seq_length; reflexivity|]. split.
  - unfold value_and_grad. rewrite du_made, B. destruct (H (fun _ => 0)) as (l & dl' & A & B' & C). rewrite B in B'. apply Some_inj in B'. subst dl'.
    rewrite (trx_fst _ _ _ _ C). specialize (A 0). rewrite move_0, HV in A. apply Some_inj in A. rewrite <- A. f_equal. f_equal.
    unfold flat. rewrite map_length. change (List.length pop_names) with 88%nat. rewrite map_map. apply map_ext. intros i. apply G'.
  - intros V k. destruct (H V) as (l & dl' & A & B' & (g & g1 & C1 & _ & _ & C2 & C3)). rewrite B in B'. apply Some_inj in B'. subst dl'.
    exists g. split; [revert C1; apply filter_imp; intros s E; rewrite A, E; reflexivity|]. specialize (C3 k).
    replace (inner (map g' (seq 0 88)) (map V pop_names)) with (LV V g1); [exact C3|]. unfold LV, inner. f_equal. f_equal. apply map_ext. intros i.
    assert (E : Fin (g1 i) = Fin (g' i)) by (rewrite <- G', <- C2; reflexivity). exact (f_equal (fun x => match x with Fin r => r | _ => 0 end) E).
Qed.

Section Claims.
Context {key : Type}.
Variable split : key -> nat -> list key.
Variable uniform : key -> xr.
Variable normal : key -> nat -> list xr.
Variable lmk : MahParams xr -> xr -> xr -> xr.
Hypothesis Hsplit : splits_ok split.
Hypothesis Hn : normals_ok normal.
Notation mvn := (mvn_of normal).
Variables U P : string -> R.
Hypothesis HP : get_bounded_diffstarpop_params (pop_u_params U) = Some (pop_params P).
Hypothesis HS : slopes_nonzero P.

Notation loss_m d := (fun u => loss_mstar key split uniform mvn lmk u d).
Notation loss_s d := (fun u => loss_ssfr key split uniform mvn lmk u d).
Notation m_smooth d fb := (smooth_sfr key split uniform mvn lmk (pop_params P) (ml_lgt0 key d) fb (ml_zs key d)).
Notation s_smooth d fb := (smooth_sfr key split uniform mvn lmk (pop_params P) (sl_lgt0 key d) fb (sl_zs key d) /\
  smooth_ssfr key split uniform mvn lmk (pop_params P) (sl_lgt0 key d) fb (sl_zs key d)).
Notation still_m V d := (unmoved split uniform normal (fun s => pop_params (Pm U V s)) (ml_zs key d)).
Notation still_s V d := (unmoved split uniform normal (fun s => pop_params (Pm U V s)) (sl_zs key d)).
Lemma run_mstar (K : Prop) V d fb v : mstar_data_ok key lmk d fb -> (K -> m_smooth d fb \/ still_m V d) -> loss_m d (pop_u_params U) = Some (Fin v) ->
  exists l dl, (forall s, loss_m d (pop_u_params (pop_move U V s)) = Some (l s)) /\ dloss_mstar key split normal lmk (du U) d = Some dl /\ trx (LV V) K l dl.
Proof.
  intros (E & T & Ed & Hz & HE & HI) HK HV. rewrite <- (pm_params U V P HP) in HK. rewrite <- (move_0 U V) in HV. cbn beta in *. rewrite Ed in HV |- *.
  exact (tr_loss_mstar (LV V) (LV_lin V) K split uniform normal lmk Hsplit Hn (fun s => pop_u_params (pop_move U V s)) (fun s => pop_params (Pm U V s)) (Pm U V)
    (du U) (dpb U) (bounded_move U V) (dbounded U) (fun s => holds_params _) (pok_bounded U V K) (pm_bounds U V 0) (pm_slopes U V P HP HS) _ _ fb Hz HK E T v HE HI HV).
Qed.
Lemma run_ssfr (K : Prop) V d fb v : ssfr_data_ok key lmk d fb -> (K -> s_smooth d fb \/ still_s V d) -> loss_s d (pop_u_params U) = Some (Fin v) ->
  exists l dl, (forall s, loss_s d (pop_u_params (pop_move U V s)) = Some (l s)) /\ dloss_ssfr key split normal lmk (du U) d = Some dl /\ trx (LV V) K l dl.
Proof.
  intros (LO & HI & Em & Es & W & I & ids & T & Ed & Hz & H1 & H2 & H3 & H4 & HC) HK HV. rewrite <- (pm_params U V P HP) in HK. rewrite <- (move_0 U V) in HV. cbn beta in *. rewrite Ed in HV |- *.
  exact (tr_loss_ssfr (LV V) (LV_lin V) K split uniform normal lmk Hsplit Hn (fun s => pop_u_params (pop_move U V s)) (fun s => pop_params (Pm U V s)) (Pm U V)
    (du U) (dpb U) (bounded_move U V) (dbounded U) (fun s => holds_params _) (pok_bounded U V K) (pm_bounds U V 0) (pm_slopes U V P HP HS) _ _ fb Hz (fun k => ltac:(destruct (HK k); tauto)) (fun k => ltac:(destruct (HK k); tauto))
    LO HI Em Es W I ids T v H1 H2 H3 H4 HC HV).
Qed.

Lemma mstar_along d fb v : mstar_data_ok key lmk d fb -> loss_mstar key split uniform mvn lmk (pop_u_params U) d = Some (Fin v) ->
  exists g, List.length g = 88%nat /\ loss_mstar_kern_tobs_grad_wrapper key split normal lmk (flat U) d = Some (Fin v, map Fin g) /\
    (forall V, m_smooth d fb \/ still_m V d -> grad_along (loss_m d) U g V).
Proof. intros Hd HV. apply (grad_of (loss_m d) _ U v (fun V => m_smooth d fb \/ still_m V d)); [exact HV|]. intros V. apply (run_mstar _ V d fb v Hd); [tauto|exact HV]. Qed.
Lemma ssfr_along d fb v : ssfr_data_ok key lmk d fb -> loss_ssfr key split uniform mvn lmk (pop_u_params U) d = Some (Fin v) ->
  exists g, List.length g = 88%nat /\ loss_mstar_ssfr_kern_tobs_grad_wrapper key split normal lmk (flat U) d = Some (Fin v, map Fin g) /\
    (forall V, s_smooth d fb \/ still_s V d -> grad_along (loss_s d) U g V).
Proof. intros Hd HV. apply (grad_of (loss_s d) _ U v (fun V => s_smooth d fb \/ still_s V d)); [exact HV|]. intros V. apply (run_ssfr _ V d fb v Hd); [tauto|exact HV]. Qed.
Lemma combined_along dm dc fb fb' v : mstar_data_ok key lmk dm fb -> ssfr_data_ok key lmk dc fb' ->
  loss_combined_kern key split uniform mvn lmk (pop_u_params U) dm dc = Some (Fin v) ->
  exists g, List.length g = 88%nat /\ loss_combined_wrapper key split normal lmk (flat U) dm dc = Some (Fin v, map Fin g) /\
    (forall V, (m_smooth dm fb \/ still_m V dm) /\ (s_smooth dc fb' \/ still_s V dc) -> grad_along (fun u => loss_combined_kern key split uniform mvn lmk u dm dc) U g V).
Proof.
  intros Hm Hc HV. apply (grad_of (fun u => loss_combined_kern key split uniform mvn lmk u dm dc) (fun u => match dloss_ssfr key split normal lmk u dc, dloss_mstar key split normal lmk u dm with
      | Some a, Some b => Some (dadd a b) | _, _ => None end) U v (fun V => (m_smooth dm fb \/ still_m V dm) /\ (s_smooth dc fb' \/ still_s V dc)) HV).
  intros V. unfold loss_combined_kern in *. destruct (loss_ssfr key split uniform mvn lmk (pop_u_params U) dc) as [a|] eqn:Ea; [|discriminate].
  destruct (loss_mstar key split uniform mvn lmk (pop_u_params U) dm) as [b|] eqn:Eb; [|discriminate]. apply Some_inj in HV.
  apply xadd_fin_inv in HV as (x & y & -> & ->).
  destruct (run_mstar ((m_smooth dm fb \/ still_m V dm) /\ (s_smooth dc fb' \/ still_s V dc)) V dm fb y Hm (fun k => proj1 k) Eb) as (l1 & d1 & A1 & A2 & A3).
  destruct (run_ssfr ((m_smooth dm fb \/ still_m V dm) /\ (s_smooth dc fb' \/ still_s V dc)) V dc fb' x Hc (fun k => proj2 k) Ea) as (l2 & d2 & B1 & B2 & B3). cbn beta in *.
  exists (fun s => l2 s + l1 s)%X, (dadd d2 d1). split; [intros s; rewrite A1, B1; reflexivity|]. split; [rewrite A2, B2; reflexivity|].
  apply (trx_add (LV V) (LV_lin V)); assumption.
Qed.
Lemma combined3_along dm dc ds fb fb' fb'' v : mstar_data_ok key lmk dm fb -> ssfr_data_ok key lmk dc fb' -> ssfr_data_ok key lmk ds fb'' ->
  loss_combined_3loss_kern key split uniform mvn lmk (pop_u_params U) dm dc ds = Some (Fin v) ->
  exists g, List.length g = 88%nat /\ loss_combined_3loss_wrapper key split normal lmk (flat U) dm dc ds = Some (Fin v, map Fin g) /\
    (forall V, (m_smooth dm fb \/ still_m V dm) /\ (s_smooth dc fb' \/ still_s V dc) /\ (s_smooth ds fb'' \/ still_s V ds) ->
     grad_along (fun u => loss_combined_3loss_kern key split uniform mvn lmk u dm dc ds) U g V).
Proof.
  intros Hm Hc Hd HV. apply (grad_of (fun u => loss_combined_3loss_kern key split uniform mvn lmk u dm dc ds)
      (fun u => match dloss_ssfr key split normal lmk u dc, dloss_ssfr key split normal lmk u ds, dloss_mstar key split normal lmk u dm with
        | Some cen, Some sat, Some m => Some (dadd (dadd cen m) sat) | _, _, _ => None end) U v
      (fun V => (m_smooth dm fb \/ still_m V dm) /\ (s_smooth dc fb' \/ still_s V dc) /\ (s_smooth ds fb'' \/ still_s V ds)) HV).
  intros V. unfold loss_combined_3loss_kern in *. destruct (loss_ssfr key split uniform mvn lmk (pop_u_params U) dc) as [a|] eqn:Ea; [|discriminate].
  destruct (loss_ssfr key split uniform mvn lmk (pop_u_params U) ds) as [c|] eqn:Ec; [|discriminate].
  destruct (loss_mstar key split uniform mvn lmk (pop_u_params U) dm) as [b|] eqn:Eb; [|discriminate]. apply Some_inj in HV.
  apply xadd_fin_inv in HV as (w & q & HV & ->). apply xadd_fin_inv in HV as (x & y & -> & ->).
  set (K := (m_smooth dm fb \/ still_m V dm) /\ (s_smooth dc fb' \/ still_s V dc) /\ (s_smooth ds fb'' \/ still_s V ds)).
  destruct (run_mstar K V dm fb y Hm (fun k => proj1 k) Eb) as (l1 & d1 & A1 & A2 & A3).
  destruct (run_ssfr K V dc fb' x Hc (fun k => proj1 (proj2 k)) Ea) as (l2 & d2 & B1 & B2 & B3).
  destruct (run_ssfr K V ds fb'' q Hd (fun k => proj2 (proj2 k)) Ec) as (l3 & d3 & C1 & C2 & C3). cbn beta in *.
  exists (fun s => l2 s + l1 s + l3 s)%X, (dadd (dadd d2 d1) d3). split; [intros s; rewrite A1, B1, C1; reflexivity|]. split; [rewrite A2, B2, C2; reflexivity|].
  apply (trx_add (LV V) (LV_lin V)); [apply (trx_add (LV V) (LV_lin V)); assumption|assumption].
Qed.

Lemma mstar_gradient d fb v : mstar_data_ok key lmk d fb -> loss_mstar key split uniform mvn lmk (pop_u_params U) d = Some (Fin v) ->
  exists g, List.length g = 88%nat /\ loss_mstar_kern_tobs_grad_wrapper key split normal lmk (flat U) d = Some (Fin v, map Fin g) /\
    (m_smooth d fb -> is_gradient (loss_m d) U g).
Proof. intros Hd HV. destruct (mstar_along d fb v Hd HV) as (g & G1 & G2 & G3). exists g. split; [exact G1|]. split; [exact G2|]. intros S V. apply G3. tauto. Qed.
Lemma ssfr_gradient d fb v : ssfr_data_ok key lmk d fb -> loss_ssfr key split uniform mvn lmk (pop_u_params U) d = Some (Fin v) ->
  exists g, List.length g = 88%nat /\ loss_mstar_ssfr_kern_tobs_grad_wrapper key split normal lmk (flat U) d = Some (Fin v, map Fin g) /\
    (s_smooth d fb -> is_gradient (loss_s d) U g).
Proof. intros Hd HV. destruct (ssfr_along d fb v Hd HV) as (g & G1 & G2 & G3). exists g. split; [exact G1|]. split; [exact G2|]. intros S V. apply G3. tauto. Qed.
Lemma combined_gradient dm dc fb fb' v : mstar_data_ok key lmk dm fb -> ssfr_data_ok key lmk dc fb' ->
  loss_combined_kern key split uniform mvn lmk (pop_u_params U) dm dc = Some (Fin v) ->
  exists g, List.length g = 88%nat /\ loss_combined_wrapper key split normal lmk (flat U) dm dc = Some (Fin v, map Fin g) /\
    (m_smooth dm fb -> s_smooth dc fb' -> is_gradient (fun u => loss_combined_kern key split uniform mvn lmk u dm dc) U g).
Proof.
  intros Hm Hc HV. destruct (combined_along dm dc fb fb' v Hm Hc HV) as (g & G1 & G2 & G3). exists g. split; [exact G1|]. split; [exact G2|].
  intros S1 S2 V. apply G3. tauto.
Qed.
Lemma combined3_gradient dm dc ds fb fb' fb'' v : mstar_data_ok key lmk dm fb -> ssfr_data_ok key lmk dc fb' -> ssfr_data_ok key lmk ds fb'' ->
  loss_combined_3loss_kern key split uniform mvn lmk (pop_u_params U) dm dc ds = Some (Fin v) ->
  exists g, List.length g = 88%nat /\ loss_combined_3loss_wrapper key split normal lmk (flat U) dm dc ds = Some (Fin v, map Fin g) /\
    (m_smooth dm fb -> s_smooth dc fb' -> s_smooth ds fb'' -> is_gradient (fun u => loss_combined_3loss_kern key split uniform mvn lmk u dm dc ds) U g).
Proof.
  intros Hm Hc Hd HV. destruct (combined3_along dm dc ds fb fb' fb'' v Hm Hc Hd HV) as (g & G1 & G2 & G3). exists g. split; [exact G1|]. split; [exact G2|].
  intros S1 S2 S3 V. apply G3. tauto.
Qed.
End Claims.
