(** Properties of the population losses that are not finite: C123. *)
From Coq Require Import Reals Lra Lia ZArith List Bool String.
From Verif Require Import XReal ModelUtils ModelKernels ModelSfh ModelPop ModelHist ModelFit ModelGrad ModelPopTables ModelPopGrad
  SpecCore SpecFit SpecPop SpecHist SpecGrad SpecPopProgram SpecPopGrad SpecPopNaN GradTop PopParamProofs CholeskyProofs PopGradClaims PopGradDemo PopGradNaN PopNaNDemo.
Import List ListNotations.
Local Notation length := List.length (only parsing).
Open Scope R_scope.

(** C123: the stellar-mass loss raises, is finite or is NaN, never infinite; the wrapper raises exactly when the loss does,
    returns its value, and 88 finite derivatives whenever it is finite. *)
Theorem C123_mstar_together : forall (key : Type) split uniform normal lmk, splits_ok split -> normals_ok normal ->
  forall U P, get_bounded_diffstarpop_params (pop_u_params U) = Some (pop_params P) -> slopes_nonzero P ->
  forall (d : MstarLossData key) fb, mstar_data_ok key lmk d fb ->
  together (loss_mstar key split uniform (mvn_of normal) lmk (pop_u_params U) d) (loss_mstar_kern_tobs_grad_wrapper key split normal lmk (flat U) d).
Proof. exact (@mstar_together). Qed.
Print Assumptions C123_mstar_together.

(** C123: the loss in mass and specific star formation rate. *)
Theorem C123_ssfr_together : forall (key : Type) split uniform normal lmk, splits_ok split -> normals_ok normal ->
  forall U P, get_bounded_diffstarpop_params (pop_u_params U) = Some (pop_params P) -> slopes_nonzero P ->
  forall (d : SsfrLossData key) fb, ssfr_data_ok key lmk d fb -> counts_ok key d ->
  together (loss_ssfr key split uniform (mvn_of normal) lmk (pop_u_params U) d) (loss_mstar_ssfr_kern_tobs_grad_wrapper key split normal lmk (flat U) d).
Proof. exact (@ssfr_together). Qed.
Print Assumptions C123_ssfr_together.

(** C123: the sum of the two. *)
Theorem C123_combined_together : forall (key : Type) split uniform normal lmk, splits_ok split -> normals_ok normal ->
  forall U P, get_bounded_diffstarpop_params (pop_u_params U) = Some (pop_params P) -> slopes_nonzero P ->
  forall (dm : MstarLossData key) (dc : SsfrLossData key) fb fb', mstar_data_ok key lmk dm fb -> ssfr_data_ok key lmk dc fb' -> counts_ok key dc ->
  together (loss_combined_kern key split uniform (mvn_of normal) lmk (pop_u_params U) dm dc) (loss_combined_wrapper key split normal lmk (flat U) dm dc).
Proof. exact (@combined_together). Qed.
Print Assumptions C123_combined_together.

(** C123: the sum with separate centrals and satellites. *)
Theorem C123_combined_3loss_together : forall (key : Type) split uniform normal lmk, splits_ok split -> normals_ok normal ->
  forall U P, get_bounded_diffstarpop_params (pop_u_params U) = Some (pop_params P) -> slopes_nonzero P ->
  forall (dm : MstarLossData key) (dc ds : SsfrLossData key) fb fb' fb'',
  mstar_data_ok key lmk dm fb -> ssfr_data_ok key lmk dc fb' -> ssfr_data_ok key lmk ds fb'' -> counts_ok key dc -> counts_ok key ds ->
  together (loss_combined_3loss_kern key split uniform (mvn_of normal) lmk (pop_u_params U) dm dc ds)
    (loss_combined_3loss_wrapper key split normal lmk (flat U) dm dc ds).
Proof. exact (@combined3_together). Qed.
Print Assumptions C123_combined_3loss_together.

(** The finite case occurs. *)
Example C123_hyp : splits_ok demo_split /\ normals_ok demo_normal /\ exists U P dm vm dc vc,
  get_bounded_diffstarpop_params (pop_u_params U) = Some (pop_params P) /\ slopes_nonzero P /\
  mstar_data_ok unit ex_lmk dm 10 /\ ssfr_data_ok unit ex_lmk dc 10 /\ counts_ok unit dc /\
  loss_mstar unit demo_split demo_uniform (mvn_of demo_normal) ex_lmk (pop_u_params U) dm = Some (Fin vm) /\
  loss_ssfr unit demo_split demo_uniform (mvn_of demo_normal) ex_lmk (pop_u_params U) dc = Some (Fin vc).
Proof. exact (conj demo_split_ok (conj demo_normal_ok demo_finite)). Qed.

(** C123: one redshift whose simulated masses all miss the mass bins by three mean bin widths turns the loss into NaN. *)
Theorem C123_empty_redshift : forall (key : Type) split uniform normal lmk, splits_ok split -> normals_ok normal ->
  forall U P, get_bounded_diffstarpop_params (pop_u_params U) = Some (pop_params P) -> slopes_nonzero P ->
  forall (d : MstarLossData key) fb E z, mstar_data_ok key lmk d fb -> ml_bins key d = map Fin E -> In z (ml_zs key d) ->
  out_of_bins key split uniform (mvn_of normal) lmk (pop_params P) (ml_lgt0 key d) fb E z ->
  loss_mstar key split uniform (mvn_of normal) lmk (pop_u_params U) d <> None ->
  loss_mstar key split uniform (mvn_of normal) lmk (pop_u_params U) d = Some NaN /\
  exists g, length g = 88%nat /\ loss_mstar_kern_tobs_grad_wrapper key split normal lmk (flat U) d = Some (NaN, g).
Proof. exact (@mstar_empty). Qed.
Print Assumptions C123_empty_redshift.

(** The NaN case occurs. *)
Example C123_empty_hyp : exists U P d E, get_bounded_diffstarpop_params (pop_u_params U) = Some (pop_params P) /\ slopes_nonzero P /\
  mstar_data_ok unit ex_lmk d 10 /\ ml_bins unit d = map Fin E /\ ml_zs unit d = [demo_z (-1, 7)%Z] /\
  out_of_bins unit demo_split demo_uniform (mvn_of demo_normal) ex_lmk (pop_params P) (ml_lgt0 unit d) 10 E (demo_z (-1, 7)%Z) /\
  loss_mstar unit demo_split demo_uniform (mvn_of demo_normal) ex_lmk (pop_u_params U) d <> None.
Proof. exact demo_empty. Qed.
