(** Properties of the prediction wrappers of the population losses and of the parameter
    transforms of arrays of galaxies: C129, C130. *)
From Coq Require Import Reals Lra Lia ZArith List Bool String.
From Verif Require Import XReal ModelUtils ModelKernels ModelSfh ModelPop ModelHist ModelFit ModelGrad ModelPopTables ModelPopGrad ModelWrappers
  SpecCore SpecFit SpecPop SpecHist SpecGrad SpecPopProgram SpecPopGrad SpecPopNaN SpecWrappers GradTop PopParamProofs CholeskyProofs PopGradClaims PopGradDemo
  PopGradNaN PopNaNDemo WrapperProofs.
Import List ListNotations.
Local Notation length := List.length (only parsing).
Open Scope R_scope.

(** C129: a finite stellar-mass loss is the score of the prediction of the wrapper against the target. *)
Theorem C129_mstar_scored : forall (key : Type) split uniform normal lmk, splits_ok split -> normals_ok normal ->
  forall U P, get_bounded_diffstarpop_params (pop_u_params U) = Some (pop_params P) -> slopes_nonzero P ->
  forall (d : MstarLossData key) fb v g, mstar_data_ok key lmk d fb ->
  loss_mstar_kern_tobs_grad_wrapper key split normal lmk (flat U) d = Some (Fin v, g) ->
  exists pred target, get_pred_mstar key split uniform (mvn_of normal) lmk (flat U) d = Some (map (map Fin) pred) /\
    ml_target key d = map (map Fin) target /\ scores2 v pred target.
Proof. exact mstar_scored. Qed.
Print Assumptions C129_mstar_scored.

(** C129: the same for the loss in mass and specific star formation rate, of centrals and of satellites. *)
Theorem C129_ssfr_scored : forall (key : Type) split uniform normal lmk, splits_ok split -> normals_ok normal ->
  forall U P, get_bounded_diffstarpop_params (pop_u_params U) = Some (pop_params P) -> slopes_nonzero P ->
  forall (d : SsfrLossData key) fb v g, ssfr_data_ok key lmk d fb -> counts_ok key d ->
  loss_mstar_ssfr_kern_tobs_grad_wrapper key split normal lmk (flat U) d = Some (Fin v, g) ->
  exists pred target, get_pred_mstar_ssfr_data_wrapper key split uniform (mvn_of normal) lmk (flat U) d = Some (map (map (map Fin)) pred) /\
    sl_target key d = map (map (map Fin)) target /\ scores3 v pred target.
Proof. exact ssfr_scored. Qed.
Print Assumptions C129_ssfr_scored.

(** C129: conversely, a finite prediction with the shape of the target has a finite loss and gradient. *)
Theorem C129_mstar_finite : forall (key : Type) split uniform normal lmk, splits_ok split -> normals_ok normal ->
  forall U P, get_bounded_diffstarpop_params (pop_u_params U) = Some (pop_params P) -> slopes_nonzero P ->
  forall (d : MstarLossData key) fb pred target, mstar_data_ok key lmk d fb ->
  get_pred_mstar key split uniform (mvn_of normal) lmk (flat U) d = Some (map (map Fin) pred) -> ml_target key d = map (map Fin) target ->
  map (@length R) pred = map (@length R) target -> List.concat pred <> [] ->
  exists v g, loss_mstar_kern_tobs_grad_wrapper key split normal lmk (flat U) d = Some (Fin v, map Fin g) /\ length g = 88%nat /\ scores2 v pred target.
Proof. exact mstar_back. Qed.
Print Assumptions C129_mstar_finite.

Theorem C129_ssfr_finite : forall (key : Type) split uniform normal lmk, splits_ok split -> normals_ok normal ->
  forall U P, get_bounded_diffstarpop_params (pop_u_params U) = Some (pop_params P) -> slopes_nonzero P ->
  forall (d : SsfrLossData key) fb pred target, ssfr_data_ok key lmk d fb -> counts_ok key d ->
  get_pred_mstar_ssfr_data_wrapper key split uniform (mvn_of normal) lmk (flat U) d = Some (map (map (map Fin)) pred) -> sl_target key d = map (map (map Fin)) target ->
  map (map (@length R)) pred = map (map (@length R)) target -> List.concat (List.concat pred) <> [] ->
  exists v g, loss_mstar_ssfr_kern_tobs_grad_wrapper key split normal lmk (flat U) d = Some (Fin v, map Fin g) /\ length g = 88%nat /\ scores3 v pred target.
Proof. exact ssfr_back. Qed.
Print Assumptions C129_ssfr_finite.

(** C129: a prediction never depends on the target, and needs 88 parameters. *)
Theorem C129_target_unused : forall key split uniform mvn lmk l zs lgt0 fb bins data t t' t3 t3',
  get_pred_mstar key split uniform mvn lmk l (mkML key zs lgt0 fb bins t) = get_pred_mstar key split uniform mvn lmk l (mkML key zs lgt0 fb bins t') /\
  get_pred_mstar_ssfr_data_wrapper key split uniform mvn lmk l (mkSL key zs lgt0 fb data t3)
  = get_pred_mstar_ssfr_data_wrapper key split uniform mvn lmk l (mkSL key zs lgt0 fb data t3').
Proof. exact pred_ignores_target. Qed.
Print Assumptions C129_target_unused.

Theorem C129_wrong_length : forall key split uniform mvn lmk l (dm : MstarLossData key) (dc : SsfrLossData key), length l <> 88%nat ->
  get_pred_mstar key split uniform mvn lmk l dm = None /\ get_pred_mstar_ssfr_data_wrapper key split uniform mvn lmk l dc = None.
Proof. exact pred_wrong_length. Qed.
Print Assumptions C129_wrong_length.

(** Both losses are finite for the default parameters and two simulated galaxies. *)
Example C129_hyp : splits_ok demo_split /\ normals_ok demo_normal /\
  exists U P dm vm gm dc vc gc, get_bounded_diffstarpop_params (pop_u_params U) = Some (pop_params P) /\ slopes_nonzero P /\
  mstar_data_ok unit ex_lmk dm 10 /\ ssfr_data_ok unit ex_lmk dc 10 /\ counts_ok unit dc /\
  loss_mstar_kern_tobs_grad_wrapper unit demo_split demo_normal ex_lmk (flat U) dm = Some (Fin vm, gm) /\
  loss_mstar_ssfr_kern_tobs_grad_wrapper unit demo_split demo_normal ex_lmk (flat U) dc = Some (Fin vc, gc).
Proof. exact (conj demo_split_ok (conj demo_normal_ok demo_scored)). Qed.

(** C130: bounding an array of galaxies gives rows within the bounds, and unbounding gives the array back. *)
Theorem C130_ms_round_trip : forall us, exists ps, get_bounded_sfr_params_vmap (map ms_row us) = Some (map ms_row ps) /\
  length ps = length us /\ Forall ms_in_bounds ps /\ get_unbounded_sfr_params_vmap (map ms_row ps) = Some (map ms_row us).
Proof. exact ms_vmap. Qed.
Print Assumptions C130_ms_round_trip.

Theorem C130_q_round_trip : forall us, exists ps, get_bounded_q_params_vmap (map q_row us) = Some (map q_row ps) /\
  length ps = length us /\ Forall q_in_bounds ps /\ get_unbounded_q_params_vmap (map q_row ps) = Some (map q_row us).
Proof. exact q_vmap. Qed.
Print Assumptions C130_q_round_trip.

(** C130: every array within the bounds comes from an unbounded one. *)
Theorem C130_ms_onto : forall ps, Forall ms_in_bounds ps -> exists us, get_unbounded_sfr_params_vmap (map ms_row ps) = Some (map ms_row us) /\
  get_bounded_sfr_params_vmap (map ms_row us) = Some (map ms_row ps).
Proof. exact ms_vmap_back. Qed.
Print Assumptions C130_ms_onto.

Theorem C130_q_onto : forall ps, Forall q_in_bounds ps -> exists us, get_unbounded_q_params_vmap (map q_row ps) = Some (map q_row us) /\
  get_bounded_q_params_vmap (map q_row us) = Some (map q_row ps).
Proof. exact q_vmap_back. Qed.
Print Assumptions C130_q_onto.

(** C130: side by side, the two arrays hold what the single-galaxy transform gives for each galaxy. *)
Theorem C130_rows_are_single_galaxies : forall us : list (DiffstarParams R),
  exists ms q, get_bounded_sfr_params_vmap (map (fun u => ms_row (slice_ms u)) us) = Some ms /\
    get_bounded_q_params_vmap (map (fun u => q_row (slice_q u)) us) = Some q /\
    map2 (fun a b => a ++ b) ms q = map (fun u => d_array (get_bounded_diffstar_params (map_d Fin u))) us.
Proof. exact rows_single. Qed.
Print Assumptions C130_rows_are_single_galaxies.

(** C130: a row of any length but four raises. *)
Theorem C130_wrong_columns : forall l l1 l2, length l <> 4%nat ->
  get_bounded_sfr_params_vmap (l1 ++ l :: l2) = None /\ get_unbounded_sfr_params_vmap (l1 ++ l :: l2) = None /\
  get_bounded_q_params_vmap (l1 ++ l :: l2) = None /\ get_unbounded_q_params_vmap (l1 ++ l :: l2) = None.
Proof. exact row_length_raises. Qed.
Print Assumptions C130_wrong_columns.

(** C130: the transforms of one quenching parameter agree with the transform of all four. *)
Theorem C130_drop : forall u, exists v, get_bounded_lg_drop (Fin u) = Fin v /\ -3 < v < 0 /\ get_unbounded_lg_drop (Fin v) = Fin u.
Proof. exact single_drop. Qed.
Print Assumptions C130_drop.

Theorem C130_qt : forall u, exists v, get_bounded_qt (Fin u) = Fin v /\ 1 / 10 < v < 2.
Proof. exact single_qt. Qed.
Print Assumptions C130_qt.

Theorem C130_one_parameter : forall u : QParams xr, get_bounded_qt (lg_qt u) = lg_qt (get_bounded_q_params u) /\
  get_bounded_lg_drop (lg_drop u) = lg_drop (get_bounded_q_params u) /\
  get_bounded_lg_rejuv (lg_rejuv u) (get_bounded_lg_drop (lg_drop u)) = lg_rejuv (get_bounded_q_params u) /\
  get_unbounded_lg_drop (lg_drop u) = lg_drop (get_unbounded_q_params u).
Proof. exact single_agree. Qed.
Print Assumptions C130_one_parameter.

(** Two galaxies within the bounds. *)
Example C130_hyp : Forall ms_in_bounds [mkMS 12 (-10) 1 (-1); mkMS 13 (-9) 4 (-4)] /\ Forall q_in_bounds [mkQ 1 (-1) (-2) (-1); mkQ (1 / 2) (-2) (-1) (-1 / 2)].
Proof. unfold ms_in_bounds, q_in_bounds. repeat constructor; cbn; lra. Qed.
