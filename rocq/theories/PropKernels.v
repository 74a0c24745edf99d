(** Properties of the parametric kernels: C09, C10, C12, C14-C18, C28. *)
From Coq Require Import Reals Lra Lia List.
From Coquelicot Require Import Coquelicot.
From Verif Require Import XReal ModelUtils ModelKernels ModelSfh SpecCore
  SigmoidProofs QuenchProofs SfhProofs.
Import List ListNotations.
Open Scope R_scope.

(** C09: value and shape of the quenching factor. *)
Theorem C09_quenching_shape : forall qt dt drop rejuv, 0 < dt -> drop <= rejuv -> rejuv <= 0 ->
  exists Q : R -> R,
    (forall x, quenching_kern (Fin x) (Fin qt) (Fin dt) (Fin drop) (Fin rejuv) = Fin (Q x)) /\
    (forall x, x <= qt - dt / 2 -> Q x = 1) /\
    Q qt = pow10R drop /\
    (forall x, qt + dt / 2 <= x -> Q x = pow10R rejuv) /\
    (forall x y, x <= y -> y <= qt -> Q y <= Q x) /\
    (forall x y, qt <= x -> x <= y -> Q x <= Q y) /\
    (forall x, pow10R drop <= Q x <= 1).
Proof. exact quenching_shape. Qed.
Print Assumptions C09_quenching_shape.

Example C09_hyp : 0 < 1 / 3 /\ -1 <= - 1 / 2 /\ - 1 / 2 <= 0.
Proof. lra. Qed.

(** C09 (formula): two triweight steps in log-time. *)
Theorem C09_quenching_formula : forall qt dt drop rejuv x, 0 < dt ->
  quenching_kern (Fin x) (Fin qt) (Fin dt) (Fin drop) (Fin rejuv)
  = Fin (quench_spec qt dt drop rejuv x).
Proof. exact quench_formula. Qed.
Print Assumptions C09_quenching_formula.

(** C10: continuously differentiable everywhere. *)
Theorem C10_quenching_C1 : forall qt dt drop rejuv, 0 < dt ->
  exists Q dQ : R -> R,
    (forall x, quenching_kern (Fin x) (Fin qt) (Fin dt) (Fin drop) (Fin rejuv) = Fin (Q x)) /\
    (forall x, is_derive Q x (dQ x)) /\ (forall x, continuous dQ x).
Proof. exact quenching_C1. Qed.
Print Assumptions C10_quenching_C1.

(** C12: normalisation and envelope of the efficiency. *)
Theorem C12_efficiency_envelope : forall p : DiffstarParams R, d_indx_hi p <= 0 -> 0 <= d_indx_lo p ->
  exists E : R -> R, (forall m, sfr_eff_plaw (Fin m) (map_ms Fin (slice_ms p)) = Fin (E m)) /\
  E (d_lgmcrit p) = d_lgy_at_mcrit p /\
  (forall m, E m <= d_lgy_at_mcrit p + Rmax (d_indx_lo p) (- d_indx_hi p) / 27) /\
  (forall m, m <= d_lgmcrit p ->
     0 <= E m - (d_lgy_at_mcrit p + d_indx_lo p * (m - d_lgmcrit p)) <= (d_indx_lo p - d_indx_hi p) / 27) /\
  (forall m, d_lgmcrit p <= m ->
     0 <= E m - (d_lgy_at_mcrit p + d_indx_hi p * (m - d_lgmcrit p)) <= (d_indx_lo p - d_indx_hi p) / 27).
Proof. exact efficiency_envelope. Qed.
Print Assumptions C12_efficiency_envelope.

Example C12_hyp : let p := mkDiffstar 12 (-10) 1 (-1) 1 (-1) (-1) (- 1 / 2) in
  d_indx_hi p <= 0 /\ 0 <= d_indx_lo p.
Proof. simpl. lra. Qed.

(** C14 *)
Theorem C14_bounded_in_bounds : forall u : DiffstarParams R, exists p,
  get_bounded_diffstar_params (map_d Fin u) = map_d Fin p /\ in_bounds p.
Proof. exact bounded_diffstar_in_bounds. Qed.
Print Assumptions C14_bounded_in_bounds.

(** C15 *)
Theorem C15_unbounded_bounded : forall u : DiffstarParams R,
  get_unbounded_diffstar_params (get_bounded_diffstar_params (map_d Fin u)) = map_d Fin u.
Proof. exact unbounded_bounded_id. Qed.
Print Assumptions C15_unbounded_bounded.

(** C16 *)
Theorem C16_bounded_unbounded : forall p : DiffstarParams R, in_bounds p ->
  get_bounded_diffstar_params (get_unbounded_diffstar_params (map_d Fin p)) = map_d Fin p.
Proof. exact bounded_unbounded_id. Qed.
Print Assumptions C16_bounded_unbounded.

(** The shipped defaults are in bounds. *)
Example C16_hyp : exists p, DEFAULT_DIFFSTAR_PARAMS = map_d Fin p /\ in_bounds p.
Proof.
  exists (mkDiffstar 12 (-10) 1 (-1) 1 (-50725 / 100000) (-101773 / 100000) (-212307 / 1000000)).
  split; [reflexivity|]. unfold in_bounds; simpl; lra.
Qed.

(** C17 *)
Theorem C17_finite_iff_in_bounds : forall p : DiffstarParams R,
  let u := get_unbounded_diffstar_params (map_d Fin p) in
  (isfinite (d_lgmcrit u) = true <-> 9 < d_lgmcrit p < 135 / 10) /\
  (isfinite (d_lgy_at_mcrit u) = true <-> -12 < d_lgy_at_mcrit p < -8) /\
  (isfinite (d_indx_lo u) = true <-> 0 < d_indx_lo p < 5) /\
  (isfinite (d_indx_hi u) = true <-> -5 < d_indx_hi p < 0) /\
  (isfinite (d_lg_qt u) = true <-> 1 / 10 < d_lg_qt p < 2) /\
  (isfinite (d_qlglgdt u) = true <-> -3 < d_qlglgdt p < -1 / 100) /\
  (isfinite (d_lg_drop u) = true <-> -3 < d_lg_drop p < 0) /\
  (d_lg_drop p < 0 -> (isfinite (d_lg_rejuv u) = true <-> d_lg_drop p < d_lg_rejuv p < 0)).
Proof. exact unbounded_finite_iff. Qed.
Print Assumptions C17_finite_iff_in_bounds.

(** C18 *)
Theorem C18_bounding_smooth : exists f1 f2 f3 f4 f5 f6 f7 : R -> R, exists f8 : R -> R -> R,
  (forall u, get_bounded_diffstar_params (map_d Fin u) =
     map_d Fin (mkDiffstar (f1 (d_lgmcrit u)) (f2 (d_lgy_at_mcrit u)) (f3 (d_indx_lo u)) (f4 (d_indx_hi u))
       (f5 (d_lg_qt u)) (f6 (d_qlglgdt u)) (f7 (d_lg_drop u)) (f8 (f7 (d_lg_drop u)) (d_lg_rejuv u)))) /\
  smooth_bounding f1 9 (135 / 10) (1125 / 100) 1 /\
  smooth_bounding f2 (-12) (-8) (-10) 1 /\
  smooth_bounding f3 0 5 (5 / 2) 1 /\
  smooth_bounding f4 (-5) 0 (- 5 / 2) 1 /\
  smooth_bounding f5 (1 / 10) 2 (105 / 100) 1 /\
  smooth_bounding f6 (-3) (-1 / 100) (- 1505 / 1000) 1 /\
  smooth_bounding f7 (-3) 0 (- 3 / 2) 1 /\
  (forall drop, -3 < drop < 0 -> smooth_bounding (f8 drop) drop 0 (- 3 / 2) (- drop / 3)).
Proof. exact bounded_params_smooth. Qed.
Print Assumptions C18_bounding_smooth.

(** C28: the two JAX copies of the triweight cumulative kernel are the integral of the
    triweight density, with the stated shape. *)
Theorem C28_triweight :
  (forall x m h, 0 < h -> tw_cuml_jax_kern (Fin x) (Fin m) (Fin h) = Fin (tw_cdf ((x - m) / h))) /\
  (forall y, jax_tw (Fin y) = Fin (tw_cdf y)) /\
  (forall y, y <= -3 -> tw_cdf y = 0) /\ (forall y, 3 <= y -> tw_cdf y = 1) /\
  (forall x y, x <= y -> tw_cdf x <= tw_cdf y) /\ (forall y, 0 <= tw_cdf y <= 1) /\
  (forall y, tw_cdf (- y) = 1 - tw_cdf y) /\
  (forall y, is_derive tw_cdf y (tw_pdf y)) /\ (forall y, continuous tw_pdf y).
Proof. exact triweight_kernel. Qed.
Print Assumptions C28_triweight.

(** C28 (bins): a bin holds the integral of the density over the bin. *)
Theorem C28_triweight_bin : forall m h L H, 0 < h -> L <= H ->
  tw_bin_jax_kern (Fin m) (Fin h) (Fin L) (Fin H) = Fin (RInt tw_pdf ((L - m) / h) ((H - m) / h)) /\
  0 <= RInt tw_pdf ((L - m) / h) ((H - m) / h) <= 1.
Proof. exact tw_bin_value. Qed.
Print Assumptions C28_triweight_bin.
