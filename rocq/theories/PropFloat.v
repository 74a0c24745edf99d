(** Properties of the parameter transforms in binary32, as jax computes them: C106-C108. *)
From Coq Require Import Reals Lra List Bool String QArith Qreals ZArith.
From Flocq Require Import Core.Core IEEE754.BinarySingleNaN.
From Verif Require Import ModelUtils ModelKernels ModelSfh ModelPopTables ModelPop ModelFloat SpecPop SpecFloat32
  PopParamProofs FloatDemo FloatApi.
Import ListNotations.
Open Scope R_scope.

(** C106: whatever the unbounded parameters, the eight bounded ones are finite and seven stay
    in their closed intervals; [qlglgdt] may exceed its upper bound by 1e-8. *)
Theorem C106_eight_in_range : forall s fused u, sigmoid_range s -> all_eight number u ->
  let p := get_bounded_diffstar_params32 s fused u in
  inside32 9 (27 # 2) (d_lgmcrit p) /\ inside32 (-12) (-8) (d_lgy_at_mcrit p) /\
  inside32 0 5 (d_indx_lo p) /\ inside32 (-5) 0 (d_indx_hi p) /\ inside32 (1 # 10) 2 (d_lg_qt p) /\
  (is_finite (d_qlglgdt p) = true /\ -3 <= B2R (d_qlglgdt p) <= - 41943 / 4194304) /\
  inside32 (-3) 0 (d_lg_drop p) /\
  (is_finite (d_lg_rejuv p) = true /\ B2R (d_lg_drop p) <= B2R (d_lg_rejuv p) <= 0).
Proof. exact eight_range. Qed.
Print Assumptions C106_eight_in_range.

(** C106: likewise for the 88 population parameters, with [qphi_lgmu_crit] the exception. *)
Theorem C106_population_in_range : forall s fused u U, sigmoid_range s ->
  (forall n, In n pop_names -> assoc ("u_" ++ n) u = Some (U n)) -> (forall n, In n pop_names -> number (U n)) ->
  exists p, get_bounded_diffstarpop_params32 s fused u = Some p /\ map fst p = pop_names /\
    (forall n lo hi, In (n, (lo, hi)) POP_BOUNDS -> n <> "qphi_lgmu_crit"%string ->
       exists r, assoc n p = Some r /\ inside32 lo hi r) /\
    exists r, assoc "qphi_lgmu_crit" p = Some r /\ is_finite r = true /\ -4 <= B2R r <= - 1677720 / 16777216.
Proof. exact pop_range_all. Qed.
Print Assumptions C106_population_in_range.

(** C106: from 50 on, [qlglgdt] is above its upper bound -0.01 and above the number -0.01 rounds to. *)
Theorem C106_qlglgdt_leaves : forall s fused u, sigmoid_saturates s -> at_least 50 (d_qlglgdt u) ->
  let r := d_qlglgdt (get_bounded_diffstar_params32 s fused u) in
  is_finite r = true /\ B2R r = - 41943 / 4194304 /\ - 1 / 100 < B2R r /\ near32 (- 1 / 100) < B2R r.
Proof. exact eight_leaves. Qed.
Print Assumptions C106_qlglgdt_leaves.

Theorem C106_bounds_kept_refuted : ~ (forall s fused u, sigmoid_range s -> sigmoid_saturates s -> sigmoid_accurate s ->
  all_eight (fun x => is_finite x = true) u ->
  B2R (d_qlglgdt (get_bounded_diffstar_params32 s fused u)) <= near32 (- 1 / 100)).
Proof. exact not_kept. Qed.
Print Assumptions C106_bounds_kept_refuted.

(** C106: from 250 on, [qphi_lgmu_crit] is above its upper bound -0.1. *)
Theorem C106_qphi_leaves : forall s fused u U, sigmoid_saturates s ->
  (forall n, In n pop_names -> assoc ("u_" ++ n) u = Some (U n)) -> at_least 250 (U "qphi_lgmu_crit"%string) ->
  exists p r, get_bounded_diffstarpop_params32 s fused u = Some p /\ assoc "qphi_lgmu_crit" p = Some r /\
    is_finite r = true /\ B2R r = - 1677720 / 16777216 /\ - 1 / 10 < B2R r /\ near32 (- 1 / 10) < B2R r.
Proof. exact pop_leaves. Qed.
Print Assumptions C106_qphi_leaves.

(** A correctly rounded sigmoid, a logarithm and parameter sets meet the hypotheses. *)
Example C106_hyp : sigmoid_range round_sigmoid /\ sigmoid_saturates round_sigmoid /\ all_eight number all_fifty /\
  at_least 50 (d_qlglgdt all_fifty).
Proof.
  split; [exact round_sigmoid_range|]. split; [exact round_sigmoid_saturates|]. split; [repeat split|exact fifty_ge].
Qed.
Example C106_pop_hyp : exists u, (forall n, In n pop_names -> assoc ("u_" ++ n) u = Some big) /\ number big /\ at_least 250 big.
Proof.
  exists (map (fun n => (("u_" ++ n)%string, big)) pop_names).
  split; [|split; [reflexivity|exact big_ge]].
  intros n Hn. apply (assoc_map (fun n => ("u_" ++ n)%string) (fun _ => big)); [|exact Hn].
  apply FinFun.Injective_map_NoDup; [intros a b; apply u_inj|exact names_nodup].
Qed.

(** C107: from 50 on, an unbounded parameter comes back from the round trip as plus infinity. *)
Theorem C107_eight_lost : forall s lg fused u, sigmoid_range s -> sigmoid_saturates s ->
  lg (B754_zero false) = B754_infinity true ->
  let p := get_bounded_diffstar_params32 s fused u in
  let v := get_unbounded_diffstar_params32 lg p in
  let lost x y := at_least 50 x -> y = B754_infinity false in
  lost (d_lgmcrit u) (d_lgmcrit v) /\ lost (d_lgy_at_mcrit u) (d_lgy_at_mcrit v) /\
  lost (d_indx_lo u) (d_indx_lo v) /\ lost (d_indx_hi u) (d_indx_hi v) /\
  lost (d_lg_qt u) (d_lg_qt v) /\ lost (d_qlglgdt u) (d_qlglgdt v) /\ lost (d_lg_drop u) (d_lg_drop v) /\
  (number (d_lg_drop u) -> B2R (d_lg_drop p) < 0 -> lost (d_lg_rejuv u) (d_lg_rejuv v)).
Proof. exact eight_back. Qed.
Print Assumptions C107_eight_lost.

Theorem C107_population_lost : forall s lg fused u U,
  (forall n, In n pop_names -> assoc ("u_" ++ n) u = Some (U n)) ->
  sigmoid_saturates s -> lg (B754_zero false) = B754_infinity true ->
  forall n, In n pop_names -> at_least 250 (U n) ->
  exists p v, get_bounded_diffstarpop_params32 s fused u = Some p /\
    get_unbounded_diffstarpop_params32 lg p = Some v /\ assoc ("u_" ++ n) v = Some (B754_infinity false).
Proof. exact FloatTop.pop_back. Qed.
Print Assumptions C107_population_lost.

Theorem C107_roundtrip_refuted : ~ (forall s lg fused u, sigmoid_range s -> sigmoid_saturates s -> sigmoid_accurate s ->
  lg (B754_zero false) = B754_infinity true -> all_eight (fun x => is_finite x = true) u ->
  get_unbounded_diffstar_params32 lg (get_bounded_diffstar_params32 s fused u) = u).
Proof. exact not_inverse. Qed.
Print Assumptions C107_roundtrip_refuted.

Example C107_hyp : sigmoid_saturates round_sigmoid /\ round_log (B754_zero false) = B754_infinity true /\
  all_eight (fun x => is_finite x = true) all_fifty /\ all_eight (at_least 50) all_fifty.
Proof.
  split; [exact round_sigmoid_saturates|]. split; [reflexivity|]. split; [repeat split|repeat split; exact fifty_ge].
Qed.

(** C108: the bounded parameters are those of exact arithmetic, to within 1/30000. *)
Theorem C108_eight_accurate : forall s fused u, sigmoid_range s -> sigmoid_accurate s ->
  all_eight (fun x => is_finite x = true) u ->
  let p := get_bounded_diffstar_params32 s fused u in
  let drop := squash (-3) 0 (- (3 / 2)) (4 / 3) (B2R (d_lg_drop u)) in
  close32 (/ 30000) (squash 9 (27 / 2) (45 / 4) (8 / 9) (B2R (d_lgmcrit u))) (d_lgmcrit p) /\
  close32 (/ 30000) (squash (-12) (-8) (-10) 1 (B2R (d_lgy_at_mcrit u))) (d_lgy_at_mcrit p) /\
  close32 (/ 30000) (squash 0 5 (5 / 2) (4 / 5) (B2R (d_indx_lo u))) (d_indx_lo p) /\
  close32 (/ 30000) (squash (-5) 0 (- (5 / 2)) (4 / 5) (B2R (d_indx_hi u))) (d_indx_hi p) /\
  close32 (/ 30000) (squash (/ 10) 2 (21 / 20) (40 / 19) (B2R (d_lg_qt u))) (d_lg_qt p) /\
  close32 (/ 30000) (squash (-3) (- / 100) (- (301 / 200)) (400 / 299) (B2R (d_qlglgdt u))) (d_qlglgdt p) /\
  close32 (/ 30000) drop (d_lg_drop p) /\
  close32 (/ 8000) (squash drop 0 (- (3 / 2)) (4 / 3) (B2R (d_lg_rejuv u))) (d_lg_rejuv p).
Proof. exact eight_close. Qed.
Print Assumptions C108_eight_accurate.

Theorem C108_population_accurate : forall s fused u U, sigmoid_range s -> sigmoid_accurate s ->
  (forall n, In n pop_names -> assoc ("u_" ++ n) u = Some (U n)) ->
  (forall n, In n pop_names -> is_finite (U n) = true) ->
  exists p, get_bounded_diffstarpop_params32 s fused u = Some p /\ map fst p = pop_names /\
    forall n lo hi, In (n, (lo, hi)) POP_BOUNDS ->
      exists r, assoc n p = Some r /\
        close32 (/ 5000) (squash (Q2R lo) (Q2R hi) ((Q2R lo + Q2R hi) / 2) (/ 10) (B2R (U n))) r.
Proof. exact FloatClose.pop_close. Qed.
Print Assumptions C108_population_accurate.

Example C108_hyp : sigmoid_range round_sigmoid /\ sigmoid_accurate round_sigmoid /\
  all_eight (fun x => is_finite x = true) all_fifty /\ is_finite big = true.
Proof.
  split; [exact round_sigmoid_range|]. split; [exact round_sigmoid_accurate|]. split; [repeat split|reflexivity].
Qed.
