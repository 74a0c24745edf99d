(** The binary32 results in terms of [get_bounded_diffstar_params]. *)
From Coq Require Import Reals Lra Lia List Bool String QArith Qreals ZArith.
From Flocq Require Import Core.Core IEEE754.BinarySingleNaN.
From Verif Require Import XReal RealFacts ModelUtils ModelKernels ModelSfh ModelPopTables ModelPop ModelFloat
  SpecPop SpecFloat32 PopParamProofs FloatProofs FloatConst FloatRange FloatTop FloatAccuracy FloatClose FloatDemo.
Import ListNotations.
Open Scope R_scope.

Lemma eight_range s fused u : sigmoid_range s -> all_eight number u ->
  let p := get_bounded_diffstar_params32 s fused u in
  inside32 9 (27 # 2) (d_lgmcrit p) /\ inside32 (-12) (-8) (d_lgy_at_mcrit p) /\
  inside32 0 5 (d_indx_lo p) /\ inside32 (-5) 0 (d_indx_hi p) /\ inside32 (1 # 10) 2 (d_lg_qt p) /\
  (is_finite (d_qlglgdt p) = true /\ -3 <= B2R (d_qlglgdt p) <= - 41943 / 4194304) /\
  inside32 (-3) 0 (d_lg_drop p) /\
  (is_finite (d_lg_rejuv p) = true /\ B2R (d_lg_drop p) <= B2R (d_lg_rejuv p) <= 0).
Proof.
  intros Hs (N1 & N2 & N3 & N4 & N5 & N6 & N7 & N8). cbv zeta.
  pose proof (ms_range s fused (slice_ms u) Hs N1 N2 N3 N4) as M.
  pose proof (q_range s fused (slice_q u) Hs N5 N6 N7 N8) as Q. cbv zeta in M, Q. rewrite ql_top_eq in Q. unfold ql_top in Q.
  unfold get_bounded_diffstar_params32, join_params.
  cbn [d_lgmcrit d_lgy_at_mcrit d_indx_lo d_indx_hi d_lg_qt d_qlglgdt d_lg_drop d_lg_rejuv]. tauto.
Qed.

Lemma pop_range_all s fused u U : sigmoid_range s ->
  (forall n, In n pop_names -> assoc ("u_" ++ n) u = Some (U n)) -> (forall n, In n pop_names -> number (U n)) ->
  exists p, get_bounded_diffstarpop_params32 s fused u = Some p /\ map fst p = pop_names /\
    (forall n lo hi, In (n, (lo, hi)) POP_BOUNDS -> n <> "qphi_lgmu_crit"%string ->
       exists r, assoc n p = Some r /\ inside32 lo hi r) /\
    exists r, assoc "qphi_lgmu_crit" p = Some r /\ is_finite r = true /\ -4 <= B2R r <= - 1677720 / 16777216.
Proof.
  intros Hs Hu Hn. pose proof (pop_range s (fun x => x) fused u U Hu Hs Hn) as R. rewrite qphi_top_eq in R. exact R.
Qed.

Lemma eight_leaves s fused u : sigmoid_saturates s -> at_least 50 (d_qlglgdt u) ->
  let r := d_qlglgdt (get_bounded_diffstar_params32 s fused u) in
  is_finite r = true /\ B2R r = - 41943 / 4194304 /\ - 1 / 100 < B2R r /\ near32 (- 1 / 100) < B2R r.
Proof.
  intros Hs H. destruct (ql_above s fused (slice_q u) Hs H) as (F & V). unfold ql_top in V. cbv zeta.
  unfold get_bounded_diffstar_params32, join_params. cbn [d_qlglgdt].
  split; [exact F|]. split; [exact V|].
  enough (W : forall r : f32, B2R r = - 41943 / 4194304 -> - 1 / 100 < B2R r /\ near32 (- 1 / 100) < B2R r) by exact (W _ V).
  intros r ->. split; [lra|].
  replace (- 1 / 100) with (Q2R (-1 # 100)) by (unfold Q2R; simpl; lra). rewrite near32_ql. lra.
Qed.

Lemma qphi_in : In ("qphi_lgmu_crit"%string, (-4, -1 # 10)%Q) POP_BOUNDS.
Proof. unfold POP_BOUNDS. repeat (first [left; reflexivity | right]). Qed.
Lemma pop_leaves s fused u U : sigmoid_saturates s ->
  (forall n, In n pop_names -> assoc ("u_" ++ n) u = Some (U n)) -> at_least 250 (U "qphi_lgmu_crit"%string) ->
  exists p r, get_bounded_diffstarpop_params32 s fused u = Some p /\ assoc "qphi_lgmu_crit" p = Some r /\
    is_finite r = true /\ B2R r = - 1677720 / 16777216 /\ - 1 / 10 < B2R r /\ near32 (- 1 / 10) < B2R r.
Proof.
  intros Hs Hu H. destruct (val_sat s (fun x => x) fused U _ Hs qphi_in H) as (F & V). cbn [fst snd] in V.
  rewrite qphi_top_eq in V. unfold qphi_top in V.
  exists (map (fun r => (fst r, val32 s fused U r)) POP_BOUNDS), (val32 s fused U ("qphi_lgmu_crit"%string, (-4, -1 # 10)%Q)).
  split; [exact (bounded32_rows s fused u U Hu)|]. split; [exact (rows_assoc (val32 s fused U) _ qphi_in)|].
  split; [exact F|]. split; [exact V|]. rewrite V. split; [lra|].
  replace (- 1 / 10) with (Q2R (-1 # 10)) by (unfold Q2R; simpl; lra). rewrite near32_qphi. lra.
Qed.

Lemma slice_ms_join {A} (ms : MSParams A) (q : QParams A) : slice_ms (join_params ms q) = ms.
Proof. destruct ms; reflexivity. Qed.
Lemma slice_q_join {A} (ms : MSParams A) (q : QParams A) : slice_q (join_params ms q) = q.
Proof. destruct q; reflexivity. Qed.

Lemma eight_back s lg fused u : sigmoid_range s -> sigmoid_saturates s -> lg (B754_zero false) = B754_infinity true ->
  let p := get_bounded_diffstar_params32 s fused u in
  let v := get_unbounded_diffstar_params32 lg p in
  let lost x y := at_least 50 x -> y = B754_infinity false in
  lost (d_lgmcrit u) (d_lgmcrit v) /\ lost (d_lgy_at_mcrit u) (d_lgy_at_mcrit v) /\
  lost (d_indx_lo u) (d_indx_lo v) /\ lost (d_indx_hi u) (d_indx_hi v) /\
  lost (d_lg_qt u) (d_lg_qt v) /\ lost (d_qlglgdt u) (d_qlglgdt v) /\ lost (d_lg_drop u) (d_lg_drop v) /\
  (number (d_lg_drop u) -> B2R (d_lg_drop p) < 0 -> lost (d_lg_rejuv u) (d_lg_rejuv v)).
Proof.
  intros Hr Hs Hl. cbv zeta.
  pose proof (ms_back s lg fused (slice_ms u) Hs Hl) as M.
  pose proof (q_back s lg fused (slice_q u) Hr Hs Hl) as Q. cbv zeta in M, Q.
  unfold get_unbounded_diffstar_params32, get_bounded_diffstar_params32. rewrite slice_ms_join, slice_q_join.
  unfold join_params.
  cbn [d_lgmcrit d_lgy_at_mcrit d_indx_lo d_indx_hi d_lg_qt d_qlglgdt d_lg_drop d_lg_rejuv]. tauto.
Qed.

Lemma eight_close s fused u : sigmoid_range s -> sigmoid_accurate s -> all_eight (fun x => is_finite x = true) u ->
  let p := get_bounded_diffstar_params32 s fused u in
  let drop := squash (-3) 0 (- (3 / 2)) (4 / 3) (B2R (d_lg_drop u)) in
  close32 (/ 30000) (squash 9 (27 / 2) (45 / 4) (8 / 9) (B2R (d_lgmcrit u))) (d_lgmcrit p) /\
  close32 (/ 30000) (squash (-12) (-8) (-10) 1 (B2R (d_lgy_at_mcrit u))) (d_lgy_at_mcrit p) /\
  close32 (/ 30000) (squash 0 5 (5 / 2) (4 / 5) (B2R (d_indx_lo u))) (d_indx_lo p) /\
  close32 (/ 30000) (squash (-5) 0 (- (5 / 2)) (4 / 5) (B2R (d_indx_hi u))) (d_indx_hi p) /\
  close32 (/ 30000) (squash (/ 10) 2 (21 / 20) (40 / 19) (B2R (d_lg_qt u))) (d_lg_qt p) /\
  close32 (/ 30000) (squash (-3) (- / 100) (- (301 / 200)) (400 / 299) (B2R (d_qlglgdt u))) (d_qlglgdt p) /\
  close32 (/ 30000) drop (d_lg_drop p) /\
  close32 (/ 8000) (squash drop 0 (- (3 / 2)) (4 / 3) (B2R (d_lg_rejuv u))) (d_lg_rejuv p).
Proof.
  intros Hr Ha (N1 & N2 & N3 & N4 & N5 & N6 & N7 & N8). cbv zeta.
  pose proof (ms_close s fused (slice_ms u) Hr Ha N1 N2 N3 N4) as M.
  pose proof (q_close s fused (slice_q u) Hr Ha N5 N6 N7 N8) as Q. cbv zeta in M, Q.
  unfold get_bounded_diffstar_params32, join_params.
  cbn [d_lgmcrit d_lgy_at_mcrit d_indx_lo d_indx_hi d_lg_qt d_qlglgdt d_lg_drop d_lg_rejuv].
  tauto.
Qed.

(** ** What fails, as universal statements *)
Definition all_fifty : DiffstarParams f32 := mkDiffstar fifty fifty fifty fifty fifty fifty fifty fifty.
Lemma not_kept : ~ (forall s fused u, sigmoid_range s -> sigmoid_saturates s -> sigmoid_accurate s ->
  all_eight (fun x => is_finite x = true) u -> B2R (d_qlglgdt (get_bounded_diffstar_params32 s fused u)) <= near32 (- 1 / 100)).
Proof.
  intro H. specialize (H round_sigmoid false all_fifty round_sigmoid_range round_sigmoid_saturates round_sigmoid_accurate).
  assert (F : all_eight (fun x : f32 => is_finite x = true) all_fifty) by (repeat split).
  specialize (H F).
  pose proof (eight_leaves round_sigmoid false all_fifty round_sigmoid_saturates fifty_ge) as (_ & _ & _ & L). lra.
Qed.
Lemma not_inverse : ~ (forall s lg fused u, sigmoid_range s -> sigmoid_saturates s -> sigmoid_accurate s ->
  lg (B754_zero false) = B754_infinity true -> all_eight (fun x => is_finite x = true) u ->
  get_unbounded_diffstar_params32 lg (get_bounded_diffstar_params32 s fused u) = u).
Proof.
  intro H. specialize (H round_sigmoid round_log false all_fifty round_sigmoid_range round_sigmoid_saturates round_sigmoid_accurate eq_refl).
  assert (F : all_eight (fun x : f32 => is_finite x = true) all_fifty) by (repeat split).
  specialize (H F).
  pose proof (eight_back round_sigmoid round_log false all_fifty round_sigmoid_range round_sigmoid_saturates eq_refl) as (L & _).
  specialize (L fifty_ge). cbv zeta in L. rewrite H in L. discriminate L.
Qed.
