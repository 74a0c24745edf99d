(** Bounding transforms: _sigmoid, _inverse_sigmoid and the diffstar parameter maps. *)
From Coq Require Import Reals Lra Lia List Bool.
From Coquelicot Require Import Coquelicot.
From Verif Require Import XReal XFacts RealFacts ModelUtils ModelKernels ModelSfh SpecCore.
Import List ListNotations.
Open Scope R_scope.

Definition sigR (x x0 k lo hi : R) : R := lo + (hi - lo) * logisticR (k * (x - x0)).
Definition isigR (y x0 k lo hi : R) : R := x0 - ln ((hi - lo) / (y - lo) - 1) / k.

Lemma sigmoid_fin x x0 k lo hi :
  sigmoid (Fin x) (Fin x0) (Fin k) (Fin lo) (Fin hi) = Fin (sigR x x0 k lo hi).
Proof. reflexivity. Qed.

Lemma sigR_range x x0 k lo hi : lo < hi -> lo < sigR x x0 k lo hi < hi.
Proof.
  intros H. unfold sigR. pose proof (logistic_range (k * (x - x0))) as [L U].
  assert (0 < (hi - lo) * logisticR (k * (x - x0))) by (apply Rmult_lt_0_compat; lra).
  assert ((hi - lo) * logisticR (k * (x - x0)) < (hi - lo) * 1)
    by (apply Rmult_lt_compat_l; lra).
  lra.
Qed.

Lemma sigR_incr x y x0 k lo hi : lo < hi -> 0 < k -> x < y ->
  sigR x x0 k lo hi < sigR y x0 k lo hi.
Proof.
  intros Hb Hk Hx. unfold sigR. apply Rplus_lt_compat_l. apply Rmult_lt_compat_l; [lra|].
  apply logistic_lt. apply Rmult_lt_compat_l; lra.
Qed.

Lemma sigR_mid x0 k lo hi : sigR x0 x0 k lo hi = (lo + hi) / 2.
Proof.
  unfold sigR. replace (k * (x0 - x0)) with 0 by ring. rewrite logistic_0. field.
Qed.

Lemma is_derive_sigR x x0 k lo hi :
  is_derive (fun x => sigR x x0 k lo hi) x
    ((hi - lo) * k * (logisticR (k * (x - x0)) * (1 - logisticR (k * (x - x0))))).
Proof.
  unfold sigR.
  assert (D : is_derive (fun x => logisticR (k * (x - x0))) x
     (k * (logisticR (k * (x - x0)) * (1 - logisticR (k * (x - x0)))))).
  { apply (is_derive_comp logisticR (fun x => k * (x - x0)) x).
    - apply is_derive_logistic.
    - auto_derive; [auto|ring]. }
  eapply is_derive_ext_loc; [apply filter_forall; intros; reflexivity|].
  replace ((hi - lo) * k * (logisticR (k * (x - x0)) * (1 - logisticR (k * (x - x0)))))
    with (plus 0 ((hi - lo) * (k * (logisticR (k * (x - x0)) * (1 - logisticR (k * (x - x0)))))))
    by (unfold plus; simpl; ring).
  apply (is_derive_plus (fun _ => lo) (fun x => (hi - lo) * logisticR (k * (x - x0)))).
  - auto_derive; auto.
  - apply (is_derive_scal (fun x => logisticR (k * (x - x0)))). exact D.
Qed.

(** *** Inverse *)

Lemma inverse_sigmoid_fin y x0 k lo hi : lo < y < hi -> k <> 0 ->
  inverse_sigmoid (Fin y) (Fin x0) (Fin k) (Fin lo) (Fin hi) = Fin (isigR y x0 k lo hi).
Proof.
  intros [H1 H2] Hk. unfold inverse_sigmoid. xr_simp.
  rewrite xdiv_fin by lra. xr_simp.
  assert (0 < (hi + - lo) / (y + - lo) + - (1)).
  { assert (1 < (hi + - lo) / (y + - lo)); [|lra].
    apply Rmult_lt_reg_r with (y + - lo); [lra|].
    unfold Rdiv. rewrite Rmult_assoc, Rinv_l by lra. lra. }
  rewrite xlog_fin by assumption. rewrite xdiv_fin by assumption. reflexivity.
Qed.

Lemma inverse_sigmoid_lo x0 k lo hi : lo < hi -> 0 < k ->
  inverse_sigmoid (Fin lo) (Fin x0) (Fin k) (Fin lo) (Fin hi) = NInf.
Proof.
  intros H Hk. unfold inverse_sigmoid. xr_simp.
  rewrite xdiv_zero_pos by lra.
  simpl. destruct (Rlt_dec k 0); [lra|]. reflexivity.
Qed.

Lemma inverse_sigmoid_hi x0 k lo hi : lo < hi -> 0 < k ->
  inverse_sigmoid (Fin hi) (Fin x0) (Fin k) (Fin lo) (Fin hi) = PInf.
Proof.
  intros H Hk. unfold inverse_sigmoid. xr_simp.
  rewrite xdiv_fin by lra. xr_simp.
  replace ((hi + - lo) / (hi + - lo) + - (1)) with 0 by (field; lra).
  simpl. destruct (Rlt_dec 0 0); [lra|]. destruct (Req_EM_T 0 0); [|lra].
  simpl. destruct (Rlt_dec k 0); [lra|]. reflexivity.
Qed.

Lemma inverse_sigmoid_out y x0 k lo hi : lo < hi -> y < lo \/ hi < y ->
  inverse_sigmoid (Fin y) (Fin x0) (Fin k) (Fin lo) (Fin hi) = NaN.
Proof.
  intros H Hy. unfold inverse_sigmoid. xr_simp.
  rewrite xdiv_fin by lra. xr_simp.
  assert ((hi + - lo) / (y + - lo) + - (1) < 0).
  { assert ((hi + - lo) / (y + - lo) < 1); [|lra].
    destruct Hy as [Hy|Hy].
    - assert ((hi + - lo) / (y + - lo) < 0); [|lra].
      assert (0 < (hi + - lo) / - (y + - lo)).
      { apply Rdiv_lt_0_compat; lra. }
      replace ((hi + - lo) / (y + - lo)) with (- ((hi + - lo) / - (y + - lo))) by (field; lra).
      lra.
    - apply Rmult_lt_reg_r with (y + - lo); [lra|].
      unfold Rdiv. rewrite Rmult_assoc, Rinv_l by lra. lra. }
  unfold xlog. destruct (Rlt_dec 0 _); [lra|]. destruct (Req_EM_T _ 0); [lra|]. reflexivity.
Qed.

Lemma inverse_sigmoid_finite_iff y x0 k lo hi : lo < hi -> 0 < k ->
  isfinite (inverse_sigmoid (Fin y) (Fin x0) (Fin k) (Fin lo) (Fin hi)) = true <-> lo < y < hi.
Proof.
  intros H Hk. split.
  - intros F. destruct (Rtotal_order y lo) as [h|[h|h]].
    + rewrite inverse_sigmoid_out in F by auto. discriminate.
    + subst. rewrite inverse_sigmoid_lo in F by auto. discriminate.
    + destruct (Rtotal_order y hi) as [g|[g|g]]; [auto| |].
      * subst. rewrite inverse_sigmoid_hi in F by auto. discriminate.
      * rewrite inverse_sigmoid_out in F by auto. discriminate.
  - intros Hy. rewrite inverse_sigmoid_fin by (auto; lra). reflexivity.
Qed.

Lemma isig_sig x x0 k lo hi : lo < hi -> k <> 0 -> isigR (sigR x x0 k lo hi) x0 k lo hi = x.
Proof.
  intros H Hk. unfold isigR, sigR.
  pose proof (logistic_range (k * (x - x0))) as [L U].
  replace ((hi - lo) / (lo + (hi - lo) * logisticR (k * (x - x0)) - lo))
    with (/ logisticR (k * (x - x0))).
  2:{ replace (lo + (hi - lo) * logisticR (k * (x - x0)) - lo)
        with ((hi - lo) * logisticR (k * (x - x0))) by ring.
      field. split; lra. }
  pose proof (logit_logistic (k * (x - x0))) as E.
  replace (ln (/ logisticR (k * (x - x0)) - 1)) with (- (k * (x - x0))) by lra.
  field. exact Hk.
Qed.

Lemma sig_isig y x0 k lo hi : lo < y < hi -> k <> 0 -> sigR (isigR y x0 k lo hi) x0 k lo hi = y.
Proof.
  intros H Hk. unfold isigR, sigR.
  replace (k * (x0 - ln ((hi - lo) / (y - lo) - 1) / k - x0))
    with (- ln (/ ((y - lo) / (hi - lo)) - 1)).
  - rewrite logistic_logit; [field; lra|]. split.
    + apply Rdiv_lt_0_compat; lra.
    + apply Rmult_lt_reg_r with (hi - lo); [lra|].
      unfold Rdiv. rewrite Rmult_assoc, Rinv_l by lra. lra.
  - replace (/ ((y - lo) / (hi - lo))) with ((hi - lo) / (y - lo)) by (field; lra).
    field. exact Hk.
Qed.

(** *** Standard bounds (x0 = midpoint, k = 4/width) *)

Lemma sigmoid_bounds_fin lo hi : lo < hi ->
  sigmoid_bounds (Fin lo, Fin hi) = (Fin ((lo + hi) / 2), Fin (4 / (hi - lo)), Fin lo, Fin hi).
Proof.
  intros H. unfold sigmoid_bounds. xr_simp.
  rewrite !xdiv_fin by lra. simpl. rewrite Rabs_pos_eq; [reflexivity|].
  apply Rlt_le, Rdiv_lt_0_compat; lra.
Qed.

Definition bndR (u lo hi : R) : R := sigR u ((lo + hi) / 2) (4 / (hi - lo)) lo hi.
Definition ubndR (p lo hi : R) : R := isigR p ((lo + hi) / 2) (4 / (hi - lo)) lo hi.

Lemma width_pos lo hi : lo < hi -> 0 < 4 / (hi - lo).
Proof. intros. apply Rdiv_lt_0_compat; lra. Qed.

Lemma sigmoid_b_fin u lo hi : lo < hi ->
  sigmoid_b (Fin u) (sigmoid_bounds (Fin lo, Fin hi)) = Fin (bndR u lo hi).
Proof. intros H. rewrite sigmoid_bounds_fin by exact H. reflexivity. Qed.

Lemma inverse_sigmoid_b_fin p lo hi : lo < p < hi ->
  inverse_sigmoid_b (Fin p) (sigmoid_bounds (Fin lo, Fin hi)) = Fin (ubndR p lo hi).
Proof.
  intros H. rewrite sigmoid_bounds_fin by lra. simpl.
  apply inverse_sigmoid_fin; [exact H|]. pose proof (width_pos lo hi). lra.
Qed.

Lemma bnd_ubnd p lo hi : lo < p < hi -> bndR (ubndR p lo hi) lo hi = p.
Proof. intros. apply sig_isig; [auto|]. pose proof (width_pos lo hi). lra. Qed.
Lemma ubnd_bnd u lo hi : lo < hi -> ubndR (bndR u lo hi) lo hi = u.
Proof. intros. apply isig_sig; [auto|]. pose proof (width_pos lo hi). lra. Qed.
Lemma bnd_range u lo hi : lo < hi -> lo < bndR u lo hi < hi.
Proof. intros. apply sigR_range; auto. Qed.

Lemma inverse_sigmoid_b_finite_iff p lo hi : lo < hi ->
  isfinite (inverse_sigmoid_b (Fin p) (sigmoid_bounds (Fin lo, Fin hi))) = true <-> lo < p < hi.
Proof.
  intros H. rewrite sigmoid_bounds_fin by exact H. simpl.
  apply inverse_sigmoid_finite_iff; [exact H|apply width_pos, H].
Qed.

(** *** Parameter tuples *)

Definition bounded_msR (u : MSParams R) : MSParams R :=
  mkMS (bndR (lgmcrit u) 9 (135 / 10)) (bndR (lgy_at_mcrit u) (-12) (-8))
       (bndR (indx_lo u) 0 5) (bndR (indx_hi u) (-5) 0).
Definition bounded_qR (u : QParams R) : QParams R :=
  let drop := bndR (lg_drop u) (-3) 0 in
  mkQ (bndR (lg_qt u) (1 / 10) 2) (bndR (qlglgdt u) (-3) (-1 / 100)) drop
      (sigR (lg_rejuv u) ((-3 + 0) / 2) (4 / (0 - -3)) drop 0).
Definition unbounded_msR (p : MSParams R) : MSParams R :=
  mkMS (ubndR (lgmcrit p) 9 (135 / 10)) (ubndR (lgy_at_mcrit p) (-12) (-8))
       (ubndR (indx_lo p) 0 5) (ubndR (indx_hi p) (-5) 0).
Definition unbounded_qR (p : QParams R) : QParams R :=
  mkQ (ubndR (lg_qt p) (1 / 10) 2) (ubndR (qlglgdt p) (-3) (-1 / 100)) (ubndR (lg_drop p) (-3) 0)
      (isigR (lg_rejuv p) ((-3 + 0) / 2) (4 / (0 - -3)) (lg_drop p) 0).

Lemma bounded_ms_fin u : get_bounded_sfr_params (map_ms Fin u) = map_ms Fin (bounded_msR u).
Proof.
  unfold get_bounded_sfr_params, map_ms, bounded_msR, MS_SIG, MS_BOUNDS. cbn [lgmcrit lgy_at_mcrit indx_lo indx_hi].
  rewrite !sigmoid_b_fin by lra. reflexivity.
Qed.

Lemma bounded_q_fin u : get_bounded_q_params (map_q Fin u) = map_q Fin (bounded_qR u).
Proof.
  unfold get_bounded_q_params, get_bounded_lg_rejuv, map_q, bounded_qR, Q_SIG, Q_BOUNDS.
  cbn [lg_qt qlglgdt lg_drop lg_rejuv].
  rewrite !sigmoid_b_fin by lra. rewrite sigmoid_bounds_fin by lra. reflexivity.
Qed.

Lemma unbounded_ms_fin p :
  9 < lgmcrit p < 135 / 10 -> -12 < lgy_at_mcrit p < -8 -> 0 < indx_lo p < 5 -> -5 < indx_hi p < 0 ->
  get_unbounded_sfr_params (map_ms Fin p) = map_ms Fin (unbounded_msR p).
Proof.
  intros. unfold get_unbounded_sfr_params, map_ms, unbounded_msR, MS_SIG, MS_BOUNDS.
  cbn [lgmcrit lgy_at_mcrit indx_lo indx_hi].
  rewrite !inverse_sigmoid_b_fin by lra. reflexivity.
Qed.

Lemma unbounded_q_fin p :
  1 / 10 < lg_qt p < 2 -> -3 < qlglgdt p < -1 / 100 -> -3 < lg_drop p < 0 ->
  lg_drop p < lg_rejuv p < 0 ->
  get_unbounded_q_params (map_q Fin p) = map_q Fin (unbounded_qR p).
Proof.
  intros. unfold get_unbounded_q_params, get_unbounded_qrejuv, map_q, unbounded_qR, Q_SIG, Q_BOUNDS.
  cbn [lg_qt qlglgdt lg_drop lg_rejuv].
  rewrite !inverse_sigmoid_b_fin by lra. rewrite sigmoid_bounds_fin by lra.
  rewrite inverse_sigmoid_fin by lra. reflexivity.
Qed.

Definition slice_msR := @slice_ms R.

Lemma bounded_diffstar_fin u :
  get_bounded_diffstar_params (map_d Fin u)
  = map_d Fin (join_params (bounded_msR (slice_ms u)) (bounded_qR (slice_q u))).
Proof.
  unfold get_bounded_diffstar_params.
  change (slice_ms (map_d Fin u)) with (map_ms Fin (slice_ms u)).
  change (slice_q (map_d Fin u)) with (map_q Fin (slice_q u)).
  rewrite bounded_ms_fin, bounded_q_fin. reflexivity.
Qed.

Lemma unbounded_diffstar_fin p : in_bounds p ->
  get_unbounded_diffstar_params (map_d Fin p)
  = map_d Fin (join_params (unbounded_msR (slice_ms p)) (unbounded_qR (slice_q p))).
Proof.
  intros (H1 & H2 & H3 & H4 & H5 & H6 & H7 & H8).
  unfold get_unbounded_diffstar_params.
  change (slice_ms (map_d Fin p)) with (map_ms Fin (slice_ms p)).
  change (slice_q (map_d Fin p)) with (map_q Fin (slice_q p)).
  rewrite unbounded_ms_fin, unbounded_q_fin by assumption. reflexivity.
Qed.

Lemma bounded_in_bounds u : in_bounds (join_params (bounded_msR (slice_ms u)) (bounded_qR (slice_q u))).
Proof.
  unfold in_bounds, join_params, bounded_msR, bounded_qR. cbn.
  pose proof (bnd_range (d_lg_drop u) (-3) 0).
  repeat match goal with |- _ /\ _ /\ _ => split end;
    try (apply bnd_range; lra).
  apply (sigR_range (d_lg_rejuv u)). lra.
Qed.

Lemma bounded_diffstar_in_bounds u : exists p,
  get_bounded_diffstar_params (map_d Fin u) = map_d Fin p /\ in_bounds p.
Proof. eexists; split; [apply bounded_diffstar_fin|apply bounded_in_bounds]. Qed.

Lemma unbounded_bounded_id u :
  get_unbounded_diffstar_params (get_bounded_diffstar_params (map_d Fin u)) = map_d Fin u.
Proof.
  rewrite bounded_diffstar_fin. rewrite unbounded_diffstar_fin by apply bounded_in_bounds.
  destruct u as [a b c d e f g h]. unfold map_d, join_params, unbounded_msR, unbounded_qR, bounded_msR, bounded_qR.
  cbn. rewrite !ubnd_bnd by lra.
  rewrite isig_sig; [reflexivity| |lra].
  pose proof (bnd_range g (-3) 0). lra.
Qed.

Lemma bounded_unbounded_id p : in_bounds p ->
  get_bounded_diffstar_params (get_unbounded_diffstar_params (map_d Fin p)) = map_d Fin p.
Proof.
  intros H. rewrite unbounded_diffstar_fin by exact H. rewrite bounded_diffstar_fin.
  destruct H as (H1 & H2 & H3 & H4 & H5 & H6 & H7 & H8).
  destruct p as [a b c d e f g h]. unfold map_d, join_params, unbounded_msR, unbounded_qR, bounded_msR, bounded_qR.
  cbn in *. rewrite !bnd_ubnd by lra.
  rewrite sig_isig; [reflexivity|lra|lra].
Qed.

(** finite exactly on in-bounds values, parameter by parameter *)
Lemma unbounded_finite_iff (p : DiffstarParams R) :
  let u := get_unbounded_diffstar_params (map_d Fin p) in
  (isfinite (d_lgmcrit u) = true <-> 9 < d_lgmcrit p < 135 / 10) /\
  (isfinite (d_lgy_at_mcrit u) = true <-> -12 < d_lgy_at_mcrit p < -8) /\
  (isfinite (d_indx_lo u) = true <-> 0 < d_indx_lo p < 5) /\
  (isfinite (d_indx_hi u) = true <-> -5 < d_indx_hi p < 0) /\
  (isfinite (d_lg_qt u) = true <-> 1 / 10 < d_lg_qt p < 2) /\
  (isfinite (d_qlglgdt u) = true <-> -3 < d_qlglgdt p < -1 / 100) /\
  (isfinite (d_lg_drop u) = true <-> -3 < d_lg_drop p < 0) /\
  (d_lg_drop p < 0 -> (isfinite (d_lg_rejuv u) = true <-> d_lg_drop p < d_lg_rejuv p < 0)).
Proof.
  cbv zeta. unfold get_unbounded_diffstar_params, get_unbounded_sfr_params, get_unbounded_q_params,
    get_unbounded_qrejuv, MS_SIG, Q_SIG, MS_BOUNDS, Q_BOUNDS, map_d, slice_ms, slice_q, join_params.
  cbn [lgmcrit lgy_at_mcrit indx_lo indx_hi lg_qt qlglgdt lg_drop lg_rejuv
       d_lgmcrit d_lgy_at_mcrit d_indx_lo d_indx_hi d_lg_qt d_qlglgdt d_lg_drop d_lg_rejuv].
  repeat match goal with |- _ /\ _ => split end;
    try (apply inverse_sigmoid_b_finite_iff; lra).
  intros H. rewrite sigmoid_bounds_fin by lra.
  apply inverse_sigmoid_finite_iff; lra.
Qed.

(** Properties of one bounding map *)
Lemma bounding_map_smooth lo hi : lo < hi -> exists f df : R -> R,
  (forall u, sigmoid_b (Fin u) (sigmoid_bounds (Fin lo, Fin hi)) = Fin (f u)) /\
  (forall u, is_derive f u (df u)) /\
  (forall u, 0 < df u) /\
  (forall u v, u < v -> f u < f v) /\
  f ((lo + hi) / 2) = (lo + hi) / 2 /\ df ((lo + hi) / 2) = 1.
Proof.
  intros H. pose proof (width_pos _ _ H) as W.
  exists (fun u => bndR u lo hi).
  eexists. split; [intros; apply sigmoid_b_fin, H|].
  split; [intros; unfold bndR; apply is_derive_sigR|]. cbv beta.
  repeat split.
  - intros u. pose proof (logistic_range (4 / (hi - lo) * (u - (lo + hi) / 2))) as [L U].
    apply Rmult_lt_0_compat; [apply Rmult_lt_0_compat; lra|apply Rmult_lt_0_compat; lra].
  - intros u v Huv. apply sigR_incr; auto.
  - apply sigR_mid.
  - replace (4 / (hi - lo) * ((lo + hi) / 2 - (lo + hi) / 2)) with 0 by (field; lra).
    rewrite logistic_0. field. lra.
Qed.

Lemma sig_smooth x0 k lo hi : lo < hi -> 0 < k ->
  smooth_bounding (fun u => sigR u x0 k lo hi) lo hi x0 ((hi - lo) * k / 4).
Proof.
  intros H Hk. eexists. split; [intros u; apply is_derive_sigR|].
  split; [|split; [|split; [|split]]].
  - intros u. pose proof (logistic_range (k * (u - x0))).
    repeat apply Rmult_lt_0_compat; lra.
  - intros u v Huv. apply sigR_incr; assumption.
  - intros u. apply sigR_range, H.
  - apply sigR_mid.
  - cbv beta. replace (k * (x0 - x0)) with 0 by ring. rewrite logistic_0. field.
Qed.

Lemma bnd_smooth lo hi : lo < hi -> smooth_bounding (fun u => bndR u lo hi) lo hi ((lo + hi) / 2) 1.
Proof.
  intros H. pose proof (sig_smooth ((lo + hi) / 2) (4 / (hi - lo)) lo hi H (width_pos _ _ H)) as S.
  replace ((hi - lo) * (4 / (hi - lo)) / 4) with 1 in S by (field; lra). exact S.
Qed.

Lemma bounded_params_smooth : exists f1 f2 f3 f4 f5 f6 f7 : R -> R, exists f8 : R -> R -> R,
  (forall u, get_bounded_diffstar_params (map_d Fin u) =
     map_d Fin (mkDiffstar (f1 (d_lgmcrit u)) (f2 (d_lgy_at_mcrit u)) (f3 (d_indx_lo u)) (f4 (d_indx_hi u))
       (f5 (d_lg_qt u)) (f6 (d_qlglgdt u)) (f7 (d_lg_drop u)) (f8 (f7 (d_lg_drop u)) (d_lg_rejuv u)))) /\
  smooth_bounding f1 9 (135 / 10) (1125 / 100) 1 /\
  smooth_bounding f2 (-12) (-8) (-10) 1 /\
  smooth_bounding f3 0 5 (5 / 2) 1 /\
  smooth_bounding f4 (-5) 0 (- 5 / 2) 1 /\
  smooth_bounding f5 (1 / 10) 2 (105 / 100) 1 /\
  smooth_bounding f6 (-3) (-1 / 100) (- 1505 / 1000) 1 /\
  smooth_bounding f7 (-3) 0 (- 3 / 2) 1 /\
  (forall drop, -3 < drop < 0 -> smooth_bounding (f8 drop) drop 0 (- 3 / 2) (- drop / 3)).
Proof.
  exists (fun u => bndR u 9 (135 / 10)), (fun u => bndR u (-12) (-8)), (fun u => bndR u 0 5),
    (fun u => bndR u (-5) 0), (fun u => bndR u (1 / 10) 2), (fun u => bndR u (-3) (-1 / 100)),
    (fun u => bndR u (-3) 0), (fun drop u => sigR u ((-3 + 0) / 2) (4 / (0 - -3)) drop 0).
  split; [intros u; apply bounded_diffstar_fin|].
  replace (1125 / 100) with ((9 + 135 / 10) / 2) by lra.
  replace (-10) with ((-12 + -8) / 2) by lra.
  replace (5 / 2) with ((0 + 5) / 2) by lra.
  replace (- 5 / 2) with ((-5 + 0) / 2) by lra.
  replace (105 / 100) with ((1 / 10 + 2) / 2) by lra.
  replace (- 1505 / 1000) with ((-3 + -1 / 100) / 2) by lra.
  replace (- 3 / 2) with ((-3 + 0) / 2) by lra.
  repeat (split; [apply bnd_smooth; lra|]).
  intros drop Hd. pose proof (sig_smooth ((-3 + 0) / 2) (4 / (0 - -3)) drop 0) as S.
  replace ((0 - drop) * (4 / (0 - -3)) / 4) with (- drop / 3) in S by field.
  apply S; lra.
Qed.
