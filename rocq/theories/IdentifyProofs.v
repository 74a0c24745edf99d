(** Distinct parameters give distinct histories. *)
From Coq Require Import Reals List Lra Lia.
From Coquelicot Require Import Coquelicot.
From Verif Require Import XReal XFacts RealFacts ModelUtils ModelKernels ModelSfh SpecCore SpecSymmetry
  TriweightProofs SigmoidProofs IntegralProofs SfhProofs.
Import List ListNotations.
Open Scope R_scope.

Lemma bounded_multiples_zero a K : (forall x, 0 < x -> Rabs a * x <= K) -> a = 0.
Proof.
  intros H. destruct (Req_dec a 0) as [E|E]; [exact E|exfalso]. pose proof (Rabs_pos_lt a E) as P.
  assert (K0 : 0 <= K) by (specialize (H 1 Rlt_0_1); lra).
  assert (X : 0 < (K + 1) / Rabs a) by (apply Rdiv_lt_0_compat; lra).
  specialize (H _ X). replace (Rabs a * ((K + 1) / Rabs a)) with (K + 1) in H by (field; lra). lra.
Qed.
Lemma vanishing_line a b K d : 0 < K -> (forall x, d < x -> 0 < x -> Rabs (a + b * x) * x <= K) -> a = 0 /\ b = 0.
Proof.
  intros KP H. assert (D : forall x, 0 < x -> exists y, d < y /\ x <= y /\ 0 < y).
  { intros x X. exists (x + Rabs d). pose proof (Rle_abs d). pose proof (Rabs_pos d). lra. }
  assert (B : b = 0).
  { apply (bounded_multiples_zero b (2 * K)). intros x X. destruct (D x X) as (y & Y1 & Y2 & Y3).
    pose proof (H y Y1 Y3) as H1. assert (Y4 : d < y + 1) by lra. assert (Y5 : 0 < y + 1) by lra. pose proof (H (y + 1) Y4 Y5) as H2.
    assert (T : Rabs b <= Rabs (a + b * (y + 1)) + Rabs (a + b * y)).
    { replace b with ((a + b * (y + 1)) - (a + b * y)) at 1 by ring. unfold Rminus.
      eapply Rle_trans; [apply Rabs_triang|]. rewrite Rabs_Ropp. lra. }
    pose proof (Rabs_pos (a + b * (y + 1))) as P1. pose proof (Rabs_pos (a + b * y)) as P2. pose proof (Rabs_pos b).
    assert (Rabs b * x <= Rabs b * y) by (apply Rmult_le_compat_l; lra).
    assert (Rabs b * y <= (Rabs (a + b * (y + 1)) + Rabs (a + b * y)) * y) by (apply Rmult_le_compat_r; lra).
    assert (Rabs (a + b * (y + 1)) * y <= Rabs (a + b * (y + 1)) * (y + 1)) by (apply Rmult_le_compat_l; lra). lra. }
  split; [|exact B]. apply (bounded_multiples_zero a K). intros x X. destruct (D x X) as (y & Y1 & Y2 & Y3).
  pose proof (H y Y1 Y3) as H1. rewrite B in H1. replace (a + 0 * y) with a in H1 by ring.
  assert (Rabs a * x <= Rabs a * y) by (apply Rmult_le_compat_l; [apply Rabs_pos|lra]). lra.
Qed.

Lemma exp_quadratic z : 0 <= z -> z * z / 4 <= exp z.
Proof.
  intros Z. replace z with (z / 2 + z / 2) at 3 by field. rewrite exp_plus.
  assert (E : z / 2 <= exp (z / 2)). { destruct (Req_dec z 0) as [->|N]. - replace (0 / 2) with 0 by field. rewrite exp_0. lra. - pose proof (exp_ineq1 (z / 2) ltac:(lra)). lra. }
  replace (z * z / 4) with (z / 2 * (z / 2)) by field. apply Rmult_le_compat; lra.
Qed.
Lemma tail_small x : 0 < x -> 0 <= x / (1 + exp (9 * x)) * x <= 1.
Proof.
  intros X. pose proof (exp_pos (9 * x)). pose proof (exp_quadratic (9 * x) ltac:(lra)) as Q.
  assert (S : 0 <= x * x) by (apply Rmult_le_pos; lra).
  replace (x / (1 + exp (9 * x)) * x) with (x * x / (1 + exp (9 * x))) by (field; lra). split.
  - apply Rle_div_r; lra.
  - apply Rle_div_l; [lra|]. replace (9 * x * (9 * x) / 4) with (81 / 4 * (x * x)) in Q by field. lra.
Qed.

(** the two asymptotic power laws of the efficiency *)
Lemma eff_high p m : 0 < m - d_lgmcrit p ->
  Rabs (eff_spec p m - (d_lgy_at_mcrit p + d_indx_hi p * (m - d_lgmcrit p))) * (m - d_lgmcrit p) <= Rabs (d_indx_lo p - d_indx_hi p).
Proof.
  intros X. unfold eff_spec. cbv zeta. set (x := m - d_lgmcrit p) in *. pose proof (exp_pos (9 * x)) as E.
  replace (exp (- (9 * x))) with (/ exp (9 * x)) by (symmetry; apply exp_Ropp).
  replace (d_lgy_at_mcrit p + x * (d_indx_lo p + (d_indx_hi p - d_indx_lo p) * (1 / (1 + / exp (9 * x)))) - (d_lgy_at_mcrit p + d_indx_hi p * x))
    with ((d_indx_lo p - d_indx_hi p) * (x / (1 + exp (9 * x)))) by (field; split; lra).
  rewrite Rabs_mult, (Rabs_right (x / (1 + exp (9 * x)))) by (apply Rle_ge, Rle_div_r; lra).
  pose proof (tail_small x X) as T. pose proof (Rabs_pos (d_indx_lo p - d_indx_hi p)) as P. set (k := Rabs _) in *.
  rewrite Rmult_assoc. replace k with (k * 1) at 2 by ring. apply Rmult_le_compat_l; lra.
Qed.
Lemma eff_low p m : 0 < d_lgmcrit p - m ->
  Rabs (eff_spec p m - (d_lgy_at_mcrit p + d_indx_lo p * (m - d_lgmcrit p))) * (d_lgmcrit p - m) <= Rabs (d_indx_lo p - d_indx_hi p).
Proof.
  intros X. unfold eff_spec. cbv zeta. set (x := d_lgmcrit p - m) in *. pose proof (exp_pos (9 * x)) as E.
  replace (m - d_lgmcrit p) with (- x) by (unfold x; ring). replace (- (9 * - x)) with (9 * x) by ring.
  replace (d_lgy_at_mcrit p + - x * (d_indx_lo p + (d_indx_hi p - d_indx_lo p) * (1 / (1 + exp (9 * x)))) - (d_lgy_at_mcrit p + d_indx_lo p * - x))
    with ((d_indx_lo p - d_indx_hi p) * (x / (1 + exp (9 * x)))) by (field; lra).
  rewrite Rabs_mult, (Rabs_right (x / (1 + exp (9 * x)))) by (apply Rle_ge, Rle_div_r; lra).
  pose proof (tail_small x X) as T. pose proof (Rabs_pos (d_indx_lo p - d_indx_hi p)) as P. set (k := Rabs _) in *.
  rewrite Rmult_assoc. replace k with (k * 1) at 2 by ring. apply Rmult_le_compat_l; lra.
Qed.
Lemma close_lines (e : R -> R) a b K c a' b' K' c' : 0 <= K -> 0 <= K' ->
  (forall m, 0 < m - c -> Rabs (e m - (a + b * m)) * (m - c) <= K) ->
  (forall m, 0 < m - c' -> Rabs (e m - (a' + b' * m)) * (m - c') <= K') -> a = a' /\ b = b'.
Proof.
  intros KP KP' H H'. set (d := 2 * (Rabs c + Rabs c')).
  destruct (vanishing_line (a - a') (b - b') (2 * (K + K') + 1) d) as [A B]; [lra| |lra].
  intros m M0 M1. pose proof (Rle_abs c). pose proof (Rle_abs c'). pose proof (Rabs_pos c). pose proof (Rabs_pos c'). unfold d in M0.
  assert (X : 0 < m - c) by lra. assert (X' : 0 < m - c') by lra. specialize (H m X). specialize (H' m X').
  set (u := e m - (a + b * m)) in *. set (u' := e m - (a' + b' * m)) in *.
  replace (a - a' + (b - b') * m) with (u' - u) by (unfold u, u'; ring).
  assert (T : Rabs (u' - u) <= Rabs u' + Rabs u) by (unfold Rminus; eapply Rle_trans; [apply Rabs_triang|]; rewrite Rabs_Ropp; lra).
  pose proof (Rabs_pos u) as U. pose proof (Rabs_pos u') as U'.
  assert (Rabs (u' - u) * m <= (Rabs u' + Rabs u) * m) by (apply Rmult_le_compat_r; lra).
  assert (Rabs u * m <= Rabs u * (2 * (m - c))) by (apply Rmult_le_compat_l; lra).
  assert (Rabs u' * m <= Rabs u' * (2 * (m - c'))) by (apply Rmult_le_compat_l; lra). lra.
Qed.
Lemma eff_identify p p' : in_bounds p -> in_bounds p' -> (forall m, eff_spec p m = eff_spec p' m) ->
  d_lgmcrit p = d_lgmcrit p' /\ d_lgy_at_mcrit p = d_lgy_at_mcrit p' /\ d_indx_lo p = d_indx_lo p' /\ d_indx_hi p = d_indx_hi p'.
Proof.
  intros B B' H.
  destruct (close_lines (eff_spec p) (d_lgy_at_mcrit p - d_indx_hi p * d_lgmcrit p) (d_indx_hi p) (Rabs (d_indx_lo p - d_indx_hi p)) (d_lgmcrit p)
    (d_lgy_at_mcrit p' - d_indx_hi p' * d_lgmcrit p') (d_indx_hi p') (Rabs (d_indx_lo p' - d_indx_hi p')) (d_lgmcrit p')) as [A1 A2];
    [apply Rabs_pos|apply Rabs_pos| | |].
  { intros m M. replace (d_lgy_at_mcrit p - d_indx_hi p * d_lgmcrit p + d_indx_hi p * m) with (d_lgy_at_mcrit p + d_indx_hi p * (m - d_lgmcrit p)) by ring. apply eff_high, M. }
  { intros m M. rewrite H. replace (d_lgy_at_mcrit p' - d_indx_hi p' * d_lgmcrit p' + d_indx_hi p' * m) with (d_lgy_at_mcrit p' + d_indx_hi p' * (m - d_lgmcrit p')) by ring. apply eff_high, M. }
  destruct (close_lines (fun m => eff_spec p (- m)) (d_lgy_at_mcrit p - d_indx_lo p * d_lgmcrit p) (- d_indx_lo p) (Rabs (d_indx_lo p - d_indx_hi p)) (- d_lgmcrit p)
    (d_lgy_at_mcrit p' - d_indx_lo p' * d_lgmcrit p') (- d_indx_lo p') (Rabs (d_indx_lo p' - d_indx_hi p')) (- d_lgmcrit p')) as [A3 A4];
    [apply Rabs_pos|apply Rabs_pos| | |].
  { intros m M. replace (d_lgy_at_mcrit p - d_indx_lo p * d_lgmcrit p + - d_indx_lo p * m) with (d_lgy_at_mcrit p + d_indx_lo p * (- m - d_lgmcrit p)) by ring.
    replace (m - - d_lgmcrit p) with (d_lgmcrit p - - m) in * by ring. apply eff_low, M. }
  { intros m M. rewrite H. replace (d_lgy_at_mcrit p' - d_indx_lo p' * d_lgmcrit p' + - d_indx_lo p' * m) with (d_lgy_at_mcrit p' + d_indx_lo p' * (- m - d_lgmcrit p')) by ring.
    replace (m - - d_lgmcrit p') with (d_lgmcrit p' - - m) in * by ring. apply eff_low, M. }
  destruct B as (_ & _ & L & U & _). rewrite <- A2 in A1. assert (A5 : d_indx_lo p' = d_indx_lo p) by lra. rewrite A5 in A3.
  set (lo := d_indx_lo p) in *. set (hi := d_indx_hi p) in *.
  assert (E : (lo - hi) * (d_lgmcrit p - d_lgmcrit p') = 0) by lra.
  apply Rmult_integral in E. destruct E as [E|E]; [lra|]. assert (M : d_lgmcrit p = d_lgmcrit p') by lra. rewrite M in A1. repeat split; lra.
Qed.

Lemma ge_div a b c : 0 < c -> a * c <= b -> a <= b / c.
Proof. intros C H. apply (proj1 (Rle_div_r a b c C)), H. Qed.
Lemma le_div a b c : 0 < c -> b <= a * c -> b / c <= a.
Proof. intros C H. apply (proj2 (Rle_div_l b a c C)), H. Qed.
Lemma le_div_inv a b c : b / c <= a -> 0 < c -> b <= a * c.
Proof. intros H C. apply (proj1 (Rle_div_l b a c C)), H. Qed.
(** the quenching curve *)
Definition qexp (drop rejuv u : R) : R := drop * twR (u + 3) + (rejuv - drop) * twR (u - 3).
Lemma quench_qexp qt dt drop rejuv x : 0 < dt -> quench_spec qt dt drop rejuv x = pow10R (qexp drop rejuv ((x - qt) / (dt / 12))).
Proof.
  intros P. unfold quench_spec, qexp. rewrite !tw_cdf_eq. do 4 f_equal; field; lra.
Qed.
Lemma qexp_early drop rejuv u : u <= -6 -> qexp drop rejuv u = 0.
Proof. intros H. unfold qexp. rewrite !twR_lo by lra. ring. Qed.
Lemma qexp_late drop rejuv u : 6 <= u -> qexp drop rejuv u = rejuv.
Proof. intros H. unfold qexp. rewrite !twR_hi by lra. ring. Qed.
Lemma qexp_0 drop rejuv : qexp drop rejuv 0 = drop.
Proof. unfold qexp. rewrite (twR_hi (0 + 3)), (twR_lo (0 - 3)) by lra. ring. Qed.
Lemma qexp_onset drop rejuv u : drop < rejuv -> rejuv < 0 -> -6 < u -> qexp drop rejuv u < 0.
Proof.
  intros D J H. unfold qexp. pose proof (twR_range (u + 3)). pose proof (twR_range (u - 3)).
  assert (P : 0 < twR (u + 3)).
  { destruct (Rle_lt_dec 3 (u + 3)). - rewrite twR_hi by lra. lra. - rewrite <- (twR_lo (-3)) by lra. apply twR_strict; lra. }
  assert (M : twR (u - 3) <= twR (u + 3)) by (apply twR_mono; lra).
  assert ((rejuv - drop) * twR (u - 3) <= (rejuv - drop) * twR (u + 3)) by (apply Rmult_le_compat_l; lra).
  assert (rejuv * twR (u + 3) < 0) by (rewrite <- (Rmult_0_l (twR (u + 3))); apply Rmult_lt_compat_r; lra). lra.
Qed.
Lemma qexp_min drop rejuv u : drop < rejuv -> rejuv < 0 -> u <> 0 -> drop < qexp drop rejuv u.
Proof.
  intros D J H. unfold qexp. pose proof (twR_range (u + 3)). pose proof (twR_range (u - 3)). destruct (Rle_lt_dec u 0) as [L|L].
  - rewrite (twR_lo (u - 3)) by lra. assert (T : twR (u + 3) < 1).
    { destruct (Rle_lt_dec (u + 3) (-3)). - rewrite twR_lo by lra. lra. - rewrite <- (twR_hi 3) by lra. apply twR_strict; lra. }
    assert (drop * 1 < drop * twR (u + 3)) by (apply Rmult_lt_gt_compat_neg_l; lra). lra.
  - rewrite (twR_hi (u + 3)) by lra. assert (T : 0 < twR (u - 3)).
    { destruct (Rle_lt_dec 3 (u - 3)). - rewrite twR_hi by lra. lra. - rewrite <- (twR_lo (-3)) by lra. apply twR_strict; lra. }
    assert (0 < (rejuv - drop) * twR (u - 3)) by (apply Rmult_lt_0_compat; lra). lra.
Qed.
Lemma pow10_inj a b : pow10R a = pow10R b -> a = b.
Proof. intros H. rewrite <- (log10_pow10 a), <- (log10_pow10 b), H. reflexivity. Qed.
Lemma quench_identify qt dt drop rejuv qt' dt' drop' rejuv' : 0 < dt -> 0 < dt' -> drop < rejuv -> rejuv < 0 -> drop' < rejuv' -> rejuv' < 0 ->
  (forall x, quench_spec qt dt drop rejuv x = quench_spec qt' dt' drop' rejuv' x) -> qt = qt' /\ dt = dt' /\ drop = drop' /\ rejuv = rejuv'.
Proof.
  intros P P' D J D' J' H.
  assert (E : forall x, qexp drop rejuv ((x - qt) / (dt / 12)) = qexp drop' rejuv' ((x - qt') / (dt' / 12))).
  { intros x. apply pow10_inj. rewrite <- !quench_qexp by assumption. apply H. }
  assert (I : rejuv = rejuv').
  { set (x := Rmax (qt + dt / 2) (qt' + dt' / 2)). pose proof (Rmax_l (qt + dt / 2) (qt' + dt' / 2)) as X1. pose proof (Rmax_r (qt + dt / 2) (qt' + dt' / 2)) as X2. fold x in X1, X2.
    pose proof (E x) as Q. rewrite !qexp_late in Q; [exact Q| |]; apply ge_div; lra. }
  assert (Z : forall q d : R, 0 < d -> (q - q) / (d / 12) = 0) by (intros; field; lra).
  assert (M : drop' <= drop /\ drop <= drop').
  { split.
    - destruct (Req_dec ((qt - qt') / (dt' / 12)) 0) as [Y|Y].
      + pose proof (E qt) as Q. rewrite (Z qt dt P), qexp_0, Y, qexp_0 in Q. lra.
      + pose proof (E qt) as Q. rewrite (Z qt dt P), qexp_0 in Q. pose proof (qexp_min drop' rejuv' _ D' J' Y). lra.
    - destruct (Req_dec ((qt' - qt) / (dt / 12)) 0) as [Y|Y].
      + pose proof (E qt') as Q. rewrite (Z qt' dt' P'), qexp_0, Y, qexp_0 in Q. lra.
      + pose proof (E qt') as Q. rewrite (Z qt' dt' P'), qexp_0 in Q. pose proof (qexp_min drop rejuv _ D J Y). lra. }
  assert (M' : drop = drop') by lra.
  assert (T : qt = qt').
  { destruct (Req_dec ((qt - qt') / (dt' / 12)) 0) as [Y|Y].
    - assert (F : (qt - qt') = 0); [|lra]. replace (qt - qt') with ((qt - qt') / (dt' / 12) * (dt' / 12)) by (field; lra). rewrite Y. ring.
    - pose proof (E qt) as Q. rewrite (Z qt dt P), qexp_0 in Q. pose proof (qexp_min drop' rejuv' _ D' J' Y). lra. }
  assert (W : dt' <= dt /\ dt <= dt').
  { split.
    - destruct (Rle_lt_dec ((qt - dt / 2 - qt') / (dt' / 12)) (-6)) as [Y|Y].
      + apply le_div_inv in Y; lra.
      + exfalso. pose proof (E (qt - dt / 2)) as Q. rewrite (qexp_early drop rejuv) in Q by (apply le_div; lra). pose proof (qexp_onset drop' rejuv' _ D' J' Y). lra.
    - destruct (Rle_lt_dec ((qt' - dt' / 2 - qt) / (dt / 12)) (-6)) as [Y|Y].
      + apply le_div_inv in Y; lra.
      + exfalso. pose proof (E (qt' - dt' / 2)) as Q. rewrite (qexp_early drop' rejuv') in Q by (apply le_div; lra). pose proof (qexp_onset drop rejuv _ D J Y). lra. }
  repeat split; lra.
Qed.

(** ** C135 *)
Lemma steady_once m mah lgt0 t : 0 < t -> halo_history (steady m) mah lgt0 (fun _ => m) [t].
Proof. intros H. constructor; [split; [exact H|reflexivity]|constructor]. Qed.
Lemma identify mah lgt0 p p' : in_bounds p -> in_bounds p' ->
  (forall m t fb, 0 < t -> 0 < fb ->
     calc_sfh_singlegal (steady m) (map_d Fin p) mah [Fin t] lgt0 (Fin fb) = calc_sfh_singlegal (steady m) (map_d Fin p') mah [Fin t] lgt0 (Fin fb)) ->
  p = p'.
Proof.
  intros B B' H.
  set (Q := fun p x => quench_spec (d_lg_qt p) (pow10R (d_qlglgdt p)) (d_lg_drop p) (d_lg_rejuv p) x).
  assert (V : forall m x, Q p x * pow10R (eff_spec p m) = Q p' x * pow10R (eff_spec p' m)).
  { intros m x. set (a := Q p x * pow10R (eff_spec p m)). set (a' := Q p' x * pow10R (eff_spec p' m)).
    assert (A : 0 < a) by (apply Rmult_lt_0_compat; [apply quench_spec_pos|apply pow10_pos]).
    assert (A' : 0 < a') by (apply Rmult_lt_0_compat; [apply quench_spec_pos|apply pow10_pos]).
    pose proof (pow10_pos m) as PM. set (fb := (/ a + / a') / pow10R m).
    pose proof (Rinv_0_lt_compat a A) as IA. pose proof (Rinv_0_lt_compat a' A') as IA'.
    assert (FB : 0 < fb) by (apply Rdiv_lt_0_compat; lra).
    pose proof (H m (pow10R x) fb (pow10_pos x) FB) as E.
    pose proof (calc_sfh_value (steady m) p mah [pow10R x] lgt0 fb (fun _ => m) (steady_once m mah lgt0 _ (pow10_pos x))) as E1.
    pose proof (calc_sfh_value (steady m) p' mah [pow10R x] lgt0 fb (fun _ => m) (steady_once m mah lgt0 _ (pow10_pos x))) as E2.
    cbn [map] in E1, E2. rewrite E1, E2 in E. injection E as E. unfold sfr_spec, ms_spec in E. rewrite log10_pow10 in E.
    change (Rmax (1 / 10 ^ 14) (Q p x * (fb * pow10R m * pow10R (eff_spec p m))) = Rmax (1 / 10 ^ 14) (Q p' x * (fb * pow10R m * pow10R (eff_spec p' m)))) in E.
    assert (FM : fb * pow10R m = / a + / a') by (unfold fb; field; lra).
    replace (Q p x * (fb * pow10R m * pow10R (eff_spec p m))) with ((/ a + / a') * a) in E by (rewrite <- FM; unfold a; ring).
    replace (Q p' x * (fb * pow10R m * pow10R (eff_spec p' m))) with ((/ a + / a') * a') in E by (rewrite <- FM; unfold a'; ring).
    assert (L1 : 1 <= (/ a + / a') * a). { rewrite Rmult_plus_distr_r, Rinv_l by lra. assert (0 < / a' * a) by (apply Rmult_lt_0_compat; lra). lra. }
    assert (L2 : 1 <= (/ a + / a') * a'). { rewrite Rmult_plus_distr_r, (Rinv_l a') by lra. assert (0 < / a * a') by (apply Rmult_lt_0_compat; lra). lra. }
    assert (S : 1 / 10 ^ 14 < 1) by lra.
    rewrite !Rmax_right in E by lra. apply (Rmult_eq_reg_l (/ a + / a')); lra. }
  assert (DT : 0 < pow10R (d_qlglgdt p)) by apply pow10_pos. assert (DT' : 0 < pow10R (d_qlglgdt p')) by apply pow10_pos.
  assert (EE : forall m, eff_spec p m = eff_spec p' m).
  { intros m. set (x := Rmin (d_lg_qt p - pow10R (d_qlglgdt p) / 2) (d_lg_qt p' - pow10R (d_qlglgdt p') / 2)).
    specialize (V m x). unfold Q in V. rewrite !quench_spec_before in V by (assumption || apply Rmin_l || apply Rmin_r).
    apply pow10_inj. lra. }
  assert (QQ : forall x, Q p x = Q p' x).
  { intros x. specialize (V 0 x). rewrite <- EE in V. pose proof (pow10_pos (eff_spec p 0)). apply (Rmult_eq_reg_r (pow10R (eff_spec p 0))); lra. }
  destruct (eff_identify p p' B B' EE) as (E1 & E2 & E3 & E4).
  destruct B as (_ & _ & _ & _ & _ & _ & [_ D] & [D2 D3]). destruct B' as (_ & _ & _ & _ & _ & _ & [_ D'] & [D2' D3']).
  destruct (quench_identify _ _ _ _ _ _ _ _ DT DT' D2 D3 D2' D3' QQ) as (E5 & E6 & E7 & E8). apply pow10_inj in E6.
  destruct p, p'. cbn in *. subst. reflexivity.
Qed.

Lemma identify_unbounded mah lgt0 u u' :
  (forall m t fb, 0 < t -> 0 < fb ->
     calc_sfh_singlegal (steady m) (get_bounded_diffstar_params (map_d Fin u)) mah [Fin t] lgt0 (Fin fb)
     = calc_sfh_singlegal (steady m) (get_bounded_diffstar_params (map_d Fin u')) mah [Fin t] lgt0 (Fin fb)) ->
  u = u'.
Proof.
  intros H. pose proof (bounded_in_bounds u) as B. pose proof (bounded_in_bounds u') as B'.
  pose proof (bounded_diffstar_fin u) as F. pose proof (bounded_diffstar_fin u') as F'.
  set (p := join_params _ _) in B, F. set (p' := join_params (bounded_msR (slice_ms u')) _) in B', F'.
  assert (E : p = p').
  { apply (identify mah lgt0 p p' B B'). intros m t fb T Fb. rewrite <- F, <- F'. apply H; assumption. }
  pose proof (unbounded_bounded_id u) as U. pose proof (unbounded_bounded_id u') as U'. rewrite F, E, <- F', U' in U.
  destruct u, u'. unfold map_d in U. cbn in U. injection U. intros. subst. reflexivity.
Qed.

(** one halo of constant mass does not see the slopes *)
Lemma one_halo p : in_bounds p -> exists p', in_bounds p' /\ d_indx_lo p' <> d_indx_lo p /\
  forall mah lgt0 ts fb, Forall (fun t => 0 < t) ts ->
    calc_sfh_singlegal (steady (d_lgmcrit p)) (map_d Fin p') mah (map Fin ts) lgt0 (Fin fb)
    = calc_sfh_singlegal (steady (d_lgmcrit p)) (map_d Fin p) mah (map Fin ts) lgt0 (Fin fb).
Proof.
  intros B. exists (mkDiffstar (d_lgmcrit p) (d_lgy_at_mcrit p) ((d_indx_lo p + 5) / 2) (d_indx_hi p) (d_lg_qt p) (d_qlglgdt p) (d_lg_drop p) (d_lg_rejuv p)).
  split; [|split].
  - unfold in_bounds in *. cbn. lra.
  - unfold in_bounds in B. cbn. lra.
  - intros mah lgt0 ts fb T.
    assert (H : halo_history (steady (d_lgmcrit p)) mah lgt0 (fun _ => d_lgmcrit p) ts).
    { unfold halo_history. eapply Forall_impl; [|exact T]. intros t Ht. split; [exact Ht|reflexivity]. }
    rewrite !(calc_sfh_value _ _ mah ts lgt0 fb _ H). f_equal. apply map_ext. intros t. unfold sfr_spec, ms_spec, eff_spec. cbn.
    replace (d_lgmcrit p - d_lgmcrit p) with 0 by ring. rewrite !Rmult_0_l. reflexivity.
Qed.
