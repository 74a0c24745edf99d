(** How far errors of the inputs move a history. *)
From Coq Require Import Reals List Lra Lia.
From Coquelicot Require Import Coquelicot.
From Verif Require Import XReal XFacts RealFacts ModelUtils ModelKernels ModelSfh SpecCore SpecSymmetry SpecRobust
  SigmoidProofs TriweightProofs IntegralProofs SfhProofs FloatTwProofs SymmetryProofs PeakProofs BudgetProofs.
Import List ListNotations.
Open Scope R_scope.

Lemma exp32 : 4 < exp (3 / 2).
Proof.
  assert (E : 1 + 1 / 8 < exp (1 / 8)) by (apply exp_ineq1; lra).
  replace (3 / 2) with (INR 12 * (1 / 8)) by (rewrite INR_IZR_INZ; cbn; lra).
  assert (P : forall n x, exp (INR n * x) = exp x ^ n).
  { induction n as [|n IH]; intros x; [simpl; rewrite Rmult_0_l; apply exp_0|]. rewrite S_INR, Rmult_plus_distr_r, Rmult_1_l, exp_plus, IH. cbn [pow]. ring. }
  rewrite P. eapply Rlt_le_trans; [|apply pow_incr; split; [|left; exact E]]; lra.
Qed.
Lemma exp_bump z : 4 * z <= exp z + 2.
Proof.
  assert (A : 1 + (z - 3 / 2) <= exp (z - 3 / 2)).
  { destruct (Req_dec (z - 3 / 2) 0) as [->|N]; [rewrite exp_0; lra|left; apply exp_ineq1, N]. }
  assert (B : exp (z - 3 / 2) * 4 <= exp z).
  { replace z with (z - 3 / 2 + 3 / 2) at 2 by ring. rewrite exp_plus. apply Rmult_le_compat_l; [left; apply exp_pos|]. pose proof exp32. lra. }
  lra.
Qed.
(** z s (1 - s) is at most 1/4 in size. *)
Lemma bump_small z : Rabs (z * (exp z / (1 + exp z) ^ 2)) <= 1 / 4.
Proof.
  assert (P : forall z, z * (exp z / (1 + exp z) ^ 2) <= 1 / 4).
  { intros y. pose proof (exp_bump y) as B. pose proof (exp_pos y) as Q. set (w := exp y) in *.
    replace (y * (w / (1 + w) ^ 2)) with (y * w / (1 + w) ^ 2) by (field; lra).
    apply Rle_div_l; [apply Rlt_gt, pow_lt; lra|]. assert (4 * y * w <= (w + 2) * w) by (apply Rmult_le_compat_r; lra). simpl. nra. }
  apply Rabs_le. split; [|apply P]. specialize (P (- z)).
  replace (exp (- z) / (1 + exp (- z)) ^ 2) with (exp z / (1 + exp z) ^ 2) in P; [lra|].
  rewrite exp_Ropp. pose proof (exp_pos z). field. lra.
Qed.
Lemma mix_small a b s : 0 <= s <= 1 -> Rabs (a * (1 - s) + b * s) <= Rmax (Rabs a) (Rabs b).
Proof.
  intros S. pose proof (Rmax_l (Rabs a) (Rabs b)). pose proof (Rmax_r (Rabs a) (Rabs b)). set (k := Rmax _ _) in *.
  eapply Rle_trans; [apply Rabs_triang|]. rewrite !Rabs_mult, (Rabs_pos_eq s), (Rabs_pos_eq (1 - s)) by lra.
  assert (Rabs a * (1 - s) <= k * (1 - s)) by (apply Rmult_le_compat_r; lra).
  assert (Rabs b * s <= k * s) by (apply Rmult_le_compat_r; lra). lra.
Qed.
Lemma bend_lip lo hi x y : Rabs (bend lo (- hi) x - bend lo (- hi) y) <= steepest lo hi * Rabs (x - y).
Proof.
  assert (D : forall c, Rabs (exp (9 * c) / (1 + exp (9 * c)) ^ 2 * slope_sign lo (- hi) (9 * c)) <= steepest lo hi).
  { intros c. unfold steepest. set (z := 9 * c). pose proof (exp_pos z) as W.
    replace (exp z / (1 + exp z) ^ 2 * slope_sign lo (- hi) z)
      with (lo * (1 - exp z / (1 + exp z)) + hi * (exp z / (1 + exp z)) + (hi - lo) * (z * (exp z / (1 + exp z) ^ 2))).
    2:{ unfold slope_sign. rewrite exp_Ropp. field. lra. }
    eapply Rle_trans; [apply Rabs_triang|]. apply Rplus_le_compat.
    - apply mix_small. split; [left; apply Rdiv_lt_0_compat; lra|]. apply Rle_div_l; lra.
    - rewrite Rabs_mult. unfold Rdiv at 2. apply Rmult_le_compat_l; [apply Rabs_pos|]. replace (/ 4) with (1 / 4) by lra. apply bump_small. }
  assert (V : forall x y, x < y -> Rabs (bend lo (- hi) y - bend lo (- hi) x) <= steepest lo hi * Rabs (y - x)).
  { intros u v L. destruct (MVT_cor2 (bend lo (- hi)) (fun c => exp (9 * c) / (1 + exp (9 * c)) ^ 2 * slope_sign lo (- hi) (9 * c)) u v L) as (c & E & _).
    - intros c _. apply is_derive_Reals, bend_derive.
    - rewrite E, Rabs_mult. apply Rmult_le_compat_r; [apply Rabs_pos|apply D]. }
  destruct (Rtotal_order x y) as [L|[->|L]].
  - rewrite Rabs_minus_sym, (Rabs_minus_sym x). apply V, L.
  - rewrite !Rminus_eq_0, Rabs_R0, Rmult_0_r. lra.
  - apply V, L.
Qed.
Lemma logistic_01 z : 0 <= 1 / (1 + exp (- z)) <= 1.
Proof. pose proof (exp_pos (- z)). split; [left; apply Rdiv_lt_0_compat; lra|]. apply Rle_div_l; lra. Qed.
Lemma steepest_pos lo hi : 0 <= steepest lo hi.
Proof. unfold steepest. pose proof (Rmax_l (Rabs lo) (Rabs hi)). pose proof (Rabs_pos lo). pose proof (Rabs_pos (hi - lo)). lra. Qed.

Lemma pdf_arm v : -1 <= v <= 1 -> 0 <= 3 * (1 - v) * (35 / 96 * (1 - v ^ 2) ^ 3) <= 35 / 27.
Proof.
  intros V. assert (A : 0 <= 1 - v ^ 2 <= 1) by nra.
  assert (B : (1 - v) * (1 - v ^ 2) <= 32 / 27).
  { assert (32 / 27 - (1 - v) * (1 - v ^ 2) = (v + 1 / 3) ^ 2 * (5 / 3 - v)) by field. assert (0 <= (v + 1 / 3) ^ 2 * (5 / 3 - v)); [|lra]. apply Rmult_le_pos; [apply pow2_ge_0|lra]. }
  assert (B0 : 0 <= (1 - v) * (1 - v ^ 2)) by (apply Rmult_le_pos; lra).
  assert (C : 0 <= (1 - v ^ 2) ^ 2 <= 1) by nra.
  replace (3 * (1 - v) * (35 / 96 * (1 - v ^ 2) ^ 3)) with (35 / 32 * (((1 - v) * (1 - v ^ 2)) * (1 - v ^ 2) ^ 2)) by field.
  set (k := (1 - v) * (1 - v ^ 2)) in *. set (l := (1 - v ^ 2) ^ 2) in *. assert (0 <= k * l) by (apply Rmult_le_pos; lra).
  assert (k * l <= k * 1) by (apply Rmult_le_compat_l; lra). lra.
Qed.
Lemma pdf_moment y : Rabs (y * tw_pdf (y + 3)) <= 35 / 27 /\ Rabs (y * tw_pdf (y - 3)) <= 35 / 27.
Proof.
  split.
  - unfold tw_pdf. destruct (Rle_dec (Rabs (y + 3)) 3) as [L|L]; [|rewrite Rmult_0_r, Rabs_R0; lra]. apply Rabs_le_between in L.
    destruct (pdf_arm ((y + 3) / 3)) as [A B]; [lra|]. rewrite <- Rabs_Ropp. rewrite Rabs_pos_eq; [|replace (- (y * _)) with (3 * (1 - (y + 3) / 3) * (35 / 96 * (1 - ((y + 3) / 3) ^ 2) ^ 3)) by field; exact A].
    replace (- (y * _)) with (3 * (1 - (y + 3) / 3) * (35 / 96 * (1 - ((y + 3) / 3) ^ 2) ^ 3)) by field. exact B.
  - unfold tw_pdf. destruct (Rle_dec (Rabs (y - 3)) 3) as [L|L]; [|rewrite Rmult_0_r, Rabs_R0; lra]. apply Rabs_le_between in L.
    destruct (pdf_arm (- ((y - 3) / 3))) as [A B]; [lra|]. rewrite Rabs_pos_eq; [|replace (y * _) with (3 * (1 - - ((y - 3) / 3)) * (35 / 96 * (1 - (- ((y - 3) / 3)) ^ 2) ^ 3)) by field; exact A].
    replace (y * _) with (3 * (1 - - ((y - 3) / 3)) * (35 / 96 * (1 - (- ((y - 3) / 3)) ^ 2) ^ 3)) by field. exact B.
Qed.
Lemma tw_rescale c g a b : (forall y, Rabs (y * tw_pdf (y + g)) <= 35 / 27) ->
  Rabs (twR (c * exp a + g) - twR (c * exp b + g)) <= 35 / 27 * Rabs (a - b).
Proof.
  intros G.
  assert (D : forall v, is_derive (fun v => twR (c * exp v + g)) v (c * exp v * tw_pdf (c * exp v + g))).
  { intros v. apply (is_derive_comp twR (fun v => c * exp v + g) v); [apply is_derive_tw|]. auto_derive; [auto|ring]. }
  assert (V : forall x y, x < y -> Rabs (twR (c * exp y + g) - twR (c * exp x + g)) <= 35 / 27 * Rabs (y - x)).
  { intros u v L. destruct (MVT_cor2 (fun v => twR (c * exp v + g)) (fun v => c * exp v * tw_pdf (c * exp v + g)) u v L) as (w & E & _).
    - intros w _. apply is_derive_Reals, D.
    - cbv beta in E. rewrite E, Rabs_mult. apply Rmult_le_compat_r; [apply Rabs_pos|apply G]. }
  destruct (Rtotal_order a b) as [L|[->|L]].
  - rewrite Rabs_minus_sym, (Rabs_minus_sym a). apply V, L.
  - rewrite !Rminus_eq_0, Rabs_R0, Rmult_0_r. lra.
  - apply V, L.
Qed.
Lemma tw_arg u qt g l : (u - (qt - g * pow10R l / 4)) / (pow10R l / 12) = 12 * (u - qt) * exp (- (l * ln 10)) + 3 * g.
Proof. pose proof (pow10_pos l) as P. rewrite exp_Ropp. unfold pow10R in *. field. lra. Qed.
Lemma tw_shift u qt qt' l l' g : g = 1 \/ g = -1 ->
  Rabs (twR ((u - (qt' - g * pow10R l' / 4)) / (pow10R l' / 12)) - twR ((u - (qt - g * pow10R l / 4)) / (pow10R l / 12)))
  <= 35 / 8 / pow10R l * Rabs (qt' - qt) + 35 / 27 * ln 10 * Rabs (l' - l).
Proof.
  intros G. pose proof (pow10_pos l) as P. set (y := (u - (qt - g * pow10R l / 4)) / (pow10R l / 12)).
  set (x := (u - (qt' - g * pow10R l / 4)) / (pow10R l / 12)). set (z := (u - (qt' - g * pow10R l' / 4)) / (pow10R l' / 12)).
  replace (twR z - twR y) with ((twR x - twR y) + (twR z - twR x)) by ring. eapply Rle_trans; [apply Rabs_triang|]. apply Rplus_le_compat.
  - eapply Rle_trans; [apply twR_lip|]. replace (x - y) with (12 / pow10R l * (- (qt' - qt))) by (unfold x, y; field; lra).
    rewrite Rabs_mult, Rabs_Ropp, (Rabs_pos_eq (12 / pow10R l)) by (left; apply Rdiv_lt_0_compat; lra). right. field. lra.
  - unfold z, x. rewrite !tw_arg. eapply Rle_trans.
    + apply tw_rescale. intros v. destruct (pdf_moment v) as [A B]. destruct G as [-> | ->]; [rewrite Rmult_1_r; exact A|].
      replace (v + 3 * -1) with (v - 3) by ring. exact B.
    + replace (- (l' * ln 10) - - (l * ln 10)) with (ln 10 * (- (l' - l))) by ring. rewrite Rabs_mult, Rabs_Ropp, (Rabs_pos_eq (ln 10)); [lra|].
      left. rewrite <- ln_1. apply ln_increasing; lra.
Qed.
Lemma quench_log_lip p q u : exists a b,
  quench_spec (d_lg_qt p) (pow10R (d_qlglgdt p)) (d_lg_drop p) (d_lg_rejuv p) u = pow10R a /\
  quench_spec (d_lg_qt q) (pow10R (d_qlglgdt q)) (d_lg_drop q) (d_lg_rejuv q) u = pow10R b /\
  Rabs (b - a) <= Rmax (Rabs (d_lg_drop q - d_lg_drop p)) (Rabs (d_lg_rejuv q - d_lg_rejuv p))
    + 35 / 8 * (Rabs (d_lg_drop p) + Rabs (d_lg_rejuv p - d_lg_drop p)) / pow10R (d_qlglgdt p) * Rabs (d_lg_qt q - d_lg_qt p)
    + 35 / 27 * ln 10 * (Rabs (d_lg_drop p) + Rabs (d_lg_rejuv p - d_lg_drop p)) * Rabs (d_qlglgdt q - d_qlglgdt p).
Proof.
  unfold quench_spec. eexists. eexists. split; [reflexivity|]. split; [reflexivity|].
  rewrite !tw_cdf_eq. set (l := d_qlglgdt p). set (l' := d_qlglgdt q). pose proof (pow10_pos l) as DT. pose proof (pow10_pos l') as DT'.
  set (d := d_lg_drop p). set (r := d_lg_rejuv p). set (d' := d_lg_drop q). set (r' := d_lg_rejuv q).
  set (y1 := (u - (d_lg_qt p - pow10R l / 4)) / (pow10R l / 12)). set (y2 := (u - (d_lg_qt p + pow10R l / 4)) / (pow10R l / 12)).
  set (z1 := (u - (d_lg_qt q - pow10R l' / 4)) / (pow10R l' / 12)). set (z2 := (u - (d_lg_qt q + pow10R l' / 4)) / (pow10R l' / 12)).
  set (Q := Rabs (d_lg_qt q - d_lg_qt p)). set (T := Rabs (l' - l)).
  assert (L1 : Rabs (twR z1 - twR y1) <= 35 / 8 / pow10R l * Q + 35 / 27 * ln 10 * T).
  { pose proof (tw_shift u (d_lg_qt p) (d_lg_qt q) l l' 1 (or_introl eq_refl)) as S. rewrite !Rmult_1_l in S. exact S. }
  assert (L2 : Rabs (twR z2 - twR y2) <= 35 / 8 / pow10R l * Q + 35 / 27 * ln 10 * T).
  { pose proof (tw_shift u (d_lg_qt p) (d_lg_qt q) l l' (-1) (or_intror eq_refl)) as S. fold Q T in S.
    replace (d_lg_qt q - -1 * pow10R l' / 4) with (d_lg_qt q + pow10R l' / 4) in S by field.
    replace (d_lg_qt p - -1 * pow10R l / 4) with (d_lg_qt p + pow10R l / 4) in S by field. exact S. }
  assert (ZZ : z2 <= z1).
  { unfold z1, z2, Rdiv. apply Rmult_le_compat_r; [left; apply Rinv_0_lt_compat; lra|lra]. }
  pose proof (twR_mono z2 z1 ZZ) as M. pose proof (twR_range z1) as R1. pose proof (twR_range z2) as R2.
  replace (d' * twR z1 + (r' - d') * twR z2 - (d * twR y1 + (r - d) * twR y2))
    with (((d' - d) * (twR z1 - twR z2) + (r' - r) * twR z2) + (d * (twR z1 - twR y1) + (r - d) * (twR z2 - twR y2))) by ring.
  eapply Rle_trans; [apply Rabs_triang|]. rewrite Rplus_assoc. apply Rplus_le_compat.
  - eapply Rle_trans; [apply Rabs_triang|]. rewrite !Rabs_mult, (Rabs_pos_eq (twR z1 - twR z2)), (Rabs_pos_eq (twR z2)) by lra.
    pose proof (Rmax_l (Rabs (d' - d)) (Rabs (r' - r))). pose proof (Rmax_r (Rabs (d' - d)) (Rabs (r' - r))). pose proof (Rabs_pos (d' - d)). set (k := Rmax _ _) in *.
    assert (Rabs (d' - d) * (twR z1 - twR z2) <= k * (twR z1 - twR z2)) by (apply Rmult_le_compat_r; lra).
    assert (Rabs (r' - r) * twR z2 <= k * twR z2) by (apply Rmult_le_compat_r; lra).
    assert (k * twR z1 <= k * 1) by (apply Rmult_le_compat_l; lra). lra.
  - eapply Rle_trans; [apply Rabs_triang|]. rewrite !Rabs_mult. set (B := 35 / 8 / pow10R l * Q + 35 / 27 * ln 10 * T) in *.
    replace (35 / 8 * (Rabs d + Rabs (r - d)) / pow10R l * Q + 35 / 27 * ln 10 * (Rabs d + Rabs (r - d)) * T) with (Rabs d * B + Rabs (r - d) * B) by (unfold B; field; lra).
    apply Rplus_le_compat; (apply Rmult_le_compat_l; [apply Rabs_pos|assumption]).
Qed.
Lemma eff_shift p q m m' e X : Rabs (m' - m) <= e -> Rabs (m' - d_lgmcrit q) <= X ->
  Rabs ((m' + eff_spec q m') - (m + eff_spec p m)) <=
    steepest (1 + d_indx_lo p) (1 + d_indx_hi p) * e
    + steepest (d_indx_lo p) (d_indx_hi p) * Rabs (d_lgmcrit q - d_lgmcrit p)
    + Rmax (Rabs (d_indx_lo q - d_indx_lo p)) (Rabs (d_indx_hi q - d_indx_hi p)) * X
    + Rabs (d_lgy_at_mcrit q - d_lgy_at_mcrit p).
Proof.
  intros E XX. set (x := m' - d_lgmcrit q) in *.
  replace ((m' + eff_spec q m') - (m + eff_spec p m)) with
    (((m' + eff_spec p m') - (m + eff_spec p m)) + (bend (d_indx_lo p) (- d_indx_hi p) x - bend (d_indx_lo p) (- d_indx_hi p) (m' - d_lgmcrit p))
     + (bend (d_indx_lo q) (- d_indx_hi q) x - bend (d_indx_lo p) (- d_indx_hi p) x) + (d_lgy_at_mcrit q - d_lgy_at_mcrit p))
    by (rewrite !eff_bend; fold x; ring).
  eapply Rle_trans; [apply Rabs_triang|]. apply Rplus_le_compat_r.
  eapply Rle_trans; [apply Rabs_triang|]. apply Rplus_le_compat.
  - eapply Rle_trans; [apply Rabs_triang|]. apply Rplus_le_compat.
    + rewrite !mass_eff_bend. replace (_ - _) with (bend (1 + d_indx_lo p) (- (1 + d_indx_hi p)) (m' - d_lgmcrit p) - bend (1 + d_indx_lo p) (- (1 + d_indx_hi p)) (m - d_lgmcrit p)) by ring.
      eapply Rle_trans; [apply bend_lip|]. apply Rmult_le_compat_l; [apply steepest_pos|]. replace (_ - _) with (m' - m) by ring. exact E.
    + eapply Rle_trans; [apply bend_lip|]. apply Rmult_le_compat_l; [apply steepest_pos|].
      unfold x. replace (_ - _) with (- (d_lgmcrit q - d_lgmcrit p)) by ring. rewrite Rabs_Ropp. lra.
  - unfold bend. pose proof (logistic_01 (9 * x)) as S. set (s := 1 / (1 + exp (- (9 * x)))) in *.
    replace (_ - _) with (((d_indx_lo q - d_indx_lo p) * (1 - s) + (d_indx_hi q - d_indx_hi p) * s) * x) by ring.
    rewrite Rabs_mult. apply Rmult_le_compat; [apply Rabs_pos|apply Rabs_pos|apply mix_small, S|exact XX].
Qed.
Lemma sfr_within p q fb m m' t e X : 0 <= fb -> Rabs (m' - m) <= e -> Rabs (m' - d_lgmcrit q) <= X ->
  0 <= total_shift p q e X /\ within (total_shift p q e X) (sfr_spec p fb m t) (sfr_spec q fb m' t).
Proof.
  intros F E XX. destruct (quench_log_lip p q (log10R t)) as (a & b & A & B & AB). pose proof (eff_shift p q m m' e X E XX) as EF.
  assert (D : Rabs ((b + (m' + eff_spec q m')) - (a + (m + eff_spec p m))) <= total_shift p q e X).
  { replace (_ - _) with (((m' + eff_spec q m') - (m + eff_spec p m)) + (b - a)) by ring. eapply Rle_trans; [apply Rabs_triang|]. unfold total_shift. lra. }
  set (D0 := total_shift p q e X) in *. assert (D0p : 0 <= D0) by (eapply Rle_trans; [apply Rabs_pos|exact D]). split; [exact D0p|].
  assert (S : forall u v, Rabs (v - u) <= D0 -> Rmax (1 / 10 ^ 14) (fb * pow10R v) <= pow10R D0 * Rmax (1 / 10 ^ 14) (fb * pow10R u)).
  { intros u v H. apply Rabs_le_between in H. assert (P1 : 1 <= pow10R D0) by (rewrite <- pow10_0; apply pow10_le, D0p).
    pose proof (Rmax_l (1 / 10 ^ 14) (fb * pow10R u)) as ML. pose proof (Rmax_r (1 / 10 ^ 14) (fb * pow10R u)) as MR. set (k := Rmax _ (fb * pow10R u)) in *.
    assert (K0 : 0 <= k) by lra. apply Rmax_lub.
    - apply Rle_trans with (1 * k); [lra|]. apply Rmult_le_compat_r; lra.
    - apply Rle_trans with (pow10R D0 * (fb * pow10R u)); [|apply Rmult_le_compat_l; lra].
      replace (pow10R D0 * (fb * pow10R u)) with (fb * pow10R (D0 + u)) by (rewrite pow10_plus; ring).
      apply Rmult_le_compat_l; [exact F|]. apply pow10_le. lra. }
  assert (VP : sfr_spec p fb m t = Rmax (1 / 10 ^ 14) (fb * pow10R (a + (m + eff_spec p m)))).
  { unfold sfr_spec, ms_spec. rewrite A, !pow10_plus. f_equal. ring. }
  assert (VQ : sfr_spec q fb m' t = Rmax (1 / 10 ^ 14) (fb * pow10R (b + (m' + eff_spec q m')))).
  { unfold sfr_spec, ms_spec. rewrite B, !pow10_plus. f_equal. ring. }
  rewrite VP, VQ. split; [|apply S, D]. rewrite Rabs_minus_sym in D. apply S in D.
  set (k1 := Rmax _ _) in *. set (k2 := Rmax _ _) in *. rewrite pow10_opp. pose proof (pow10_pos D0) as P.
  apply Rmult_le_reg_l with (pow10R D0); [exact P|]. rewrite <- Rmult_assoc, Rinv_r, Rmult_1_l by lra. exact D.
Qed.
Lemma cum_scale C l l' : forall a f f' c c', map fst l = map fst l' -> increasing (a :: map fst l) -> f' <= C * f -> c' <= C * c ->
  Forall2 (fun u v : R * R => snd v <= C * snd u) l l' -> Forall2 (fun u v => v <= C * u) (cumR a f c l) (cumR a f' c' l').
Proof.
  revert l'. induction l as [|[b g] l IH]; intros [|[b' g'] l'] a f f' c c' E I F CC H; try (inversion H; fail); [constructor|].
  cbn [map fst] in E. injection E as <- E. cbn [map fst increasing] in I. destruct I as [I1 I2]. assert (H0 : g' <= C * g) by (inversion H; assumption). assert (H1 : Forall2 (fun u v : R * R => snd v <= C * snd u) l l') by (inversion H; assumption).
  cbn [cumR]. assert (S : c' + (b - a) * (g' + f') / 2 <= C * (c + (b - a) * (g + f) / 2)).
  { assert ((b - a) * (g' + f') <= (b - a) * (C * g + C * f)) by (apply Rmult_le_compat_l; lra). lra. }
  constructor; [exact S|]. apply IH; assumption.
Qed.
Lemma Forall2_nth2 (A B : Type) (P : A -> B -> Prop) l l' a b i : Forall2 P l l' -> (i < length l)%nat -> P (nth i l a) (nth i l' b).
Proof. intros H. revert i. induction H as [|x y l l' H0 H IH]; intros i L; [cbn in L; lia|]. destruct i as [|i]; [exact H0|]. cbn in L |- *. apply IH. lia. Qed.
Lemma mass_scale C ts s s' i : 1 <= C -> increasing (1 / 1000 :: ts) -> length s = length ts -> length s' = length ts -> (i < length ts)%nat ->
  (forall j, (j < length ts)%nat -> nth j s' 0 <= C * nth j s 0) -> nth i (massR ts s') 0 <= C * nth i (massR ts s) 0.
Proof.
  intros HC I L L' Hi H. unfold massR.
  rewrite !(nth_indep (map _ _) 0 ((fun m => m * 10 ^ 9) 0)) by (rewrite map_length, cumR_length, combine_length; lia).
  rewrite !(map_nth (fun m => m * 10 ^ 9)).
  assert (K : nth i (cumR T_BIRTH_MIN_R SFR_MIN_R 0 (combine ts s')) 0 <= C * nth i (cumR T_BIRTH_MIN_R SFR_MIN_R 0 (combine ts s)) 0).
  { apply (Forall2_nth2 R R (fun u v => v <= C * u)); [|rewrite cumR_length, combine_length; lia].
    apply cum_scale; [rewrite !map_fst_combine by lia; reflexivity|rewrite map_fst_combine by lia; exact I| |lra|].
    - apply Rle_trans with (1 * SFR_MIN_R); [lra|]. apply Rmult_le_compat_r; [unfold SFR_MIN_R; lra|exact HC].
    - clear I Hi. revert s s' L L' H. induction ts as [|t r IH]; intros [|x s] [|y s'] L L' H; try discriminate L; try discriminate L'; [constructor|].
      cbn [combine]. constructor; [exact (H 0%nat ltac:(cbn; lia))|]. apply IH; [cbn in L; lia|cbn in L'; lia|]. intros j J. exact (H (S j) ltac:(cbn; lia)). }
  lra.
Qed.
Lemma robust lmk p q mah mah' ts lgt0 fb m m' e X : halo_history lmk mah lgt0 m ts -> halo_history lmk mah' lgt0 m' ts -> increasing (1 / 1000 :: ts) -> 0 <= fb ->
  (forall t, In t ts -> Rabs (m' t - m t) <= e /\ Rabs (m' t - d_lgmcrit q) <= X) ->
  exists s M s' M',
    calc_sfh_singlegal_smh lmk (map_d Fin p) mah (map Fin ts) lgt0 (Fin fb) = Some (map Fin s, map Fin M) /\
    calc_sfh_singlegal_smh lmk (map_d Fin q) mah' (map Fin ts) lgt0 (Fin fb) = Some (map Fin s', map Fin M') /\
    length s = length ts /\ length M = length ts /\ length s' = length ts /\ length M' = length ts /\
    forall i, (i < length ts)%nat -> 0 < nth i s 0 /\ 0 < nth i M 0 /\
      within (total_shift p q e X) (nth i s 0) (nth i s' 0) /\ within (total_shift p q e X) (nth i M 0) (nth i M' 0).
Proof.
  intros H H' I F E. set (s := map (fun t => sfr_spec p fb (m t) t) ts). set (s' := map (fun t => sfr_spec q fb (m' t) t) ts).
  exists s, (massR ts s), s', (massR ts s'). split; [apply calc_sfh_smh_value, H|]. split; [apply calc_sfh_smh_value, H'|].
  assert (L : length s = length ts) by apply map_length. assert (L' : length s' = length ts) by apply map_length.
  assert (LM : forall x, length x = length ts -> length (massR ts x) = length ts) by (intros x Hx; unfold massR; rewrite map_length, cumR_length, combine_length; lia).
  do 2 (split; [auto|]). do 2 (split; [auto|]).
  assert (W : forall j, (j < length ts)%nat -> 0 <= total_shift p q e X /\ within (total_shift p q e X) (nth j s 0) (nth j s' 0)).
  { intros j J. unfold s, s'. rewrite !(s_nth _ ts fb) by exact J. destruct (E _ (nth_In ts 0 J)) as [E1 E2]. apply sfr_within; assumption. }
  assert (PS : forall j, (j < length ts)%nat -> 0 < nth j s 0).
  { intros j J. unfold s. rewrite (s_nth _ ts fb) by exact J. unfold sfr_spec. eapply Rlt_le_trans; [|apply Rmax_l]. lra. }
  intros i Hi. set (D := total_shift p q e X) in *. destruct (W i Hi) as [D0 Wi].
  assert (C1 : 1 <= pow10R D) by (rewrite <- pow10_0; apply pow10_le, D0). pose proof (pow10_pos D) as CP.
  split; [apply PS, Hi|]. split.
  - assert (G : Forall (fun m => 0 < m) (massR ts s)).
    { apply FitProofs.massR_pos; [auto|exact I|]. apply Forall_forall. intros x Hx. unfold s in Hx. apply in_map_iff in Hx as (t & <- & _).
      unfold sfr_spec. eapply Rle_trans; [|apply Rmax_l]. lra. }
    rewrite Forall_forall in G. apply G, nth_In. rewrite LM by exact L. exact Hi.
  - split; [exact Wi|]. split.
    + rewrite pow10_opp. apply Rmult_le_reg_l with (pow10R D); [exact CP|]. rewrite <- Rmult_assoc, Rinv_r, Rmult_1_l by lra.
      apply mass_scale; auto. intros j J. destruct (W j J) as [_ [Wj _]]. rewrite pow10_opp in Wj.
      apply Rmult_le_compat_l with (r := pow10R D) in Wj; [|lra]. rewrite <- Rmult_assoc, Rinv_r, Rmult_1_l in Wj by lra. exact Wj.
    + apply mass_scale; auto. intros j J. apply (W j J).
Qed.
(** A pure power law attains the bound. *)
Lemma robust_sharp lmk p mah mah' ts lgt0 fb m m' k : halo_history lmk mah lgt0 m ts -> halo_history lmk mah' lgt0 m' ts ->
  d_indx_lo p = k -> d_indx_hi p = k ->
  exists s s', calc_sfh_singlegal lmk (map_d Fin p) mah (map Fin ts) lgt0 (Fin fb) = map Fin s /\
    calc_sfh_singlegal lmk (map_d Fin p) mah' (map Fin ts) lgt0 (Fin fb) = map Fin s' /\ length s = length ts /\ length s' = length ts /\
    forall i, (i < length ts)%nat -> 1 / 10 ^ 14 < nth i s 0 -> 1 / 10 ^ 14 < nth i s' 0 ->
      nth i s' 0 = pow10R ((1 + k) * (m' (nth i ts 0) - m (nth i ts 0))) * nth i s 0.
Proof.
  intros H H' A B. set (s := map (fun t => sfr_spec p fb (m t) t) ts). set (s' := map (fun t => sfr_spec p fb (m' t) t) ts).
  exists s, s'. split; [apply calc_sfh_value, H|]. split; [apply calc_sfh_value, H'|]. split; [apply map_length|]. split; [apply map_length|].
  intros i Hi. unfold s, s'. rewrite !(s_nth _ ts fb) by exact Hi. set (t := nth i ts 0). unfold sfr_spec, ms_spec.
  set (q := quench_spec _ _ _ _ _).
  assert (V : forall x, x + eff_spec p x = d_lgy_at_mcrit p - k * d_lgmcrit p + (1 + k) * x) by (intros x; unfold eff_spec; rewrite A, B; ring).
  assert (U : forall x, fb * pow10R x * pow10R (eff_spec p x) = fb * pow10R (d_lgy_at_mcrit p - k * d_lgmcrit p) * pow10R ((1 + k) * x)) by (intros x; rewrite Rmult_assoc, <- pow10_plus, V, pow10_plus; ring).
  rewrite !U. set (c := fb * pow10R (d_lgy_at_mcrit p - k * d_lgmcrit p)). unfold Rmax at 1 2. intros G G'.
  destruct (Rle_dec (1 / 10 ^ 14) (q * (c * pow10R ((1 + k) * m t)))) as [Y|Y]; [|lra].
  destruct (Rle_dec (1 / 10 ^ 14) (q * (c * pow10R ((1 + k) * m' t)))) as [Y'|Y']; [|lra].
  rewrite !Rmax_right by assumption.
  replace ((1 + k) * m' t) with ((1 + k) * (m' t - m t) + (1 + k) * m t) by ring. rewrite pow10_plus. ring.
Qed.
Lemma steepest_bounds lo hi : 0 <= lo <= 5 -> -5 <= hi <= 0 -> steepest (1 + lo) (1 + hi) <= 17 / 2.
Proof.
  intros A B. unfold steepest. assert (Rabs (1 + lo) <= 6) by (apply Rabs_le; lra). assert (Rabs (1 + hi) <= 6) by (apply Rabs_le; lra).
  assert (Rabs (1 + hi - (1 + lo)) <= 10) by (apply Rabs_le; lra). assert (Rmax (Rabs (1 + lo)) (Rabs (1 + hi)) <= 6) by (apply Rmax_lub; assumption). lra.
Qed.
Lemma within_more D D' a b : D <= D' -> 0 <= a -> within D a b -> within D' a b.
Proof.
  intros L A [W1 W2]. split.
  - eapply Rle_trans; [|exact W1]. apply Rmult_le_compat_r; [exact A|]. apply pow10_le. lra.
  - eapply Rle_trans; [exact W2|]. apply Rmult_le_compat_r; [exact A|]. apply pow10_le, L.
Qed.
Lemma total_same p e X : total_shift p p e X = steepest (1 + d_indx_lo p) (1 + d_indx_hi p) * e.
Proof. unfold total_shift. rewrite !Rminus_eq_0, !Rabs_R0, Rmax_left by lra. ring. Qed.
Lemma robust_halo lmk p mah mah' ts lgt0 fb m m' e : halo_history lmk mah lgt0 m ts -> halo_history lmk mah' lgt0 m' ts -> increasing (1 / 1000 :: ts) -> 0 <= fb ->
  in_bounds p -> (forall t, In t ts -> Rabs (m' t - m t) <= e) ->
  exists s M s' M',
    calc_sfh_singlegal_smh lmk (map_d Fin p) mah (map Fin ts) lgt0 (Fin fb) = Some (map Fin s, map Fin M) /\
    calc_sfh_singlegal_smh lmk (map_d Fin p) mah' (map Fin ts) lgt0 (Fin fb) = Some (map Fin s', map Fin M') /\
    length s = length ts /\ length M = length ts /\ length s' = length ts /\ length M' = length ts /\
    forall i, (i < length ts)%nat -> within (17 / 2 * e) (nth i s 0) (nth i s' 0) /\ within (17 / 2 * e) (nth i M 0) (nth i M' 0).
Proof.
  intros H H' I F B E.
  assert (XB : exists X, forall t, In t ts -> Rabs (m' t - d_lgmcrit p) <= X).
  { clear. induction ts as [|a r (X & IH)]; [exists 0; intros t []|]. exists (Rmax (Rabs (m' a - d_lgmcrit p)) X).
    intros t [<-|T]; [apply Rmax_l|]. eapply Rle_trans; [apply IH, T|apply Rmax_r]. }
  destruct XB as (X & XB).
  destruct (robust lmk p p mah mah' ts lgt0 fb m m' e X H H' I F) as (s & M & s' & M' & V & V' & L1 & L2 & L3 & L4 & W); [intros t T; split; [apply E, T|apply XB, T]|].
  exists s, M, s', M'. do 6 (split; [assumption|]). intros i Hi. destruct (W i Hi) as (P1 & P2 & W1 & W2). rewrite total_same in W1, W2.
  assert (E0 : 0 <= e) by (eapply Rle_trans; [apply Rabs_pos|apply (E _ (nth_In ts 0 Hi))]).
  assert (K : steepest (1 + d_indx_lo p) (1 + d_indx_hi p) * e <= 17 / 2 * e).
  { apply Rmult_le_compat_r; [exact E0|]. unfold in_bounds in B. apply steepest_bounds; lra. }
  split; eapply within_more; eauto; lra.
Qed.
