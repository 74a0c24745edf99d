(** How far the binary32 transforms are from the exact ones. *)
From Coq Require Import Reals Lra Lia List Bool String QArith Qreals Qabs ZArith.
From Coquelicot Require Import Coquelicot.
From Flocq Require Import Core.Core IEEE754.BinarySingleNaN Relative.
From Verif Require Import XReal XFacts RealFacts ModelUtils ModelKernels ModelSfh ModelPopTables ModelPop ModelFloat
  SpecCore SpecPop SpecFloat32 SigmoidProofs PopParamProofs FloatProofs FloatConst FloatRange FloatTop.
Import List ListNotations.
Open Scope R_scope.

(** ** The logistic function is insensitive to its argument *)
Lemma logistic_mvt a b : exists c, Rmin a b <= c <= Rmax a b /\
  logisticR b - logisticR a = logisticR c * (1 - logisticR c) * (b - a).
Proof.
  destruct (MVT_gen logisticR a b (fun c => logisticR c * (1 - logisticR c))) as (c & Hc & E).
  - intros x _. apply is_derive_logistic.
  - intros x _. apply derivable_continuous_pt. exists (logisticR x * (1 - logisticR x)).
    apply is_derive_Reals. apply is_derive_logistic.
  - exists c. split; [exact Hc|]. exact E.
Qed.
Lemma logistic_slope c : 0 <= logisticR c * (1 - logisticR c) <= / 4.
Proof.
  pose proof (logistic_range c) as [L U]. split; [apply Rmult_le_pos; lra|].
  pose proof (Rle_0_sqr (logisticR c - / 2)) as S. unfold Rsqr in S. nra.
Qed.
Lemma logistic_tail c : 0 <= c -> 1 - logisticR c <= / (1 + c).
Proof.
  intro H. unfold logisticR. pose proof (exp_pos (- c)) as P.
  assert (E : 1 + c <= exp c) by apply exp_ineq1_le.
  assert (E2 : exp (- c) <= / (1 + c)).
  { rewrite exp_Ropp. apply Rinv_le_contravar; lra. }
  replace (1 - / (1 + exp (- c))) with (exp (- c) / (1 + exp (- c))) by (field; lra).
  apply Rle_trans with (2 := E2). unfold Rdiv.
  apply Rle_trans with (exp (- c) * 1); [|lra].
  apply Rmult_le_compat_l; [lra|]. rewrite <- Rinv_1. apply Rinv_le_contravar; lra.
Qed.
Lemma logistic_slope_tail c : logisticR c * (1 - logisticR c) <= / (1 + Rabs c).
Proof.
  pose proof (logistic_range c) as [L U]. unfold Rabs. destruct (Rcase_abs c) as [N|P].
  - apply Rle_trans with (logisticR c * 1); [apply Rmult_le_compat_l; lra|]. rewrite Rmult_1_r.
    replace (logisticR c) with (1 - logisticR (- c)) by (rewrite logistic_opp; ring).
    apply logistic_tail. lra.
  - apply Rle_trans with (1 * (1 - logisticR c)); [apply Rmult_le_compat_r; lra|]. rewrite Rmult_1_l.
    apply logistic_tail. lra.
Qed.
Lemma logistic_lip a b : Rabs (logisticR b - logisticR a) <= Rabs (b - a) / 4.
Proof.
  destruct (logistic_mvt a b) as (c & _ & E). rewrite E, Rabs_mult.
  pose proof (logistic_slope c). rewrite (Rabs_pos_eq (_ * _)) by lra.
  pose proof (Rabs_pos (b - a)). unfold Rdiv. rewrite (Rmult_comm (Rabs (b - a))). apply Rmult_le_compat_r; lra.
Qed.
Lemma logistic_scale z e : Rabs e <= / 2 -> Rabs (logisticR (z * (1 + e)) - logisticR z) <= 2 * Rabs e.
Proof.
  intro He. destruct (logistic_mvt z (z * (1 + e))) as (c & Hc & E). rewrite E.
  replace (z * (1 + e) - z) with (z * e) by ring. rewrite !Rabs_mult.
  pose proof (logistic_slope c) as S. pose proof (logistic_slope_tail c) as T.
  rewrite <- (Rabs_mult (logisticR c)), (Rabs_pos_eq (_ * _)) by lra.
  assert (C : Rabs z / 2 <= Rabs c).
  { apply Rabs_le_inv in He. unfold Rmin, Rmax in Hc. destruct (Rle_dec z (z * (1 + e))) as [L|L].
    - unfold Rabs. destruct (Rcase_abs z), (Rcase_abs c); nra.
    - unfold Rabs. destruct (Rcase_abs z), (Rcase_abs c); nra. }
  pose proof (Rabs_pos z) as Pz. pose proof (Rabs_pos e) as Pe. pose proof (Rabs_pos c) as Pc.
  rewrite <- Rmult_assoc. apply Rmult_le_compat_r; [exact Pe|].
  apply Rle_trans with (/ (1 + Rabs z / 2) * Rabs z).
  - apply Rmult_le_compat_r; [exact Pz|]. apply Rle_trans with (1 := T). apply Rinv_le_contravar; lra.
  - apply Rmult_le_reg_l with (1 + Rabs z / 2); [lra|]. rewrite <- Rmult_assoc, Rinv_r by lra. lra.
Qed.

(** ** Rounding *)
Definition u24 : R := / 16777216.
Definition tiny : R := / 1000000000000.
Lemma near_err y : exists e h, Rabs e <= u24 /\ Rabs h <= tiny /\ near32 y = y * (1 + e) + h.
Proof.
  destruct (error_N_FLT radix2 (-149) 24 eq_refl (fun x => negb (Z.even x)) y) as (e & h & He & Hh & _ & E).
  exists e, h. split; [|split; [|exact E]].
  - apply Rle_trans with (1 := He). simpl. unfold u24. lra.
  - apply Rle_trans with (1 := Hh). apply Rle_trans with (bpow radix2 (-100)).
    + pose proof (bpow_gt_0 radix2 (-149)). assert (bpow radix2 (-149) <= bpow radix2 (-100)) by (now apply bpow_le). lra.
    + apply Rle_trans with (bpow radix2 (-40)); [now apply bpow_le|]. unfold tiny.
      change (bpow radix2 (-40)) with (/ 1099511627776). apply Rinv_le_contravar; lra.
Qed.
Lemma near_abs_err y B : Rabs y <= B -> Rabs (near32 y - y) <= B * u24 + tiny.
Proof.
  intro H. destruct (near_err y) as (e & h & He & Hh & E). rewrite E.
  replace (y * (1 + e) + h - y) with (y * e + h) by ring.
  apply Rle_trans with (1 := Rabs_triang _ _). rewrite Rabs_mult.
  apply Rplus_le_compat; [|exact Hh]. apply Rmult_le_compat; auto using Rabs_pos.
Qed.

Lemma arg_err X x0 x0' k k' : 0 < k <= 4 -> Rabs (x0' - x0) <= / 2097152 -> Rabs (k' - k) <= k * / 8388608 ->
  Rabs (logisticR (near32 (k' * near32 (X - x0'))) - logisticR (k * (X - x0))) <= / 524288.
Proof.
  intros Hk H0 H3.
  destruct (near_err (X - x0')) as (e1 & h1 & E1 & G1 & ->).
  destruct (near_err (k' * ((X - x0') * (1 + e1) + h1))) as (e2 & h2 & E2 & G2 & ->).
  set (e3 := (k' - k) / k).
  assert (Ek : k' = k * (1 + e3)) by (unfold e3; field; lra).
  assert (E3 : Rabs e3 <= / 8388608).
  { unfold e3, Rdiv. rewrite Rabs_mult, (Rabs_pos_eq (/ k)) by (left; apply Rinv_0_lt_compat; lra).
    apply Rmult_le_reg_r with k; [lra|]. rewrite Rmult_assoc, Rinv_l by lra. lra. }
  unfold u24, tiny in *.
  apply Rabs_le_inv in E1, E2, E3, G1, G2, H0.
  set (e := (1 + e1) * (1 + e2) * (1 + e3) - 1).
  assert (Ee : - / 2097152 <= e <= / 2097152).
  { unfold e. assert (P : - / 8000000 <= (1 + e1) * (1 + e2) - 1 <= / 8000000) by (split; nra).
    set (q := (1 + e1) * (1 + e2)) in *. split; nra. }
  set (d := (x0 - x0') * (1 + e1) + h1).
  assert (Ed : - / 2000000 <= d <= / 2000000) by (unfold d; split; nra).
  set (m := (1 + e3) * (1 + e2)).
  assert (Em : 9 / 10 <= m <= 11 / 10) by (unfold m; split; nra).
  set (t := k * (m * d) + h2).
  assert (Et : - / 262144 <= t <= / 262144).
  { assert (P : - / 1500000 <= m * d <= / 1500000) by (split; nra).
    unfold t. set (w := m * d) in *. split; nra. }
  replace (k' * ((X - x0') * (1 + e1) + h1) * (1 + e2) + h2) with (k * (X - x0) * (1 + e) + t)
    by (rewrite Ek; unfold t, m, d, e; ring).
  set (z := k * (X - x0)).
  pose proof (logistic_lip (z * (1 + e)) (z * (1 + e) + t)) as L1.
  pose proof (logistic_scale z e) as L2.
  replace (z * (1 + e) + t - z * (1 + e)) with t in L1 by ring.
  assert (At : Rabs t <= / 262144) by (apply Rabs_le; exact Et).
  assert (Ae : Rabs e <= / 2097152) by (apply Rabs_le; exact Ee).
  specialize (L2 ltac:(lra)).
  replace (logisticR (z * (1 + e) + t) - logisticR z)
    with ((logisticR (z * (1 + e) + t) - logisticR (z * (1 + e))) + (logisticR (z * (1 + e)) - logisticR z)) by ring.
  apply Rle_trans with (1 := Rabs_triang _ _). lra.
Qed.

(** The value, once the logistic is known to [2^-18]. *)
Lemma out_err fused (lo hi s : f32) lr hr v H E :
  is_finite lo = true -> is_finite hi = true -> is_finite s = true -> 0 <= B2R s <= 1 ->
  0 <= v <= 1 -> Rabs (B2R s - v) <= / 262144 -> lr <= hr ->
  Rabs (B2R lo - lr) <= E -> Rabs (B2R hi - hr) <= E ->
  Rabs (B2R lo) <= H -> Rabs (B2R hi) <= H -> / 100 <= H <= 1024 ->
  let r := if fused : bool then ffma (fsub hi lo) s lo else fadd lo (fmul (fsub hi lo) s) in
  Rabs (B2R r - (lr + (hr - lr) * v)) <= 3 * E + (hr - lr) * / 262144 + H * / 1048576.
Proof.
  intros Fl Fh Fs Hs Hv Hsv Hlt El Eh Al Ah HH.
  apply Rabs_le_inv in Al, Ah, El, Eh, Hsv.
  destruct (fsub_ok hi lo Fh Fl) as (D1 & D2); [rewrite bpow_100; apply Rabs_le; lra|].
  pose proof (near_abs_err (B2R hi - B2R lo) (2 * H)) as N1. rewrite <- D1 in N1.
  assert (A1 : Rabs (B2R hi - B2R lo) <= 2 * H) by (apply Rabs_le; lra).
  specialize (N1 A1). apply Rabs_le_inv in N1. set (d := B2R (fsub hi lo)) in *.
  unfold u24, tiny in *.
  assert (Dd : - (3 * H) <= d <= 3 * H) by lra.
  assert (Dp : - (3 * H) <= d * B2R s <= 3 * H) by (split; nra).
  assert (V : - (2 * E + H * / 8000000 + (hr - lr) * / 262144) <= d * B2R s - (hr - lr) * v <=
              2 * E + H * / 8000000 + (hr - lr) * / 262144).
  { replace (d * B2R s - (hr - lr) * v) with ((d - (hr - lr)) * B2R s + (hr - lr) * (B2R s - v)) by ring.
    assert (- (2 * E + H * / 8000000) <= (d - (hr - lr)) * B2R s <= 2 * E + H * / 8000000).
    { assert (- (2 * E + H * / 8000000) <= d - (hr - lr) <= 2 * E + H * / 8000000) by lra.
      set (a := d - (hr - lr)) in *. set (bnd := 2 * E + H * / 8000000) in *. split; nra. }
    assert (- ((hr - lr) * / 262144) <= (hr - lr) * (B2R s - v) <= (hr - lr) * / 262144) by (split; nra).
    lra. }
  cbv zeta. destruct fused.
  - destruct (ffma_ok (fsub hi lo) s lo D2 Fs Fl) as (R1 & _); [fold d; rewrite bpow_100; apply Rabs_le; lra|].
    fold d in R1. rewrite R1.
    assert (A2 : Rabs (d * B2R s + B2R lo) <= 4 * H) by (apply Rabs_le; lra).
    apply near_abs_err in A2. apply Rabs_le_inv in A2. unfold u24, tiny in A2. apply Rabs_le. lra.
  - destruct (fmul_ok (fsub hi lo) s D2 Fs) as (R1 & R2); [fold d; rewrite bpow_100; apply Rabs_le; lra|].
    fold d in R1.
    assert (A2 : Rabs (d * B2R s) <= 3 * H) by (apply Rabs_le; lra).
    apply near_abs_err in A2. rewrite <- R1 in A2. set (p := B2R (fmul (fsub hi lo) s)) in *.
    apply Rabs_le_inv in A2. unfold u24, tiny in A2.
    destruct (fadd_ok lo _ Fl R2) as (R3 & _); [fold p; rewrite bpow_100; apply Rabs_le; lra|].
    fold p in R3. rewrite R3.
    assert (A3 : Rabs (B2R lo + p) <= 5 * H) by (apply Rabs_le; lra).
    apply near_abs_err in A3. apply Rabs_le_inv in A3. unfold u24, tiny in A3. apply Rabs_le. lra.
Qed.

(** The argument of the sigmoid: finite, or infinite because [x] is huge. *)
Lemma big_of_round y : Rlt_bool (Rabs (round radix2 (SpecFloat.fexp 24 128) (round_mode mode_NE) y)) (bpow radix2 128) = false ->
  bpow radix2 127 < Rabs y.
Proof.
  intro R. destruct (Rlt_le_dec (bpow radix2 127) (Rabs y)) as [L|L]; [exact L|exfalso].
  revert R. rewrite Rlt_bool_true; [discriminate|].
  apply Rle_lt_trans with (bpow radix2 127); [|now apply bpow_lt].
  apply (near32_abs y 127); [lia|exact L].
Qed.
Lemma bsign_neg (x : f32) : B2R x < 0 -> Bsign x = true.
Proof.
  intro P. destruct x as [sx|sx| |sx m e Hx]; simpl in P; try lra. simpl. destruct sx; [reflexivity|].
  exfalso. revert P. apply Rle_not_lt. apply F2R_ge_0. simpl. lia.
Qed.
Lemma pos_bsign (x : f32) : is_finite x = true -> Bsign x = false -> 0 <= B2R x.
Proof. intros F S. destruct (Rle_lt_dec 0 (B2R x)) as [L|L]; [exact L|]. rewrite (bsign_neg x L) in S. discriminate S. Qed.
Lemma neg_bsign (x : f32) : is_finite x = true -> Bsign x = true -> B2R x <= 0.
Proof. intros F S. destruct (Rle_lt_dec (B2R x) 0) as [L|L]; [exact L|]. rewrite (bsign_pos x L) in S. discriminate S. Qed.

Lemma bpow_mono_110 : bpow radix2 110 < bpow radix2 123. Proof. now apply bpow_lt. Qed.

Lemma z_cases x x0 k : is_finite x = true -> is_finite x0 = true -> is_finite k = true -> 0 < B2R k <= 8 ->
  Rabs (B2R x0) <= 1024 ->
  let z := fmul k (fsub x x0) in
  (is_finite z = true /\ B2R z = near32 (B2R k * near32 (B2R x - B2R x0))) \/
  (z = B754_infinity false /\ bpow radix2 123 <= B2R x - B2R x0) \/
  (z = B754_infinity true /\ B2R x - B2R x0 <= - bpow radix2 123).
Proof.
  intros Fx F0 Fk K A0. cbv zeta. apply Rabs_le_inv in A0.
  assert (B1 : bpow radix2 123 < bpow radix2 127) by (now apply bpow_lt).
  assert (B2 : bpow radix2 127 = 16 * bpow radix2 123) by (change 16 with (bpow radix2 4); rewrite <- bpow_plus; reflexivity).
  assert (B3 : 4096 < bpow radix2 123) by (change 4096 with (bpow radix2 12); now apply bpow_lt).
  assert (Sk : Bsign k = false) by (apply bsign_pos; lra).
  pose proof (Bminus_correct 24 128 _ _ mode_NE x x0 Fx F0) as C. fold (fsub x x0) in C.
  destruct (Rlt_bool _ _) eqn:R.
  - clear R. destruct C as (C1 & C2 & _). change (B2R (fsub x x0) = near32 (B2R x - B2R x0)) in C1.
    pose proof (Bmult_correct 24 128 _ _ mode_NE k (fsub x x0)) as D. fold (fmul k (fsub x x0)) in D.
    destruct (Rlt_bool _ (bpow radix2 128)) eqn:R2.
    + left. destruct D as (D1 & D2 & _). rewrite Fk, C2 in D2. split; [exact D2|]. rewrite <- C1. exact D1.
    + right. apply big_of_round in R2. rewrite Sk in D.
      assert (Big : bpow radix2 123 < Rabs (B2R (fsub x x0))).
      { rewrite Rabs_mult, (Rabs_pos_eq (B2R k)) in R2 by lra.
        pose proof (Rabs_pos (B2R (fsub x x0))). nra. }
      destruct (Bsign (fsub x x0)) eqn:S.
      * right. split.
        { destruct (fmul k (fsub x x0)) as [a|a| |a m e W]; simpl in D; try discriminate D. now injection D as ->. }
        pose proof (neg_bsign _ C2 S) as N. rewrite Rabs_left1 in Big by exact N. rewrite C1 in Big.
        destruct (Rle_lt_dec (B2R x - B2R x0) (- bpow radix2 123)) as [L|L]; [exact L|exfalso].
        assert (W : near32 (- bpow radix2 123) <= near32 (B2R x - B2R x0)) by (apply near32_le; lra).
        rewrite near32_opp, near32_bpow in W by lia. lra.
      * left. split.
        { destruct (fmul k (fsub x x0)) as [a|a| |a m e W]; simpl in D; try discriminate D. now injection D as ->. }
        pose proof (pos_bsign _ C2 S) as N. rewrite Rabs_pos_eq in Big by exact N. rewrite C1 in Big.
        destruct (Rle_lt_dec (bpow radix2 123) (B2R x - B2R x0)) as [L|L]; [exact L|exfalso].
        assert (W : near32 (B2R x - B2R x0) <= near32 (bpow radix2 123)) by (apply near32_le; lra).
        rewrite near32_bpow in W by lia. lra.
  - right. apply big_of_round in R. destruct C as (C1 & _).
    assert (Z : fsub x x0 = B754_infinity (Bsign x)).
    { destruct (fsub x x0) as [a|a| |a m e W]; simpl in C1; try discriminate C1. now injection C1 as ->. }
    rewrite Z. destruct (Bsign x) eqn:S.
    + right. split.
      * destruct k as [sk|sk| |sk mk ek Hk]; simpl in *; try discriminate Fk; try lra. subst sk. reflexivity.
      * pose proof (neg_bsign _ Fx S). unfold Rabs in R. destruct (Rcase_abs (B2R x - B2R x0)); lra.
    + left. split.
      * destruct k as [sk|sk| |sk mk ek Hk]; simpl in *; try discriminate Fk; try lra. subst sk. reflexivity.
      * pose proof (pos_bsign _ Fx S). unfold Rabs in R. destruct (Rcase_abs (B2R x - B2R x0)); lra.
Qed.

Lemma bpow_110_big : 16777216 <= bpow radix2 110.
Proof. change 16777216 with (bpow radix2 24). now apply bpow_le. Qed.

Lemma s_err (s : f32 -> f32) x x0 k x0r kr : sigmoid_accurate s -> is_finite x = true -> is_finite x0 = true -> is_finite k = true ->
  Rabs (B2R x0) <= 1024 -> / 16 <= kr <= 4 -> Rabs (B2R x0 - x0r) <= / 2097152 -> Rabs (B2R k - kr) <= kr * / 8388608 ->
  Rabs (B2R (s (fmul k (fsub x x0))) - logisticR (kr * (B2R x - x0r))) <= / 262144.
Proof.
  intros Hs Fx F0 Fk A0 K E0 Ek.
  assert (K' : 0 < B2R k <= 8) by (apply Rabs_le_inv in Ek; lra).
  assert (P : bpow radix2 123 = 8192 * bpow radix2 110) by (change 8192 with (bpow radix2 13); rewrite <- bpow_plus; reflexivity).
  pose proof bpow_110_big as Big. pose proof (Rabs_le_inv _ _ E0) as E0'.
  specialize (Hs (fmul k (fsub x x0))).
  destruct (z_cases x x0 k Fx F0 Fk K' A0) as [(Fz & Vz)|[(Z & L)|(Z & L)]].
  - assert (Hs' : Rabs (B2R (s (fmul k (fsub x x0))) - logisticR (B2R (fmul k (fsub x x0)))) <= / 4194304)
      by (destruct (fmul k (fsub x x0)) as [a|a| |a m e W]; try discriminate Fz; exact Hs).
    pose proof (arg_err (B2R x) x0r (B2R x0) kr (B2R k) ltac:(lra) E0 Ek) as AE. rewrite <- Vz in AE.
    replace (_ - _) with ((B2R (s (fmul k (fsub x x0))) - logisticR (B2R (fmul k (fsub x x0)))) +
      (logisticR (B2R (fmul k (fsub x x0))) - logisticR (kr * (B2R x - x0r)))) by ring.
    apply Rle_trans with (1 := Rabs_triang _ _). lra.
  - rewrite Z in *. cbn beta iota in Hs. apply Rabs_le_inv in Hs.
    set (w := kr * (B2R x - x0r)).
    assert (W : 16777216 <= w) by (unfold w; nra).
    pose proof (logistic_tail w ltac:(lra)) as T. pose proof (logistic_range w) as [U1 U2].
    assert (/ (1 + w) <= / 16777216) by (apply Rinv_le_contravar; lra).
    apply Rabs_le. lra.
  - rewrite Z in *. cbn beta iota in Hs. apply Rabs_le_inv in Hs.
    set (w := kr * (B2R x - x0r)).
    assert (W : w <= - 16777216) by (unfold w; nra).
    pose proof (logistic_tail (- w) ltac:(lra)) as T. rewrite logistic_opp in T. pose proof (logistic_range w) as [U1 U2].
    assert (/ (1 + - w) <= / 16777216) by (apply Rinv_le_contravar; lra).
    apply Rabs_le. lra.
Qed.
