(** Proofs about the stellar mass integral in binary32. *)
From Coq Require Import Reals Lra Lia List Bool String QArith Qreals ZArith.
From Flocq Require Import Core.Core IEEE754.BinarySingleNaN.
From Flocq Require Import Relative Plus_error.
From Verif Require Import ModelFloat ModelFloatMass SpecFloat32 SpecFloatMass FloatProofs FloatConst.
Import ListNotations.
Open Scope R_scope.

Definition uu : R := / 16777216.
Definition hh : R := bpow radix2 (-149).
Lemma hh_pos : 0 < hh. Proof. apply bpow_gt_0. Qed.
Lemma hh_small : hh <= / 2 ^ 140.
Proof.
  unfold hh. replace (/ 2 ^ 140) with (bpow radix2 (-140)); [now apply bpow_le|].
  change (-140)%Z with (- (140))%Z. rewrite bpow_opp. f_equal. rewrite (bpow_powerRZ radix2 140). change (IZR radix2) with 2. unfold powerRZ. f_equal.
Qed.

Lemma near_bounds y : 0 <= y -> y * (1 - uu) - hh <= near32 y <= y * (1 + uu) + hh.
Proof.
  intro P. destruct (error_N_FLT radix2 (-149) 24 eq_refl (fun x => negb (Z.even x)) y) as (e & h & He & Hh & _ & E).
  change (round radix2 (FLT_exp (-149) 24) ZnearestE y) with (near32 y) in E. rewrite E.
  assert (A : Rabs e <= uu). { apply Rle_trans with (1 := He). simpl. unfold uu. lra. }
  assert (B : Rabs h <= hh). { apply Rle_trans with (1 := Hh). unfold hh. pose proof (bpow_gt_0 radix2 (-149)). lra. }
  apply Rabs_le_inv in A, B.
  assert (y * - uu <= y * e <= y * uu) by (split; apply Rmult_le_compat_l; lra). lra.
Qed.
Lemma near_nonneg y : 0 <= y -> 0 <= near32 y.
Proof. intro P. rewrite <- near32_0. now apply near32_le. Qed.

(** ** Powers *)
Lemma pow_up n : INR n * uu <= / 2 -> (1 + uu) ^ n <= 1 + 2 * INR n * uu.
Proof.
  induction n as [|n IH]; intro H; [simpl; lra|]. rewrite S_INR in *. assert (U : 0 < uu) by (unfold uu; lra).
  specialize (IH ltac:(lra)). cbn [pow].
  apply Rle_trans with ((1 + uu) * (1 + 2 * INR n * uu)); [apply Rmult_le_compat_l; lra|].
  assert (2 * (INR n * uu) * uu <= 1 * uu) by (apply Rmult_le_compat_r; lra). nra.
Qed.
Lemma pow_down n : 1 - INR n * uu <= (1 - uu) ^ n.
Proof.
  induction n as [|n IH]; [simpl; lra|]. rewrite S_INR. cbn [pow]. assert (U : 0 < uu < 1) by (unfold uu; lra).
  apply Rle_trans with ((1 - uu) * (1 - INR n * uu)); [|apply Rmult_le_compat_l; lra].
  pose proof (pos_INR n) as Q. assert (0 <= INR n * uu * uu) by (apply Rmult_le_pos; [apply Rmult_le_pos; lra|lra]).
  replace ((1 - uu) * (1 - INR n * uu)) with (1 - (INR n + 1) * uu + INR n * uu * uu) by ring. lra.
Qed.
Lemma up_ge1 n : 1 <= (1 + uu) ^ n. Proof. apply pow_R1_Rle. unfold uu; lra. Qed.
Lemma down_range n : 0 <= (1 - uu) ^ n <= 1.
Proof.
  split; [apply pow_le; unfold uu; lra|]. apply Rle_trans with (1 ^ n); [apply pow_incr; unfold uu; lra|rewrite pow1; lra].
Qed.

(** A non-negative number computed with at most [n] roundings. *)
Definition within (n : nat) (eta E x : R) : Prop := (1 - uu) ^ n * E - eta <= x <= (1 + uu) ^ n * (E + eta).

Lemma within_near n eta E x : 0 <= eta -> 0 <= x -> within n eta E x -> within (S n) (eta + hh) E (near32 x).
Proof.
  intros Pe Px [L U]. destruct (near_bounds x Px) as [A B]. pose proof hh_pos as Ph. assert (Pu : 0 < uu < 1) by (unfold uu; lra).
  pose proof (up_ge1 (S n)) as G. split; cbn [pow] in *.
  - assert ((1 - uu) * ((1 - uu) ^ n * E - eta) <= (1 - uu) * x) by (apply Rmult_le_compat_l; lra).
    assert (0 <= uu * eta) by (apply Rmult_le_pos; lra). lra.
  - assert ((1 + uu) * x <= (1 + uu) * ((1 + uu) ^ n * (E + eta))) by (apply Rmult_le_compat_l; lra).
    assert (1 * hh <= (1 + uu) * (1 + uu) ^ n * hh) by (apply Rmult_le_compat_r; lra). lra.
Qed.
Lemma within_weaken n m eta eta' E x : (n <= m)%nat -> 0 <= E -> 0 <= eta <= eta' -> within n eta E x -> within m eta' E x.
Proof.
  intros H PE Pe [L U]. assert (Pu : 0 < uu < 1) by (unfold uu; lra). split.
  - apply Rle_trans with ((1 - uu) ^ n * E - eta); [|exact L].
    assert ((1 - uu) ^ m <= (1 - uu) ^ n).
    { replace m with (n + (m - n))%nat by lia. rewrite pow_add. rewrite <- (Rmult_1_r ((1 - uu) ^ n)) at 2.
      apply Rmult_le_compat_l; apply down_range. }
    assert ((1 - uu) ^ m * E <= (1 - uu) ^ n * E) by (apply Rmult_le_compat_r; assumption). lra.
  - apply Rle_trans with (1 := U). apply Rmult_le_compat; try lra.
    + pose proof (up_ge1 n). lra.
    + apply Rle_pow; [lra|exact H].
Qed.
Lemma within_mult n m E x F y : 0 <= E -> 0 <= F -> 0 <= x -> 0 <= y ->
  within n 0 E x -> within m 0 F y -> within (n + m) 0 (E * F) (x * y).
Proof.
  intros PE PF Px Py [L U] [L' U']. rewrite Rplus_0_r, Rminus_0_r in *. unfold within. rewrite Rplus_0_r, Rminus_0_r, !pow_add.
  pose proof (down_range n). pose proof (down_range m). split.
  - replace ((1 - uu) ^ n * (1 - uu) ^ m * (E * F)) with (((1 - uu) ^ n * E) * ((1 - uu) ^ m * F)) by ring.
    apply Rmult_le_compat; try assumption; apply Rmult_le_pos; lra.
  - replace ((1 + uu) ^ n * (1 + uu) ^ m * (E * F)) with (((1 + uu) ^ n * E) * ((1 + uu) ^ m * F)) by ring.
    apply Rmult_le_compat; assumption.
Qed.
Lemma within_add n e1 E x e2 F y : within n e1 E x -> within n e2 F y -> within n (e1 + e2) (E + F) (x + y).
Proof. intros [L U] [L' U']. split; lra. Qed.
Lemma within_half n e E x : 0 <= e -> within n e E x -> within n e (E / 2) (x / 2).
Proof.
  intros Pe [L U]. split; [lra|].
  pose proof (up_ge1 n). assert (0 <= (1 + uu) ^ n * e) by (apply Rmult_le_pos; lra). lra.
Qed.

(** Sums and differences of two binary32 numbers have no underflow error. *)
Lemma within_sum (x y : f32) : 0 <= B2R x + B2R y -> within 1 0 (B2R x + B2R y) (near32 (B2R x + B2R y)).
Proof.
  intro P. destruct (FLT_plus_error_N_ex radix2 (-149) 24 (fun x => negb (Z.even x)) (B2R x) (B2R y)) as (e & He & E).
  { apply (generic_format_B2R 24 128). } { apply (generic_format_B2R 24 128). }
  change (round radix2 (FLT_exp (-149) 24) ZnearestE (B2R x + B2R y)) with (near32 (B2R x + B2R y)) in E. rewrite E.
  assert (A : Rabs e <= uu).
  { apply Rle_trans with (1 := He). replace (u_ro radix2 24) with uu by (unfold u_ro, uu; simpl; lra).
    unfold uu. lra. }
  apply Rabs_le_inv in A. set (z := B2R x + B2R y) in *.
  assert (z * - uu <= z * e <= z * uu) by (split; apply Rmult_le_compat_l; lra).
  unfold within. rewrite !pow_1. lra.
Qed.
Lemma within_diff (x y : f32) : 0 <= B2R x - B2R y -> within 1 0 (B2R x - B2R y) (near32 (B2R x - B2R y)).
Proof.
  intro P. assert (E : B2R x - B2R y = B2R x + B2R (Bopp y)) by (rewrite B2R_Bopp; ring).
  rewrite E in *. apply within_sum. exact P.
Qed.

Lemma bp100 x : Rabs x <= 2 ^ 99 -> Rabs x <= bpow radix2 100.
Proof. intro H. apply Rle_trans with (1 := H). rewrite bpow_100. lra. Qed.

Lemma bp63 : bpow radix2 63 = 2 ^ 63.
Proof. rewrite (bpow_powerRZ radix2 63). change (IZR radix2) with 2. unfold powerRZ. f_equal. Qed.

Lemma half_lit : is_finite (lit32 (1 # 2)) = true /\ B2R (lit32 (1 # 2)) = / 2.
Proof.
  destruct (lit_ok_spec (1 # 2) eq_refl) as [F E]. split; [exact F|]. rewrite E.
  replace (Q2R (1 # 2)) with (bpow radix2 (-1)) by (unfold Q2R; simpl; lra). rewrite near32_bpow by lia. simpl. lra.
Qed.
Lemma two_lit : B2R (lit32 2) = 2.
Proof.
  destruct (lit_ok_spec 2 eq_refl) as [F E]. rewrite E.
  replace (Q2R 2) with (bpow radix2 1) by (unfold Q2R; simpl; lra). rewrite near32_bpow by lia. simpl. lra.
Qed.
Lemma zero_lit : is_finite (lit32 0) = true /\ B2R (lit32 0) = 0.
Proof. now split. Qed.

Lemma area_ok (a fa b fb : f32) : is_finite a = true -> is_finite b = true ->
  between0 (2 ^ 40) fa -> between0 (2 ^ 40) fb -> 0 <= B2R b - B2R a <= 2 ^ 20 ->
  let p := fmul (fsub b a) (fadd fb fa) in
  is_finite p = true /\ 0 <= B2R p <= 2 ^ 63 /\ within 3 hh ((B2R b - B2R a) * (B2R fb + B2R fa)) (B2R p).
Proof.
  intros Fa Fb [Ffa Rfa] [Ffb Rfb] D. cbv zeta. pose proof hh_pos as Ph. pose proof hh_small as Hs.
  assert (Pu : uu = / 16777216) by reflexivity.
  destruct (fsub_ok b a Fb Fa) as [V1 F1]. { apply bp100. rewrite Rabs_pos_eq by lra. lra. }
  destruct (fadd_ok fb fa Ffb Ffa) as [V2 F2]. { apply bp100. rewrite Rabs_pos_eq by lra. lra. }
  pose proof (within_diff b a ltac:(lra)) as W1. pose proof (within_sum fb fa ltac:(lra)) as W2.
  pose proof (near_nonneg (B2R b - B2R a) ltac:(lra)) as N1. pose proof (near_nonneg (B2R fb + B2R fa) ltac:(lra)) as N2.
  set (d := near32 (B2R b - B2R a)) in *. set (f := near32 (B2R fb + B2R fa)) in *.
  assert (D1 : d <= 2 ^ 21). { destruct W1 as [_ W1]. rewrite pow_1, Rplus_0_r in W1.
    apply Rle_trans with (1 := W1). apply Rle_trans with ((1 + uu) * 2 ^ 20); [apply Rmult_le_compat_l; lra|rewrite Pu; lra]. }
  assert (F1' : f <= 2 ^ 42). { destruct W2 as [_ W2]. rewrite pow_1, Rplus_0_r in W2.
    apply Rle_trans with (1 := W2). apply Rle_trans with ((1 + uu) * 2 ^ 41); [apply Rmult_le_compat_l; lra|rewrite Pu; lra]. }
  assert (DF : 0 <= d * f <= 2 ^ 63).
  { split; [apply Rmult_le_pos; assumption|]. replace (2 ^ 63) with (2 ^ 21 * 2 ^ 42) by ring. apply Rmult_le_compat; assumption. }
  destruct (fmul_ok (fsub b a) (fadd fb fa) F1 F2) as [V3 F3].
  { apply bp100. rewrite V1, V2. rewrite Rabs_pos_eq; lra. }
  rewrite V1, V2 in V3. split; [exact F3|]. rewrite V3. split.
  - split; [apply near_nonneg; lra|].
    rewrite <- bp63. rewrite <- (near32_bpow 63) by lia. apply near32_le. rewrite bp63. apply DF.
  - replace hh with (0 + hh) by ring. apply (within_near 2); [lra|lra|].
    apply (within_mult 1 1); try assumption; lra.
Qed.

Lemma step_ok fused (a fa c b fb : f32) k eta E : is_finite a = true -> is_finite b = true -> is_finite c = true ->
  between0 (2 ^ 40) fa -> between0 (2 ^ 40) fb -> 0 <= B2R b - B2R a <= 2 ^ 20 ->
  0 <= B2R c <= 2 ^ 64 -> 0 <= eta -> 0 <= E -> within (k + 4) eta E (B2R c) ->
  let c' := cumtrapz_step32 fused a fa c b fb in
  is_finite c' = true /\ B2R c <= B2R c' /\
  within (k + 5) (eta + 3 * hh) (E + (B2R b - B2R a) * (B2R fb + B2R fa) / 2) (B2R c').
Proof.
  intros Fa Fb Fc Hfa Hfb D C Pe PE W. pose proof hh_pos as Ph.
  destruct (area_ok a fa b fb Fa Fb Hfa Hfb D) as (Fp & Rp & Wp). cbv zeta.
  assert (PX : 0 <= (B2R b - B2R a) * (B2R fb + B2R fa)).
  { apply Rmult_le_pos; [lra|]. destruct Hfa, Hfb. lra. }
  unfold cumtrapz_step32. set (p := fmul (fsub b a) (fadd fb fa)) in *.
  pose proof (within_half _ _ _ _ (Rlt_le _ _ Ph) Wp) as Wh.
  set (X := (B2R b - B2R a) * (B2R fb + B2R fa)) in *.
  assert (G : forall x, 0 <= x -> within 4 (2 * hh) (X / 2) x ->
    B2R c <= near32 (B2R c + x) /\ within (k + 5) (eta + 3 * hh) (E + X / 2) (near32 (B2R c + x))).
  { intros x Px Wx. split.
    - rewrite <- (near32_B2R c) at 1. apply near32_le. lra.
    - replace (k + 5)%nat with (S (k + 4)) by lia. replace (eta + 3 * hh) with ((eta + 2 * hh) + hh) by ring.
      apply within_near; [lra|lra|]. apply within_add; [exact W|].
      apply within_weaken with (3 := conj (Rmult_le_pos 2 hh ltac:(lra) ltac:(lra)) (Rle_refl _)) (4 := Wx); [lia|lra]. }
  destruct fused.
  - destruct half_lit as [Fh Eh].
    destruct (ffma_ok p (lit32 (1 # 2)) c Fp Fh Fc) as [V F].
    { apply bp100. rewrite Eh. rewrite Rabs_pos_eq by lra. lra. }
    rewrite Eh in V. split; [exact F|]. rewrite V. rewrite (Rplus_comm (_ * _)). apply (G (B2R p * / 2)); [lra|].
    apply within_weaken with 3%nat hh; [lia|lra|lra|exact Wh].
  - destruct (fdiv_ok p (lit32 2) Fp) as [V1 F1].
    { rewrite two_lit. lra. } { rewrite two_lit. apply bp100. rewrite Rabs_pos_eq by lra. lra. }
    rewrite two_lit in V1. pose proof (near_nonneg (B2R p / 2) ltac:(lra)) as N.
    pose proof (near_bounds (B2R p / 2) ltac:(lra)) as NB.
    assert (Nb : near32 (B2R p / 2) <= 2 ^ 64).
    { pose proof hh_small. unfold uu in NB. lra. }
    destruct (fadd_ok c (fdiv p (lit32 2)) Fc F1) as [V F].
    { rewrite V1. apply bp100. rewrite Rabs_pos_eq by lra. lra. }
    rewrite V1 in V. split; [exact F|]. rewrite V. apply G; [exact N|].
    replace (2 * hh) with (hh + hh) by ring. apply (within_near 3); [lra|lra|exact Wh].
Qed.
