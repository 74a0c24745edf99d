(** Binary32 operations as rounded real operations; the bounding sigmoid in binary32. *)
From Coq Require Import Reals Lra Lia List Bool String QArith Qreals ZArith.
From Flocq Require Import Core.Core IEEE754.BinarySingleNaN.
From Verif Require Import XReal ModelUtils ModelKernels ModelSfh ModelPopTables ModelPop ModelFloat SpecFloat32.
Import ListNotations.
Open Scope R_scope.

Lemma near32_le x y : x <= y -> near32 x <= near32 y.
Proof. apply round_le; typeclasses eauto. Qed.
Lemma near32_B2R (x : f32) : near32 (B2R x) = B2R x.
Proof. apply round_generic; [typeclasses eauto|]. apply generic_format_B2R. Qed.
Lemma near32_0 : near32 0 = 0.
Proof. apply round_0. typeclasses eauto. Qed.
Lemma near32_opp x : near32 (- x) = - near32 x.
Proof. apply round_NE_opp. Qed.
Lemma near32_bpow e : (-149 <= e)%Z -> near32 (bpow radix2 e) = bpow radix2 e.
Proof.
  intro H. apply round_generic; [typeclasses eauto|]. apply generic_format_bpow. unfold FLT_exp. lia.
Qed.
Lemma near32_abs x e : (-149 <= e)%Z -> Rabs x <= bpow radix2 e -> Rabs (near32 x) <= bpow radix2 e.
Proof.
  intros He H. apply Rabs_le. apply Rabs_le_inv in H. destruct H as [H1 H2]. split.
  - rewrite <- (near32_bpow e He), <- near32_opp. now apply near32_le.
  - rewrite <- (near32_bpow e He). now apply near32_le.
Qed.
Lemma small x : Rabs x <= bpow radix2 100 ->
  Rlt_bool (Rabs (round radix2 (SpecFloat.fexp 24 128) (round_mode mode_NE) x)) (bpow radix2 128) = true.
Proof.
  intro H. apply Rlt_bool_true.
  apply Rle_lt_trans with (bpow radix2 100); [|now apply bpow_lt].
  now apply (near32_abs x 100).
Qed.

Lemma fadd_ok x y : is_finite x = true -> is_finite y = true -> Rabs (B2R x + B2R y) <= bpow radix2 100 ->
  B2R (fadd x y) = near32 (B2R x + B2R y) /\ is_finite (fadd x y) = true.
Proof.
  intros Hx Hy H. pose proof (Bplus_correct 24 128 _ _ mode_NE x y Hx Hy) as C.
  rewrite small in C by exact H. destruct C as (C1 & C2 & _). now split.
Qed.
Lemma fsub_ok x y : is_finite x = true -> is_finite y = true -> Rabs (B2R x - B2R y) <= bpow radix2 100 ->
  B2R (fsub x y) = near32 (B2R x - B2R y) /\ is_finite (fsub x y) = true.
Proof.
  intros Hx Hy H. pose proof (Bminus_correct 24 128 _ _ mode_NE x y Hx Hy) as C.
  rewrite small in C by exact H. destruct C as (C1 & C2 & _). now split.
Qed.
Lemma fmul_ok x y : is_finite x = true -> is_finite y = true -> Rabs (B2R x * B2R y) <= bpow radix2 100 ->
  B2R (fmul x y) = near32 (B2R x * B2R y) /\ is_finite (fmul x y) = true.
Proof.
  intros Hx Hy H. pose proof (Bmult_correct 24 128 _ _ mode_NE x y) as C.
  rewrite small in C by exact H. destruct C as (C1 & C2 & _). rewrite Hx, Hy in C2. now split.
Qed.
Lemma fdiv_ok x y : is_finite x = true -> B2R y <> 0 -> Rabs (B2R x / B2R y) <= bpow radix2 100 ->
  B2R (fdiv x y) = near32 (B2R x / B2R y) /\ is_finite (fdiv x y) = true.
Proof.
  intros Hx Hy H. pose proof (Bdiv_correct 24 128 _ _ mode_NE x y Hy) as C.
  rewrite small in C by exact H. destruct C as (C1 & C2 & _). rewrite Hx in C2. now split.
Qed.
Lemma ffma_ok x y z : is_finite x = true -> is_finite y = true -> is_finite z = true ->
  Rabs (B2R x * B2R y + B2R z) <= bpow radix2 100 ->
  B2R (ffma x y z) = near32 (B2R x * B2R y + B2R z) /\ is_finite (ffma x y z) = true.
Proof.
  intros Hx Hy Hz H. pose proof (Bfma_correct 24 128 _ _ mode_NE x y z Hx Hy Hz) as C.
  cbv zeta in C. rewrite small in C by exact H. destruct C as (C1 & C2 & _). now split.
Qed.

(** Subtracting a finite number and multiplying by a non-zero one gives a number. *)
Lemma fsub_number x y : number x -> is_finite y = true -> number (fsub x y).
Proof.
  unfold number. intros Hx Hy. destruct (is_finite x) eqn:Fx.
  - pose proof (Bminus_correct 24 128 _ _ mode_NE x y Fx Hy) as C. unfold fsub.
    destruct (Rlt_bool _ _).
    + destruct C as (_ & C & _). destruct (Bminus mode_NE x y); now simpl in *.
    + destruct C as (C & _). destruct (Bminus mode_NE x y); simpl in *; try discriminate C; reflexivity.
  - destruct x; try discriminate; destruct y; try discriminate; reflexivity.
Qed.
Lemma fmul_number k y : number y -> is_finite k = true -> B2R k <> 0 -> number (fmul k y).
Proof.
  unfold number. intros Hy Hk K. destruct (is_finite y) eqn:Fy.
  - pose proof (Bmult_correct 24 128 _ _ mode_NE k y) as C. unfold fmul.
    rewrite Hk, Fy in C.
    destruct (Rlt_bool _ _).
    + destruct C as (_ & C & _). destruct (Bmult mode_NE k y); now simpl in *.
    + destruct (Bmult mode_NE k y); simpl in *; try discriminate C; reflexivity.
  - destruct y; try discriminate; destruct k; try discriminate; simpl in K; try lra; reflexivity.
Qed.

(** The largest value the sigmoid can take: the lower end plus the rounded height. *)
Definition top (lo hi : f32) : f32 := fadd lo (fsub hi lo).

Lemma bpow_100 : bpow radix2 100 = 1267650600228229401496703205376.
Proof. simpl. reflexivity. Qed.

Lemma sigmoid32_between (s : f32 -> f32) fused x x0 k lo hi :
  sigmoid_range s -> number x -> is_finite x0 = true -> is_finite k = true -> B2R k <> 0 ->
  is_finite lo = true -> is_finite hi = true ->
  B2R lo <= B2R hi -> Rabs (B2R lo) <= 1024 -> Rabs (B2R hi) <= 1024 ->
  let r := sigmoid32 s fused x x0 k lo hi in
  is_finite r = true /\ B2R lo <= B2R r <= B2R (top lo hi).
Proof.
  intros Hs Nx F0 Fk K Fl Fh L Bl Bh r.
  apply Rabs_le_inv in Bl, Bh.
  assert (P : bpow radix2 12 = 4096) by reflexivity.
  assert (B : forall z, Rabs z <= bpow radix2 12 -> Rabs z <= bpow radix2 100).
  { intros z Hz. apply Rle_trans with (1 := Hz). now apply bpow_le. }
  assert (Bd : forall z, Rabs z <= bpow radix2 12 -> -4096 <= near32 z <= 4096).
  { intros z Hz. rewrite <- P. apply Rabs_le_inv. now apply near32_abs. }
  assert (A : forall z, -4096 <= z <= 4096 -> Rabs z <= bpow radix2 12).
  { intros z Hz. rewrite P. now apply Rabs_le. }
  assert (Hd : Rabs (B2R hi - B2R lo) <= bpow radix2 12) by (apply A; lra).
  destruct (fsub_ok hi lo Fh Fl (B _ Hd)) as (D1 & D2).
  assert (D0 : 0 <= B2R (fsub hi lo)).
  { rewrite D1, <- near32_0. apply near32_le. lra. }
  assert (D3 : B2R (fsub hi lo) <= 2048).
  { rewrite D1. replace 2048 with (near32 (bpow radix2 11)) by (rewrite near32_bpow by lia; reflexivity).
    apply near32_le. change (bpow radix2 11) with 2048. lra. }
  destruct (Hs (fmul k (fsub x x0))) as (S1 & S2).
  { apply fmul_number; auto. apply fsub_number; auto. }
  unfold r, sigmoid32. set (sv := s (fmul k (fsub x x0))) in *. set (d := fsub hi lo) in *.
  assert (M : 0 <= B2R d * B2R sv <= B2R d).
  { split; [apply Rmult_le_pos; lra|]. rewrite <- (Rmult_1_r (B2R d)) at 2. apply Rmult_le_compat_l; lra. }
  unfold top. fold d.
  assert (Ht : Rabs (B2R lo + B2R d) <= bpow radix2 12) by (apply A; lra).
  destruct (fadd_ok lo d Fl D2 (B _ Ht)) as (T1 & T2).
  destruct fused.
  - assert (Hf : Rabs (B2R d * B2R sv + B2R lo) <= bpow radix2 12) by (apply A; lra).
    destruct (ffma_ok d sv lo D2 S1 Fl (B _ Hf)) as (R1 & R2).
    split; [exact R2|]. rewrite R1, T1. split.
    + rewrite <- (near32_B2R lo) at 1. apply near32_le. lra.
    + apply near32_le. lra.
  - assert (Hm : Rabs (B2R d * B2R sv) <= bpow radix2 12) by (apply A; lra).
    destruct (fmul_ok d sv D2 S1 (B _ Hm)) as (M1 & M2).
    assert (M3 : 0 <= B2R (fmul d sv) <= B2R d).
    { rewrite M1. split.
      - rewrite <- near32_0. apply near32_le. lra.
      - rewrite <- (near32_B2R d) at 2. apply near32_le. lra. }
    assert (Ha : Rabs (B2R lo + B2R (fmul d sv)) <= bpow radix2 12) by (apply A; lra).
    destruct (fadd_ok lo (fmul d sv) Fl M2 (B _ Ha)) as (R1 & R2).
    split; [exact R2|]. rewrite R1, T1. split.
    + rewrite <- (near32_B2R lo) at 1. apply near32_le. lra.
    + apply near32_le. lra.
Qed.
