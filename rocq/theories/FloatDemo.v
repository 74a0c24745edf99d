(** A correctly rounded sigmoid meets the requirements on the library's. *)
From Coq Require Import Reals Lra Lia ZArith.
From Flocq Require Import Core.Core IEEE754.BinarySingleNaN.
From Verif Require Import XReal RealFacts ModelFloat SpecFloat32 FloatProofs FloatConst FloatRange FloatAccuracy.
Open Scope R_scope.

(** The binary32 number nearest to a real in [-1024, 1024]. *)
Definition of_real (x : R) : f32 :=
  binary_normalize 24 128 eq_refl eq_refl mode_NE
    (Ztrunc (scaled_mantissa radix2 (FLT_exp (-149) 24) (near32 x))) (cexp radix2 (FLT_exp (-149) 24) (near32 x)) false.
Lemma of_real_ok x : Rabs x <= 1024 -> is_finite (of_real x) = true /\ B2R (of_real x) = near32 x.
Proof.
  intro H. pose proof (binary_normalize_correct 24 128 eq_refl eq_refl mode_NE
    (Ztrunc (scaled_mantissa radix2 (FLT_exp (-149) 24) (near32 x))) (cexp radix2 (FLT_exp (-149) 24) (near32 x)) false) as C.
  cbv zeta in C.
  assert (G : generic_format radix2 (FLT_exp (-149) 24) (near32 x)) by (apply generic_format_round; typeclasses eauto).
  unfold generic_format in G. rewrite <- G in C.
  assert (A : Rabs (near32 x) <= bpow radix2 100).
  { apply Rle_trans with 1024; [now apply near32_1024|]. change 1024 with (bpow radix2 10). now apply bpow_le. }
  rewrite (small _ A) in C. destruct C as (C1 & C2 & _). split; [exact C2|].
  unfold of_real. rewrite C1. apply round_generic; [typeclasses eauto|]. apply generic_format_round; typeclasses eauto.
Qed.

Definition one32 : f32 := binary_normalize 24 128 eq_refl eq_refl mode_NE 1 0 false.
Lemma one32_R : B2R one32 = 1.
Proof.
  rewrite <- (SF2R_B2SF _ _ one32). replace (B2SF one32) with (SpecFloat.S754_finite false 8388608 (-23)) by (vm_compute; reflexivity).
  unfold SF2R, F2R. simpl. lra.
Qed.

(** [1 / (1 + exp (- x))], rounded to nearest. *)
Definition round_sigmoid (z : f32) : f32 :=
  match z with
  | B754_nan => B754_nan
  | B754_infinity true => B754_zero false
  | B754_infinity false => one32
  | _ => of_real (/ (1 + exp (- B2R z)))
  end.

Lemma sig_abs x : Rabs (/ (1 + exp (- x))) <= 1024.
Proof. pose proof (logistic_range x) as L. unfold logisticR in L. rewrite Rabs_pos_eq; lra. Qed.

Lemma round_sigmoid_range : sigmoid_range round_sigmoid.
Proof.
  assert (G : forall x, is_finite (of_real (/ (1 + exp (- x)))) = true /\ 0 <= B2R (of_real (/ (1 + exp (- x)))) <= 1).
  { intro x. destruct (of_real_ok _ (sig_abs x)) as (F & V). split; [exact F|]. rewrite V.
    pose proof (logistic_range x) as L. unfold logisticR in L. split.
    - rewrite <- near32_0. apply near32_le. lra.
    - apply Rle_trans with (near32 1); [apply near32_le; lra|]. rewrite (near32_int 1 eq_refl). lra. }
  intros z Hz. destruct z as [a|[]| |a m e W]; unfold round_sigmoid.
  - apply G.
  - split; [reflexivity|simpl; lra].
  - split; [reflexivity|]. rewrite one32_R. lra.
  - discriminate Hz.
  - apply G.
Qed.

Lemma round_sigmoid_accurate : sigmoid_accurate round_sigmoid.
Proof.
  assert (G : forall x, Rabs (B2R (of_real (/ (1 + exp (- x)))) - / (1 + exp (- x))) <= / 4194304).
  { intro x. destruct (of_real_ok _ (sig_abs x)) as (F & V). rewrite V.
    pose proof (logistic_range x) as L. unfold logisticR in L.
    apply Rle_trans with (1 * u24 + tiny); [|unfold u24, tiny; lra].
    apply near_abs_err. rewrite Rabs_pos_eq; lra. }
  intros z. destruct z as [a|[]| |a m e W]; unfold round_sigmoid.
  - apply G.
  - simpl. rewrite Rabs_R0. lra.
  - rewrite one32_R, Rminus_eq_0, Rabs_R0. lra.
  - exact I.
  - apply G.
Qed.

Lemma exp_18 : 33554432 < exp 18.
Proof.
  assert (P : forall n x, exp (INR n * x) = exp x ^ n).
  { intros n x. induction n as [|n IH]; [simpl; now rewrite Rmult_0_l, exp_0|].
    rewrite S_INR, Rmult_plus_distr_r, Rmult_1_l, exp_plus, IH. simpl. ring. }
  assert (B : 17 / 16 <= exp (/ 16)) by (pose proof (exp_ineq1_le (/ 16)); lra).
  replace 18 with (INR 18 * (INR 16 * / 16)) by (simpl; lra). rewrite !P.
  assert (S : 263 / 100 <= exp (/ 16) ^ 16).
  { apply Rle_trans with ((17 / 16) ^ 16); [lra|]. apply pow_incr. lra. }
  apply Rlt_le_trans with ((263 / 100) ^ 18); [lra|]. apply pow_incr. lra.
Qed.

Lemma round_sigmoid_saturates : sigmoid_saturates round_sigmoid.
Proof.
  assert (G : forall x, 18 <= x -> of_real (/ (1 + exp (- x))) = one32).
  { intros x Hx. destruct (of_real_ok _ (sig_abs x)) as (F & V).
    assert (E : near32 (/ (1 + exp (- x))) = 1).
    { assert (X : exp 18 <= exp x) by (destruct Hx as [Hx| <-]; [left; now apply exp_increasing|lra]).
      pose proof exp_18 as X18. pose proof (exp_pos (- x)) as P.
      assert (D : exp (- x) < / 33554432) by (rewrite exp_Ropp; apply Rinv_lt_contravar; nra).
      pose proof (logistic_range x) as L. unfold logisticR in L.
      assert (T : 1 - / (1 + exp (- x)) <= exp (- x)).
      { apply Rmult_le_reg_r with (1 + exp (- x)); [lra|]. rewrite Rmult_minus_distr_r, Rinv_l by lra. nra. }
      rewrite (near32_eq _ 16777216 (-24)); [|lia| |].
      - change (bpow radix2 (-24)) with (/ 16777216). lra.
      - change (bpow radix2 (-24 + 23)) with (/ 2). change (bpow radix2 (-24 + 24)) with 1. rewrite Rabs_pos_eq; lra.
      - change (bpow radix2 (- -24)) with 16777216. apply Rabs_def1; lra. }
    apply B2R_Bsign_inj; [exact F|reflexivity| |].
    - rewrite V, one32_R. exact E.
    - rewrite (bsign_pos (of_real _)); [reflexivity|]. rewrite V, E. lra. }
  intros z Hz. destruct z as [a|[]| |a m e W]; unfold round_sigmoid; simpl in Hz; try contradiction; try discriminate Hz.
  - apply G. exact Hz.
  - reflexivity.
  - apply G. exact Hz.
Qed.

(** A logarithm: the nearest number to [ln x], minus infinity at zero. *)
Definition round_log (x : f32) : f32 :=
  match x with
  | B754_zero _ => B754_infinity true
  | B754_infinity false => B754_infinity false
  | B754_finite false _ _ _ => of_real (ln (B2R x))
  | _ => B754_nan
  end.

Definition fifty : f32 := binary_normalize 24 128 eq_refl eq_refl mode_NE 50 0 false.
Definition big : f32 := binary_normalize 24 128 eq_refl eq_refl mode_NE 250 0 false.
Lemma fifty_R : B2R fifty = 50.
Proof.
  rewrite <- (SF2R_B2SF _ _ fifty). replace (B2SF fifty) with (SpecFloat.S754_finite false 13107200 (-18)) by (vm_compute; reflexivity).
  unfold SF2R, F2R. simpl. lra.
Qed.
Lemma big_R : B2R big = 250.
Proof.
  rewrite <- (SF2R_B2SF _ _ big). replace (B2SF big) with (SpecFloat.S754_finite false 16384000 (-16)) by (vm_compute; reflexivity).
  unfold SF2R, F2R. simpl. lra.
Qed.
Lemma at_least_fin a x : is_finite x = true -> a <= B2R x -> at_least a x.
Proof. intros F H. destruct x; try discriminate F; exact H. Qed.
Lemma fifty_ge : at_least 50 fifty.
Proof. apply at_least_fin; [reflexivity|]. rewrite fifty_R. lra. Qed.
Lemma big_ge : at_least 250 big.
Proof. apply at_least_fin; [reflexivity|]. rewrite big_R. lra. Qed.
