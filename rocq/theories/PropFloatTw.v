(** Properties of the single-precision triweight kernel: C114 to C116. *)
From Coq Require Import Reals Lra Lia List Bool String QArith ZArith.
From Flocq Require Import Core.Core IEEE754.BinarySingleNaN.
From Verif Require Import ModelFloat ModelFloatTw SpecCore SpecHist SpecFloatTw FloatTwProofs FloatTwTop.
Import ListNotations.
Open Scope R_scope.

(** C114: however it is compiled, the kernel is accurate to 2^-19, and exact outside [-3, 3]. *)
Theorem C114_triweight_single : forall st y, is_finite y = true ->
  is_finite (jax_tw32 st y) = true /\ Rabs (B2R (jax_tw32 st y) - tw_cdf (B2R y)) <= / 2 ^ 19 /\
  (B2R y < -3 -> B2R (jax_tw32 st y) = 0) /\ (3 < B2R y -> B2R (jax_tw32 st y) = 1).
Proof. exact triweight32. Qed.
Print Assumptions C114_triweight_single.

Theorem C114_triweight_special : forall st, jax_tw32 st (B754_infinity false) = lit32 1 /\
  jax_tw32 st (B754_infinity true) = lit32 0 /\ jax_tw32 st B754_nan = B754_nan.
Proof. exact tw32_special. Qed.
Print Assumptions C114_triweight_special.

(** C114: however it is compiled, it leaves [0, 1] on both sides and is not monotone. *)
Theorem C114_triweight_range_refuted : forall st,
  (exists y, -3 < B2R y < 3 /\ is_finite (jax_tw32 st y) = true /\ B2R (jax_tw32 st y) < 0) /\
  (exists y, -3 < B2R y < 3 /\ is_finite (jax_tw32 st y) = true /\ 1 < B2R (jax_tw32 st y)) /\
  (exists y y', is_finite y = true /\ is_finite y' = true /\ B2R y < B2R y' /\
                B2R (jax_tw32 st y') < B2R (jax_tw32 st y)).
Proof. exact range_refuted. Qed.
Print Assumptions C114_triweight_range_refuted.

Example C114_hyp : is_finite ybad = true /\ B2R ybad = -6290915 / 2097152.
Proof. exact c_ybad. Qed.

(** C115: the quenching factor is finite, positive and accurate. *)
Theorem C115_quenching_single : forall st p lgt qt dt drop rejuv, power_accurate p ->
  quench_input lgt qt dt drop rejuv ->
  let q := quenching_kern32 st p lgt qt dt drop rejuv in
  is_finite q = true /\ 0 < B2R q <= 1 + / 2 ^ 14 /\
  Rabs (B2R q - quench_spec (B2R qt) (B2R dt) (B2R drop) (B2R rejuv) (B2R lgt)) <= / 2 ^ 14.
Proof. exact quench32. Qed.
Print Assumptions C115_quenching_single.

(** C115: it can exceed 1, so a quenching event can raise the rate. *)
Theorem C115_never_raises_refuted : forall st p, power_accurate p ->
  exists lgt qt dt drop rejuv, quench_input lgt qt dt drop rejuv /\
    1 < B2R (quenching_kern32 st p lgt qt dt drop rejuv).
Proof. exact quench_refuted. Qed.
Print Assumptions C115_never_raises_refuted.

Example C115_hyp : power_accurate round_power /\ quench_input qlgt qqt qdt (lit32 (-3)) (lit32 (-1)).
Proof. exact (conj round_power_ok qbad_input). Qed.

(** C116: the weight of a point in a bin is finite and accurate, in both versions of the kernel. *)
Theorem C116_weight_single : forall st x s lo hi, bin_input x s lo hi ->
  is_finite (tw_bin_weight_kern32 st x s lo hi) = true /\
  Rabs (B2R (tw_bin_weight_kern32 st x s lo hi) - tw_mass (B2R x) (B2R s) (B2R lo) (B2R hi)) <= / 2 ^ 17.
Proof. exact weight32. Qed.
Print Assumptions C116_weight_single.

Theorem C116_weight_utils_single : forall st m h L H, bin_input m h L H ->
  is_finite (tw_bin_jax_kern32 st m h L H) = true /\
  Rabs (B2R (tw_bin_jax_kern32 st m h L H) - tw_mass (B2R m) (B2R h) (B2R L) (B2R H)) <= / 2 ^ 17.
Proof. exact weight32_utils. Qed.
Print Assumptions C116_weight_utils_single.

(** C116: it can be negative. *)
Theorem C116_weight_sign_refuted : forall st, exists x s lo hi, bin_input x s lo hi /\
  B2R lo < B2R hi /\ B2R (tw_bin_weight_kern32 st x s lo hi) < 0.
Proof. exact weight_refuted. Qed.
Print Assumptions C116_weight_sign_refuted.

Example C116_hyp : bin_input qlgt qdt (lit32 (-1)) (lit32 4).
Proof. exact demo_bin. Qed.
