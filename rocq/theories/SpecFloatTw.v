(** What the statements about the single-precision triweight kernel refer to. *)
From Coq Require Import Reals ZArith.
From Flocq Require Import Core.Core IEEE754.BinarySingleNaN.
From Verif Require Import ModelFloat.
Open Scope R_scope.

(** Finite, between [a] and [b]. *)
Definition within32 (a b : R) (x : f32) : Prop := is_finite x = true /\ a <= B2R x <= b.

(** The library's power of ten errs by at most one part in 2^22 for exponents from -4 to 1. *)
Definition power_accurate (p : f32 -> f32) : Prop :=
  forall z, within32 (-4) 1 z ->
    is_finite (p z) = true /\ Rabs (B2R (p z) - Rpower 10 (B2R z)) <= / 2 ^ 22 * Rpower 10 (B2R z).

(** A quenching event: log10 of time and of the event's time up to 16 in size, a duration of
    1/1024 to 4 dex, a drop of at most 3 dex of which some or all is regained. *)
Definition quench_input (lgt qt dt drop rejuv : f32) : Prop :=
  within32 (-16) 16 lgt /\ within32 (-16) 16 qt /\ within32 (/ 1024) 4 dt /\
  within32 (-3) 0 drop /\ within32 (B2R drop) 0 rejuv.

(** A bin and a point of width [s]. *)
Definition bin_input (x s lo hi : f32) : Prop :=
  within32 (-1024) 1024 x /\ within32 (/ 1024) 1024 s /\ within32 (-1024) 1024 lo /\ within32 (-1024) 1024 hi.
