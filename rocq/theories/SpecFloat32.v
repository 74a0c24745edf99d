(** What the statements about binary32 refer to: real numbers rounded to the nearest
    binary32 number, and what is required of the library's sigmoid and logarithm. *)
From Coq Require Import Reals ZArith QArith Qreals.
From Flocq Require Import Core.Core IEEE754.BinarySingleNaN.
From Verif Require Import ModelKernels.
Open Scope R_scope.

(** The binary32 number nearest to [x] (ties to even, unbounded exponents above). *)
Definition near32 (x : R) : R := round radix2 (FLT_exp (-149) 24) ZnearestE x.

Definition inside32 (lo hi : Q) (r : binary_float 24 128) : Prop :=
  is_finite r = true /\ near32 (Q2R lo) <= B2R r <= near32 (Q2R hi).

Definition number (z : binary_float 24 128) : Prop := is_nan z = false.

(** A value that is at least [b], or infinite. *)
Definition at_least (b : R) (z : binary_float 24 128) : Prop :=
  match z with
  | B754_nan => False
  | B754_infinity s => s = false
  | _ => b <= B2R z
  end.

(** The library's sigmoid takes numbers into [0, 1]. *)
Definition sigmoid_range (s : binary_float 24 128 -> binary_float 24 128) : Prop :=
  forall z, number z -> is_finite (s z) = true /\ 0 <= B2R (s z) <= 1.
(** It is 1 from 18 on, as 1 + exp(-18) rounds to 1. *)
Definition sigmoid_saturates (s : binary_float 24 128 -> binary_float 24 128) : Prop :=
  forall z, at_least 18 z -> s z = binary_normalize 24 128 eq_refl eq_refl mode_NE 1 0 false.
(** It errs by at most 2^-22. *)
Definition sigmoid_accurate (s : binary_float 24 128 -> binary_float 24 128) : Prop :=
  forall z, match z with
            | B754_nan => True
            | B754_infinity false => Rabs (B2R (s z) - 1) <= / 4194304
            | B754_infinity true => Rabs (B2R (s z)) <= / 4194304
            | _ => Rabs (B2R (s z) - / (1 + exp (- B2R z))) <= / 4194304
            end.

(** The exact transform: from [lo] to [hi] with slope parameter [k], centred at [c]. *)
Definition squash (lo hi c k x : R) : R := lo + (hi - lo) / (1 + exp (- (k * (x - c)))).
Definition close32 (tol x : R) (r : binary_float 24 128) : Prop := Rabs (B2R r - x) <= tol.

(** All eight entries satisfy [P]. *)
Definition all_eight {A} (P : A -> Prop) (p : DiffstarParams A) : Prop :=
  P (d_lgmcrit p) /\ P (d_lgy_at_mcrit p) /\ P (d_indx_lo p) /\ P (d_indx_hi p) /\
  P (d_lg_qt p) /\ P (d_qlglgdt p) /\ P (d_lg_drop p) /\ P (d_lg_rejuv p).
