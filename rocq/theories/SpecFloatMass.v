(** What the statements about single-precision masses refer to. *)
From Coq Require Import Reals List ZArith.
From Flocq Require Import Core.Core IEEE754.BinarySingleNaN.
From Verif Require Import ModelFloat SpecFloat32.
Import ListNotations.
Open Scope R_scope.

(** Finite, between 0 and [b]. *)
Definition between0 (b : R) (x : f32) : Prop := is_finite x = true /\ 0 <= B2R x <= b.

(** The exact trapezoid sum through the points [(t i, s i)], up to point [k]. *)
Fixpoint trapezoids (t s : nat -> R) (k : nat) : R :=
  match k with O => 0 | S j => trapezoids t s j + (t (S j) - t j) * (s (S j) + s j) / 2 end.

(** The points of a table, after the starting point (1 Myr, 1e-14) in single precision. *)
Definition point (start : R) (l : list f32) (i : nat) : R :=
  match i with O => near32 start | S j => B2R (nth j l B754_nan) end.

(** Exact mass formed by the time of entry [k]. *)
Definition exact_mass (ts ss : list f32) (k : nat) : R :=
  10 ^ 9 * trapezoids (point (1 / 1000) ts) (point (1 / 10 ^ 14) ss) (S k).

(** Tables of at most a million entries (2^20), not decreasing times from 1 Myr to 2^20 Gyr and rates
    from 0 to 2^40 Msun/yr. *)
Definition mass_input (ts ss : list f32) : Prop :=
  length ts = length ss /\ (Z.of_nat (length ts) <= 1048576)%Z /\
  Forall (between0 (2 ^ 20)) ts /\ Forall (between0 (2 ^ 40)) ss /\
  forall i, (i < length ts)%nat -> point (1 / 1000) ts i <= point (1 / 1000) ts (S i).
