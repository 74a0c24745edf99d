(** Specification of predictions against targets, and of the bounds of the two halves of the
    parameters.  Nothing here refers to the model's functions (only to its record types). *)
From Coq Require Import Reals List.
From Verif Require Import XReal ModelUtils ModelKernels SpecCore.
Import List ListNotations.
Open Scope R_scope.

(** Mean of the squared differences of two lists of numbers. *)
Fixpoint square_sum (a b : list R) : R :=
  match a, b with
  | x :: a, y :: b => (x - y) ^ 2 + square_sum a b
  | _, _ => 0
  end.
Definition mean_square (a b : list R) : R := square_sum a b / INR (length a).

(** The loss [v] of a prediction against a target of the same shape: 1000 times the mean squared
    difference; zero exactly when they are equal. *)
Definition scores2 (v : R) (pred target : list (list R)) : Prop :=
  map (@length R) pred = map (@length R) target /\ 0 <= v /\ (v = 0 <-> pred = target) /\
  v = 1000 * mean_square (List.concat pred) (List.concat target).
Definition scores3 (v : R) (pred target : list (list (list R))) : Prop :=
  map (map (@length R)) pred = map (map (@length R)) target /\ 0 <= v /\ (v = 0 <-> pred = target) /\
  v = 1000 * mean_square (List.concat (List.concat pred)) (List.concat (List.concat target)).

(** Bounds of the main sequence and of the quenching parameters; rows in field order. *)
Definition ms_in_bounds (p : MSParams R) : Prop :=
  9 < lgmcrit p < 135 / 10 /\ -12 < lgy_at_mcrit p < -8 /\ 0 < indx_lo p < 5 /\ -5 < indx_hi p < 0.
Definition q_in_bounds (p : QParams R) : Prop :=
  1 / 10 < lg_qt p < 2 /\ -3 < qlglgdt p < -1 / 100 /\ -3 < lg_drop p < 0 /\ lg_drop p < lg_rejuv p < 0.
Definition ms_row (p : MSParams R) : list xr := map Fin [lgmcrit p; lgy_at_mcrit p; indx_lo p; indx_hi p].
Definition q_row (p : QParams R) : list xr := map Fin [lg_qt p; qlglgdt p; lg_drop p; lg_rejuv p].
