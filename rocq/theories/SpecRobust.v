(** The reference notions of the claims about how far errors of the inputs move a history. *)
From Coq Require Import Reals List.
From Verif Require Import XReal RealFacts ModelKernels.
Import List ListNotations.
Open Scope R_scope.

(** [b] is within [D] dex of [a]. *)
Definition within (D a b : R) : Prop := pow10R (- D) * a <= b <= pow10R D * a.

(** The steepest change, in dex per dex, of a power law whose index goes from [lo] to [hi]. *)
Definition steepest (lo hi : R) : R := Rmax (Rabs lo) (Rabs hi) + Rabs (hi - lo) / 4.

(** Dex by which the history of galaxy [q] in a halo at most [e] dex away may differ from that of galaxy [p], the halo of
    [q] being at most [X] dex away from its critical mass. *)
Definition total_shift (p q : DiffstarParams R) (e X : R) : R :=
  steepest (1 + d_indx_lo p) (1 + d_indx_hi p) * e
  + steepest (d_indx_lo p) (d_indx_hi p) * Rabs (d_lgmcrit q - d_lgmcrit p)
  + Rmax (Rabs (d_indx_lo q - d_indx_lo p)) (Rabs (d_indx_hi q - d_indx_hi p)) * X
  + Rabs (d_lgy_at_mcrit q - d_lgy_at_mcrit p)
  + Rmax (Rabs (d_lg_drop q - d_lg_drop p)) (Rabs (d_lg_rejuv q - d_lg_rejuv p))
  + 35 / 8 * (Rabs (d_lg_drop p) + Rabs (d_lg_rejuv p - d_lg_drop p)) / pow10R (d_qlglgdt p) * Rabs (d_lg_qt q - d_lg_qt p)
  + 35 / 27 * ln 10 * (Rabs (d_lg_drop p) + Rabs (d_lg_rejuv p - d_lg_drop p)) * Rabs (d_qlglgdt q - d_qlglgdt p).

(** Rounding to single precision near the parameter values: to nearest, gradual underflow included. *)
Definition single (f4 : xr -> xr) : Prop :=
  forall r, Rabs r <= 16 -> exists r', f4 (Fin r) = Fin r' /\ Rabs (r' - r) <= Rabs r / 2 ^ 24 + 1 / 10 ^ 40.

(** Dex by which a history computed from the printed parameters of galaxy [p] may be off, its halo being at most [X] dex
    away from the critical mass. *)
Definition printed_shift (p : DiffstarParams R) (X : R) : R :=
  11 / 10000 + 3 / 100000 * X + 3 / 10000 / pow10R (d_qlglgdt p).
