(** The reference notions of the claims about stars formed and specific rates. *)
From Coq Require Import Reals List.
From Verif Require Import XReal.
Import List ListNotations.
Open Scope R_scope.

(** The time between the last two of the 20 log-spaced times from 0.1 Gyr to [tobs] at which
    a population is simulated. *)
Definition last_gap (tobs : R) : R := tobs - exp ((-1 + 18 / 19 * (ln tobs / ln 10 + 1)) * ln 10).

(** Twice one over that time, per year and in logs; sSFRs below 1e-12 are set to 1e-12. *)
Definition ssfr_limit (tobs : R) : R := Rmax (-12) (ln (2 / (10 ^ 9 * last_gap tobs)) / ln 10).

(** No signal: zero, or no number at all. *)
Definition no_signal (v : xr) : Prop := v = Fin 0 \/ v = NaN.
