(** Specification of refinement of the time table, and of the directions in which the
    parameters move a star formation history.  Nothing here refers to the model's functions
    (only to its record types). *)
From Coq Require Import Reals List.
From Coquelicot Require Import Coquelicot.
From Verif Require Import XReal ModelUtils ModelKernels ModelSfh SpecCore.
Import List ListNotations.
Open Scope R_scope.

(** Neighbouring times are at most [h] apart. *)
Definition spacing (h : R) (ts : list R) : Prop :=
  forall i, (S i < length ts)%nat -> nth (S i) ts 0 - nth i ts 0 <= h.

(** Between any two times of the table, the masses [smh] grow by the integral of the rate [f]
    (Msun/yr, time in Gyr) up to [eps] per Gyr. *)
Definition grows_by_integral (f : R -> R) (ts smh : list R) (eps : R) : Prop :=
  forall i j, (i <= j)%nat -> (j < length ts)%nat ->
  Rabs (nth j smh 0 - nth i smh 0 - 10 ^ 9 * RInt f (nth i ts 0) (nth j ts 0))
  <= eps * (nth j ts 0 - nth i ts 0).

(** [p'] forms at least as many stars as [p] in halos of the masses [ms]: same critical mass,
    quenching time and duration; no smaller efficiency at the critical mass, no deeper
    drop, no smaller final level; the power laws differ only to the advantage of [p']. *)
Definition forms_no_less (ms : list R) (p p' : DiffstarParams R) : Prop :=
  d_lgmcrit p' = d_lgmcrit p /\ d_lg_qt p' = d_lg_qt p /\ d_qlglgdt p' = d_qlglgdt p /\
  d_lgy_at_mcrit p <= d_lgy_at_mcrit p' /\
  d_lg_drop p <= d_lg_drop p' /\ d_lg_rejuv p <= d_lg_rejuv p' /\
  Forall (fun m => 0 <= (m - d_lgmcrit p) * (d_indx_lo p' - d_indx_lo p) /\
                   0 <= (m - d_lgmcrit p) * (d_indx_hi p' - d_indx_hi p)) ms.

(** All parameters but the critical mass agree. *)
Definition differ_in_lgmcrit (p p' : DiffstarParams R) : Prop :=
  p' = mkDiffstar (d_lgmcrit p') (d_lgy_at_mcrit p) (d_indx_lo p) (d_indx_hi p)
         (d_lg_qt p) (d_qlglgdt p) (d_lg_drop p) (d_lg_rejuv p).

(** Entry [j] of [fs] is within [eps] of the integral of the rate [f] over the last [tau] Gyr
    before time [j], divided by [tau]; the integral starts at the first time of the table when
    that is later. *)
Definition recent_mean (f : R -> R) (ts fs : list R) (tau eps : R) : Prop :=
  forall j, (j < length ts)%nat ->
  Rabs (nth j fs 0 - RInt f (Rmax (nth 0 ts 0) (nth j ts 0 - tau)) (nth j ts 0) / tau) <= eps.
