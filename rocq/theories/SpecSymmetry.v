(** Changes of one parameter that are the same as a change of units. *)
From Coq Require Import Reals List.
From Verif Require Import XReal RealFacts ModelUtils ModelKernels ModelSfh SpecCore.
Import List ListNotations.
Open Scope R_scope.

(** The critical mass, the efficiency and the quenching time changed by [c] dex. *)
Definition shift_mass (c : R) (p : DiffstarParams R) : DiffstarParams R :=
  mkDiffstar (d_lgmcrit p + c) (d_lgy_at_mcrit p) (d_indx_lo p) (d_indx_hi p)
             (d_lg_qt p) (d_qlglgdt p) (d_lg_drop p) (d_lg_rejuv p).
Definition shift_efficiency (c : R) (p : DiffstarParams R) : DiffstarParams R :=
  mkDiffstar (d_lgmcrit p) (d_lgy_at_mcrit p + c) (d_indx_lo p) (d_indx_hi p)
             (d_lg_qt p) (d_qlglgdt p) (d_lg_drop p) (d_lg_rejuv p).
Definition shift_time (c : R) (p : DiffstarParams R) : DiffstarParams R :=
  mkDiffstar (d_lgmcrit p) (d_lgy_at_mcrit p) (d_indx_lo p) (d_indx_hi p)
             (d_lg_qt p + c) (d_qlglgdt p) (d_lg_drop p) (d_lg_rejuv p).

(** A halo whose log10 mass is [m] at all times. *)
Definition steady (m : R) : MahParams xr -> xr -> xr -> xr := fun _ _ _ => Fin m.
