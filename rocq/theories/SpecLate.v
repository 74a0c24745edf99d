(** Specification vocabulary for fits started at galaxies that quench after the data end. *)
From Coq Require Import Reals List.
From Verif Require Import XReal ModelKernels ModelSfh SpecCore.
Import ListNotations.
Open Scope R_scope.

(** Quenching of the galaxy [p] starts after every time in [ts]. *)
Definition quenches_after (ts : list R) (p : DiffstarParams R) : Prop :=
  Forall (fun t => t < pow10R (d_lg_qt p - pow10R (d_qlglgdt p) / 2)) ts.
