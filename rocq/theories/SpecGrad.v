(** What the statements about gradients refer to. *)
From Coq Require Import Reals List.
From Verif Require Import XReal ModelUtils ModelKernels ModelSfh SpecCore SpecHist SpecFit.
Import List ListNotations.
Open Scope R_scope.

(** The parameters [u] moved by [s] in direction [v]. *)
Definition move (u v : DiffstarParams R) (s : R) : DiffstarParams R :=
  mkDiffstar (d_lgmcrit u + s * d_lgmcrit v) (d_lgy_at_mcrit u + s * d_lgy_at_mcrit v)
    (d_indx_lo u + s * d_indx_lo v) (d_indx_hi u + s * d_indx_hi v) (d_lg_qt u + s * d_lg_qt v)
    (d_qlglgdt u + s * d_qlglgdt v) (d_lg_drop u + s * d_lg_drop v) (d_lg_rejuv u + s * d_lg_rejuv v).

Definition inner (g v : list R) : R := Rsum (map2 Rmult g v).

(** SFR before the floor of 1e-14 is applied. *)
Definition sfr_unfloored (p : DiffstarParams R) (fb m t : R) : R :=
  quench_spec (d_lg_qt p) (pow10R (d_qlglgdt p)) (d_lg_drop p) (d_lg_rejuv p) (log10R t) * ms_spec p fb m.

(** No SFR, averaged SFR or SFR residual is exactly at one of the values where it is cut off: bounded
    parameters [p], SFR [s], masses [m], averaged SFR [f], target SFR [S] and masses [M]. *)
Definition no_cutoff (p : DiffstarParams R) (fb floor : R) (h : R -> R) (ts s m f S M : list R) : Prop :=
  Forall (fun t => sfr_unfloored p fb (h t) t <> 1 / 10 ^ 14) ts /\
  forall i, (i < length ts)%nat ->
    nth i f 0 <> nth i m 0 * (floor / 10) /\ nth i s 0 <> nth i m 0 * (floor / 10) /\
    Rabs (10 ^ 8 * (Rmax (nth i s 0) (nth i m 0 * (floor / 10)) - nth i S 0) / nth i M 0) <> 1.
