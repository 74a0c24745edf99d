(** What the statements about single-precision histories refer to. *)
From Coq Require Import Reals List ZArith.
From Flocq Require Import Core.Core IEEE754.BinarySingleNaN.
From Verif Require Import XReal ModelKernels ModelFloat SpecCore SpecFloat32 SpecFloatTw SpecFloatMass.
Import ListNotations.
Open Scope R_scope.

(** The library's power of ten errs by at most one part in 2^18, and 2^-120, for exponents from
    -90 to 20; its logarithm by at most 2^-22 from half a Myr to 1024 Gyr. *)
Definition power_good (p : f32 -> f32) : Prop :=
  forall z, within32 (-90) 20 z ->
    is_finite (p z) = true /\
    Rabs (B2R (p z) - Rpower 10 (B2R z)) <= / 2 ^ 18 * Rpower 10 (B2R z) + / 2 ^ 120.
Definition log_accurate (lg : f32 -> f32) : Prop :=
  forall t, within32 (/ 2000) 1024 t ->
    is_finite (lg t) = true /\ Rabs (B2R (lg t) - ln (B2R t) / ln 10) <= / 2 ^ 22.

(** Eight parameters within (slightly widened) bounds. *)
Definition params32 (p : DiffstarParams f32) : Prop :=
  within32 8 14 (d_lgmcrit p) /\ within32 (-13) (-7) (d_lgy_at_mcrit p) /\
  within32 0 5 (d_indx_lo p) /\ within32 (-5) 0 (d_indx_hi p) /\
  within32 0 3 (d_lg_qt p) /\ within32 (-3) 0 (d_qlglgdt p) /\
  within32 (-3) 0 (d_lg_drop p) /\ within32 (B2R (d_lg_drop p)) 0 (d_lg_rejuv p).
(** The numbers they stand for. *)
Definition numbers (p : DiffstarParams f32) : DiffstarParams R := map_d B2R p.

(** Relative error: one in a thousand, plus one in 16384 per duration of the quenching event in
    dex (times are known to one part in 2^22 of a dex only). *)
Definition sfr_tolerance (p : DiffstarParams f32) : R :=
  / 1000 + / (16384 * Rpower 10 (B2R (d_qlglgdt p))).

(** The exact rate at table entry [i] (entry 0 is the starting point of the integral), and the
    exact trapezoid mass formed up to entry [k]. *)
Definition rate (p : DiffstarParams f32) (fb : f32) (m : f32 -> f32) (ts : list f32) (i : nat) : R :=
  match i with
  | O => near32 (1 / 10 ^ 14)
  | S j => let t := nth j ts B754_nan in sfr_spec (numbers p) (B2R fb) (B2R (m t)) (B2R t)
  end.
Definition mass_spec (p : DiffstarParams f32) (fb : f32) (m : f32 -> f32) (ts : list f32) (k : nat) : R :=
  10 ^ 9 * trapezoids (point (1 / 1000) ts) (rate p fb m ts) (S k).

(** Times of 1 Myr to 1024 Gyr that do not decrease, at most 2^20 of them; halos of up to 10^17. *)
Definition history_input (fb : f32) (m : f32 -> f32) (ts : list f32) : Prop :=
  within32 (/ 100) 1 fb /\ (Z.of_nat (length ts) <= 1048576)%Z /\
  Forall (fun t => within32 (/ 2000) 1024 t /\ within32 0 17 (m t)) ts /\
  forall i, (i < length ts)%nat -> point (1 / 1000) ts i <= point (1 / 1000) ts (S i).
