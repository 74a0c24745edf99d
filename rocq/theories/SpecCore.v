(** Independent specifications used in the statements about the core SFH model.
    Nothing here refers to the model's functions (only to its record types). *)
From Coq Require Import Reals List.
From Coquelicot Require Import Coquelicot.
From Verif Require Import XReal ModelUtils ModelKernels ModelSfh.
Import List ListNotations.
Open Scope R_scope.

(** Lifting real-valued parameter tuples. *)
Definition map_ms {A B} (f : A -> B) (p : MSParams A) : MSParams B :=
  mkMS (f (lgmcrit p)) (f (lgy_at_mcrit p)) (f (indx_lo p)) (f (indx_hi p)).
Definition map_q {A B} (f : A -> B) (p : QParams A) : QParams B :=
  mkQ (f (lg_qt p)) (f (qlglgdt p)) (f (lg_drop p)) (f (lg_rejuv p)).
Definition map_d {A B} (f : A -> B) (p : DiffstarParams A) : DiffstarParams B :=
  mkDiffstar (f (d_lgmcrit p)) (f (d_lgy_at_mcrit p)) (f (d_indx_lo p)) (f (d_indx_hi p))
             (f (d_lg_qt p)) (f (d_qlglgdt p)) (f (d_lg_drop p)) (f (d_lg_rejuv p)).
Definition map_mah {A B} (f : A -> B) (p : MahParams A) : MahParams B :=
  mkMah (f (logm0 p)) (f (logtc p)) (f (early_index p)) (f (late_index p)) (f (t_peak p)).

(** Published parameter bounds, all strict. *)
Definition in_bounds (p : DiffstarParams R) : Prop :=
  9 < d_lgmcrit p < 135 / 10 /\
  -12 < d_lgy_at_mcrit p < -8 /\
  0 < d_indx_lo p < 5 /\
  -5 < d_indx_hi p < 0 /\
  1 / 10 < d_lg_qt p < 2 /\
  -3 < d_qlglgdt p < -1 / 100 /\
  -3 < d_lg_drop p < 0 /\
  d_lg_drop p < d_lg_rejuv p < 0.

(** Triweight density with 1-sigma width 1 (support [-3, 3]). *)
Definition tw_pdf (y : R) : R :=
  if Rle_dec (Rabs y) 3 then 35 / 96 * (1 - (y / 3) ^ 2) ^ 3 else 0.

(** Straight-line interpolant of a list of knots, extended linearly to the left and
    constantly (last value) to the right. *)
Fixpoint pwl (knots : list (R * R)) (x : R) : R :=
  match knots with
  | [] => 0
  | (x0, y0) :: rest =>
      match rest with
      | [] => y0
      | (x1, y1) :: _ =>
          if Rle_dec x x1 then y0 + (y1 - y0) / (x1 - x0) * (x - x0) else pwl rest x
      end
  end.

(** Strictly increasing lists. *)
Fixpoint increasing (l : list R) : Prop :=
  match l with
  | [] => True
  | a :: rest => match rest with [] => True | b :: _ => a < b /\ increasing rest end
  end.
Fixpoint nondecreasing (l : list R) : Prop :=
  match l with
  | [] => True
  | a :: rest => match rest with [] => True | b :: _ => a <= b /\ nondecreasing rest end
  end.

(** Maximum of a list of reals with a floor. *)
Definition list_Rmax (d : R) (l : list R) : R := fold_right Rmax d l.

(** Triweight cumulative distribution: integral of the density. *)
Definition tw_cdf (y : R) : R := RInt tw_pdf (-3) y.

(** Quenching factor: in log10(SFR), a smooth step of height [drop] centred at
    [qt - dt/4] plus a smooth step of height [rejuv - drop] centred at [qt + dt/4],
    each of total width [dt/2]. *)
Definition quench_spec (qt dt drop rejuv lgt : R) : R :=
  pow10R (drop * tw_cdf ((lgt - (qt - dt / 4)) / (dt / 12))
          + (rejuv - drop) * tw_cdf ((lgt - (qt + dt / 4)) / (dt / 12))).

(** Log10 star-forming efficiency at log10 halo mass [m]: a power law of index
    [indx_lo] well below [lgmcrit] and [indx_hi] well above it. *)
Definition eff_spec (p : DiffstarParams R) (m : R) : R :=
  let x := m - d_lgmcrit p in
  d_lgy_at_mcrit p
  + x * (d_indx_lo p + (d_indx_hi p - d_indx_lo p) * (1 / (1 + exp (- (9 * x))))).

(** Main-sequence SFR of a galaxy whose halo has log10 mass [m]. *)
Definition ms_spec (p : DiffstarParams R) (fb m : R) : R :=
  fb * pow10R m * pow10R (eff_spec p m).

(** SFR at cosmic time [t], floored at 1e-14. *)
Definition sfr_spec (p : DiffstarParams R) (fb m t : R) : R :=
  Rmax (1 / 10 ^ 14)
    (quench_spec (d_lg_qt p) (pow10R (d_qlglgdt p)) (d_lg_drop p) (d_lg_rejuv p) (log10R t)
     * ms_spec p fb m).

(** The halo history is finite, with value [m t], at each requested time [t > 0]. *)
Definition halo_history (log_mah_kern : MahParams xr -> xr -> xr -> xr) (mah : MahParams xr)
    (lgt0 : xr) (m : R -> R) (ts : list R) : Prop :=
  Forall (fun t => 0 < t /\ log_mah_kern mah (Fin t) lgt0 = Fin (m t)) ts.

(** Galaxy [i] of a population given as columns. *)
Definition gal_d (p : DiffstarParams (list xr)) (i : nat) : DiffstarParams xr :=
  map_d (fun c => nth i c NaN) p.
Definition gal_mah (p : MahParams (list xr)) (i : nat) : MahParams xr :=
  map_mah (fun c => nth i c NaN) p.
(** All columns have length [n]. *)
Definition cols_len_d (n : nat) (p : DiffstarParams (list xr)) : Prop :=
  length (d_lgmcrit p) = n /\ length (d_lgy_at_mcrit p) = n /\ length (d_indx_lo p) = n /\
  length (d_indx_hi p) = n /\ length (d_lg_qt p) = n /\ length (d_qlglgdt p) = n /\
  length (d_lg_drop p) = n /\ length (d_lg_rejuv p) = n.
Definition cols_len_mah (n : nat) (p : MahParams (list xr)) : Prop :=
  length (logm0 p) = n /\ length (logtc p) = n /\ length (early_index p) = n /\
  length (late_index p) = n /\ length (t_peak p) = n.

(** Same main-sequence parameters, quenching time and duration (drop and rejuvenation
    may differ). *)
Definition same_onset (p p' : DiffstarParams R) : Prop :=
  d_lgmcrit p = d_lgmcrit p' /\ d_lgy_at_mcrit p = d_lgy_at_mcrit p' /\
  d_indx_lo p = d_indx_lo p' /\ d_indx_hi p = d_indx_hi p' /\
  d_lg_qt p = d_lg_qt p' /\ d_qlglgdt p = d_qlglgdt p'.


(** A strictly increasing differentiable reparametrisation of the real line onto
    values inside (lo, hi), with derivative [slope] at [mid]. *)
Definition smooth_bounding (f : R -> R) (lo hi mid slope : R) : Prop :=
  exists df : R -> R,
    (forall u, is_derive f u (df u)) /\ (forall u, 0 < df u) /\
    (forall u v, u < v -> f u < f v) /\ (forall u, lo < f u < hi) /\
    f mid = (lo + hi) / 2 /\ df mid = slope.

(** Edges of the time intervals assigned to each snapshot of a table of [n] times:
    midpoints between successive times, mirrored at the first time, and extended past the
    last time by half of the previous interval. *)
Definition dt_edge (t : list R) (i : nat) : R :=
  let n := length t in
  let T j := nth j t 0 in
  if Nat.eqb i 0 then T 0%nat - (T 1%nat - T 0%nat) / 2
  else if Nat.eqb i n then
    T (n - 1)%nat + (if Nat.eqb n 2 then (T 1%nat - T 0%nat) / 2
                     else (T (n - 1)%nat - T (n - 3)%nat) / 4)
  else (T (i - 1)%nat + T i) / 2.

(** Element [i] of an argument broadcast to a common length. *)
Definition value_at (a : scalar_or_array) (i : nat) : xr :=
  match a with Scalar x => x | Array [x] => x | Array l => nth i l NaN end.
