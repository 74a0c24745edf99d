(** Vocabulary for the comparison of simulated and fitted histories. *)
From Coq Require Import Reals List Bool ZArith String.
From Verif Require Import XReal ModelUtils ModelKernels ModelSfh ModelLoad ModelTargets ModelQuality SpecCore SpecHist SpecTargets SpecMeasure.
Import List ListNotations.
Open Scope R_scope.
Local Notation length := List.length.

(** Straight-line interpolation of a table, constant beyond its ends. *)
Definition interp (T Y : list R) (x : R) : R := if Rle_dec x (hd 0 T) then hd 0 Y else pwl (combine T Y) x.

(** What one galaxy adds to the four sums at one time.  Simulated mass [m] and SFR [s]: *)
Definition mass_seen (m : R) : R := if Req_EM_T m 1 then 0 else m.
Definition sfr_seen (s m : R) : R :=
  if Req_EM_T s 0 then 0 else if Req_EM_T s 1 then 0 else if Req_EM_T m 1 then s else Rmax s (m / 10 ^ 12).
(** Fitted log mass [lm] and log SFR [ls]: *)
Definition mass_fitted (lm : R) : R := if Req_EM_T lm 0 then 0 else pow10R lm.
Definition sfr_fitted (ls lm : R) : R :=
  if Req_EM_T ls 0 then 0 else if Req_EM_T lm 0 then 0 else Rmax (pow10R ls) (pow10R lm / 10 ^ 12).

(** Stellar mass formed by each time of a simulated history. *)
Definition formed (t sfr m : list R) : Prop := cumulative_mstar_formed (map Fin t) (map Fin sfr) = Some (map Fin m).
(** Fitted SFR and stellar mass of a galaxy at the times [T]. *)
Definition fit_is (kern : MahParams xr -> xr -> xr -> xr) (T : list R) (hm : MahParams xr) (q : DiffstarParams xr) (sfr smh : list R) : Prop :=
  calc_sfh_singlegal_smh kern q hm (map Fin T) LGT0 FB = Some (map Fin sfr, map Fin smh).

(** A file of halo fits listing the galaxies [I]. *)
Definition halo_file (dm : hdf) (I : list nat) (hm : nat -> MahParams xr) : Prop :=
  lookup "logm0" dm = Some (D1 (map (fun g => logm0 (hm g)) I)) /\
  lookup "logtc" dm = Some (D1 (map (fun g => logtc (hm g)) I)) /\
  lookup "early_index" dm = Some (D1 (map (fun g => early_index (hm g)) I)) /\
  lookup "late_index" dm = Some (D1 (map (fun g => late_index (hm g)) I)) /\
  lookup "t_peak" dm = Some (D1 (map (fun g => t_peak (hm g)) I)).

(** A table of means over the galaxies of [G] strictly inside each bin of peak halo mass. *)
Definition bin_means (E t : list R) (G : list nat) (mp : nat -> R) (v : nat -> nat -> R) : list (list xr) :=
  map (fun i => map (fun k => mean (map (fun g => v g k) (filter (fun g => interior E i (mp g)) G))) (seq 0 (length t))) (seq 0 (length E - 1)).

(** The output for the galaxies [G] with peak halo masses [mp], simulated SFR [D] and mass [MD]
    at the times [t], fitted SFR [SF] and mass [SM] at the times [T]. *)
Record quality_is (E t T : list R) (G : list nat) (mp : nat -> R) (D MD SF SM : nat -> list R) (f : hdf) : Prop := {
  qi_t : lookup "tarr" f = Some (D1 (map Fin t));
  qi_bins : lookup "mpeak_bins" f = Some (D1 (map Fin E));
  qi_binsc : lookup "mpeak_binsc" f = Some (D1 (map (fun i => Fin ((nth i E 0 + nth (S i) E 0) / 2)) (seq 0 (length E - 1))));
  qi_md : lookup "mstar_data_mean" f = Some (D2 (bin_means E t G mp (fun g k => mass_seen (nth k (MD g) 0))));
  qi_mf : lookup "mstar_fit_mean" f = Some (D2 (bin_means E t G mp (fun g k => mass_fitted (interp T (map log10R (SM g)) (nth k t 0)))));
  qi_sd : lookup "sfr_data_mean" f = Some (D2 (bin_means E t G mp (fun g k => sfr_seen (nth k (D g) 0) (nth k (MD g) 0))));
  qi_sf : lookup "sfr_fit_mean" f = Some (D2 (bin_means E t G mp (fun g k =>
    sfr_fitted (interp T (map log10R (SF g)) (nth k t 0)) (interp T (map log10R (SM g)) (nth k t 0))))) }.

(** One value of a table of the written file: bin [i], time [k]. *)
Definition written (key : string) (f : hdf) (i k : nat) : xr :=
  match lookup key f with Some (D2 rows) => nth k (nth i rows []) NaN | _ => NaN end.
(** The galaxies strictly inside bin [i]. *)
Definition inside (E : list R) (mp : nat -> R) (i : nat) (G : list nat) : list nat := filter (fun g => interior E i (mp g)) G.
