(** Vocabulary for the data loaders. *)
From Coq Require Import Reals List Bool ZArith String.
From Verif Require Import XReal ModelUtils ModelKernels ModelSfh ModelLoad.
Import List ListNotations.
Open Scope R_scope.

(** Stacking two data sets with the same columns. *)
Definition stack (a b : dset) : option dset :=
  match a, b with
  | D1 u, D1 v => Some (D1 (u ++ v))
  | D2 u, D2 v => Some (D2 (u ++ v))
  | _, _ => None
  end.
Definition stacked (a b c : hdf) : Prop :=
  map fst a = map fst c /\ map fst b = map fst c /\
  Forall2 (fun ab z => stack (snd (fst ab)) (snd (snd ab)) = Some (snd z)) (combine a b) c.
(** [c] is the stack of all the blocks. *)
Fixpoint stack_all (blocks : list hdf) (c : hdf) : Prop :=
  match blocks with
  | [] => False
  | [b] => c = b
  | b :: blocks => exists d, stack_all blocks d /\ stacked b d c
  end.

(** A halo as stored in a table of halo fits. *)
Record HaloRow := mkHalo { h_mah : MahParams xr; h_loss : xr; h_npts : xr }.
Definition halo_table (f : hdf) (hs : list HaloRow) : Prop :=
  lookup "logm0" f = Some (D1 (map (fun h => logm0 (h_mah h)) hs)) /\
  lookup "logtc" f = Some (D1 (map (fun h => logtc (h_mah h)) hs)) /\
  lookup "early_index" f = Some (D1 (map (fun h => early_index (h_mah h)) hs)) /\
  lookup "late_index" f = Some (D1 (map (fun h => late_index (h_mah h)) hs)) /\
  lookup "t_peak" f = Some (D1 (map (fun h => t_peak (h_mah h)) hs)) /\
  lookup "loss" f = Some (D1 (map h_loss hs)) /\
  lookup "n_points_per_fit" f = Some (D1 (map h_npts hs)).

(** Rows [i], ..., [j-1]. *)
Definition rows_from {A} (l : list A) (i j : nat) : list A := firstn (j - i) (skipn i l).

(** No usable halo fit: negative loss or fewer than [nmin] points. *)
Definition no_halo_fit (nmin : R) (h : HaloRow) : Prop :=
  (exists a, h_loss h = Fin a /\ a < 0) \/ h_loss h = NInf \/
  (exists n, h_npts h = Fin n /\ n < nmin) \/ h_npts h = NInf.

Definition minus_ones : MahParams xr := mkMah (Fin (-1)) (Fin (-1)) (Fin (-1)) (Fin (-1)) (Fin (-1)).

(** log10 halo mass at time [t0], as computed by diffmah's [mah_singlehalo]. *)
Definition mass_at (mah_singlehalo : MahParams xr -> list xr -> xr -> list xr * list xr)
    (m : MahParams xr) (t0 : xr) : xr :=
  nth 0 (snd (mah_singlehalo m [t0] (xlog10 t0))) NaN.

(** [m] is the largest of the first [i+1] entries. *)
Definition is_running_max (l : list R) (i : nat) (m : R) : Prop :=
  (forall j, (j <= i)%nat -> nth j l 0 <= m) /\ (exists j, (j <= i)%nat /\ nth j l 0 = m).

(** Sum over the metallicity rows [lo], ..., [hi-1] of a galaxy at time bin [k]. *)
Fixpoint rsum (l : list R) : R := match l with [] => 0 | x :: l => x + rsum l end.
Definition met_sum (g : list (list R)) (lo hi k : nat) : R :=
  rsum (map (fun row => nth k row 0) (rows_from g lo hi)).

(** A galacticus catalog: every galaxy has either no rows or [2 * nm] rows of [nt] bins. *)
Definition galcat (nm nt : nat) (gals : list (list (list R))) : Prop :=
  Forall (fun g => g = [] \/ (length g = (2 * nm)%nat /\ Forall (fun r => length r = nt) g)) gals.

(** What the loaders hand out for a halo: placeholders -1 and the mass of the default halo
    without a usable fit, its own parameters and mass with one. *)
Definition used_mah (nmin : R) (h : HaloRow) (m : MahParams xr) : Prop :=
  (no_halo_fit nmin h -> m = minus_ones) /\ (~ no_halo_fit nmin h -> m = h_mah h).
Definition used_mass (mah_singlehalo : MahParams xr -> list xr -> xr -> list xr * list xr)
    (dflt : MahParams xr) (nmin : R) (t0 : xr) (h : HaloRow) (x : xr) : Prop :=
  (no_halo_fit nmin h -> x = mass_at mah_singlehalo dflt t0) /\
  (~ no_halo_fit nmin h -> x = mass_at mah_singlehalo (h_mah h) t0).

(** The rows of a table of halo fits as loaded. *)
Definition halos_loaded (mah_singlehalo : MahParams xr -> list xr -> xr -> list xr * list xr)
    (dflt : MahParams xr) (nmin : R) (t0 : xr) (hs : list HaloRow) (fits : DiffmahFits) : Prop :=
  exists ms,
    Forall2 (used_mah nmin) hs ms /\
    df_params fits = mkMah (map logm0 ms) (map logtc ms) (map early_index ms) (map late_index ms) (map t_peak ms) /\
    Forall2 (used_mass mah_singlehalo dflt nmin t0) hs (df_logmp0 fits) /\
    df_loss fits = map h_loss hs /\ df_npts fits = map h_npts hs.

(** Consecutive blocks [i, b1), [b1, b2), ..., up to [e] ([None]: to the end). *)
Fixpoint blocks_of (i : Z) (bs : list Z) (e : option Z) : list (Z * option Z) :=
  match bs with [] => [(i, e)] | b :: bs => (i, Some b) :: blocks_of b bs e end.
Fixpoint ordered (i : Z) (bs : list Z) (e : option Z) : Prop :=
  match bs with
  | [] => match e with Some k => (i <= k)%Z | None => True end
  | b :: bs => (i <= b)%Z /\ ordered b bs e
  end.

(** Row of galaxy [g]: the sums over its metallicity rows [lo], ..., [hi-1], or zeros. *)
Definition gal_row (nt : nat) (g : list (list R)) (lo hi : nat) : list R :=
  match g with [] => repeat 0 nt | _ => map (met_sum g lo hi) (seq 0 nt) end.

(** log10 of a halo mass with masses below 1e7 replaced by 1. *)
Definition clipped_log (m : R) : R := if Rlt_dec m (10 ^ 7) then 0 else log10R m.

(** Every loaded history [m] is the running maximum of its raw history. *)
Definition running_max_rows (raw : list (list R)) (ms : list (list R)) : Prop :=
  Forall2 (fun l m => length m = length l /\ forall i, (i < length l)%nat -> is_running_max l i (nth i m 0)) raw ms.

(** Time elapsed between snapshot [k] and the previous one (the first starts at time 0). *)
Definition interval (ts : list R) (k : nat) : R :=
  match k with O => nth 0 ts 0 | S j => nth k ts 0 - nth j ts 0 end.

(** Rows of [a] followed by rows of [b]. *)
Definition fits_appended (a b c : DiffmahFits) : Prop :=
  logm0 (df_params c) = logm0 (df_params a) ++ logm0 (df_params b) /\
  logtc (df_params c) = logtc (df_params a) ++ logtc (df_params b) /\
  early_index (df_params c) = early_index (df_params a) ++ early_index (df_params b) /\
  late_index (df_params c) = late_index (df_params a) ++ late_index (df_params b) /\
  t_peak (df_params c) = t_peak (df_params a) ++ t_peak (df_params b) /\
  df_logmp0 c = df_logmp0 a ++ df_logmp0 b /\
  df_loss c = df_loss a ++ df_loss b /\ df_npts c = df_npts a ++ df_npts b.

(** Python's default [iend=None]: the end of the catalog. *)
Definition end_of {A} (l : list A) (iend : option nat) : nat :=
  match iend with None => length l | Some e => e end.
