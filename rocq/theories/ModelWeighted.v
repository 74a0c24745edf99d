(** Model of [compute_weighted_histograms_z0] in
    scripts/diffstarpop_scripts/smhm_utils_{smdpl,tng}_mgash.py.  Definitions only.

    Simplifications: those of [ModelTargets]; file names and directories are dropped, the
    contents of the two files are arguments. *)
From Coq Require Import Reals List Bool ZArith String.
From Verif Require Import XReal ModelUtils ModelKernels ModelSfh ModelPop ModelHist ModelLoad ModelIO ModelTargets.
Import ListNotations.
Open Scope R_scope.

(** [tbl[:, -1]] of a table of width [w] *)
Definition last_column (w : nat) (tbl : list (list xr)) : option (list xr) := column w tbl (w - 1).

(** smdpl 196-214, tng 143-161: after loading *)
Definition weighted_histograms (tb : Tables) (logmh_bins : list xr) : option (list xr * list xr) :=
  let w := List.length (tb_t tb) in
  match last_column w (tb_log_mah tb), last_column w (tb_log_smh tb) with
  | Some nddata, Some ydata =>
      let n_halos := List.length (tb_log_smh tb) in
      let sigma := map (fun z => xmean (diff_ logmh_bins) + z)%X (zeros n_halos) in
      let ones := map (fun _ => Fin 1) ydata in
      let ndbins_lo := col (init_ logmh_bins) in
      let ndbins_hi := col (tail_ logmh_bins) in
      match tw_ndhist_weighted (col nddata) (col sigma) ydata ndbins_lo ndbins_hi with
      | Some whist =>
          match tw_ndhist_weighted (col nddata) (col sigma) ones ndbins_lo ndbins_hi with
          | Some wcounts => Some (wcounts, whist)
          | None => None
          end
      | None => None
      end
  | _, _ => None
  end.

Section Weighted.
(** default of [calc_sfh_galpop]'s [fb], which the smdpl file leaves out *)
Variable galpop_fb : option xr.
Variable log_mah_kern : MahParams xr -> xr -> xr -> xr.
Variable mah_singlehalo : MahParams xr -> list xr -> xr -> list xr * list xr.

(** smdpl 177-214 *)
Definition compute_weighted_histograms_z0_smdpl (diffmah_data diffstar_data : hdf) (lgt0 : xr) (logmh_bins : list xr)
  : option (list xr * list xr) :=
  match load_diffstar_sfh_tables_smdpl galpop_fb log_mah_kern mah_singlehalo diffmah_data diffstar_data lgt0 with
  | Some (tb, _) => weighted_histograms tb logmh_bins
  | None => None
  end.
(** tng 129-161 *)
Definition compute_weighted_histograms_z0_tng (subvol : nat) (diffmah_data diffstar_data : hdf) (lgt0 : xr) (logmh_bins : list xr)
  : option (list xr * list xr) :=
  match load_diffstar_sfh_tables_tng log_mah_kern mah_singlehalo subvol diffmah_data diffstar_data lgt0 with
  | Some (tb, _) => weighted_histograms tb logmh_bins
  | None => None
  end.
End Weighted.
