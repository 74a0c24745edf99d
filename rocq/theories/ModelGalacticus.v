(** Model of the parts of diffstar/data_loaders/load_galacticus_sfh.py that assemble the
    Galacticus target histories from the raw arrays and write the file read by the fitting
    script.  Definitions only.  Directory and file names are not modelled: the raw arrays
    and the tables of fits are arguments. *)
From Coq Require Import Reals List Bool ZArith String.
From Verif Require Import XReal ModelUtils ModelLoad.
Import List ListNotations.
Open Scope string_scope.
Open Scope list_scope.
Open Scope R_scope.

(** The five .npy arrays and the node flag read at lines 78, 82-83, 87-88 and 98. *)
Record GalRaw := mkRaw {
  raw_tarr : list xr;
  raw_in_bulge : list (list xr); raw_in_disk : list (list xr);
  raw_tot_bulge : list (list xr); raw_tot_disk : list (list xr);
  raw_isolated : list xr }.

(** load_galacticus_sfh.py:76-103 [load_galacticus_sfh_target_data] *)
Definition load_galacticus_sfh_target_data (raw : GalRaw) : option hdf :=
  match galacticus_sfh (raw_tarr raw) (raw_in_bulge raw) (raw_in_disk raw),
        galacticus_sfh (raw_tarr raw) (raw_tot_bulge raw) (raw_tot_disk raw) with
  | Some sfh_in_situ, Some sfh_tot =>
      Some [("tarr", D1 (raw_tarr raw)); ("sfh_in_situ", D2 sfh_in_situ); ("sfh_tot", D2 sfh_tot);
            ("is_cen", D1 (raw_isolated raw))]
  | _, _ => None
  end.

(** load_galacticus_sfh.py:106-113 [write_galacticus_sfh_data_block]: the file written *)
Definition write_galacticus_sfh_data_block (raw : GalRaw) : option hdf :=
  match load_galacticus_sfh_target_data raw with
  | Some d =>
      vmap (fun key => match lookup key d with Some c => Some (key, c) | None => None end)
        ["sfh_in_situ"; "sfh_tot"; "is_cen"; "tarr"]
  | None => None
  end.

(** load_galacticus_sfh.py:27-73 [load_galacticus_diffstar_data] *)
Definition load_galacticus_diffstar_data (diffmah diffstar_in_situ diffstar_tot : hdf) (raw : GalRaw)
  : option (list (string * hdf)) :=
  match load_flat_hdf5 diffmah 0 None None, load_flat_hdf5 diffstar_in_situ 0 None None,
        load_flat_hdf5 diffstar_tot 0 None None, load_galacticus_sfh_target_data raw with
  | Some a, Some b, Some c, Some d =>
      Some [("diffmah_fit_data", a); ("diffstar_in_situ_fit_data", b);
            ("diffstar_in_plus_ex_situ_fit_data", c); ("galcus_sfh_data", d)]
  | _, _, _, _ => None
  end.
