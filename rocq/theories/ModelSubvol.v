(** Model of how scripts/diffstarpop_scripts find and open the files of the SMDPL subvolumes:
    smhm_utils_smdpl_mgash.py:62-122, measure_smhm_smdpl_script_mpi_mgash.py:60-93 and
    calculate_quality_diffstar_fits_mgash.py:156-167, and of the names under which
    scripts/diffstar_fitting_script_umachine_mgash.py:117-130, 222-229 leaves them.
    Definitions only.

    Simplifications: a directory is the list of its entries, name and content, and exists; names
    are ASCII, so that [\d] is one of ten characters; a name pattern is given by what stands
    before and after its braces. *)
From Coq Require Import Reals List Bool ZArith NArith Ascii String.
From Verif Require Import XReal ModelUtils ModelKernels ModelSfh ModelPop ModelHist ModelFit ModelLoad ModelIO ModelTargets ModelQuality.
Import List ListNotations.
Open Scope R_scope.

Local Notation length := List.length.

Definition dir : Type := list (str * hdf).
Definition listdir (d : dir) : list str := map fst d.
(** [h5py.File(fn, "r")]; [None] is FileNotFoundError *)
Fixpoint open_file (n : str) (d : dir) : option hdf :=
  match d with
  | [] => None
  | (k, f) :: d => if str_eqb k n then Some f else open_file n d
  end.

(** smhm_utils 32-34 *)
Record pattern := mkPat { p_pre : str; p_suf : str }.
Definition DIFFSTAR_BNPAT : pattern := mkPat (lit "diffstar_fits_subvol_") (lit ".hdf5").
Definition NOMERGING_DIFFMAH_BNPAT : pattern := mkPat (lit "subvol_") (lit "_diffmah_fits.h5").
Definition fill (p : pattern) (s : str) : str := p_pre p ++ s ++ p_suf p.

(** [re.compile(f"^{pre}(\d{1,3}){suf}$").match]; [$] also matches before a final newline *)
Definition re_match (p : pattern) (n : str) : bool :=
  let k0 := length (p_pre p) in
  str_eqb (firstn k0 n) (p_pre p) &&
  existsb (fun k =>
    let r := skipn k0 n in
    Nat.eqb (length (firstn k r)) k && forallb is_digit (firstn k r) &&
    (str_eqb (skipn k r) (p_suf p) || str_eqb (skipn k r) (p_suf p ++ [NL]))) [3; 2; 1]%nat.
Definition matching_files (p : pattern) (names : list str) : list str := filter (re_match p) names.

(** [x.split("_")[-1].split(".")[0]], [x.split("_")[1]] *)
Definition last_field (x : str) : str := hd [] (split_on "." (last (split_on "_" x) [])).
Definition second_field (x : str) : option str := nth_error (split_on "_" x) 1.

(** [f"{v:d}"] and [f"{v:0{w}d}"] *)
Definition dec (v : nat) : str := str_of_N (N.of_nat v).
Definition dec0 (w v : nat) : str := repeat "0"%char (w - length (dec v)) ++ dec v.

(** 71-78 and 87-92; [max] of nothing raises, and no branch taken leaves [subvol_str] unbound *)
Definition subvol_str_of (subvol : nat) (numbers : list str) : option str :=
  let lens := map (@length ascii) numbers in
  if existsb (Nat.eqb 1) lens then Some (dec subvol)
  else match lens with
       | [] => None
       | _ => let m := list_max lens in
              if forallb (fun l => Nat.eqb l m) lens then Some (dec0 m subvol) else None
       end.

Inductive sim := DR1 | DR1_nomerging | Other.

(** 81-92 *)
Definition return_subvol_str (subvol : nat) (d : dir) (p : pattern) : option str :=
  subvol_str_of subvol (map last_field (matching_files p (listdir d))).
(** 62-78 *)
Definition return_subvol_str_diffmah (subvol : nat) (sim_name : sim) (d : dir) (p : pattern) : option str :=
  let files := matching_files p (listdir d) in
  match sim_name with
  | DR1_nomerging => match vmap second_field files with Some l => subvol_str_of subvol l | None => None end
  | DR1 => subvol_str_of subvol (map last_field files)
  | Other => None
  end.

(** [s.replace(old, new)] for a nonempty [old] *)
Fixpoint replace_from (fuel : nat) (old new s : str) : str :=
  match fuel, s with
  | O, _ => s
  | _, [] => []
  | S fuel, c :: t =>
      if str_eqb (firstn (length old) s) old then new ++ replace_from fuel old new (skipn (length old) s)
      else c :: replace_from fuel old new t
  end.
Definition str_replace (old new s : str) : str := replace_from (length s) old new s.

(** 95-122 *)
Inductive loaded := Loaded (diffmah_data diffstar_data : hdf) | NotFound | Fails.
Definition load_diffstar_subvolume (subvol : nat) (sim_name : sim) (diffmah_drn diffstar_drn : dir) (p : pattern) : loaded :=
  match return_subvol_str subvol diffstar_drn p with
  | None => Fails
  | Some s =>
    let diffstar_bn := fill p s in
    match open_file diffstar_bn diffstar_drn with
    | None => NotFound
    | Some ds =>
      let diffmah_bn :=
        match sim_name with
        | DR1_nomerging =>
            option_map (fun s => str_replace (lit "diffstar") (lit "diffmah") (fill NOMERGING_DIFFMAH_BNPAT s))
              (return_subvol_str_diffmah subvol sim_name diffmah_drn NOMERGING_DIFFMAH_BNPAT)
        | DR1 => Some (str_replace (lit "diffstar") (lit "diffmah") diffstar_bn)
        | Other => None
        end in
      match diffmah_bn with
      | None => Fails
      | Some bn => match open_file bn diffmah_drn with Some dm => Loaded dm ds | None => NotFound end
      end
    end
  end.

(** The listing (measure_smhm_smdpl 86-91); [np.sort] *)
Fixpoint insert_nat (x : nat) (l : list nat) : list nat :=
  match l with
  | [] => [x]
  | y :: l' => if Nat.leb x y then x :: l else y :: insert_nat x l'
  end.
Definition sort_nat (l : list nat) : list nat := fold_right insert_nat [] l.
Definition list_subvols (d : dir) (p : pattern) : option (list nat) :=
  option_map (fun l => sort_nat (map Z.to_nat l)) (vmap parse_int (map last_field (matching_files p (listdir d)))).

Section Programs.
(** as in ModelTargets.v *)
Variable galpop_fb : option xr.
Variable log_mah_kern : MahParams xr -> xr -> xr -> xr.
Variable mah_singlehalo : MahParams xr -> list xr -> xr -> list xr * list xr.
Variable age : xr -> xr.
Variable choice : nat -> nat -> nat -> list nat -> nat -> bool -> list nat.
(** [load_mock_from_binaries(v)["upid"]] *)
Variable upid : nat -> list Z.

(** measure_smhm_smdpl 60-253.  Both [create_target_data] and [create_pdf_target_data] open
    the same files. *)
Definition measure_smdpl (sim_name : sim) (diffmah_drn diffstar_drn : dir) (n_subvol_max : nat) (redshift_targets : list xr)
    (nranks : nat) : option (Final * list nat) :=
  match list_subvols diffstar_drn DIFFSTAR_BNPAT with
  | Some subvols =>
      let process v :=
        match load_diffstar_subvolume v sim_name diffmah_drn diffstar_drn DIFFSTAR_BNPAT with
        | Loaded dm ds =>
          match smdpl_subvol galpop_fb log_mah_kern mah_singlehalo age (choice v) dm ds (upid v) (length subvols) redshift_targets LGT0 with
          | Some o => Contributes o
          | None => Raises
          end
        | NotFound => FileMissing
        | Fails => Raises
        end in
      smdpl_script process subvols n_subvol_max (length redshift_targets) (nbins LOGMH_BINS) (nbins LOGMSTAR_BINS_PDF)
        (nbins LOGSSFR_BINS_PDF) nranks
  | None => None
  end.

(** calculate_quality 156-167 with its loop; a missing file raises here *)
Definition quality_dr1 (diffmah_drn diffstar_drn : dir) (data : nat -> option (list (list xr) * list (list xr))) (smdpl_t E : list xr)
  : option Quality :=
  match list_subvols diffstar_drn DIFFSTAR_BNPAT with
  | Some subvols =>
      let files v := match load_diffstar_subvolume v DR1 diffmah_drn diffstar_drn DIFFSTAR_BNPAT with
                     | Loaded dm ds => Some (dm, ds) | _ => None end in
      calculate_plot_smdpl_dr1 galpop_fb log_mah_kern mah_singlehalo files data smdpl_t E subvols
  | None => None
  end.
End Programs.

(** diffstar_fitting_script_umachine_mgash 117-130, 222-229: the entries that a run from
    [istart] to [iend] adds to its output directory; [np.arange] stops before [iend] and is
    empty when that is not above [istart], as with the default of -1 *)
Definition fit_names (istart : nat) (iend : Z) : list (nat * str) :=
  map (fun v => (v, lit "diffstar_fits_subvol_" ++ dec v ++ lit ".hdf5")) (seq istart (Z.to_nat (iend - Z.of_nat istart))).
