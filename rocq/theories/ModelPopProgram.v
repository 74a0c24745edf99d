(** Model of the program that fits the population model to the measured distributions,
    scripts/diffstarpop_scripts/fit_mstar_ssfr_pdfs_mgash.py 45-228, with the gradient
    wrappers of diffstarpop/loss_kernels/mstar_ssfr_loss_mgash_anyz.py and the dictionary of
    kernels/params/params_diffstarfits_mgash.py (line numbers of each are given).
    Definitions only.

    Simplifications: the three files of [indir] are one value; the random numbers drawn by
    each of the three data helpers are arguments; the gradient is an argument; .npz files are
    a function of their path; float32 casts are exact.  A loss kernel raises according to the
    number of parameters and the shapes of the data only; the model lets a kernel that raises
    after the first call return NaN. *)
From Coq Require Import Reals List Bool ZArith QArith_base String Ascii.
From Verif Require Import XReal ModelUtils ModelKernels ModelSfh ModelPop ModelPopTables ModelHist ModelLoad ModelPopFit.
Import List ListNotations.
Open Scope R_scope.

(** ** 124-135: starting parameters *)

(** [s.split("_")] *)
Fixpoint split_us (s : string) : list string :=
  match s with
  | EmptyString => [EmptyString]
  | String c s =>
    if Ascii.eqb c "_" then EmptyString :: split_us s
    else match split_us s with
         | w :: ws => String c w :: ws
         | [] => [String c EmptyString]
         end
  end.

(** params_diffstarfits_mgash.py 65-71; every entry is
    [get_unbounded_diffstarpop_params] of its file's parameters *)
Definition DIFFSTARFITS_U_PARAMS : list (string * list (string * QArith_base.Q)) := [
  ("smdpl_dr1_nomerging", params_diffstarfits_mgash_smdpl_dr1_nomerging);
  ("smdpl_dr1", params_diffstarfits_mgash_smdpl_dr1);
  ("tng", params_diffstarfits_mgash_tng);
  ("galacticus_in_situ", params_diffstarfits_mgash_galacticus_in_situ);
  ("galacticus_in_plus_ex_situ", params_diffstarfits_mgash_galacticus_in_plus_ex_situ) ]%string.
Definition diffstarfits_u_params (sim_name : string) : option (nt xr) :=
  match lookup sim_name DIFFSTARFITS_U_PARAMS with
  | Some t => match calibration t with Some p => get_unbounded_diffstarpop_params p | None => None end
  | None => None
  end.

(** 126-135.  [npz path] is [np.load(path)["diffstarpop_u_params"]] *)
Definition start_params (npz : string -> option (list xr)) (params_path : option string) : option (list xr) :=
  match params_path with
  | None => option_map values DEFAULT_DIFFSTARPOP_U_PARAMS
  | Some path =>
    if String.prefix "diffstarfits" path
    then option_map values (diffstarfits_u_params (String.concat "_" (tl (split_us path))))
    else npz path
  end.

(** [os.path.join(a, b)] *)
Definition ends_with_slash (a : string) : bool :=
  match String.get (String.length a - 1) a with Some c => Ascii.eqb c "/" | None => false end.
Definition path_join (a b : string) : string :=
  (if String.prefix "/" b then b
   else if String.eqb a "" || ends_with_slash a then a ++ b
   else a ++ "/" ++ b)%string.

Section Program.
Variable key : Type.
Variable jran_split : key -> nat -> list key.
Variable jran_uniform : key -> xr.
Variable jran_mvn : key -> list xr -> matrix -> list xr.
Variable log_mah_kern : MahParams xr -> xr -> xr -> xr.
Variable mah_singlehalo : MahParams xr -> list xr -> xr -> list xr * list xr.

(** 66-72, 97-114.  Each helper draws its own halos and its own key; argparse leaves on any
    other [loss_type]. *)
Record Draws := mkDraws { dr_choice : nat -> nat -> list nat -> nat -> bool -> list nat; dr_key : key }.
Inductive LossData :=
| DataM (m : MstarLossData key)
| DataMC (m : MstarLossData key) (c : SsfrLossData key)
| DataMCS (m : MstarLossData key) (c s : SsfrLossData key).
Definition load_loss_data (loss_type : string) (dm dc ds : Draws) (f : PopFiles) (nhalos : nat) : option LossData :=
  let m := get_loss_data_pdfs_mstar key jran_split mah_singlehalo (dr_choice dm) f nhalos LGT0 FB (dr_key dm) in
  let c := get_loss_data_pdfs_ssfr_central key jran_split mah_singlehalo (dr_choice dc) f nhalos LGT0 FB (dr_key dc) in
  let s := get_loss_data_pdfs_ssfr_satellite key jran_split mah_singlehalo (dr_choice ds) f nhalos LGT0 FB (dr_key ds) in
  if String.eqb loss_type "mstar" then option_map DataM m
  else if String.eqb loss_type "mstar_ssfr_cen" then
    match m, c with Some m, Some c => Some (DataMC m c) | _, _ => None end
  else if String.eqb loss_type "mstar_ssfr_cen_sat" then
    match m, c, s with Some m, Some c, Some s => Some (DataMCS m c s) | _, _, _ => None end
  else None.

(** 117-122; mstar_ssfr_loss_mgash_anyz.py 191-197, 491-499, 520-530: the loss of the
    wrappers *)
Definition loss_of (d : LossData) (u : nt xr) : option xr :=
  match d with
  | DataM m => loss_mstar key jran_split jran_uniform jran_mvn log_mah_kern u m
  | DataMC m c => loss_combined_kern key jran_split jran_uniform jran_mvn log_mah_kern u m c
  | DataMCS m c s => loss_combined_3loss_kern key jran_split jran_uniform jran_mvn log_mah_kern u m c s
  end.
Definition loss_wrapper (d : LossData) (flat_uparams : list xr) : option xr :=
  match nt_make DIFFSTARPOP_UNAMES flat_uparams with
  | Some u => loss_of d u
  | None => None
  end.

(** ** 137-228 *)
Variable grads : LossData -> list xr -> list xr.
Variable St : Type.
Variable opt_init : list xr -> St.
Variable opt_update : nat -> list xr -> St -> St.
Variable get_params : St -> list xr.

Definition loss_kernel (d : LossData) (p : list xr) : xr * list xr :=
  (match loss_wrapper d p with Some v => v | None => NaN end, grads d p).

(** 216-219 *)
Definition return_params_from_result (best_fit_u_params : list xr) : option (nt xr) :=
  match nt_make DIFFSTARPOP_UNAMES best_fit_u_params with
  | Some u => get_bounded_diffstarpop_params u
  | None => None
  end.

(** What np.savez leaves: where, [diffstarpop_params] and [diffstarpop_u_params] *)
Record Saved := mkSaved { sv_path : string; sv_params : list xr; sv_u_params : list xr }.

(** The whole program.  147: np.zeros of a negative number raises; 208: [istep % 0] raises in
    the first step *)
Definition fit_program (loss_type : string) (dm dc ds : Draws) (f : PopFiles) (nhalos : nat) (npz : string -> option (list xr))
    (params_path : option string) (n_step print_loss : Z) (outdir outname : string) : option Saved :=
  match load_loss_data loss_type dm dc ds f nhalos, start_params npz params_path with
  | Some d, Some params_init =>
    match loss_wrapper d params_init with
    | Some _ =>
      if (n_step <? 0)%Z || (print_loss =? 0)%Z then None else
      match fit_population St opt_init opt_update get_params (loss_kernel d) (Z.to_nat n_step) params_init with
      | Some best_fit_u_params =>
        match return_params_from_result best_fit_u_params with
        | Some best_fit_params =>
            Some (mkSaved (path_join outdir outname ++ ".npz") (values best_fit_params) best_fit_u_params)
        | None => None
        end
      | None => None
      end
    | None => None
    end
  | _, _ => None
  end.
End Program.
