(** Model of scripts/diffstarpop_scripts/fit_get_loss_helpers_mgash.py:12-124
    [get_loss_data_smhm].  Definitions only.

    Simplifications: as in ModelPopFit (the files are the values written by the measuring
    scripts, [plot_data] is dropped, random choices are arguments). *)
From Coq Require Import Reals List Bool ZArith.
From Verif Require Import XReal ModelUtils ModelKernels ModelSfh ModelPop ModelHist ModelLoad ModelIO ModelTargets ModelPopFit.
Import ListNotations.
Open Scope R_scope.

(** 94-103: the arrays of [loss_data], one entry per used cell *)
Record SmhmLossData (key : Type) := mkSD { sd_mah : list (MahParams (list xr)); sd_logmp0 : list (list xr);
  sd_lgmu_infall : list (list xr); sd_logmhost_infall : list (list xr); sd_gyr_since_infall : list (list xr);
  sd_keys : list key; sd_tobs : list xr; sd_target : list xr }.

Section SmhmFit.
Variable key : Type.
Variable jran_split : key -> nat -> list key.
Variable mah_singlehalo : MahParams xr -> list xr -> xr -> list xr * list xr.
Variable choice : nat -> nat -> list nat -> nat -> bool -> list nat.

(** 63-85: parameters, present masses, time and target of cell (i, j); nothing when fewer
    than [nhalos] were sampled *)
Definition smhm_cell (nhalos : nat) (lgt0 : xr) (f : PopFiles) (i j : nat)
  : option (option (MahParams (list xr) * list xr * xr * xr)) :=
  let h := f_haloes (pf_f f) in
  let sel := in_cell everyone i j h in
  if Nat.ltb (List.length sel) nhalos then Some None else
  let picked := choice i j sel nhalos false in
  match take (h_mah h) picked, take (h_upid h) picked, nth_error (f_age (pf_f f)) i, cell_of (f_smhm (pf_f f)) i j with
  | Some rows, Some upid, Some t_target, Some smhm =>
    match mah_columns rows with
    | Some mah =>
      match mah_halopop mah_singlehalo mah (logspace (Fin (-1)) lgt0 50) lgt0 with
      | Some (_, log_mah_fit) => Some (Some (mah, map last_ log_mah_fit, t_target, smhm))
      | None => None
      end
    | None => None
    end
  | _, _, _, _ => None
  end.

Definition get_loss_data_smhm (f : PopFiles) (nhalos : nat) (lgt0 : xr) (ran_key : key) : option (SmhmLossData key) :=
  match vmap (fun ij => smhm_cell nhalos lgt0 f (fst ij) (snd ij)) (all_cells f) with
  | Some l =>
      let used := flat_map (fun c => match c with Some p => [p] | None => [] end) l in
      let fill c := map (fun p => repeat c (List.length (snd (fst (fst p))))) used in
      Some (mkSD key (map (fun p => fst (fst (fst p))) used) (map (fun p => snd (fst (fst p))) used)
              (fill LGMU_INFALL) (fill LOGMHOST_INFALL) (fill GYR_SINCE_INFALL)
              (jran_split ran_key (List.length used)) (map (fun p => snd (fst p)) used) (map snd used))
  | None => None
  end.
End SmhmFit.
