(** Model of the population-fit programs in scripts/diffstarpop_scripts:
    fit_get_loss_helpers_mgash.py, fit_mstar_ssfr_pdfs_mgash.py (line numbers of each are
    given) and save_loss_data.py.  Definitions only.

    Simplifications: the files read are the values written by the measuring scripts
    ([Final] and the bins); [plot_data], which repeats the same construction with 10000
    halos, is dropped; float32 storage of the loss and parameter arrays is exact; numpy's
    random choice and random integers are arguments. *)
From Coq Require Import Reals List Bool ZArith String DecimalString.
From Verif Require Import XReal ModelUtils ModelKernels ModelSfh ModelPop ModelHist ModelLoad ModelIO ModelTargets.
Import ListNotations.
Open Scope R_scope.

(** What is read from the three files (helpers 131-175) *)
Record PopFiles := mkFiles { pf_f : Final; pf_logmh_bins : list xr; pf_mstar_bins : list xr; pf_ssfr_bins : list xr }.

Definition LGMU_INFALL : xr := Fin (-1).
Definition LOGMHOST_INFALL : xr := Fin 13.
Definition GYR_SINCE_INFALL : xr := Fin (-99).
Definition MIN_HALOS : nat := 50.
Definition TARGET_MSTAR_IDS : list nat := [8; 10; 13; 16; 19]%nat.

(** Columns of the parameters of a list of halos; DiffmahParams takes five *)
Definition five (r : list xr) : option (xr * xr * xr * xr * xr) :=
  match r with [a; b; c; d; e] => Some (a, b, c, d, e) | _ => None end.
Definition mah_columns (rows : list (list xr)) : option (MahParams (list xr)) :=
  match vmap five rows with
  | Some l => Some (mkMah (map (fun r => fst (fst (fst (fst r)))) l) (map (fun r => snd (fst (fst (fst r)))) l)
                      (map (fun r => snd (fst (fst r))) l) (map (fun r => snd (fst r)) l) (map snd l))
  | None => None
  end.

(** [(tobs_id == i) & (logmh_id == j)], and [& (upid_samp == -1)] or [!= -1] by [who] *)
Definition in_cell (who : Z -> bool) (i j : nat) (h : Haloes) : list nat :=
  where_true (map2 andb (map2 andb (map (Nat.eqb i) (h_tobs_id h)) (map (Nat.eqb j) (h_logmh_id h)))
                (map who (h_upid h))).
Definition everyone (u : Z) : bool := true.
Definition centrals (u : Z) : bool := (u =? -1)%Z.
Definition satellites (u : Z) : bool := negb (u =? -1)%Z.

Section PopFit.
Variable key : Type.
Variable jran_split : key -> nat -> list key.
Variable mah_singlehalo : MahParams xr -> list xr -> xr -> list xr * list xr.
Variable choice : nat -> nat -> list nat -> nat -> bool -> list nat.

(** 198-222 (mstar), 443-468 (ssfr, centrals), 757-782 (ssfr, satellites), 1053-1080 and
    1263-1290 (mstar by kind): the halos simulated for cell (i, j); nothing when fewer than
    [MIN_HALOS] were sampled *)
Definition cell_pop (who : Z -> bool) (nhalos : nat) (lgt0 : xr) (f : PopFiles) (i j : nat)
  : option (option (key -> ZPop key)) :=
  let h := f_haloes (pf_f f) in
  let sel := in_cell who i j h in
  if Nat.ltb (List.length sel) MIN_HALOS then Some None else
  let picked := choice i j sel nhalos (Nat.ltb (List.length sel) nhalos) in
  match take (h_mah h) picked, take (h_upid h) picked, nth_error (f_age (pf_f f)) i with
  | Some rows, Some upid, Some t_target =>
    match mah_columns rows with
    | Some mah =>
      match mah_halopop mah_singlehalo mah (logspace (Fin (-1)) lgt0 50) lgt0 with
      | Some (_, log_mah_fit) =>
          let fill c := repeat c (List.length picked) in
          Some (Some (fun k => mkZPop key mah (map last_ log_mah_fit) upid (fill LGMU_INFALL) (fill LOGMHOST_INFALL)
                        (fill GYR_SINCE_INFALL) k t_target))
      | None => None
      end
    | None => None
    end
  | _, _, _ => None
  end.
Definition all_cells (f : PopFiles) : list (nat * nat) :=
  flat_map (fun i => map (fun j => (i, j)) (seq 0 (nbins (pf_logmh_bins f)))) (seq 0 (List.length (f_age (pf_f f)))).
(** The cells with enough halos, in order, with their populations *)
Definition used_cells (who : Z -> bool) (nhalos : nat) (lgt0 : xr) (f : PopFiles)
  : option (list (nat * nat * (key -> ZPop key))) :=
  match vmap (fun ij => option_map (fun p => (ij, p)) (cell_pop who nhalos lgt0 f (fst ij) (snd ij))) (all_cells f) with
  | Some l => Some (flat_map (fun c => match snd c with Some p => [(fst c, p)] | None => [] end) l)
  | None => None
  end.
Definition with_keys (ran_key : key) (l : list (nat * nat * (key -> ZPop key))) : list (ZPop key) :=
  map2 (fun c k => snd c k) l (jran_split ran_key (List.length l)).

(** 219: [mstar_wcounts[i, j] / mstar_wcounts[i, j].sum()] *)
Definition normalise (row : list xr) : list xr := map (fun x => x / xsum row)%X row.
Definition cell_of {A} (tb : list (list A)) (i j : nat) : option A :=
  match nth_error tb i with Some r => nth_error r j | None => None end.

(** 127-326 [get_loss_data_pdfs_mstar] *)
Definition mstar_loss_data (who : Z -> bool) (wcounts : list (list (list xr))) (f : PopFiles) (nhalos : nat)
    (lgt0 fb : xr) (ran_key : key) : option (MstarLossData key) :=
  match used_cells who nhalos lgt0 f with
  | Some used =>
    match vmap (fun c => option_map normalise (cell_of wcounts (fst (fst c)) (snd (fst c)))) used with
    | Some target => Some (mkML key (with_keys ran_key used) lgt0 fb (pf_mstar_bins f) target)
    | None => None
    end
  | None => None
  end.
Definition get_loss_data_pdfs_mstar (f : PopFiles) :=
  mstar_loss_data everyone (f_mstar_wcounts (pf_f f)) f.
(** 977-1184 [get_loss_data_pdfs_mstar_cen], 1187-1394 [..._sat]: the counts are the joint
    ones summed over sSFR *)
Definition sum_last (x : list (list (list (list xr)))) : list (list (list xr)) := map (map (map xsum)) x.
Definition get_loss_data_pdfs_mstar_cen (f : PopFiles) :=
  mstar_loss_data centrals (sum_last (f_cent (pf_f f))) f.
Definition get_loss_data_pdfs_mstar_sat (f : PopFiles) :=
  mstar_loss_data satellites (sum_last (f_sat (pf_f f))) f.

(** 402-405: [counts / np.sum(counts, axis=1)[:, None]] *)
Definition mhalo_pdf (counts : list (list xr)) : list (list xr) := map normalise counts.
(** 426-439: clip, normalise each cell, NaN to 0, average over halo mass *)
Definition flat_sum (m : list (list xr)) : xr := xsum (List.concat m).
Definition nan_to_0 (x : xr) : xr := match x with NaN => Fin 0 | _ => x end.
Definition cell_pdf (m : list (list xr)) : list (list xr) :=
  let c := map (map (clip_lo (Fin 0))) m in
  map (map (fun x => nan_to_0 (x / flat_sum c)%X)) c.
Definition mean_pdfs (nms nsf : nat) (wcounts : list (list (list (list xr)))) (w : list (list xr)) : list (list (list xr)) :=
  map2 (fun ms ws => weighted_sum_matrices nms nsf (map cell_pdf ms) ws) wcounts w.
(** 482-490 *)
Definition target_row (nsf : nat) (row : list xr) : list xr :=
  if (Fin 0 <? xsum row)%X then normalise row else zeros nsf.
Definition target_rows (nsf : nat) (pdfs : list (list xr)) : option (list (list xr)) :=
  vmap (fun jval => option_map (target_row nsf) (nth_error pdfs jval)) TARGET_MSTAR_IDS.

(** 441-471: indices of the used mass bins at every redshift, and running indices into the
    simulated populations *)
Definition index_mhalo (n : nat) (used : list (nat * nat)) : list (list nat) :=
  map (fun i => map snd (filter (fun c => Nat.eqb (fst c) i) used)) (seq 0 n).
Definition indx_pdf (n : nat) (used : list (nat * nat)) : list (list nat) :=
  map (fun i => map snd (filter (fun c => Nat.eqb (fst (fst c)) i) (combine used (seq 0 (List.length used))))) (seq 0 n).

(** 351-663 [get_loss_data_pdfs_ssfr_central], 666-974 [..._satellite] *)
Definition ssfr_loss_data (who : Z -> bool) (counts : list (list xr)) (wcounts : list (list (list (list xr))))
    (f : PopFiles) (nhalos : nat) (lgt0 fb : xr) (ran_key : key) : option (SsfrLossData key) :=
  let nz := List.length (f_age (pf_f f)) in
  let nms := nbins (pf_mstar_bins f) in
  let nsf := nbins (pf_ssfr_bins f) in
  match used_cells who nhalos lgt0 f with
  | Some used =>
    match vmap (fun i => match nth_error (mean_pdfs nms nsf wcounts (mhalo_pdf counts)) i with
                         | Some pdfs => target_rows nsf pdfs | None => None end) (seq 0 nz),
          prepare_ragged (indx_pdf nz (map fst used)) (mhalo_pdf counts) (index_mhalo nz (map fst used)) with
    | Some target, Some (idx, w) =>
        Some (mkSL key (with_keys ran_key used) lgt0 fb
                (mkSsfr (joint_bins_lo (pf_mstar_bins f) (pf_ssfr_bins f)) (joint_bins_hi (pf_mstar_bins f) (pf_ssfr_bins f))
                   (pf_mstar_bins f) (pf_ssfr_bins f) w idx TARGET_MSTAR_IDS) target)
    | _, _ => None
    end
  | None => None
  end.
Definition get_loss_data_pdfs_ssfr_central (f : PopFiles) :=
  ssfr_loss_data centrals (f_counts_cen (pf_f f)) (f_cent (pf_f f)) f.
Definition get_loss_data_pdfs_ssfr_satellite (f : PopFiles) :=
  ssfr_loss_data satellites (f_counts_sat (pf_f f)) (f_sat (pf_f f)) f.

End PopFit.

(** ** fit_mstar_ssfr_pdfs_mgash.py 140-228: Adam on the population loss.
    [loss_kernel] returns the loss and its gradient; what is kept of a step: *)
Section Loop.
Variable St : Type.
Variable opt_init : list xr -> St.
Variable opt_update : nat -> list xr -> St -> St.
Variable get_params : St -> list xr.
Variable loss_kernel : list xr -> xr * list xr.

Definition all_finite (l : list xr) : bool := forallb isfinite l.
Record Loop := mkLoop { lp_losses : list xr; lp_params : list (list xr); lp_state : St; lp_grads : option (list xr) }.
Inductive step_result := Next (l : Loop) | Stop (l : Loop) | NameError.

(** 161-218, one step *)
Definition fit_step (istep : nat) (l : Loop) : step_result :=
  let p := get_params (lp_state l) in
  let '(loss, grads) := loss_kernel p in
  let finish p loss grads :=
    let l' := if all_finite p && isfinite loss && all_finite grads
              then mkLoop (upd (lp_losses l) istep loss) (upd (lp_params l) istep p)
                     (opt_update istep grads (lp_state l)) (Some grads)
              else mkLoop (lp_losses l) (lp_params l) (lp_state l) (Some grads) in
    if all_finite grads then Next l' else Stop l' in
  if isfinite loss then finish p loss grads else
  match lp_grads l with
  | None => NameError
  | Some current_grads =>
    let p2 := get_params (opt_update istep current_grads (lp_state l)) in
    let '(loss2, grads2) := loss_kernel p2 in
    if all_finite p2 && isfinite loss2 && all_finite grads2 then finish p2 loss2 grads2
    else Next l
  end.
Fixpoint fit_steps (isteps : list nat) (l : Loop) : option Loop :=
  match isteps with
  | [] => Some l
  | istep :: rest =>
    match fit_step istep l with
    | Next l' => fit_steps rest l'
    | Stop l' => Some l'
    | NameError => None
    end
  end.
(** 149-156, 220-221: index of the first smallest loss (np.argmin raises on nothing) *)
Fixpoint argmin (l : list xr) : option nat :=
  match l with
  | [] => None
  | x :: r => match argmin r with
              | Some k => if (nth k r NaN <? x)%X then Some (S k) else Some 0%nat
              | None => Some 0%nat
              end
  end.
Definition fit_population (n_step : nat) (params_init : list xr) : option (list xr) :=
  match fit_steps (seq 0 n_step)
          (mkLoop (repeat PInf n_step) (repeat (zeros (List.length params_init)) n_step) (opt_init params_init) None) with
  | Some l => match argmin (lp_losses l) with Some k => nth_error (lp_params l) k | None => None end
  | None => None
  end.
End Loop.

(** ** save_loss_data.py.  A value to save is an array (anything with [__array__]), a plain
    number, or a list or tuple of arrays; [stack] is np.asarray of equally shaped arrays.
    json is taken to give back the number it wrote.  File, group and attribute layers are
    association lists; the format attributes, which only choose between two identical
    branches of the loader, are dropped. *)
Section Save.
Variable arr num : Type.
Variable shape : arr -> list nat.
Variable stack : list arr -> arr.
Inductive value := VArr (a : arr) | VNum (x : num) | VSeq (l : list arr).
Inductive item := Dataset (a : arr) | Sub (l : list (string * arr)) | Attr (x : num).

Definition shape_eqb (s t : list nat) : bool := if list_eq_dec Nat.eq_dec s t then true else false.
(** 105-122: more than one shape *)
Definition is_ragged (l : list arr) : bool :=
  match l with [] => false | a :: r => negb (forallb (fun b => shape_eqb (shape b) (shape a)) r) end.
(** 142: [f"{i:04d}"] *)
Definition zero_pad (s : string) : string := (String.concat "" (repeat "0"%string (4 - String.length s)) ++ s)%string.
Definition key04 (i : nat) : string := zero_pad (NilEmpty.string_of_uint (Nat.to_uint i)).
(** 125-176 [_save_value] *)
Definition save_value (v : value) : item :=
  match v with
  | VSeq l => if is_ragged l then Sub (combine (map key04 (seq 0 (List.length l))) l) else Dataset (stack l)
  | VArr a => Dataset a
  | VNum x => Attr x
  end.
(** Python's [sorted] on strings *)
Fixpoint insert_key (k : string) (l : list string) : list string :=
  match l with
  | [] => [k]
  | h :: t => if String.leb k h then k :: l else h :: insert_key k t
  end.
Definition sorted_keys (l : list string) : list string := fold_right insert_key [] l.
(** 253-285 [_load_group]; a missing name raises *)
Definition load_item (i : item) : option value :=
  match i with
  | Dataset a => Some (VArr a)
  | Sub l => option_map VSeq (vmap (fun k => lookup k l) (sorted_keys (map fst l)))
  | Attr x => Some (VNum x)
  end.
Definition group : Type := list string * list (string * item).
Definition load_group (g : group) : option (list value) :=
  vmap (fun name => match lookup name (snd g) with Some i => load_item i | None => None end) (fst g).

Definition MSTAR_FIELDS : list string := ["mah_params_data"; "logmp0_data"; "upid_data"; "lgmu_infall_data";
  "logmhost_infall_data"; "gyr_since_infall_data"; "ran_key_data"; "t_obs_targets"; "lgt0"; "fb";
  "logmstar_bins_pdf"; "mstar_counts_target"]%string.
Definition SSFR_FIELDS : list string := ["mah_params_data"; "logmp0_data"; "upid_data"; "lgmu_infall_data";
  "logmhost_infall_data"; "gyr_since_infall_data"; "ran_key_data"; "t_obs_targets"; "lgt0"; "fb";
  "ndbins_lo"; "ndbins_hi"; "logmstar_bins_pdf"; "logssfr_bins_pdf"; "mhalo_pdf_cen_ragged"; "indx_pdf";
  "target_mstar_ids"; "target_data"]%string.
Definition SSFR_SAT_FIELDS : list string := ["mah_params_data"; "logmp0_data"; "upid_data"; "lgmu_infall_data";
  "logmhost_infall_data"; "gyr_since_infall_data"; "ran_key_data"; "t_obs_targets"; "lgt0"; "fb";
  "ndbins_lo"; "ndbins_hi"; "logmstar_bins_pdf"; "logssfr_bins_pdf"; "mhalo_pdf_sat_ragged"; "indx_pdf";
  "target_mstar_ids"; "target_data_sat"]%string.
Definition save_group (fields : list string) (vs : list value) : option group :=
  if Nat.eqb (List.length vs) (List.length fields) then Some (fields, combine fields (map save_value vs)) else None.
(** 179-237 [save_loss_data_h5], 247-296 [load_loss_data_h5] *)
Definition save_loss_data_h5 (m c s : list value) : option (group * group * group) :=
  match save_group MSTAR_FIELDS m, save_group SSFR_FIELDS c, save_group SSFR_SAT_FIELDS s with
  | Some a, Some b, Some d => Some (a, b, d)
  | _, _, _ => None
  end.
Definition load_loss_data_h5 (f : group * group * group) : option (list value * list value * list value) :=
  match load_group (fst (fst f)), load_group (snd (fst f)), load_group (snd f) with
  | Some m, Some c, Some s => Some (m, c, s)
  | _, _, _ => None
  end.
End Save.
