(** Model of diffstar/data_loaders/ (utils.py, load_smah_data.py, load_galacticus_sfh.py,
    extract_galacticus_sfh_data.py) and of [prepare_ragged] in
    scripts/diffstarpop_scripts/fit_get_loss_helpers_mgash.py.

    An hdf5 or npy file is the list of its named datasets; integer and boolean columns hold
    [Fin] of their value.  Directory names and string formatting of file names are not
    modelled: the loaders take the file's contents. *)
From Coq Require Import Reals List Bool ZArith String.
From Verif Require Import XReal ModelUtils ModelKernels ModelSfh.
Import ListNotations.
Open Scope R_scope.

Inductive dset : Type := D1 (v : list xr) | D2 (v : list (list xr)).
Definition hdf := list (string * dset).

Fixpoint lookup {A} (key : string) (f : list (string * A)) : option A :=
  match f with
  | [] => None
  | (k, d) :: f => if String.eqb k key then Some d else lookup key f
  end.

(** [l[istart:iend]], with Python's treatment of negative and over-long bounds (h5py's
    selection code applies [slice.indices] in the same way) *)
Definition norm_index (n : nat) (i : Z) : nat :=
  Z.to_nat (Z.min (if (i <? 0)%Z then i + Z.of_nat n else i) (Z.of_nat n)).
Definition pyslice {A} (l : list A) (istart : Z) (iend : option Z) : list A :=
  let n := List.length l in
  let a := norm_index n istart in
  let b := match iend with None => n | Some e => norm_index n e end in
  firstn (b - a) (skipn a l).
Definition dslice (d : dset) (istart : Z) (iend : option Z) : dset :=
  match d with D1 v => D1 (pyslice v istart iend) | D2 v => D2 (pyslice v istart iend) end.

(** ** data_loaders/utils.py:6-21 [load_flat_hdf5] *)
Definition load_flat_hdf5 (f : hdf) (istart : Z) (iend : option Z) (keys : option (list string))
  : option hdf :=
  let keys := match keys with None => map fst f | Some ks => ks end in
  vmap (fun key => match lookup key f with
                   | Some d => Some (key, dslice d istart iend)
                   | None => None
                   end) keys.

Definition col1 (key : string) (f : hdf) : option (list xr) :=
  match lookup key f with Some (D1 v) => Some v | _ => None end.
Definition col2 (key : string) (f : hdf) : option (list (list xr)) :=
  match lookup key f with Some (D2 v) => Some v | _ => None end.

(** ** load_smah_data.py:64-140 [load_smdpl_diffmah_fits] (and 46-61,
    [load_precomputed_diffmah_fits], which calls it).  diffmah's default parameters are an
    argument. *)
Definition NPTS_FIT_MIN : xr := Fin 5.
Definition DIFFMAH_KEYS : list string :=
  ["logm0"; "logtc"; "early_index"; "late_index"; "t_peak"; "loss"; "n_points_per_fit"]%string.

(** np.where(msk, a, b) with a constant first branch *)
Definition where_const (msk : list bool) (c : xr) (l : list xr) : list xr :=
  map2 (fun (m : bool) x => if m then c else x) msk l.

Record DiffmahFits := mkFits { df_params : MahParams (list xr); df_logmp0 : list xr;
                               df_loss : list xr; df_npts : list xr }.

Section Diffmah.
Variable mah_singlehalo : MahParams xr -> list xr -> xr -> list xr * list xr.
Variable DEFAULT_MAH_PARAMS : MahParams xr.

Definition fill_mah (msk : list bool) (c : MahParams xr) (p : MahParams (list xr)) : MahParams (list xr) :=
  mkMah (where_const msk (logm0 c) (logm0 p)) (where_const msk (logtc c) (logtc p))
        (where_const msk (early_index c) (early_index p)) (where_const msk (late_index c) (late_index p))
        (where_const msk (t_peak c) (t_peak p)).

Definition nofit_mask (loss npts : list xr) (npts_fit_min : xr) : list bool :=
  map2 (fun l n => (l <? Fin 0)%X || (n <? npts_fit_min)%X) loss npts.

Definition load_smdpl_diffmah_fits (f : hdf) (npts_fit_min t0 : xr) (istart : Z) (iend : option Z)
  : option DiffmahFits :=
  match load_flat_hdf5 f istart iend (Some DIFFMAH_KEYS) with
  | None => None
  | Some d =>
    match col1 "logm0" d, col1 "logtc" d, col1 "early_index" d, col1 "late_index" d,
          col1 "t_peak" d, col1 "loss" d, col1 "n_points_per_fit" d with
    | Some lm, Some lt, Some ea, Some la, Some tp, Some loss, Some npts =>
      let n := List.length loss in
      if forallb (fun c => Nat.eqb (List.length c) n) [lm; lt; ea; la; tp; npts] then
        let msk := nofit_mask loss npts npts_fit_min in
        let mah := mkMah lm lt ea la tp in
        let filled := fill_mah msk DEFAULT_MAH_PARAMS mah in
        match mah_halopop mah_singlehalo filled [t0] (xlog10 t0) with
        | Some (_, log_mah) =>
            let logmp0 := List.concat log_mah in
            let minus1 := mkMah (Fin (-1)) (Fin (-1)) (Fin (-1)) (Fin (-1)) (Fin (-1)) in
            Some (mkFits (fill_mah msk minus1 filled) logmp0 loss npts)
        | None => None
        end
      else None
    | _, _, _, _, _, _, _ => None
    end
  end.
End Diffmah.

(** ** load_smah_data.py:143-182 [load_fit_sfh] *)
Definition load_fit_sfh (f : hdf) : option (list (list xr) * list (list xr)) :=
  match vmap (fun k => col1 k f)
          ["lgmcrit"; "lgy_at_mcrit"; "indx_lo"; "indx_hi"; "tau_dep"]%string,
        vmap (fun k => col1 k f) ["lg_qt"; "qlglgdt"; "lg_drop"; "lg_rejuv"]%string with
  | Some ms, Some q =>
      match rows ms, rows q with
      | Some ms, Some q => Some (ms, q)
      | _, _ => None
      end
  | _, _ => None
  end.

(** np.maximum.accumulate along a row *)
Fixpoint cummax_from (m : xr) (l : list xr) : list xr :=
  match l with
  | [] => []
  | x :: l => let m := xmax m x in m :: cummax_from m l
  end.
Definition cummax (l : list xr) : list xr :=
  match l with [] => [] | x :: l => x :: cummax_from x l end.

(** ** load_smah_data.py:284-334 [load_tng_data]: the columns sfh and mpeakh of the npy
    file; halo ids are 0..n-1 *)
Definition H_TNG : R := 6774 / 10000.
Record SimData := mkSim { sd_log_smahs : list (list xr); sd_sfrh : list (list xr); sd_t : list xr;
                          sd_log_mahs : list (list xr); sd_logmp0 : list xr }.
Definition load_tng_data (sfh mpeakh : list (list xr)) (tng_t : list xr) : option SimData :=
  match cumulative_mstar_formed_galpop tng_t sfh with
  | Some mstarh =>
    let log_smahs := map (map xlog10) mstarh in
    let log_mahs := map (map (fun x => x - xlog10 (Fin H_TNG))%X) mpeakh in
    let log_mahs := map cummax log_mahs in
    Some (mkSim log_smahs sfh tng_t log_mahs (map last_ log_mahs))
  | None => None
  end.

(** ** load_smah_data.py:463-528 [load_SMDPL_nomerging_data] and 531-585
    [load_SMDPL_DR1_data], which differ only in the SFR column they read *)
Definition MH_MIN : xr := Fin (10 ^ 7).
Definition load_SMDPL_data (sfrh mpeak_history : list (list xr)) (smdpl_t : list xr) : option SimData :=
  match cumulative_mstar_formed_galpop smdpl_t sfrh with
  | Some mstarh =>
    let log_smahs := map (map xlog10) mstarh in
    let clipped_mahs := map (map (fun m => if (m <? MH_MIN)%X then Fin 1 else m)) mpeak_history in
    let log_mahs := map cummax (map (map xlog10) clipped_mahs) in
    Some (mkSim log_smahs sfrh smdpl_t log_mahs (map last_ log_mahs))
  | None => None
  end.

(** ** load_smah_data.py:185-228 [load_bolshoi_data] and its copies (231-281, 337-461) *)
Definition load_um_data (sfrh : list (list xr)) (t : list xr) : option (list (list xr)) :=
  match cumulative_mstar_formed_galpop t sfrh with
  | Some mstarh => Some (map (map xlog10) mstarh)
  | None => None
  end.

(** ** load_galacticus_sfh.py:76-103 [load_galacticus_sfh_target_data]: in-situ or total *)
Definition same_shape (a b : list (list xr)) : bool :=
  Nat.eqb (List.length a) (List.length b)
  && forallb (fun p => Nat.eqb (List.length (fst p)) (List.length (snd p))) (combine a b).
Definition galacticus_dtarr (tarr : list xr) : list xr := diff_ (Fin 0 :: tarr).
Definition galacticus_sfh (tarr : list xr) (dm_bulge dm_disk : list (list xr)) : option (list (list xr)) :=
  let dtarr := galacticus_dtarr tarr in
  if same_shape dm_bulge dm_disk
     && forallb (fun r => Nat.eqb (List.length r) (List.length dtarr)) dm_bulge then
    let dmstar := map2 (map2 xadd) dm_bulge dm_disk in
    Some (map (fun r => map2 (fun m dt => m / dt / Fin (10 ^ 9))%X r dtarr) dmstar)
  else None.

(** ** load_galacticus_sfh.py:116-122 [load_galacticus_sfh_data_block] *)
Definition BLOCK_KEYS : list string := ["sfh_in_situ"; "sfh_tot"; "is_cen"]%string.
Definition load_galacticus_sfh_data_block (f : hdf) (istart iend : Z) : option hdf :=
  match load_flat_hdf5 f 0 None (Some ["tarr"%string]),
        load_flat_hdf5 f istart (Some iend) (Some BLOCK_KEYS) with
  | Some tarr_dict, Some block =>
      match lookup "tarr" tarr_dict with
      | Some t => Some (block ++ [("tarr"%string, t)])
      | None => None
      end
  | _, _ => None
  end.

(** ** extract_galacticus_sfh_data.py:45-77 [extract_galacticus_sfh_tables].  A galaxy is the
    list of its rows (one per metallicity and origin), possibly empty.  [ncol] is the length
    every row must have for the numpy sums and assignments to succeed; other row lengths
    raise. *)
Definition galdata := list (list xr).
Fixpoint first_nonempty (l : list galdata) : option galdata :=
  match l with
  | [] => None
  | [] :: l => first_nonempty l
  | g :: _ => Some g
  end.
(** np.sum(rows, axis=0) *)
Definition sum_rows (n_t : nat) (rs : list (list xr)) : list xr :=
  fold_left (map2 xadd) rs (zeros n_t).
Definition get_rows (g : galdata) (n_t lo hi : nat) : option (list (list xr)) :=
  vmap (fun j => match nth_error g j with
                 | Some r => if Nat.eqb (List.length r) n_t then Some r else None
                 | None => None
                 end) (seq lo (hi - lo)).
(** [table[i, :] = row] *)
Definition set_row (tbl : list (list xr)) (i : nat) (r : list xr) : option (list (list xr)) :=
  if (i <? List.length tbl)%nat then Some (upd tbl i r) else None.

Fixpoint extract_loop (gals : list galdata) (n_met n_t : nat) (idx : list nat)
    (tables : list (list xr) * list (list xr)) : option (list (list xr) * list (list xr)) :=
  match idx with
  | [] => Some tables
  | igal :: idx =>
    match nth_error gals igal with
    | None => None
    | Some [] => extract_loop gals n_met n_t idx tables
    | Some g =>
      match get_rows g n_t 0 n_met, get_rows g n_t n_met (2 * n_met) with
      | Some x_tot, Some x_in_situ =>
        match set_row (snd tables) igal (sum_rows n_t x_in_situ),
              set_row (fst tables) igal (sum_rows n_t x_tot) with
        | Some ins, Some tot => extract_loop gals n_met n_t idx (tot, ins)
        | _, _ => None
        end
      | _, _ => None
      end
    end
  end.

(** Result: (delta_mstar_tot, delta_mstar_in_situ); the time table is returned as read. *)
Definition extract_galacticus_sfh_tables (gals : list galdata) (istart : nat) (iend : option nat)
  : option (list (list xr) * list (list xr)) :=
  let iend := match iend with None => List.length gals | Some e => e end in
  let n_gals_out := (iend - istart)%nat in
  if (iend <? istart)%nat then None else
  match first_nonempty gals with
  | None => None
  | Some x =>
    let n_met := (List.length x / 2)%nat in
    let n_t := List.length (hd [] x) in
    let z := repeat (zeros n_t) n_gals_out in
    extract_loop gals n_met n_t (seq istart n_gals_out) (z, z)
  end.

(** ** scripts/diffstarpop_scripts/fit_get_loss_helpers_mgash.py:329-348 [prepare_ragged].
    An empty row of [index_mhalo] raises: the callers build it as [np.array([])], whose
    float dtype numpy refuses as an index.  numpy would broadcast a single weight over
    several indices; here unequal lengths raise. *)
Definition list_max_len {A} (l : list (list A)) : nat := fold_right Nat.max 0%nat (map (@List.length A) l).
Definition gather (v : list xr) (ix : list nat) : option (list xr) :=
  vmap (fun i => nth_error v i) ix.
Definition ragged_row (Mmax : nat) (ix : list nat) (w : list xr) : option (list nat * list xr) :=
  if Nat.eqb (List.length ix) (List.length w) then
    Some (ix ++ repeat 0%nat (Mmax - List.length ix), w ++ repeat (Fin 0) (Mmax - List.length w))
  else None.
Definition prepare_ragged (indx_pdf : list (list nat)) (nmhalo_pdf : list (list xr))
    (index_mhalo : list (list nat)) : option (list (list nat) * list (list xr)) :=
  match indx_pdf with
  | [] => None
  | _ =>
    let Mmax := list_max_len indx_pdf in
    match vmap (fun z =>
            match nth_error indx_pdf z, nth_error nmhalo_pdf z, nth_error index_mhalo z with
            | Some _, Some _, Some [] => None
            | Some ix, Some nm, Some im =>
                match gather nm im with Some w => ragged_row Mmax ix w | None => None end
            | _, _, _ => None
            end) (seq 0 (List.length indx_pdf)) with
    | Some l => Some (map fst l, map snd l)
    | None => None
    end
  end.
