(** Model of scripts/diffstarpop_scripts/calculate_quality_diffstar_fits_mgash.py, which
    compares mean histories of simulated galaxies with those of their fits.  Definitions only.
    The five functions repeat one text; line numbers refer to its first copy (53-153) unless
    another is named.

    Simplifications: files are the contents read from them; the list of subvolumes found by
    the regular expression is an argument; file names are dropped; [mstar_data_mean[i] += v] with a [v] of length 1 would be
    broadcast by numpy, here a length other than that of the row raises. *)
From Coq Require Import Reals List Bool ZArith String.
From Verif Require Import XReal ModelUtils ModelKernels ModelSfh ModelPop ModelHist ModelFit ModelLoad ModelIO ModelTargets.
Import ListNotations.
Open Scope R_scope.

(** np.where(sfrh > 0.0, np.log10(sfrh), 0.0) *)
Definition log_or_0 (x : xr) : xr := if (Fin 0 <? x)%X then xlog10 x else Fin 0.
(** np.where(lx == 0.0, np.nan, 10**lx) *)
Definition undo_log (lx : xr) : xr := if xeq lx (Fin 0) then NaN else xpow10 lx.
(** 46-50 [jnp_interp_vmap] *)
Definition interp_rows (t t_table : list xr) (tbl : list (list xr)) : list (list xr) :=
  map (fun r => map (fun x => jnp_interp x t_table r) t) tbl.
Definition SSFR_FLOOR : xr := Fin (1 / 10 ^ 12).

(** 98-123: the arrays of one subvolume *)
Record QRows := mkRows { r_logmp0 : list xr; r_smahs_data : list (list xr); r_smahs_fits : list (list xr);
  r_sfrh : list (list xr); r_sfrh_fits : list (list xr) }.
Definition quality_rows (tb : Tables) (has_fit : list bool) (log_smahs sfrh : list (list xr)) (logmp0 t : list xr)
  : option QRows :=
  let log_sfh_table := map2 (map2 xadd) (tb_log_ssfr tb) (tb_log_smh tb) in
  let log_sfrh := map (map log_or_0) sfrh in
  match mask has_fit log_smahs, mask has_fit log_sfrh, mask has_fit logmp0 with
  | Some log_smahs_data, Some log_sfrh_data, Some logmp0_data =>
      let smahs_fits := map (map undo_log) (interp_rows t (tb_t tb) (tb_log_smh tb)) in
      let sfrh_fits := map (map undo_log) (interp_rows t (tb_t tb) log_sfh_table) in
      let smahs_data := map (map undo_log) log_smahs_data in
      let sfrh_data := map (map undo_log) log_sfrh_data in
      let ssfrh := map2 (map2 xdiv) sfrh_data smahs_data in
      let ssfrh_fit := map2 (map2 xdiv) sfrh_fits smahs_fits in
      let ssfrh := map (map (fun x => np_clip x SSFR_FLOOR PInf)) ssfrh in
      let ssfrh_fit := map (map (fun x => np_clip x SSFR_FLOOR PInf)) ssfrh_fit in
      let product := map2 (map2 xmul) ssfrh smahs_data in
      let sfrh := map2 (map2 (fun (m : xr) (ab : xr * xr) => if (Fin 0 <? m)%X then fst ab else snd ab)) smahs_data
                    (map2 (map2 pair) product sfrh_data) in
      Some (mkRows logmp0_data smahs_data smahs_fits sfrh (map2 (map2 xmul) ssfrh_fit smahs_fits))
  | _, _, _ => None
  end.

(** np.nansum(rows, axis=0) of rows of length [w] *)
Definition nan0 (x : xr) : xr := if isnan x then Fin 0 else x.
Definition nansum0 (w : nat) (rs : list (list xr)) : option (list xr) :=
  if forallb (fun r => Nat.eqb (List.length r) w) rs then
    Some (map (fun k => xsum (map (fun r => nan0 (at_ r k)) rs)) (seq 0 w))
  else None.

(** 70-75: what is kept for one bin *)
Record BinSums := mkSums { s_mstar_data : list xr; s_mstar_fit : list xr; s_sfr_data : list xr; s_sfr_fit : list xr; s_ngals : xr }.
Definition no_sums (nt : nat) : BinSums := mkSums (zeros nt) (zeros nt) (zeros nt) (zeros nt) (Fin 0).

(** 125-136, one bin; [nt] is the length of its rows, [w] that of the subvolume's arrays *)
Definition add_bin (nt w : nat) (E : list xr) (r : QRows) (ib : nat * BinSums) : option BinSums :=
  let '(i, b) := ib in
  let masksel := map (in_open_bin E i) (r_logmp0 r) in
  let total (rs : list (list xr)) :=
    match mask masksel rs with Some sel => nansum0 w sel | None => None end in
  if Nat.eqb nt w then
    match total (r_smahs_data r), total (r_smahs_fits r), total (r_sfrh r), total (r_sfrh_fits r) with
    | Some md, Some mf, Some sd, Some sf =>
        Some (mkSums (map2 xadd (s_mstar_data b) md) (map2 xadd (s_mstar_fit b) mf) (map2 xadd (s_sfr_data b) sd)
                (map2 xadd (s_sfr_fit b) sf) (s_ngals b + xcount (List.length (filter (fun m => m) masksel)))%X)
    | _, _, _, _ => None
    end
  else None.
Definition add_rows (nt w : nat) (E : list xr) (r : QRows) (sums : list BinSums) : option (list BinSums) :=
  vmap (add_bin nt w E r) (combine (seq 0 (nbins E)) sums).

(** 138-153 *)
Record Quality := mkQual { ql_bins : list xr; ql_binsc : list xr; ql_t : list xr; ql_mstar_data : list (list xr);
  ql_mstar_fit : list (list xr); ql_sfr_data : list (list xr); ql_sfr_fit : list (list xr) }.
Definition quality_out (E t : list xr) (sums : list BinSums) : Quality :=
  let means (f : BinSums -> list xr) := map (fun b => map (fun x => x / s_ngals b)%X (f b)) sums in
  mkQual E (map2 (fun a b => Fin (1 / 2) * (a + b))%X (tail_ E) (init_ E)) t
    (means s_mstar_data) (means s_mstar_fit) (means s_sfr_data) (means s_sfr_fit).

(** 77-136 and 182-241: SMDPL, with rows of length 117; [tb] and [sim] load one subvolume,
    and [SMDPL_t] is left over from the last one *)
Definition SMDPL_NT : nat := 117.
Fixpoint quality_loop (tb : nat -> option (Tables * list bool)) (sim : nat -> option SimData) (E : list xr) (subvols : list nat)
    (sums : list BinSums) (t_last : option (list xr)) : option (list BinSums * option (list xr)) :=
  match subvols with
  | [] => Some (sums, t_last)
  | v :: rest =>
    match tb v, sim v with
    | Some (tb_v, has_fit), Some sd =>
      match quality_rows tb_v has_fit (sd_log_smahs sd) (sd_sfrh sd) (sd_logmp0 sd) (sd_t sd) with
      | Some r =>
        match add_rows SMDPL_NT (List.length (sd_t sd)) E r sums with
        | Some sums => quality_loop tb sim E rest sums (Some (sd_t sd))
        | None => None
        end
      | None => None
      end
    | _, _ => None
    end
  end.
Definition quality_smdpl (tb : nat -> option (Tables * list bool)) (sim : nat -> option SimData) (E : list xr) (subvols : list nat)
  : option Quality :=
  match quality_loop tb sim E subvols (repeat (no_sums SMDPL_NT) (nbins E)) None with
  | Some (sums, Some t) => Some (quality_out E t sums)
  | _ => None
  end.

Section Programs.
(** as in ModelTargets.v *)
Variable galpop_fb : option xr.
Variable log_mah_kern : MahParams xr -> xr -> xr -> xr.
Variable mah_singlehalo : MahParams xr -> list xr -> xr -> list xr * list xr.

(** 666: np.arange(11.25, 14.5, 0.50) *)
Definition MPEAK_BINS : list xr := map (fun i => Fin (1125 / 100) + Fin (INR i) * Fin (1 / 2))%X (seq 0 7).

(** The files of one subvolume: the two fits, and the columns of SFR and peak mass; an absent
    file raises *)
Definition smdpl_tables (files : nat -> option (hdf * hdf)) (v : nat) : option (Tables * list bool) :=
  match files v with
  | Some (dm, ds) => load_diffstar_sfh_tables_smdpl galpop_fb log_mah_kern mah_singlehalo dm ds LGT0
  | None => None
  end.
Definition smdpl_sim (data : nat -> option (list (list xr) * list (list xr))) (smdpl_t : list xr) (v : nat) : option SimData :=
  match data v with
  | Some (sfrh, mpeakh) => load_SMDPL_data sfrh mpeakh smdpl_t
  | None => None
  end.
(** 53-153: subvolumes 0 to 575, whatever the list of files *)
Definition calculate_plot_smdpl_nomerging (files : nat -> option (hdf * hdf)) (data : nat -> option (list (list xr) * list (list xr)))
    (smdpl_t E : list xr) : option Quality :=
  quality_smdpl (smdpl_tables files) (smdpl_sim data smdpl_t) E (seq 0 576).
(** 156-258: the subvolumes found *)
Definition calculate_plot_smdpl_dr1 (files : nat -> option (hdf * hdf)) (data : nat -> option (list (list xr) * list (list xr)))
    (smdpl_t E : list xr) (subvols : list nat) : option Quality :=
  quality_smdpl (smdpl_tables files) (smdpl_sim data smdpl_t) E subvols.

(** 261-357: TNG, all galaxies in one file, in 20 parts *)
Fixpoint quality_chunks (dm ds : hdf) (sd : SimData) (E : list xr) (chunks : list nat) (sums : list BinSums) : option (list BinSums) :=
  match chunks with
  | [] => Some sums
  | r :: rest =>
    match chunk_indices (List.length (sd_log_smahs sd)) r,
          load_diffstar_sfh_tables_tng log_mah_kern mah_singlehalo r dm ds LGT0 with
    | Some indx, Some (tb, has_fit) =>
      match take (sd_log_smahs sd) indx, take (sd_sfrh sd) indx, take (sd_logmp0 sd) indx with
      | Some log_smahs, Some sfrh, Some logmp0 =>
        match quality_rows tb has_fit log_smahs sfrh logmp0 (sd_t sd) with
        | Some rws =>
          match add_rows (List.length (sd_t sd)) (List.length (sd_t sd)) E rws sums with
          | Some sums => quality_chunks dm ds sd E rest sums
          | None => None
          end
        | None => None
        end
      | _, _, _ => None
      end
    | _, _ => None
    end
  end.
Definition calculate_plot_tng (dm ds : hdf) (sfh mpeakh : list (list xr)) (tng_t E : list xr) : option Quality :=
  match load_tng_data sfh mpeakh tng_t with
  | Some sd =>
    match quality_chunks dm ds sd E (seq 0 20) (repeat (no_sums (List.length tng_t)) (nbins E)) with
    | Some sums => Some (quality_out E tng_t sums)
    | None => None
    end
  | None => None
  end.

(** 360-460 and 463-563: Galacticus, in-situ or all stars.  The peak masses come from the
    halo fits [dm0] of one directory, the galaxy fits from [dm] and [ds] of others. *)
Definition calculate_plot_galcus (dm0 dm ds : hdf) (sfrh : list (list xr)) (galcus_t E : list xr) : option Quality :=
  match cumulative_mstar_formed_galpop galcus_t sfrh, hdf_mah dm0 with
  | Some mstarh, Some mah =>
    match mah_halopop mah_singlehalo mah galcus_t LGT0,
          load_diffstar_sfh_tables_galacticus galpop_fb log_mah_kern mah_singlehalo dm ds LGT0 with
    | Some (_, log_mah_fit), Some (tb, has_fit) =>
      match quality_rows tb has_fit (map (map xlog10) mstarh) sfrh (map last_ log_mah_fit) galcus_t with
      | Some r =>
        match add_rows (List.length galcus_t) (List.length galcus_t) E r (repeat (no_sums (List.length galcus_t)) (nbins E)) with
        | Some sums => Some (quality_out E galcus_t sums)
        | None => None
        end
      | None => None
      end
    | _, _ => None
    end
  | _, _ => None
  end.
End Programs.

(** 587-608 [save_data_plot]: the file written *)
Definition save_data_plot (o : Quality) : hdf :=
  [("tarr", D1 (ql_t o)); ("mpeak_bins", D1 (ql_bins o)); ("mpeak_binsc", D1 (ql_binsc o));
   ("mstar_data_mean", D2 (ql_mstar_data o)); ("mstar_fit_mean", D2 (ql_mstar_fit o));
   ("sfr_data_mean", D2 (ql_sfr_data o)); ("sfr_fit_mean", D2 (ql_sfr_fit o))]%string.
