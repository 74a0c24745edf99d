(** Model of the scripts that measure the targets of the population fits:
    scripts/diffstarpop_scripts/smhm_utils_{smdpl,tng,galacticus}_mgash.py and
    measure_smhm_{smdpl,tng,galacticus}_script_mpi_mgash.py.  Definitions only.  Where the
    three utility files hold the same text, line numbers refer to the smdpl file.

    Simplifications: a table has one row per halo; [ydata] of shape (n, 1) is a list of
    length n; columns written to hdf5 are handed over unchanged (the scripts transpose some
    of them and back); temporary files exist only if this run wrote them; file names and
    directories are dropped; [astropy]'s [Planck13.age] and numpy's random choice are
    arguments. *)
From Coq Require Import Reals List Bool ZArith String.
From Verif Require Import XReal ModelUtils ModelKernels ModelSfh ModelPop ModelHist ModelLoad ModelIO.
Import ListNotations.
Open Scope R_scope.

(** ** numpy and scipy helpers *)

(** [a[msk]]; a mask of another length raises *)
Fixpoint keep {A} (msk : list bool) (l : list A) : list A :=
  match msk, l with
  | b :: msk, a :: l => if b then a :: keep msk l else keep msk l
  | _, _ => []
  end.
Definition mask {A} (msk : list bool) (l : list A) : option (list A) :=
  if same_len msk l then Some (keep msk l) else None.

(** np.linspace *)
Definition linspace (start stop : xr) (num : nat) : list xr :=
  map (fun i => start + Fin (INR i) * ((stop - start) / Fin (INR (num - 1))))%X (seq 0 num).

(** [tbl[:, i]] of a table of width [w] *)
Definition column (w : nat) (tbl : list (list xr)) (i : nat) : option (list xr) :=
  if Nat.ltb i w then vmap (fun r => nth_error r i) tbl else None.

(** np.digitize(x, bins): bins must be monotonic; constant bins count as increasing *)
Fixpoint mono (le : xr -> xr -> bool) (l : list xr) : bool :=
  match l with
  | a :: ((b :: _) as r) => le a b && mono le r
  | _ => true
  end.
Definition np_digitize (x : xr) (bins : list xr) : option nat :=
  if mono xle bins then Some (searchsorted_right bins x)
  else if mono xge bins then Some (List.length bins - searchsorted_right (rev bins) x)%nat
  else None.

(** np.interp: the same function as [jnp_interp] on sorted tables *)
Definition np_interp (x : xr) (xp fp : list xr) : xr := jnp_interp x xp fp.

(** Bin [j] of [np.histogram] and [scipy.stats.binned_statistic]: closed on the left, open
    on the right except for the last bin (scipy also accepts values that round to the last
    edge; not modelled) *)
Definition in_np_bin (E : list xr) (j : nat) (x : xr) : bool :=
  (at_ E j <=? x)%X && (if Nat.eqb (j + 2) (List.length E) then (x <=? at_ E (j + 1))%X else (x <? at_ E (j + 1))%X).
Definition nbins (E : list xr) : nat := (List.length E - 1)%nat.
Definition xcount (n : nat) : xr := Fin (INR n).
(** np.histogram(x, bins)[0] *)
Definition np_histogram (x E : list xr) : list xr :=
  map (fun j => xcount (List.length (filter (in_np_bin E j) x))) (seq 0 (nbins E)).
(** binned_statistic(x, values, bins, "count"/"sum")[0]; non-finite input raises, and so does
    no input at all (scipy takes its minimum) *)
Definition binned_count (x values E : list xr) : option (list xr) :=
  if negb (Nat.eqb (List.length x) 0) && same_len x values && forallb isfinite x && forallb isfinite values then
    Some (map (fun j => xcount (List.length (filter (in_np_bin E j) x))) (seq 0 (nbins E)))
  else None.
Definition binned_sum (x values E : list xr) : option (list xr) :=
  if negb (Nat.eqb (List.length x) 0) && same_len x values && forallb isfinite x && forallb isfinite values then
    Some (map (fun j => xsum (map snd (filter (fun p => in_np_bin E j (fst p)) (combine x values)))) (seq 0 (nbins E)))
  else None.

(** ** Constants (smdpl 39-51, tng 20-35, galacticus 19-29) *)
Definition T_TABLE_MIN : xr := Fin (1 / 100).
Definition N_HALOS_MAX : nat := 20000.
Definition NCHUNKS : nat := 20.
Definition LOGMH_BINS : list xr := linspace (Fin 11) (Fin (1475 / 100)) 12.
Definition LOGMH_BINS_GALACTICUS : list xr := linspace (Fin 11) (Fin (145 / 10)) 12.
Definition LOGMSTAR_BINS_PDF : list xr := linspace (Fin 7) (Fin 13) 26.
Definition LOGSSFR_BINS_PDF : list xr := linspace (Fin (-13)) (Fin (-8)) 30.

(** ** 217-235 [compute_diff_histograms_atz], 238-245 [compute_histograms_atz] *)
Definition compute_diff_histograms_atz (logmh_bins log_mah log_smh : list xr) : option (list xr * list xr) :=
  let n_halos := List.length log_smh in
  let nddata := col log_mah in
  let sigma := map (fun z => xmean (diff_ logmh_bins) + z)%X (zeros n_halos) in
  let ndsig := col sigma in
  let ones := map (fun _ => Fin 1) log_smh in
  let ndbins_lo := col (init_ logmh_bins) in
  let ndbins_hi := col (tail_ logmh_bins) in
  match tw_ndhist_weighted nddata ndsig log_smh ndbins_lo ndbins_hi,
        tw_ndhist_weighted nddata ndsig ones ndbins_lo ndbins_hi with
  | Some whist, Some wcounts => Some (wcounts, whist)
  | _, _ => None
  end.
Definition compute_histograms_atz (logmh_bins log_mah log_smh : list xr) : option (list xr * list xr) :=
  match binned_count log_mah log_smh logmh_bins, binned_sum log_mah log_smh logmh_bins with
  | Some count, Some whist => Some (count, whist)
  | _, _ => None
  end.

(** 477-499 [compute_diff_histograms_mstar_atmobs_z], 502-525
    [compute_diff_histograms_mstar_ssfr_atz]: unlike their namesakes in the loss kernels
    these return counts *)
Definition mstar_histograms (logmstar_bins log_smh : list xr) : option (list xr * list xr) :=
  let n_halos := List.length log_smh in
  let sigma := map (fun z => xmean (diff_ logmstar_bins) + z)%X (zeros n_halos) in
  match tw_ndhist_weighted (col log_smh) (col sigma) (map (fun _ => Fin 1) log_smh)
          (col (init_ logmstar_bins)) (col (tail_ logmstar_bins)) with
  | Some wcounts => Some (wcounts, np_histogram log_smh logmstar_bins)
  | None => None
  end.
Definition mstar_ssfr_histogram (log_smh log_ssfr : list xr) (ndbins_lo ndbins_hi : list (list xr))
    (logmstar_bins logssfr_bins : list xr) : option (list xr) :=
  let n_halos := List.length log_smh in
  let sigma_mstar := map (fun z => xmean (diff_ logmstar_bins) + z)%X (zeros n_halos) in
  let sigma_ssfr := map (fun z => xmean (diff_ logssfr_bins) + z)%X (zeros n_halos) in
  match pairs2 sigma_mstar sigma_ssfr, pairs2 log_smh log_ssfr with
  | Some ndsig, Some nddata =>
      tw_ndhist_weighted nddata ndsig (map (fun _ => Fin 1) log_smh) ndbins_lo ndbins_hi
  | _, _ => None
  end.
(** 569-577 *)
Definition joint_bins_lo (E1 E2 : list xr) : list (list xr) :=
  flat_map (fun i => map (fun j => [at_ E1 i; at_ E2 j]) (seq 0 (nbins E2))) (seq 0 (nbins E1)).
Definition joint_bins_hi (E1 E2 : list xr) : list (list xr) :=
  flat_map (fun i => map (fun j => [at_ E1 (i + 1); at_ E2 (j + 1)]) (seq 0 (nbins E2))) (seq 0 (nbins E1)).

(** Halo samples (smdpl 303-311, 462-472), one entry per column *)
Record Haloes := mkHaloes { h_logmh_id : list nat; h_logmh_val : list xr; h_mah : list (list xr);
  h_ms : list (list xr); h_q : list (list xr); h_upid : list Z;
  h_tobs_id : list nat; h_tobs_val : list xr; h_redshift : list xr }.

(** 428-474 [concatenate_samples_haloes]; np.concatenate of nothing raises *)
Definition concatenate_samples_haloes (data : list Haloes) : option Haloes :=
  match data with
  | [] => None
  | _ =>
    let cat {A} (f : Haloes -> list A) := List.concat (map f data) in
    Some (mkHaloes (cat h_logmh_id) (cat h_logmh_val) (cat h_mah) (cat h_ms) (cat h_q) (cat h_upid)
            (cat h_tobs_id) (cat h_tobs_val) (cat h_redshift))
  end.

Record Tables := mkTab { tb_t : list xr; tb_log_mah : list (list xr); tb_log_smh : list (list xr);
  tb_log_ssfr : list (list xr); tb_mah : MahParams (list xr); tb_sfh : DiffstarParams (list xr) }.

Record TargetData := mkTarget { td_wcounts : list (list xr); td_whist : list (list xr);
  td_counts : list (list xr); td_hist : list (list xr); td_age : list xr; td_haloes : Haloes;
  td_counts_cen : list (list xr); td_counts_sat : list (list xr) }.
Record PdfData := mkPdf { pd_wcounts : list (list (list xr)); pd_counts : list (list (list xr));
  pd_cent : list (list (list (list xr))); pd_sat : list (list (list (list xr))) }.

Definition mask_mah (msk : list bool) (p : MahParams (list xr)) : option (MahParams (list xr)) :=
  match mask msk (logm0 p), mask msk (logtc p), mask msk (early_index p), mask msk (late_index p),
        mask msk (t_peak p) with
  | Some a, Some b, Some c, Some d, Some e => Some (mkMah a b c d e)
  | _, _, _, _, _ => None
  end.
Definition ds_cols (p : DiffstarParams (list xr)) : list (list xr) :=
  [d_lgmcrit p; d_lgy_at_mcrit p; d_indx_lo p; d_indx_hi p; d_lg_qt p; d_qlglgdt p; d_lg_drop p; d_lg_rejuv p].
Definition ds_make (cols : list (list xr)) : option (DiffstarParams (list xr)) :=
  match cols with
  | [a; b; c; d; e; f; g; h] => Some (mkDiffstar a b c d e f g h)
  | _ => None
  end.
Definition hdf_mah (f : hdf) : option (MahParams (list xr)) :=
  match vmap (fun k => col1 k f) ["logm0"; "logtc"; "early_index"; "late_index"; "t_peak"]%string with
  | Some [a; b; c; d; e] => Some (mkMah a b c d e)
  | _ => None
  end.
Definition hdf_sfh (f : hdf) : option (list (list xr)) := vmap (fun k => col1 k f) (MS_FIELDS ++ Q_FIELDS).

(** elementwise [&] of masks of one length *)
Definition and_mask (a b : list bool) : option (list bool) :=
  if same_len a b then Some (map2 andb a b) else None.
Definition positive (l : list xr) : list bool := map (fun x => (Fin 0 <? x)%X) l.
Definition equals (c : xr) (l : list xr) : list bool := map (fun x => xeq x c) l.

(** sfh_model.py:80-88: [calc_sfh_galpop( *, lgt0, fb, return_smh=False)], no default for [fb] *)
Definition GALPOP_FB : option xr := None.

Section Targets.
(** The default of [calc_sfh_galpop]'s keyword [fb], which the smdpl and galacticus files leave
    out (157-159 and 73-75): an omitted keyword without a default raises.  At the pinned commit it
    has none ([GALPOP_FB]). *)
Variable galpop_fb : option xr.
Variable log_mah_kern : MahParams xr -> xr -> xr -> xr.
Variable mah_singlehalo : MahParams xr -> list xr -> xr -> list xr * list xr.
(** [Planck13.age(z).value] *)
Variable age : xr -> xr.
(** [np.random.choice(a, k, replace)]: the first two arguments tell the calls of one run
    apart *)
Variable choice : nat -> nat -> list nat -> nat -> bool -> list nat.

(** ** 125-174 [load_diffstar_sfh_tables], after the selection of the fits.  The argument
    [lgt0] fixes the last table time; the histories are evaluated with the module constant
    [LGT0], and with the baryon fraction given to [calc_sfh_galpop], if there is one. *)
Definition N_TABLE_TIMES : nat := 200.
Definition sfh_tables (mah : MahParams (list xr)) (sfh : DiffstarParams (list xr)) (lgt0 : xr) (fb : option xr) : option Tables :=
  let t_0 := xpow10 lgt0 in
  let t_table := linspace T_TABLE_MIN t_0 N_TABLE_TIMES in
  match mah_halopop mah_singlehalo mah t_table LGT0,
        match fb with Some fb => calc_sfh_galpop_smh log_mah_kern sfh mah t_table LGT0 fb | None => None end with
  | Some (_, log_mah_table), Some (sfh_table, smh_table) =>
      let log_sfh_table := map (map xlog10) sfh_table in
      let log_smh_table := map (map xlog10) smh_table in
      let log_ssfrh_table := map2 (map2 xsub) log_sfh_table log_smh_table in
      Some (mkTab t_table log_mah_table log_smh_table log_ssfrh_table mah sfh)
  | _, _ => None
  end.
Definition select_tables (has_fit : list bool) (mah : MahParams (list xr)) (sfh : list (list xr)) (lgt0 : xr) (fb : option xr)
  : option (Tables * list bool) :=
  match mask_mah has_fit mah, vmap (mask has_fit) sfh with
  | Some m, Some cols =>
      match ds_make cols with
      | Some s => match sfh_tables m s lgt0 fb with Some t => Some (t, has_fit) | None => None end
      | None => None
      end
  | _, _ => None
  end.

(** smdpl 143-151 *)
Definition load_diffstar_sfh_tables_smdpl (diffmah_data diffstar_data : hdf) (lgt0 : xr) : option (Tables * list bool) :=
  match col1 "loss" diffmah_data, col1 "success" diffstar_data, hdf_mah diffmah_data, hdf_sfh diffstar_data with
  | Some lm, Some su, Some mah, Some sfh =>
      match and_mask (positive lm) (equals (Fin 1) su) with
      | Some has_fit => select_tables has_fit mah sfh lgt0 galpop_fb
      | None => None
      end
  | _, _, _, _ => None
  end.

(** galacticus 48-66 and tng 92-103 *)
Definition load_fitted_tables (fb : option xr) (diffmah_data diffstar_data : hdf) (lgt0 : xr)
  : option (Tables * list bool) :=
  match col1 "loss" diffmah_data, col1 "loss" diffstar_data, col1 "success" diffstar_data,
        hdf_mah diffmah_data, hdf_sfh diffstar_data with
  | Some lm, Some ls, Some su, Some mah, Some sfh =>
      match and_mask (positive lm) (positive ls) with
      | Some m =>
        match and_mask m (equals (Fin 1) su) with
        | Some has_fit => select_tables has_fit mah sfh lgt0 fb
        | None => None
        end
      | None => None
      end
  | _, _, _, _, _ => None
  end.
Definition load_diffstar_sfh_tables_galacticus : hdf -> hdf -> xr -> option (Tables * list bool) :=
  load_fitted_tables galpop_fb.

(** tng 86-111: the same on the rows of one of [NCHUNKS] chunks, with [fb=FB] *)
Definition chunk_indices (n subvol : nat) : option (list nat) := indices_for_rank n NCHUNKS subvol.
Definition take_hdf (indx : list nat) (f : hdf) : option hdf :=
  vmap (fun kd => match snd kd with
                  | D1 v => option_map (fun w => (fst kd, D1 w)) (take v indx)
                  | D2 v => option_map (fun w => (fst kd, D2 w)) (take v indx)
                  end) f.
Definition load_diffstar_sfh_tables_tng (subvol : nat) (diffmah_data diffstar_data : hdf) (lgt0 : xr)
  : option (Tables * list bool) :=
  match col1 "logm0" diffmah_data with
  | Some lm0 =>
    match chunk_indices (List.length lm0) subvol with
    | Some indx =>
      match take_hdf indx diffmah_data, take_hdf indx diffstar_data with
      | Some dm, Some ds => load_fitted_tables (Some FB) dm ds lgt0
      | _, _ => None
      end
    | None => None
    end
  | None => None
  end.

(** ** 248-257 [get_redshift_from_age], [return_target_redshfit_index] *)
Definition redshift_knots : list xr := rev (linspace (Fin 0) (Fin 10) 2000).
Definition get_redshift_from_age (t : xr) : xr :=
  np_interp t (map age redshift_knots) redshift_knots.
Definition return_target_redshift_index (t_table redshift_targets : list xr) : option (list nat) :=
  let z_table := map get_redshift_from_age t_table in
  vmap (fun z => np_digitize z z_table) redshift_targets.

(** ** 260-313 [sample_halos] at target [i]: [per_bin] halos at most in each mass bin.
    [skip_empty] is true in the galacticus file only (162-163). *)
Definition in_sample_bin (E : list xr) (j : nat) (x : xr) : bool := ((at_ E j <=? x) && (x <? at_ E (j + 1)))%X.
Definition where_true (msk : list bool) : list nat := keep msk (seq 0 (List.length msk)).
Definition sample_indices (i : nat) (skip_empty : bool) (per_bin : nat) (E log_mah : list xr) : list (nat * list nat) :=
  flat_map (fun j =>
    let sel := map (in_sample_bin E j) log_mah in
    let cand := where_true sel in
    if skip_empty && Nat.eqb (List.length cand) 0 then []
    else [(j, choice i j cand (Nat.min per_bin (List.length cand)) false)]) (seq 0 (nbins E)).
Definition sample_halos (i : nat) (skip_empty : bool) (per_bin : nat) (E log_mah : list xr)
    (mah_rows ms_rows q_rows : list (list xr)) (upid : list Z) (tobs redshift : xr) : option Haloes :=
  let sels := sample_indices i skip_empty per_bin E log_mah in
  let pick {A} (l : list A) := option_map (@List.concat A) (vmap (fun s => take l (snd s)) sels) in
  match sels with
  | [] => None
  | _ =>
    match pick mah_rows, pick ms_rows, pick q_rows, pick upid with
    | Some m, Some s, Some q, Some u =>
        let ids := flat_map (fun s => repeat (fst s) (List.length (snd s))) sels in
        let mids := flat_map (fun s => repeat ((at_ E (fst s) + at_ E (fst s + 1)) / Fin 2)%X (List.length (snd s))) sels in
        Some (mkHaloes ids mids m s q u (repeat i (List.length ids)) (repeat tobs (List.length ids))
                (repeat redshift (List.length ids)))
    | _, _, _, _ => None
    end
  end.

(** ** 316-425 [create_target_data], after loading.  [cen] and [sat] are the masks of
    centrals and satellites, [upid] the identifiers handed to the samples. *)
Definition create_target_data (tb : Tables) (cen sat : list bool) (upid : list Z) (skip_empty : bool) (per_bin : nat)
    (redshift_targets E : list xr) : option TargetData :=
  let nt := List.length (tb_t tb) in
  match return_target_redshift_index (tb_t tb) redshift_targets with
  | None => None
  | Some tids =>
    match vmap (fun tid => match column nt (tb_log_mah tb) tid, column nt (tb_log_smh tb) tid with
                           | Some m, Some s => Some (m, s) | _, _ => None end) tids with
    | None => None
    | Some cols =>
      match vmap (fun ms => compute_diff_histograms_atz E (fst ms) (snd ms)) cols,
            vmap (fun ms => compute_histograms_atz E (fst ms) (snd ms)) cols,
            vmap (fun ms => match mask cen (fst ms), mask cen (snd ms) with
                            | Some m, Some s => compute_histograms_atz E m s | _, _ => None end) cols,
            vmap (fun ms => match mask sat (fst ms), mask sat (snd ms) with
                            | Some m, Some s => compute_histograms_atz E m s | _, _ => None end) cols,
            rows (cols_mah (tb_mah tb)), rows (ds_cols (tb_sfh tb)), vmap (nth_error (tb_t tb)) tids with
      | Some diffh, Some hh, Some hc, Some hs, Some mah_rows, Some sfh_rows, Some ages =>
        let ms_rows := map (firstn 4) sfh_rows in
        let q_rows := map (skipn 4) sfh_rows in
        match vmap (fun a => let '(i, ((m, _), (t, z))) := a in
                      sample_halos i skip_empty per_bin E m mah_rows ms_rows q_rows upid t z)
                (combine (seq 0 (List.length tids)) (combine cols (combine ages redshift_targets))) with
        | Some data =>
          match concatenate_samples_haloes data with
          | Some haloes => Some (mkTarget (map fst diffh) (map snd diffh) (map fst hh) (map snd hh) ages haloes
                                   (map fst hc) (map fst hs))
          | None => None
          end
        | None => None
        end
      | _, _, _, _, _, _, _ => None
      end
    end
  end.

(** ** 528-632 [create_pdf_target_data], after loading *)
Definition in_open_bin (E : list xr) (j : nat) (x : xr) : bool := ((at_ E j <? x) && (x <? at_ E (j + 1)))%X.
Definition pdf_cell (cen sat : list bool) (E Em Es : list xr) (mss : list xr * list xr * list xr) (j : nat)
  : option (list xr * list xr * list (list xr) * list (list xr)) :=
  let '(m, s, f) := mss in
  let sel := map (in_open_bin E j) m in
  let joint (msk : list bool) :=
    match and_mask sel msk with
    | Some k =>
      match mask k s, mask k f with
      | Some s', Some f' =>
        match mstar_ssfr_histogram s' f' (joint_bins_lo Em Es) (joint_bins_hi Em Es) Em Es with
        | Some h => reshape2 (nbins Em) (nbins Es) h
        | None => None
        end
      | _, _ => None
      end
    | None => None
    end in
  match mask sel s with
  | Some s' =>
    match mstar_histograms Em s', joint cen, joint sat with
    | Some (wc, c), Some hc, Some hs => Some (wc, c, hc, hs)
    | _, _, _ => None
    end
  | None => None
  end.
Definition create_pdf_target_data (tb : Tables) (cen sat : list bool) (redshift_targets E Em Es : list xr)
  : option PdfData :=
  let ssfr := map (map (clip_lo (Fin (-12)))) (tb_log_ssfr tb) in
  let nt := List.length (tb_t tb) in
  match return_target_redshift_index (tb_t tb) redshift_targets with
  | None => None
  | Some tids =>
    match vmap (fun tid =>
            match column nt (tb_log_mah tb) tid, column nt (tb_log_smh tb) tid, column nt ssfr tid with
            | Some m, Some s, Some f => vmap (pdf_cell cen sat E Em Es (m, s, f)) (seq 0 (nbins E))
            | _, _, _ => None
            end) tids with
    | Some cells =>
        Some (mkPdf (map (map (fun c => fst (fst (fst c)))) cells) (map (map (fun c => snd (fst (fst c)))) cells)
                (map (map (fun c => snd (fst c))) cells) (map (map snd) cells))
    | None => None
    end
  end.
End Targets.

(** Central and satellite masks and the identifiers given to the samples.
    smdpl 359, 385, 390, 395: *)
Definition cen_smdpl (upid : list Z) : list bool := map (fun u => (u =? -1)%Z) upid.
Definition sat_smdpl (upid : list Z) : list bool := map negb (cen_smdpl upid).
(** tng 301-302, 330-331 and galacticus 229-230, 260-261, from a 0/1 flag *)
Definition cen_flag (is_cen : list Z) : list bool := map (fun u => (u =? 1)%Z) is_cen.
Definition sat_flag (is_cen : list Z) : list bool := map (fun u => (u =? 0)%Z) is_cen.
Definition upid_flag (is_cen : list Z) : list Z := map (fun u => if (u =? 1)%Z then (-1)%Z else u) is_cen.

(** ** The measuring scripts.  What one subvolume contributes: *)
Definition Out : Type := TargetData * PdfData.
Definition add1 : list xr -> list xr -> list xr := map2 xadd.
Definition add2 : list (list xr) -> list (list xr) -> list (list xr) := map2 add1.
Definition add3 : list (list (list xr)) -> list (list (list xr)) -> list (list (list xr)) := map2 add2.
Definition add4 := map2 add3.
Definition zeros2 (a b : nat) : list (list xr) := repeat (zeros b) a.
Definition zeros3 (a b c : nat) := repeat (zeros2 b c) a.
Definition zeros4 (a b c d : nat) := repeat (zeros3 b c d) a.

(** The files smdpl_smhm.h5, smdpl_smhm_samples_haloes.h5 and smdpl_mstar_ssfr.h5 *)
Record Final := mkFinal { f_counts_diff : list (list xr); f_hist_diff : list (list xr);
  f_counts : list (list xr); f_hist : list (list xr); f_counts_cen : list (list xr); f_counts_sat : list (list xr);
  f_smhm_diff : list (list xr); f_smhm : list (list xr); f_age : list xr; f_haloes : Haloes;
  f_mstar_wcounts : list (list (list xr)); f_mstar_counts : list (list (list xr));
  f_cent : list (list (list (list xr))); f_sat : list (list (list (list xr))) }.

(** measure_smhm_smdpl 173-253: rank 0 collects [outs], in order; [age_targets] is left
    over from rank 0's own last subvolume *)
Definition collect (nz nm nmstar nssfr : nat) (age_targets : list xr) (outs : list Out) : option Final :=
  let sum2 (f : Out -> list (list xr)) := fold_left (fun a o => add2 a (f o)) outs (zeros2 nz nm) in
  let sum3 (f : Out -> list (list (list xr))) := fold_left (fun a o => add3 a (f o)) outs (zeros3 nz nm nmstar) in
  let sum4 (f : Out -> list (list (list (list xr)))) := fold_left (fun a o => add4 a (f o)) outs (zeros4 nz nm nmstar nssfr) in
  match concatenate_samples_haloes (map (fun o => td_haloes (fst o)) outs) with
  | Some haloes =>
    let wcounts := sum2 (fun o => td_wcounts (fst o)) in
    let whist := sum2 (fun o => td_whist (fst o)) in
    let counts := sum2 (fun o => td_counts (fst o)) in
    let hist := sum2 (fun o => td_hist (fst o)) in
    Some (mkFinal wcounts whist counts hist (sum2 (fun o => td_counts_cen (fst o))) (sum2 (fun o => td_counts_sat (fst o)))
            (map2 (map2 xdiv) whist wcounts) (map2 (map2 xdiv) hist counts) age_targets haloes
            (sum3 (fun o => pd_wcounts (snd o))) (sum3 (fun o => pd_counts (snd o)))
            (sum4 (fun o => pd_cent (snd o))) (sum4 (fun o => pd_sat (snd o))))
  | None => None
  end.

(** A subvolume either contributes, or some input file is missing, or its processing raises
    something else *)
Inductive sv_result := Contributes (o : Out) | FileMissing | Raises.

(** smdpl 93-161: one rank's loop; the result is what it wrote and its last
    [age_targets] *)
Fixpoint smdpl_rank (process : nat -> sv_result) (subvols : list nat) (written : list (nat * Out)) (last_age : option (list xr))
  : option (list (nat * Out) * option (list xr)) :=
  match subvols with
  | [] => Some (written, last_age)
  | i :: rest =>
    match process i with
    | Contributes o => smdpl_rank process rest (written ++ [(i, o)]) (Some (td_age (fst o)))
    | FileMissing => smdpl_rank process rest written last_age
    | Raises => None
    end
  end.
Fixpoint find_out (i : nat) (l : list (nat * Out)) : option Out :=
  match l with
  | [] => None
  | (k, o) :: l => if Nat.eqb k i then Some o else find_out i l
  end.
(** With [subvol_used], of length [n_subvol_max]: writing past its end raises *)
Definition smdpl_script (process : nat -> sv_result) (subvols : list nat) (n_subvol_max nz nm nmstar nssfr nranks : nat)
  : option (Final * list nat) :=
  match array_split subvols nranks with
  | None => None
  | Some parts =>
    match vmap (fun part => smdpl_rank process part [] None) parts with
    | Some ranks =>
      let written := List.concat (map fst ranks) in
      match vmap (fun i => find_out i written) subvols with
      | Some outs =>
        match hd None (map snd ranks) with
        | Some ages =>
          if forallb (fun i => Nat.ltb i n_subvol_max) subvols then
            match collect nz nm nmstar nssfr ages outs with
            | Some f => Some (f, fold_left (fun u i => upd u i 1%nat) subvols (repeat 0%nat n_subvol_max))
            | None => None
            end
          else None
        | None => None
        end
      | None => None
      end
    | None => None
    end
  end.

(** measure_smhm_tng 61-224: rank [r] processes chunk [r], rank 0 collects [NCHUNKS] files *)
Definition tng_measure_script (process : nat -> option Out) (nz nm nmstar nssfr nranks : nat) : option Final :=
  match vmap (fun r => option_map (fun o => (r, o)) (process r)) (seq 0 nranks) with
  | Some written =>
    match vmap (fun i => find_out i written) (seq 0 NCHUNKS) with
    | Some outs =>
      match find_out 0 written with
      | Some o0 => collect nz nm nmstar nssfr (td_age (fst o0)) outs
      | None => None
      end
    | None => None
    end
  | None => None
  end.

(** measure_smhm_galacticus 62-227: every rank does the same; rank 0 reads its own file *)
Definition galacticus_measure_script (process : nat -> option Out) (nz nm nmstar nssfr nranks : nat) : option Final :=
  match vmap (fun r => option_map (fun o => (r, o)) (process r)) (seq 0 nranks) with
  | Some written =>
    match find_out 0 written with
    | Some o0 => collect nz nm nmstar nssfr (td_age (fst o0)) [o0]
    | None => None
    end
  | None => None
  end.

(** ** The whole programs: one subvolume, chunk or catalog from its files.
    [upid] and [is_cen] are the catalog's columns before selection. *)
Section Programs.
Variable galpop_fb : option xr.
Variable log_mah_kern : MahParams xr -> xr -> xr -> xr.
Variable mah_singlehalo : MahParams xr -> list xr -> xr -> list xr * list xr.
Variable age : xr -> xr.
Variable choice : nat -> nat -> list nat -> nat -> bool -> list nat.

Definition smdpl_subvol (diffmah_data diffstar_data : hdf) (upid : list Z) (n_subvol_smdpl : nat)
    (redshift_targets : list xr) (lgt0 : xr) : option Out :=
  match load_diffstar_sfh_tables_smdpl galpop_fb log_mah_kern mah_singlehalo diffmah_data diffstar_data lgt0 with
  | Some (tb, has_fit) =>
    match mask has_fit upid with
    | Some u =>
      if Nat.eqb n_subvol_smdpl 0 then None else
      match create_target_data age choice tb (cen_smdpl u) (sat_smdpl u) u false (N_HALOS_MAX / n_subvol_smdpl)
              redshift_targets LOGMH_BINS,
            create_pdf_target_data age tb (cen_smdpl u) (sat_smdpl u) redshift_targets LOGMH_BINS
              LOGMSTAR_BINS_PDF LOGSSFR_BINS_PDF with
      | Some t, Some p => Some (t, p)
      | _, _ => None
      end
    | None => None
    end
  | None => None
  end.
Definition tng_chunk (diffmah_data diffstar_data : hdf) (is_cen : list Z) (subvol : nat) (redshift_targets : list xr)
    (lgt0 : xr) : option Out :=
  match load_diffstar_sfh_tables_tng log_mah_kern mah_singlehalo subvol diffmah_data diffstar_data lgt0,
        chunk_indices (List.length is_cen) subvol with
  | Some (tb, has_fit), Some indx =>
    match take is_cen indx with
    | Some c =>
      match mask has_fit c with
      | Some c =>
        match create_target_data age choice tb (cen_flag c) (sat_flag c) (upid_flag c) false (N_HALOS_MAX / NCHUNKS)
                redshift_targets LOGMH_BINS,
              create_pdf_target_data age tb (cen_flag c) (sat_flag c) redshift_targets LOGMH_BINS
                LOGMSTAR_BINS_PDF LOGSSFR_BINS_PDF with
        | Some t, Some p => Some (t, p)
        | _, _ => None
        end
      | None => None
      end
    | None => None
    end
  | _, _ => None
  end.
Definition galacticus_catalog (diffmah_data diffstar_data : hdf) (is_cen : list Z) (redshift_targets : list xr)
    (lgt0 : xr) : option Out :=
  match load_diffstar_sfh_tables_galacticus galpop_fb log_mah_kern mah_singlehalo diffmah_data diffstar_data lgt0 with
  | Some (tb, has_fit) =>
    match mask has_fit is_cen with
    | Some c =>
      match create_target_data age choice tb (cen_flag c) (sat_flag c) (upid_flag c) true N_HALOS_MAX
              redshift_targets LOGMH_BINS_GALACTICUS,
            create_pdf_target_data age tb (cen_flag c) (sat_flag c) redshift_targets LOGMH_BINS_GALACTICUS
              LOGMSTAR_BINS_PDF LOGSSFR_BINS_PDF with
      | Some t, Some p => Some (t, p)
      | _, _ => None
      end
    | None => None
    end
  | None => None
  end.
End Programs.
