(** Properties of fit tables and fitting scripts: C58-C61, C72, C73. *)
From Coq Require Import Reals Lra Lia ZArith List Bool Ascii String.
From Verif Require Import XReal ModelUtils ModelKernels ModelSfh ModelLoad ModelIO SpecCore SpecFit SpecIO SpecLoad
  TextProofs TableProofs ScriptProofs LoadTopProofs.
Import List ListNotations.
Open Scope string_scope.
Open Scope list_scope.
Open Scope R_scope.

(** C58: a row has one field per header column, in the header's order, and the fields read
    back as the id, the parameters and loss to printed precision, and the flag. *)
Theorem C58_row_reads_back : forall f4 id o, exists ws e, line_of (outline f4 (id, o)) ws /\
  List.length ws = List.length (snd get_header) /\
  parse_int (nth 0 ws []) = Some (e_id e) /\
  vmap parse_float (firstn 8 (skipn 1 ws)) = Some (params_list (e_params e)) /\
  parse_float (nth 9 ws []) = Some (e_loss e) /\
  parse_int (nth 10 ws []) = Some (e_success e) /\ entry_for f4 id o e.
Proof. exact row_reads_back. Qed.
Print Assumptions C58_row_reads_back.

(** C58: the header text and the column names. *)
Theorem C58_header :
  fst get_header = list_ascii_of_string
    "# halo_id lgmcrit lgy_at_mcrit indx_lo indx_hi lg_qt qlglgdt lg_drop lg_rejuv loss success" ++ [ascii_of_nat 10] /\
  snd get_header = map fst (fit_table []).
Proof. exact header_columns. Qed.
Print Assumptions C58_header.

(** C58: printing and reading a number changes it by at most half a unit in the sixth digit,
    and not at all if it has at most six significant digits. *)
Theorem C58_printed_precision : forall x, exists y, parse_float (fmt_5e x) = Some y /\ printed x y.
Proof. exact parse_fmt. Qed.
Print Assumptions C58_printed_precision.
Theorem C58_six_digits_exact : forall m k, (Z.abs m < 1000000)%Z ->
  parse_float (fmt_5e (Fin (IZR m * powerRZ 10 k))) = Some (Fin (IZR m * powerRZ 10 k)).
Proof. exact parse_fmt_exact. Qed.
Print Assumptions C58_six_digits_exact.

(** C58: collating the rank files gives one entry per row, in order. *)
Theorem C58_collated_table : forall f4 ranks, ranks <> [] -> Forall (fun gs => (2 <= List.length gs)%nat) ranks ->
  exists es, collate (map (rank_file f4) ranks) = Some (fit_table es) /\
    Forall2 (fun g e => entry_for f4 (fst g) (snd g) e) (List.concat ranks) es.
Proof. exact collate_spec. Qed.
Print Assumptions C58_collated_table.

Example C58_hyp : exists es, collate (map (rank_file (fun x => x))
    [[(7%Z, None); (8%Z, Some (mkDiffstar (Fin 12) (Fin (-10)) (Fin 1) (Fin (-1)) (Fin 1) (Fin (-1)) (Fin (-2)) (Fin (-1)), Fin (1 / 8), 1%Z))];
     [(9%Z, None); (10%Z, None)]]) = Some (fit_table es) /\ List.length es = 4%nat.
Proof.
  destruct (C58_collated_table (fun x => x)
    [[(7%Z, None); (8%Z, Some (mkDiffstar (Fin 12) (Fin (-10)) (Fin 1) (Fin (-1)) (Fin 1) (Fin (-1)) (Fin (-2)) (Fin (-1)), Fin (1 / 8), 1%Z))];
     [(9%Z, None); (10%Z, None)]]) as (es & E & F); [discriminate|repeat constructor|].
  exists es. split; [exact E|]. apply MoreLoadProofs.F2len in F. symmetry. exact F.
Qed.

(** C59: the ranks partition the galaxies in order, with loads differing by at most one. *)
Theorem C59_ranks_partition : forall N n, (0 < n)%nat -> exists parts,
  vmap (indices_for_rank N n) (seq 0 n) = Some parts /\ List.concat parts = seq 0 N /\ List.length parts = n /\
  forall p q, In p parts -> In q parts -> (List.length p <= List.length q + 1)%nat.
Proof. exact ranks_partition. Qed.
Print Assumptions C59_ranks_partition.

Example C59_hyp : vmap (indices_for_rank 7 3) (seq 0 3) = Some [[0; 1; 2]; [3; 4]; [5; 6]]%nat.
Proof. reflexivity. Qed.

(** C59: the galacticus script from its input files to its table, for any number of ranks
    with at least two galaxies each. *)
Theorem C59_galacticus_script : forall f4 msh dflt fit,
  (forall m t l, List.length (snd (msh m t l)) = List.length t) ->
  (forall r i t s m l fb, fit r i t s m l fb <> None) ->
  forall sfh_file diffmah_file colname lmin ins tot cen tarr sfhs hs,
  lookup "sfh_in_situ" sfh_file = Some (D2 ins) -> lookup "sfh_tot" sfh_file = Some (D2 tot) ->
  lookup "is_cen" sfh_file = Some cen -> lookup "tarr" sfh_file = Some (D1 tarr) ->
  (colname = "sfh_in_situ" /\ sfhs = ins) \/ (colname = "sfh_tot" /\ sfhs = tot) ->
  Forall (fun s => List.length s = List.length tarr) sfhs ->
  List.length ins = List.length hs -> List.length sfhs = List.length hs -> halo_table diffmah_file hs ->
  forall nranks, (0 < nranks)%nat -> (2 * nranks <= List.length hs)%nat ->
  exists es, galacticus_script f4 msh dflt fit sfh_file diffmah_file colname lmin nranks = Some (fit_table es) /\
    Forall2 (fun g e => exists h sfh o m x,
      nth_error hs g = Some h /\ nth_error sfhs g = Some sfh /\
      used_mah 5 h m /\ used_mass msh dflt 5 (last_ tarr) h x /\
      entry_for f4 (Z.of_nat g) o e /\
      treated nranks (fun r i => fit r i tarr sfh m (xlog10 (last_ tarr)) (Fin (493 / 3153)))
        ((Fin 0 <? h_loss h)%X = true /\ (lmin <? x)%X = true /\
         exists ms, cumulative_mstar_formed tarr sfh = Some ms /\ (Fin 8 <? xlog10 (last_ ms))%X = true) o)
      (seq 0 (List.length hs)) es.
Proof. exact galacticus_spec. Qed.
Print Assumptions C59_galacticus_script.

(** C59: the UniverseMachine script. *)
Theorem C59_umachine_script : forall f4 msh dflt fit,
  (forall m t l, List.length (snd (msh m t l)) = List.length t) ->
  (forall r i t s m l fb, fit r i t s m l fb <> None) ->
  forall ids sfhs tarr diffmah_file lmin hs nranks,
  List.length ids = List.length hs -> List.length sfhs = List.length hs -> halo_table diffmah_file hs ->
  (0 < nranks)%nat -> (2 * nranks <= List.length hs)%nat ->
  exists es, umachine_script f4 msh dflt fit ids sfhs tarr diffmah_file lmin nranks = Some (fit_table es) /\
    Forall2 (fun g e => exists id h sfh o m x,
      nth_error ids g = Some id /\ nth_error hs g = Some h /\ nth_error sfhs g = Some sfh /\
      used_mah 5 h m /\ used_mass msh dflt 5 (Fin (13820002 / 1000000)) h x /\
      entry_for f4 id o e /\
      treated nranks (fun r i => fit r i tarr sfh m (xlog10 (Fin (13820002 / 1000000))) (Fin (48206 / 307115)))
        ((Fin 0 <? h_loss h)%X = true /\ (lmin <? x)%X = true) o)
      (seq 0 (List.length hs)) es.
Proof. exact umachine_spec. Qed.
Print Assumptions C59_umachine_script.

(** C59: the TNG script fits every galaxy. *)
Theorem C59_tng_script : forall f4 msh dflt fit,
  (forall m t l, List.length (snd (msh m t l)) = List.length t) ->
  (forall r i t s m l fb, fit r i t s m l fb <> None) ->
  forall sd diffmah_file hs nranks,
  List.length (sd_sfrh sd) = List.length hs -> halo_table diffmah_file hs ->
  (0 < nranks)%nat -> (2 * nranks <= List.length hs)%nat ->
  exists es, tng_script f4 msh dflt fit sd diffmah_file nranks = Some (fit_table es) /\
    Forall2 (fun g e => exists h sfh o m,
      nth_error hs g = Some h /\ nth_error (sd_sfrh sd) g = Some sfh /\ used_mah 5 h m /\
      entry_for f4 (Z.of_nat g) o e /\
      treated nranks (fun r i => fit r i (sd_t sd) sfh m (xlog10 (last_ (sd_t sd))) (Fin (486 / 3089))) True o)
      (seq 0 (List.length hs)) es.
Proof. exact tng_spec. Qed.
Print Assumptions C59_tng_script.

Example C59_script_hyp : exists sfh_file diffmah_file hs tarr sfhs,
  lookup "sfh_in_situ" sfh_file = Some (D2 sfhs) /\ lookup "sfh_tot" sfh_file = Some (D2 sfhs) /\
  lookup "is_cen" sfh_file = Some (D1 [Fin 1; Fin 0]) /\ lookup "tarr" sfh_file = Some (D1 tarr) /\
  Forall (fun s => List.length s = List.length tarr) sfhs /\ List.length sfhs = List.length hs /\
  halo_table diffmah_file hs /\ (2 * 1 <= List.length hs)%nat /\
  (forall (m : MahParams xr) (t : list xr) (l : xr), List.length (snd ((fun _ t _ => (t, t)) m t l)) = List.length t).
Proof.
  set (hs := [mkHalo (mkMah (Fin 12) (Fin 0) (Fin 2) (Fin 1) (Fin 13)) (Fin 1) (Fin 20); mkHalo minus_ones (Fin (-1)) (Fin 2)]).
  exists [("sfh_in_situ", D2 [[Fin 1; Fin 2]; [Fin 0; Fin 0]]); ("sfh_tot", D2 [[Fin 1; Fin 2]; [Fin 0; Fin 0]]);
          ("is_cen", D1 [Fin 1; Fin 0]); ("tarr", D1 [Fin 1; Fin 13])],
    [("logm0", D1 (map (fun h => logm0 (h_mah h)) hs)); ("logtc", D1 (map (fun h => logtc (h_mah h)) hs));
     ("early_index", D1 (map (fun h => early_index (h_mah h)) hs)); ("late_index", D1 (map (fun h => late_index (h_mah h)) hs));
     ("t_peak", D1 (map (fun h => t_peak (h_mah h)) hs)); ("loss", D1 (map h_loss hs)); ("n_points_per_fit", D1 (map h_npts hs))],
    hs, [Fin 1; Fin 13], [[Fin 1; Fin 2]; [Fin 0; Fin 0]].
  repeat split; try reflexivity; repeat constructor.
Qed.

(** C60: collation fails as soon as one rank has fewer than two galaxies. *)
Theorem C60_short_rank_refuted : forall f4 ranks, Exists (fun gs => (List.length gs < 2)%nat) ranks ->
  collate (map (rank_file f4) ranks) = None.
Proof. exact collate_short. Qed.
Print Assumptions C60_short_rank_refuted.

(** C60: so the scripts fail whenever there are fewer than two galaxies per rank. *)
Theorem C60_umachine_script_refuted : forall f4 msh dflt fit,
  (forall m t l, List.length (snd (msh m t l)) = List.length t) ->
  (forall r i t s m l fb, fit r i t s m l fb <> None) ->
  forall ids sfhs tarr diffmah_file lmin hs nranks,
  List.length ids = List.length hs -> List.length sfhs = List.length hs -> halo_table diffmah_file hs ->
  (0 < nranks)%nat -> (List.length hs < 2 * nranks)%nat ->
  umachine_script f4 msh dflt fit ids sfhs tarr diffmah_file lmin nranks = None.
Proof. exact umachine_short. Qed.
Print Assumptions C60_umachine_script_refuted.
Theorem C60_galacticus_script_refuted : forall f4 msh dflt fit,
  (forall m t l, List.length (snd (msh m t l)) = List.length t) ->
  (forall r i t s m l fb, fit r i t s m l fb <> None) ->
  forall sfh_file diffmah_file colname lmin ins tot cen tarr sfhs hs,
  lookup "sfh_in_situ" sfh_file = Some (D2 ins) -> lookup "sfh_tot" sfh_file = Some (D2 tot) ->
  lookup "is_cen" sfh_file = Some cen -> lookup "tarr" sfh_file = Some (D1 tarr) ->
  (colname = "sfh_in_situ" /\ sfhs = ins) \/ (colname = "sfh_tot" /\ sfhs = tot) ->
  Forall (fun s => List.length s = List.length tarr) sfhs ->
  List.length ins = List.length hs -> List.length sfhs = List.length hs -> halo_table diffmah_file hs ->
  forall nranks, (0 < nranks)%nat -> (List.length hs < 2 * nranks)%nat ->
  galacticus_script f4 msh dflt fit sfh_file diffmah_file colname lmin nranks = None.
Proof. exact galacticus_short. Qed.
Print Assumptions C60_galacticus_script_refuted.
Theorem C60_tng_script_refuted : forall f4 msh dflt fit,
  (forall m t l, List.length (snd (msh m t l)) = List.length t) ->
  (forall r i t s m l fb, fit r i t s m l fb <> None) ->
  forall sd diffmah_file hs nranks,
  List.length (sd_sfrh sd) = List.length hs -> halo_table diffmah_file hs ->
  (0 < nranks)%nat -> (List.length hs < 2 * nranks)%nat ->
  tng_script f4 msh dflt fit sd diffmah_file nranks = None.
Proof. exact tng_short. Qed.
Print Assumptions C60_tng_script_refuted.

Example C60_hyp : collate (map (rank_file (fun x => x)) [[(1%Z, None); (2%Z, None)]; [(3%Z, None)]]) = None.
Proof. apply C60_short_rank_refuted. apply Exists_cons_tl, Exists_cons_hd. repeat constructor. Qed.

(** C61: what the loader hands out for a block of halos. *)
Theorem C61_loaded_rows : forall msh dflt, (forall m t l, List.length (snd (msh m t l)) = List.length t) ->
  forall f hs nmin t0 i j, halo_table f hs ->
  exists fits, load_smdpl_diffmah_fits msh dflt f (Fin nmin) t0 (Z.of_nat i) (Some (Z.of_nat j)) = Some fits /\
    halos_loaded msh dflt nmin t0 (rows_from hs i j) fits.
Proof. exact loaded_rows. Qed.
Print Assumptions C61_loaded_rows.

(** C61: a halo with a positive loss but fewer than five points is fitted, with all its halo
    parameters set to -1, whenever the default halo is massive enough. *)
Theorem C61_placeholder_fitted_refuted : forall msh dflt,
  (forall m t l, List.length (snd (msh m t l)) = List.length t) ->
  forall f4 fit, (forall r i t s m l fb, fit r i t s m l fb <> None) ->
  forall ids sfhs tarr file lmin hs nranks g h n,
  List.length ids = List.length hs -> List.length sfhs = List.length hs -> halo_table file hs ->
  (0 < nranks)%nat -> (2 * nranks <= List.length hs)%nat ->
  nth_error hs g = Some h -> (Fin 0 <? h_loss h)%X = true -> h_npts h = Fin n -> n < 5 ->
  (lmin <? mass_at msh dflt (Fin (13820002 / 1000000)))%X = true ->
  exists es e id r i sfh, umachine_script f4 msh dflt fit ids sfhs tarr file lmin nranks = Some (fit_table es) /\
    nth_error es g = Some e /\ nth_error ids g = Some id /\ nth_error sfhs g = Some sfh /\
    entry_for f4 id (fit r i tarr sfh minus_ones (xlog10 (Fin (13820002 / 1000000))) (Fin (48206 / 307115))) e.
Proof. exact umachine_placeholder. Qed.
Print Assumptions C61_placeholder_fitted_refuted.

Example C61_hyp : exists h n (msh : MahParams xr -> list xr -> xr -> list xr * list xr),
  (Fin 0 <? h_loss h)%X = true /\ h_npts h = Fin n /\ n < 5 /\
  (forall m t l, List.length (snd (msh m t l)) = List.length t) /\
  (LOGMP0_MIN <? mass_at msh minus_ones (Fin (13820002 / 1000000)))%X = true.
Proof.
  exists (mkHalo minus_ones (Fin 1) (Fin 4)), 4, (fun _ t _ => (t, map (fun _ => Fin 12) t)).
  split; [apply XFacts.xlt_fin; lra|]. split; [reflexivity|]. split; [lra|].
  split; [intros; cbn; apply map_length|]. unfold mass_at, LOGMP0_MIN. cbn [snd map nth]. apply XFacts.xlt_fin. lra.
Qed.

(** C72: tables written by the scripts cannot be read by [load_fit_sfh]. *)
Theorem C72_fit_table_unreadable_refuted : forall es,
  load_fit_sfh (map (fun kc => (fst kc, match snd kc with CInt l => D1 (map (fun z => Fin (IZR z)) l) | CFlt l => D1 l end)) (fit_table es)) = None.
Proof. exact tau_dep_missing. Qed.
Print Assumptions C72_fit_table_unreadable_refuted.

Example C72_hyp : exists r, load_fit_sfh
  (map (fun k => (k, D1 [Fin 1; Fin 2])) ["lgmcrit"; "lgy_at_mcrit"; "indx_lo"; "indx_hi"; "tau_dep"; "lg_qt"; "qlglgdt"; "lg_drop"; "lg_rejuv"]) = Some r.
Proof. eexists. reflexivity. Qed.

(** C73: a galaxy whose table says it formed more than 1e8 solar masses, but whose mass as
    computed by the script falls below the script's cut. *)
Theorem C73_mass_cut_refuted : exists ts bulge disk sfh ms,
  increasing (0 :: ts) /\ galacticus_sfh (map Fin ts) [map Fin bulge] [map Fin disk] = Some [sfh] /\
  10 ^ 8 < rsum bulge + rsum disk /\
  cumulative_mstar_formed (map Fin ts) sfh = Some ms /\ (MIN_LOGSM_Z0 <? xlog10 (last_ ms))%X = false.
Proof. exact half_mass. Qed.
Print Assumptions C73_mass_cut_refuted.
