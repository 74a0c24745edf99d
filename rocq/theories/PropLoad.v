(** Properties of the data loaders: C62-C66. *)
From Coq Require Import Reals Lra Lia ZArith List Bool String.
From Verif Require Import XReal ModelUtils ModelKernels ModelSfh ModelPop ModelHist ModelLoad SpecCore SpecLoad
  LoadProofs MoreLoadProofs LoadTopProofs ScriptProofs TightLoad.
Import List ListNotations.
Open Scope string_scope.
Open Scope list_scope.
Open Scope R_scope.

(** C62: consecutive blocks of a file stack up to the whole. *)
Theorem C62_blocks_stack : forall bs f i e keys c, (0 <= i)%Z -> ordered i bs e ->
  load_flat_hdf5 f i e keys = Some c ->
  exists parts, vmap (fun b => load_flat_hdf5 f (fst b) (snd b) keys) (blocks_of i bs e) = Some parts /\ stack_all parts c.
Proof. exact load_flat_blocks. Qed.
Print Assumptions C62_blocks_stack.

Example C62_hyp : ordered 0 [2; 3]%Z None /\ load_flat_hdf5 [("x", D1 [Fin 1; Fin 2; Fin 3; Fin 4])] 0 None None = Some [("x", D1 [Fin 1; Fin 2; Fin 3; Fin 4])] /\
  map fst (blocks_of 0 [2; 3]%Z None) = [0; 2; 3]%Z.
Proof. split; [cbn; lia|]. split; reflexivity. Qed.

(** C62: the same for the halo fits, including the masses and placeholders computed on load. *)
Theorem C62_halo_blocks : forall msh dflt, (forall m t l, List.length (snd (msh m t l)) = List.length t) ->
  forall f hs nmin t0 i b e, halo_table f hs -> (0 <= i <= b)%Z ->
  match e with Some k => (b <= k)%Z | None => True end ->
  exists x y z,
    load_smdpl_diffmah_fits msh dflt f (Fin nmin) t0 i (Some b) = Some x /\
    load_smdpl_diffmah_fits msh dflt f (Fin nmin) t0 b e = Some y /\
    load_smdpl_diffmah_fits msh dflt f (Fin nmin) t0 i e = Some z /\ fits_appended x y z.
Proof. exact halo_blocks. Qed.
Print Assumptions C62_halo_blocks.

(** C62: a galacticus block keeps the whole time table and slices the rest. *)
Theorem C62_galacticus_block : forall f ins tot cen tarr,
  lookup "sfh_in_situ" f = Some (D2 ins) -> lookup "sfh_tot" f = Some (D2 tot) ->
  lookup "is_cen" f = Some (D1 cen) -> lookup "tarr" f = Some (D1 tarr) ->
  forall a b, load_galacticus_sfh_data_block f (Z.of_nat a) (Z.of_nat b) =
    Some [("sfh_in_situ", D2 (rows_from ins a b)); ("sfh_tot", D2 (rows_from tot a b));
          ("is_cen", D1 (rows_from cen a b)); ("tarr", D1 tarr)].
Proof. exact galacticus_block. Qed.
Print Assumptions C62_galacticus_block.

Example C62_block_hyp : load_galacticus_sfh_data_block
  [("tarr", D1 [Fin 1; Fin 2]); ("is_cen", D1 [Fin 1; Fin 0; Fin 1]); ("sfh_tot", D2 [[Fin 1; Fin 2]; [Fin 3; Fin 4]; [Fin 5; Fin 6]]);
   ("sfh_in_situ", D2 [[Fin 0; Fin 1]; [Fin 2; Fin 3]; [Fin 4; Fin 5]])] 1 3
  = Some [("sfh_in_situ", D2 [[Fin 2; Fin 3]; [Fin 4; Fin 5]]); ("sfh_tot", D2 [[Fin 3; Fin 4]; [Fin 5; Fin 6]]);
          ("is_cen", D1 [Fin 0; Fin 1]); ("tarr", D1 [Fin 1; Fin 2])].
Proof. reflexivity. Qed.

(** C63: from the start of the catalog, row [k] holds galaxy [k]: the first half of its
    metallicity rows summed in the total table, the second half in the in-situ table. *)
Theorem C63_extract_from_start : forall nm nt gals, galcat nm nt gals -> (exists g, In g gals /\ g <> []) ->
  forall iend, (end_of gals iend <= List.length gals)%nat ->
  exists tot ins, extract_galacticus_sfh_tables (map (map (map Fin)) gals) 0 iend = Some (map (map Fin) tot, map (map Fin) ins) /\
    List.length tot = end_of gals iend /\ List.length ins = end_of gals iend /\
    forall k, (k < end_of gals iend)%nat ->
      nth k tot [] = gal_row nt (nth k gals []) 0 nm /\ nth k ins [] = gal_row nt (nth k gals []) nm (2 * nm).
Proof. exact extract_all. Qed.
Print Assumptions C63_extract_from_start.

(** C63: from a later start, galaxies are still written to the row of their position in the
    catalog: galaxies beyond the output's length raise, the others land in the wrong row. *)
Theorem C63_extract_offset_raises_refuted : forall nm nt gals, galcat nm nt gals -> (exists g, In g gals /\ g <> []) ->
  forall istart iend i, (istart <= end_of gals iend <= List.length gals)%nat ->
  (istart <= i < end_of gals iend)%nat -> (end_of gals iend - istart <= i)%nat -> nth i gals [] <> [] ->
  extract_galacticus_sfh_tables (map (map (map Fin)) gals) istart iend = None.
Proof. exact extract_fails. Qed.
Print Assumptions C63_extract_offset_raises_refuted.
Theorem C63_extract_offset_rows_refuted : forall nm nt gals, galcat nm nt gals -> (exists g, In g gals /\ g <> []) ->
  forall istart iend, (istart <= end_of gals iend <= List.length gals)%nat ->
  (forall i, (istart <= i < end_of gals iend)%nat -> (end_of gals iend - istart <= i)%nat -> nth i gals [] = []) ->
  exists tot ins, extract_galacticus_sfh_tables (map (map (map Fin)) gals) istart iend = Some (map (map Fin) tot, map (map Fin) ins) /\
    List.length tot = (end_of gals iend - istart)%nat /\ List.length ins = (end_of gals iend - istart)%nat /\
    forall k, (k < end_of gals iend - istart)%nat ->
      nth k tot [] = (if (istart <=? k)%nat then gal_row nt (nth k gals []) 0 nm else repeat 0 nt) /\
      nth k ins [] = (if (istart <=? k)%nat then gal_row nt (nth k gals []) nm (2 * nm) else repeat 0 nt).
Proof. exact extract_rows. Qed.
Print Assumptions C63_extract_offset_rows_refuted.

Example C63_hyp : galcat 1 2 [[]; [[1; 2]; [3; 4]]; []] /\
  (exists g, In g [[]; [[1; 2]; [3; 4]]; []] /\ g <> []) /\
  extract_galacticus_sfh_tables (map (map (map Fin)) [[]; [[1; 2]; [3; 4]]; []]) 1 None
    = Some ([[Fin 0; Fin 0]; [Fin (0 + 1); Fin (0 + 2)]], [[Fin 0; Fin 0]; [Fin (0 + 3); Fin (0 + 4)]]).
Proof.
  split; [constructor; [left; reflexivity|constructor; [right; split; [reflexivity|repeat constructor]|constructor; [left; reflexivity|constructor]]]|].
  split; [exists [[1; 2]; [3; 4]]; split; [cbn; auto|discriminate]|reflexivity].
Qed.

(** C64: star formation rate times elapsed time is the mass formed, bin by bin. *)
Theorem C64_sfr_conserves_mass : forall ts bulge disk, increasing (0 :: ts) ->
  Forall (fun r => List.length r = List.length ts) bulge -> Forall (fun r => List.length r = List.length ts) disk ->
  List.length bulge = List.length disk ->
  exists sfh, galacticus_sfh (map Fin ts) (map (map Fin) bulge) (map (map Fin) disk) = Some (map (map Fin) sfh) /\
    List.length sfh = List.length bulge /\ Forall (fun r => List.length r = List.length ts) sfh /\
    forall g k, (g < List.length bulge)%nat -> (k < List.length ts)%nat ->
      nth k (nth g sfh []) 0 * (interval ts k * 10 ^ 9) = nth k (nth g bulge []) 0 + nth k (nth g disk []) 0.
Proof. exact galacticus_sfh_value. Qed.
Print Assumptions C64_sfr_conserves_mass.

Example C64_hyp : increasing (0 :: [1; 3; 13]) /\ Forall (fun r => List.length r = 3%nat) [[1; 2; 3]; [0; 0; 5]].
Proof. split; [cbn; lra|repeat constructor]. Qed.

(** C65: loaded TNG halo histories are the running maxima of the raw ones (in Msun), and the
    final mass is the overall maximum. *)
Theorem C65_tng_running_max : forall sfh mh t sd, load_tng_data sfh (map (map Fin) mh) t = Some sd ->
  let raw := map (map (fun x => x - log10R (6774 / 10000))) mh in
  (exists ms, sd_log_mahs sd = map (map Fin) ms /\ running_max_rows raw ms) /\
  (Forall (fun l => l <> []) mh ->
   exists xs, sd_logmp0 sd = map Fin xs /\ Forall2 (fun l x => is_running_max l (List.length l - 1) x) raw xs).
Proof. exact tng_running_max. Qed.
Print Assumptions C65_tng_running_max.

(** C65: the same for SMDPL, after replacing masses below 1e7 by 1. *)
Theorem C65_smdpl_running_max : forall sfh mh t sd, load_SMDPL_data sfh (map (map Fin) mh) t = Some sd ->
  let raw := map (map clipped_log) mh in
  (exists ms, sd_log_mahs sd = map (map Fin) ms /\ running_max_rows raw ms) /\
  (Forall (fun l => l <> []) mh ->
   exists xs, sd_logmp0 sd = map Fin xs /\ Forall2 (fun l x => is_running_max l (List.length l - 1) x) raw xs).
Proof. exact smdpl_running_max. Qed.
Print Assumptions C65_smdpl_running_max.

(** C65: so loaded SMDPL log masses are zero or at least 7. *)
Theorem C65_smdpl_mass_gap : forall sfh mh t sd, load_SMDPL_data sfh (map (map Fin) mh) t = Some sd ->
  exists ms, sd_log_mahs sd = map (map Fin) ms /\ Forall (Forall (fun x => x = 0 \/ 7 <= x)) ms.
Proof. exact smdpl_gap. Qed.
Print Assumptions C65_smdpl_mass_gap.

(** C65: loaded log masses never decrease with time. *)
Theorem C65_running_max_monotone : forall sfh mh t sd,
  load_tng_data sfh (map (map Fin) mh) t = Some sd \/ load_SMDPL_data sfh (map (map Fin) mh) t = Some sd ->
  exists ms, sd_log_mahs sd = map (map Fin) ms /\
    Forall (fun m => forall i j, (i <= j < List.length m)%nat -> nth i m 0 <= nth j m 0) ms.
Proof. exact loaded_masses_mono. Qed.
Print Assumptions C65_running_max_monotone.

Example C65_hyp : exists sd, load_tng_data [map Fin [1; 2]] (map (map Fin) [[11; 10]]) (map Fin [1; 13]) = Some sd.
Proof.
  unfold load_tng_data, cumulative_mstar_formed_galpop, vmap. cbn [map sequence].
  change [Fin 1; Fin 13] with (map Fin [1; 13]). change [Fin 1; Fin 2] with (map Fin [1; 2]).
  rewrite IntegralProofs.cumulative_fin by reflexivity. eexists. reflexivity.
Qed.

(** C66: padding ragged bins with zero weights does not change the predicted distributions
    when the first histogram is finite. *)
Theorem C66_padding_neutral : forall ix nm im ixp wp nms nsf ps ids, prepare_ragged ix nm im = Some (ixp, wp) ->
  (forall a b, (a < nms)%nat -> (b < nsf)%nat -> exists v, ent (nth 0 ps (nan_matrix nms nsf)) a b = Fin v) ->
  exists ws, List.length ws = List.length ix /\
    (forall z, (z < List.length ix)%nat -> Forall2 (fun i v => nth_error (nth z nm []) i = Some v) (nth z im []) (nth z ws [])) /\
    conditional_pdfs nms nsf ps wp ixp ids = conditional_pdfs nms nsf ps ws ix ids.
Proof. exact ragged_sums. Qed.
Print Assumptions C66_padding_neutral.

(** C66: the padded arrays are rectangular. *)
Theorem C66_padded_rectangular : forall ix nm im ixp wp, prepare_ragged ix nm im = Some (ixp, wp) ->
  Forall (fun r => List.length r = list_max_len ix) ixp /\ Forall (fun r => List.length r = list_max_len ix) wp.
Proof. exact ragged_widths. Qed.
Print Assumptions C66_padded_rectangular.

(** C66: if the first histogram is undefined, padding spoils redshifts that never use it. *)
Theorem C66_padding_undefined_refuted : exists ix nm im ixp wp ps,
  prepare_ragged ix nm im = Some (ixp, wp) /\
  conditional_pdfs 1 1 ps [[Fin 1; Fin 1]; [Fin 1]] ix [0%nat] = Some [[[Fin 1]]; [[Fin 1]]] /\
  conditional_pdfs 1 1 ps wp ixp [0%nat] = Some [[[Fin 1]]; [[NaN]]].
Proof. exact ragged_nan. Qed.
Print Assumptions C66_padding_undefined_refuted.

Example C66_hyp : prepare_ragged [[1; 2]; [1]]%nat [[Fin 1; Fin 2]; [Fin 3; Fin 4]] [[0; 1]; [1]]%nat
  = Some ([[1; 2]; [1; 0]]%nat, [[Fin 1; Fin 2]; [Fin 4; Fin 0]]).
Proof. reflexivity. Qed.
