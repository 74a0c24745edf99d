(** Properties of the programs that find numbered subvolume files in directories: C94-C96. *)
From Coq Require Import Reals Lra Lia ZArith List Bool String Permutation Ascii.
From Verif Require Import XReal ModelUtils ModelKernels ModelSfh ModelPop ModelHist ModelFit ModelLoad ModelIO SpecLoad ModelTargets ModelQuality ModelSubvol
  SpecCore SpecHist SpecTargets SpecMeasure SpecQuality TargetTopProofs MeasureTopProofs QualityTopProofs SpecSubvol SubvolProofs SubvolTopProofs.
Import List ListNotations.
Open Scope nat_scope.
Local Notation length := List.length.

(** C94: the listing gives the numbers on file once each in ascending order, whatever the
    order of the directory and whatever else it holds. *)
Theorem C94_listing : forall d V nm ds, holds "diffstar_fits_subvol_" ".hdf5" d V nm ds -> ascending V ->
  list_subvols d DIFFSTAR_BNPAT = Some V.
Proof. exact @list_subvols_value. Qed.
Print Assumptions C94_listing.

(** C94: with unpadded numbers, one of them below ten, or numbers of one width, each subvolume
    is read from its own pair of files; the halo fits may be numbered in the other way when
    the simulation is the one without merging. *)
Theorem C94_loading : forall sim_name dmdir d V nm dm ds, holds "diffstar_fits_subvol_" ".hdf5" d V nm ds -> regular V nm ->
  beside sim_name dmdir V nm dm ->
  forall v, In v V -> load_diffstar_subvolume v sim_name dmdir d DIFFSTAR_BNPAT = Loaded (dm v) (ds v).
Proof. exact load_value. Qed.
Print Assumptions C94_loading.

Example C94_hyp : forall dm ds : nat -> hdf, let V := [4; 12] in
  let d := stars V dec ds in let d0 := stars V (dec0 3) ds in let m := dr1_mahs V dec dm in let m0 := mahs V (dec0 3) dm in
  ascending V /\ holds "diffstar_fits_subvol_" ".hdf5" d V dec ds /\ holds "diffstar_fits_subvol_" ".hdf5" d0 V (dec0 3) ds /\
  unpadded V dec /\ of_width 3 V (dec0 3) /\ beside DR1 m V dec dm /\ beside DR1_nomerging m0 V dec dm /\
  map fst d = map lit ["diffstar_fits_subvol_4.hdf5"; "diffstar_fits_subvol_12.hdf5"; "notes.txt"]%string /\
  map fst m0 = map lit ["subvol_004_diffmah_fits.h5"; "subvol_012_diffmah_fits.h5"; "notes.txt"]%string.
Proof. exact ex_dirs. Qed.

(** C95: what the loader cannot read.  Unpadded numbers all of two and three digits make it
    raise for every subvolume; beside a name of one digit a padded name is not found. *)
Theorem C95_no_single_digit : forall d V nm ds, holds "diffstar_fits_subvol_" ".hdf5" d V nm ds ->
  forall a b, (forall v, In v V -> plain (nm v) v /\ 10 <= v) -> In a V -> a < 100 -> In b V -> 100 <= b ->
  forall v sim_name dmdir, load_diffstar_subvolume v sim_name dmdir d DIFFSTAR_BNPAT = Fails.
Proof. exact @load_gap. Qed.
Print Assumptions C95_no_single_digit.

Theorem C95_padded_beside_single_digit : forall d V nm ds, holds "diffstar_fits_subvol_" ".hdf5" d V nm ds ->
  forall u v, In u V -> length (nm u) = 1 -> In v V -> ~ plain (nm v) v ->
  forall sim_name dmdir, load_diffstar_subvolume v sim_name dmdir d DIFFSTAR_BNPAT = NotFound.
Proof. exact @load_mixed. Qed.
Print Assumptions C95_padded_beside_single_digit.

(** C95: the measuring program fails with no file, with a simulation name other than two, and
    with numbers it cannot read. *)
Theorem C95_measuring_fails : forall fb kern sing age choice upid sim_name dmdir dsdir nmax zs nranks V nm ds,
  holds "diffstar_fits_subvol_" ".hdf5" dsdir V nm ds -> ascending V ->
  V = [] \/ sim_name = Other \/
  (exists a b, (forall v, In v V -> plain (nm v) v /\ 10 <= v) /\ In a V /\ a < 100 /\ In b V /\ 100 <= b) \/
  (exists u v, In u V /\ length (nm u) = 1 /\ In v V /\ ~ plain (nm v) v) ->
  measure_smdpl fb kern sing age choice upid sim_name dmdir dsdir nmax zs nranks = None.
Proof. exact measure_fails. Qed.
Print Assumptions C95_measuring_fails.

(** C95: from the fitting program to the loader.  A run from [a] to [b] leaves files that are
    listed up to number 999 and, when it starts below 10, ends by 100 or starts from 100, are
    read back, each with its halo fits; a run that starts between 10 and 99 and goes past 100
    leaves files of which none can be read. *)
Theorem C95_run_then_load : forall a b ds extra d dmdir dm, Forall (unrelated "diffstar_fits_subvol_" ".hdf5") (map fst extra) ->
  Permutation d (map (fun vn => (snd vn, ds (fst vn))) (fit_names a (Z.of_nat b)) ++ extra) -> NoDup (map fst d) ->
  list_subvols d DIFFSTAR_BNPAT = Some (seq a (Nat.min b 1000 - a)) /\
  (a < 10 \/ b <= 100 \/ 100 <= a ->
   NoDup (map fst dmdir) -> (forall v s, a <= v < b -> plain s v -> In (bn "diffmah_fits_subvol_" ".hdf5" s, dm v) dmdir) ->
   forall v, a <= v < b -> v < 1000 -> load_diffstar_subvolume v DR1 dmdir d DIFFSTAR_BNPAT = Loaded (dm v) (ds v)) /\
  (10 <= a < 100 -> 100 < b -> forall v sim_name, load_diffstar_subvolume v sim_name dmdir d DIFFSTAR_BNPAT = Fails).
Proof. exact run_files_found. Qed.
Print Assumptions C95_run_then_load.

(** C95: the default end of the range, -1, fits nothing. *)
Theorem C95_default_end_fits_nothing : forall a, fit_names a (-1) = [].
Proof. exact default_run. Qed.
Print Assumptions C95_default_end_fits_nothing.

Example C95_hyp : forall ds : nat -> hdf,
  (holds "diffstar_fits_subvol_" ".hdf5" (stars [99; 100] dec ds) [99; 100] dec ds /\ ascending [99; 100] /\
   forall v, In v [99; 100] -> plain (dec v) v /\ 10 <= v) /\
  (holds "diffstar_fits_subvol_" ".hdf5" (stars [7; 8] odd_name ds) [7; 8] odd_name ds /\ ascending [7; 8] /\
   length (odd_name 7) = 1 /\ ~ plain (odd_name 8) 8 /\
   map fst (stars [7; 8] odd_name ds) = map lit ["diffstar_fits_subvol_7.hdf5"; "diffstar_fits_subvol_08.hdf5"; "notes.txt"]%string).
Proof. exact ex_bad. Qed.
Example C95_run : forall ds : nat -> hdf, let extra : dir := [(lit "subvol_007_tmp_sfh_fits_rank_0.dat", [])] in
  Forall (unrelated "diffstar_fits_subvol_" ".hdf5") (map fst extra) /\
  NoDup (map fst (map (fun vn => (snd vn, ds (fst vn))) (fit_names 7 12) ++ extra)).
Proof. exact ex_run. Qed.

Open Scope R_scope.
(** C96: SMDPL from the two directories to the final tables.  The tables are statistics of
    exactly the galaxies with positive halo loss and a successful fit in the numbered files,
    and the subvolume flags mark exactly the numbers found. *)
Theorem C96_directories_to_tables : forall kern sing age A T zs ids, setup age A (log10R (138 / 10)) T zs ids ->
  forall hm q p h M (choice : nat -> nat -> nat -> list nat -> nat -> bool -> list nat) (dm ds : nat -> hdf) (I : nat -> list nat) lm su up nmax nranks
    sim_name dmdir dsdir V nm,
  (forall v, choice_ok (choice v)) -> V <> [] -> (0 < nranks)%nat -> ascending V -> regular V nm ->
  holds "diffstar_fits_subvol_" ".hdf5" dsdir V nm ds -> beside sim_name dmdir V nm dm ->
  let G v := filter (fun g => above0 (lm g) && is1 (su g)) (I v) in
  (forall v, In v V -> (v < nmax)%nat /\ NoDup (I v) /\ fit_files (dm v) (ds v) (I v) lm su hm q /\ (forall g, In g (G v) -> good kern sing T hm q p h M g) /\
     (exists g, In g (G v) /\ up g = (-1)%Z) /\ (exists g, In g (G v) /\ up g <> (-1)%Z)) ->
  exists f S F, measure_smdpl (Some FB) kern sing age choice (fun v => map up (I v)) sim_name dmdir dsdir nmax (map Fin zs) nranks
      = Some (f, map (fun k => if existsb (Nat.eqb k) V then 1%nat else 0%nat) (seq 0 nmax)) /\
    (forall v g, In v V -> In g (G v) -> galaxy_is kern sing T (hm g) (q g) (M g) (S g) (F g)) /\
    final_tables (20000 / length V) hm q up (map G V) (fun g => (up g =? -1)%Z) (fun g => negb (up g =? -1)%Z) M S F T ids zs
      (evenly 11 (1475 / 100) 12) (evenly 7 13 26) (evenly (-13) (-8) 30) f.
Proof. exact measure_value. Qed.
Print Assumptions C96_directories_to_tables.

Example C96_hyp : let age (z : xr) := (Fin 13 - z)%X in
  setup age (fun z => 13 - z) (log10R (138 / 10)) exq_T [0; 1] [count (below 13) exq_T; count (below 12) exq_T] /\
  (forall v : nat, choice_ok ex_choice) /\
  let I (v : nat) := [2 * v; 2 * v + 1; 2 * v + 50]%nat in
  let G v := filter (fun g => above0 (ex_loss g) && is1 (ex_flag g)) (I v) in
  let up g := if Nat.even g then (-1)%Z else 3%Z in
  forall v, In v [4; 12]%nat -> (v < 20)%nat /\ NoDup (I v) /\ fit_files (ex_dm (I v)) (ex_ds (I v)) (I v) ex_loss ex_flag ex_hm ex_q /\
     (forall g, In g (G v) -> good ex_kern ex_sing exq_T ex_hm ex_q exq_p (fun _ _ => 12) exq_M g) /\
     (exists g, In g (G v) /\ up g = (-1)%Z) /\ (exists g, In g (G v) /\ up g <> (-1)%Z).
Proof. exact ex_measure. Qed.

(** C96: the comparison of simulated and fitted histories from the directories to its file. *)
Theorem C96_directories_to_quality : forall kern sing hm q p h M t E D mp, increasing (1 / 1000 :: t) ->
  let T := evenly (1 / 100) (138 / 10) 200 in
  forall dmdir dsdir V nm dm ds data P lm su I, length t = 117%nat -> V <> [] -> ascending V -> regular V nm ->
  holds "diffstar_fits_subvol_" ".hdf5" dsdir V nm ds -> beside DR1 dmdir V nm dm ->
  let sel g := above0 (lm g) && is1 (su g) in
  (forall v, In v V -> fit_files (dm v) (ds v) (I v) lm su hm q /\
     data v = Some (map (fun g => map Fin (D g)) (I v), map (fun g => map Fin (P g)) (I v)) /\
     (forall g, In g (I v) -> length (D g) = 117%nat) /\
     (forall g, In g (I v) -> sel g = true -> good kern sing T hm q p h M g /\ Forall (fun s => 0 <= s) (D g) /\ P g <> [] /\
        is_running_max (map clipped_log (P g)) (length (P g) - 1) (mp g))) ->
  exists o MD SF SM, quality_dr1 (Some FB) kern sing dmdir dsdir data (map Fin t) (map Fin E) = Some o /\
    (forall v g, In v V -> In g (I v) -> sel g = true -> formed t (D g) (MD g) /\ fit_is kern T (hm g) (q g) (SF g) (SM g)) /\
    quality_is E t T (List.concat (map (fun v => filter sel (I v)) V)) mp D MD SF SM (save_data_plot o).
Proof. exact quality_dr1_value. Qed.
Print Assumptions C96_directories_to_quality.

Example C96_quality_hyp :
  let t := map (fun k => INR (S k) / 10) (seq 0 117) in
  let I (v : nat) := [2 * v; 2 * v + 1; 2 * v + 50]%nat in
  let D (g : nat) := map (fun _ => 2) t in
  let P (g : nat) := [10 ^ 12; 10 ^ 12; 3] in
  let sel g := above0 (ex_loss g) && is1 (ex_flag g) in
  let data v := Some (map (fun g => map Fin (D g)) (I v), map (fun g => map Fin (P g)) (I v)) in
  length t = 117%nat /\ increasing (1 / 1000 :: t) /\ sel 8%nat = true /\
  forall v, In v [4; 12]%nat -> fit_files (ex_dm (I v)) (ex_ds (I v)) (I v) ex_loss ex_flag ex_hm ex_q /\
     data v = Some (map (fun g => map Fin (D g)) (I v), map (fun g => map Fin (P g)) (I v)) /\
     (forall g, In g (I v) -> length (D g) = 117%nat) /\
     (forall g, In g (I v) -> sel g = true -> good ex_kern ex_sing exq_T ex_hm ex_q exq_p (fun _ _ => 12) exq_M g /\
        Forall (fun s => 0 <= s) (D g) /\ P g <> [] /\ is_running_max (map clipped_log (P g)) (length (P g) - 1) 12).
Proof. exact ex_quality. Qed.
