(** Properties of the comparison of simulated and fitted histories: C88-C93. *)
From Coq Require Import Reals Lra Lia ZArith List Bool String.
From Verif Require Import XReal ModelUtils ModelKernels ModelSfh ModelPop ModelHist ModelFit ModelLoad ModelIO SpecLoad ModelTargets ModelQuality
  SpecCore SpecHist SpecTargets SpecMeasure SpecQuality MeasureTopProofs QualityTopProofs TightQuality.
Import List ListNotations.
Open Scope R_scope.
Local Notation length := List.length.

(** C88: SMDPL, the subvolumes found.  The written means are those of the galaxies of all
    subvolumes with positive halo loss and a successful fit, and of no others, in bins of the
    largest halo mass reached, simulated and fitted values side by side. *)
Theorem C88_smdpl_means : forall kern sing hm q p h M t E D mp, increasing (1 / 1000 :: t) ->
  let T := evenly (1 / 100) (138 / 10) 200 in
  forall files data P lm su I subvols, length t = 117%nat -> subvols <> [] ->
  let sel g := above0 (lm g) && is1 (su g) in
  (forall v, In v subvols -> (exists dm ds, files v = Some (dm, ds) /\ fit_files dm ds (I v) lm su hm q) /\
     data v = Some (map (fun g => map Fin (D g)) (I v), map (fun g => map Fin (P g)) (I v)) /\
     (forall g, In g (I v) -> length (D g) = 117%nat) /\
     (forall g, In g (I v) -> sel g = true -> good kern sing T hm q p h M g /\ Forall (fun s => 0 <= s) (D g) /\ P g <> [] /\
        is_running_max (map clipped_log (P g)) (length (P g) - 1) (mp g))) ->
  exists o MD SF SM, calculate_plot_smdpl_dr1 (Some FB) kern sing files data (map Fin t) (map Fin E) subvols = Some o /\
    (forall v g, In v subvols -> In g (I v) -> sel g = true -> formed t (D g) (MD g) /\ fit_is kern T (hm g) (q g) (SF g) (SM g)) /\
    quality_is E t T (List.concat (map (fun v => filter sel (I v)) subvols)) mp D MD SF SM (save_data_plot o).
Proof. exact smdpl_quality. Qed.
Print Assumptions C88_smdpl_means.

(** C88: the same of the catalog without merging, of which subvolumes 0 to 575 are read. *)
Theorem C88_nomerging_means : forall kern sing hm q p h M t E D mp, increasing (1 / 1000 :: t) ->
  let T := evenly (1 / 100) (138 / 10) 200 in
  forall files data P lm su I, length t = 117%nat ->
  let sel g := above0 (lm g) && is1 (su g) in
  (forall v, (v < 576)%nat -> (exists dm ds, files v = Some (dm, ds) /\ fit_files dm ds (I v) lm su hm q) /\
     data v = Some (map (fun g => map Fin (D g)) (I v), map (fun g => map Fin (P g)) (I v)) /\
     (forall g, In g (I v) -> length (D g) = 117%nat) /\
     (forall g, In g (I v) -> sel g = true -> good kern sing T hm q p h M g /\ Forall (fun s => 0 <= s) (D g) /\ P g <> [] /\
        is_running_max (map clipped_log (P g)) (length (P g) - 1) (mp g))) ->
  exists o MD SF SM, calculate_plot_smdpl_nomerging (Some FB) kern sing files data (map Fin t) (map Fin E) = Some o /\
    (forall v g, (v < 576)%nat -> In g (I v) -> sel g = true -> formed t (D g) (MD g) /\ fit_is kern T (hm g) (q g) (SF g) (SM g)) /\
    quality_is E t T (List.concat (map (fun v => filter sel (I v)) (seq 0 576))) mp D MD SF SM (save_data_plot o).
Proof. exact nomerging_quality. Qed.
Print Assumptions C88_nomerging_means.

Example C88_hyp :
  let t := map (fun k => INR (S k) / 10) (seq 0 117) in
  let I (v : nat) := [2 * v; 2 * v + 1; 2 * v + 50]%nat in
  let D (g : nat) := map (fun _ => 2) t in
  let P (g : nat) := [10 ^ 12; 10 ^ 12; 3] in
  let sel g := above0 (ex_loss g) && is1 (ex_flag g) in
  let files v := Some (ex_dm (I v), ex_ds (I v)) in
  let data v := Some (map (fun g => map Fin (D g)) (I v), map (fun g => map Fin (P g)) (I v)) in
  length t = 117%nat /\ increasing (1 / 1000 :: t) /\ sel 8%nat = true /\
  forall v, In v [4; 7]%nat -> (exists dm ds, files v = Some (dm, ds) /\ fit_files dm ds (I v) ex_loss ex_flag ex_hm ex_q) /\
     data v = Some (map (fun g => map Fin (D g)) (I v), map (fun g => map Fin (P g)) (I v)) /\
     (forall g, In g (I v) -> length (D g) = 117%nat) /\
     (forall g, In g (I v) -> sel g = true -> good ex_kern ex_sing exq_T ex_hm ex_q exq_p (fun _ _ => 12) exq_M g /\
        Forall (fun s => 0 <= s) (D g) /\ P g <> [] /\ is_running_max (map clipped_log (P g)) (length (P g) - 1) 12).
Proof. exact exq_smdpl. Qed.

(** C89: TNG, read in 20 parts: the means are those of all galaxies with positive losses and a
    successful fit. *)
Theorem C89_tng_means : forall kern sing hm q p h M t E D mp, increasing (1 / 1000 :: t) ->
  let T := evenly (1 / 100) (138 / 10) 200 in
  forall dm ds N P lm ls su, fit_files dm ds (seq 0 N) lm su hm q -> lookup "loss" ds = Some (D1 (map ls (seq 0 N))) ->
  all_rows N dm -> all_rows N ds ->
  let sel g := above0 (lm g) && above0 (ls g) && is1 (su g) in
  (forall g, (g < N)%nat -> length (D g) = length t) ->
  (forall g, (g < N)%nat -> sel g = true -> good kern sing T hm q p h M g /\ Forall (fun s => 0 <= s) (D g) /\ P g <> [] /\
     is_running_max (map (fun x => x - log10R (6774 / 10000)) (P g)) (length (P g) - 1) (mp g)) ->
  exists o MD SF SM, calculate_plot_tng kern sing dm ds (map (fun g => map Fin (D g)) (seq 0 N)) (map (fun g => map Fin (P g)) (seq 0 N)) (map Fin t) (map Fin E) = Some o /\
    (forall g, (g < N)%nat -> sel g = true -> formed t (D g) (MD g) /\ fit_is kern T (hm g) (q g) (SF g) (SM g)) /\
    quality_is E t T (filter sel (seq 0 N)) mp D MD SF SM (save_data_plot o).
Proof. exact tng_quality. Qed.
Print Assumptions C89_tng_means.

Example C89_hyp :
  let t := map (fun k => INR (S k) / 10) (seq 0 100) in
  let D (g : nat) := map (fun _ => 2) t in
  let P (g : nat) := [12; 12; 11] in
  let sel g := above0 (ex_loss g) && above0 (ex_loss g) && is1 (ex_flag g) in
  increasing (1 / 1000 :: t) /\ all_rows 50 (ex_dm (seq 0 50)) /\ all_rows 50 (ex_ds (seq 0 50)) /\
  lookup "loss" (ex_ds (seq 0 50)) = Some (D1 (map ex_loss (seq 0 50))) /\ sel 5%nat = true /\ sel 45%nat = false /\
  (forall g, (g < 50)%nat -> length (D g) = length t) /\
  (forall g, (g < 50)%nat -> sel g = true -> good ex_kern ex_sing exq_T ex_hm ex_q exq_p (fun _ _ => 12) exq_M g /\
     Forall (fun s => 0 <= s) (D g) /\ P g <> [] /\
     is_running_max (map (fun x => x - log10R (6774 / 10000)) (P g)) (length (P g) - 1) (12 - log10R (6774 / 10000))).
Proof. exact exq_tng. Qed.

(** C90: Galacticus, in bins of the last halo mass of one set of halo fits, with histories
    from another. *)
Theorem C90_galacticus_means : forall kern sing hm q p h M t E D mp, increasing (1 / 1000 :: t) ->
  let T := evenly (1 / 100) (138 / 10) 200 in
  forall dm0 dm ds hm0 M0 lm ls su I, halo_file dm0 I hm0 -> fit_files dm ds I lm su hm q -> lookup "loss" ds = Some (D1 (map ls I)) ->
  let sel g := above0 (lm g) && above0 (ls g) && is1 (su g) in
  (forall g, In g I -> length (D g) = length t) ->
  (forall g, In g I -> sel g = true -> good kern sing T hm q p h M g /\ Forall (fun s => 0 <= s) (D g) /\
     snd (sing (hm0 g) (map Fin t) LGT0) = map Fin (M0 g) /\ M0 g <> [] /\ mp g = last (M0 g) 0) ->
  exists o MD SF SM, calculate_plot_galcus (Some FB) kern sing dm0 dm ds (map (fun g => map Fin (D g)) I) (map Fin t) (map Fin E) = Some o /\
    (forall g, In g I -> sel g = true -> formed t (D g) (MD g) /\ fit_is kern T (hm g) (q g) (SF g) (SM g)) /\
    quality_is E t T (filter sel I) mp D MD SF SM (save_data_plot o).
Proof. exact galacticus_quality. Qed.
Print Assumptions C90_galacticus_means.

Example C90_hyp : forall r, 0 <= r ->
  let t := [1; 2; 3] in
  let I := [5; 8; 60]%nat in
  let D (g : nat) := [r; r; r] in
  let sel g := above0 (ex_loss g) && above0 (ex_loss g) && is1 (ex_flag g) in
  increasing (1 / 1000 :: t) /\ halo_file (ex_dm I) I ex_hm /\ fit_files (ex_dm I) (ex_ds I) I ex_loss ex_flag ex_hm ex_q /\
  lookup "loss" (ex_ds I) = Some (D1 (map ex_loss I)) /\ filter sel I = [5; 8]%nat /\ (forall g, In g I -> length (D g) = length t) /\
  (forall g, In g I -> sel g = true -> good ex_kern ex_sing exq_T ex_hm ex_q exq_p (fun _ _ => 12) exq_M g /\ Forall (fun s => 0 <= s) (D g) /\
     snd (ex_sing (ex_hm g) (map Fin t) LGT0) = map Fin [12; 12; 12] /\ [12; 12; 12] <> [] /\ 12 = last [12; 12; 12] 0).
Proof. exact exq_galacticus. Qed.

(** C91: fits that pass through the simulated values give the same means. *)
Theorem C91_perfect_fit : forall E t T G mp D MD SF SM f, quality_is E t T G mp D MD SF SM f ->
  forall i k, (i < length E - 1)%nat -> (k < length t)%nat ->
  (forall g, In g (inside E mp i G) -> 0 < nth k (D g) 0 /\ 0 < nth k (MD g) 0 /\ nth k (MD g) 0 <> 1 /\
     interp T (map log10R (SF g)) (nth k t 0) = log10R (nth k (D g) 0) /\ interp T (map log10R (SM g)) (nth k t 0) = log10R (nth k (MD g) 0)) ->
  written "mstar_fit_mean" f i k = written "mstar_data_mean" f i k /\ written "sfr_fit_mean" f i k = written "sfr_data_mean" f i k.
Proof. exact perfect_fit. Qed.
Print Assumptions C91_perfect_fit.

(** C91: the mean SFR is at least 1e-12 per year of the mean mass, simulated and fitted, where
    no rate is exactly one (or, simulated, zero). *)
Theorem C91_ssfr_floor : forall E t T G mp D MD SF SM f, quality_is E t T G mp D MD SF SM f ->
  forall i k, (i < length E - 1)%nat -> (k < length t)%nat -> inside E mp i G <> [] ->
  ((forall g, In g (inside E mp i G) -> 0 < nth k (MD g) 0 /\ 0 < nth k (D g) 0 /\ nth k (D g) 0 <> 1) ->
   exists s m, written "sfr_data_mean" f i k = Fin s /\ written "mstar_data_mean" f i k = Fin m /\ 1 / 10 ^ 12 * m <= s) /\
  ((forall g, In g (inside E mp i G) -> interp T (map log10R (SF g)) (nth k t 0) <> 0) ->
   exists s m, written "sfr_fit_mean" f i k = Fin s /\ written "mstar_fit_mean" f i k = Fin m /\ 1 / 10 ^ 12 * m <= s).
Proof. exact ssfr_floor. Qed.
Print Assumptions C91_ssfr_floor.

(** C91, C92: so the file of the Galacticus comparison. *)
Theorem C91_galacticus_file : forall kern sing hm q p h M t E D mp, increasing (1 / 1000 :: t) ->
  let T := evenly (1 / 100) (138 / 10) 200 in
  forall dm0 dm ds hm0 M0 lm ls su I, halo_file dm0 I hm0 -> fit_files dm ds I lm su hm q -> lookup "loss" ds = Some (D1 (map ls I)) ->
  let sel g := above0 (lm g) && above0 (ls g) && is1 (su g) in
  (forall g, In g I -> length (D g) = length t) ->
  (forall g, In g I -> sel g = true -> good kern sing T hm q p h M g /\ Forall (fun s => 0 <= s) (D g) /\
     snd (sing (hm0 g) (map Fin t) LGT0) = map Fin (M0 g) /\ M0 g <> [] /\ mp g = last (M0 g) 0) ->
  exists o MD SF SM, calculate_plot_galcus (Some FB) kern sing dm0 dm ds (map (fun g => map Fin (D g)) I) (map Fin t) (map Fin E) = Some o /\
    (forall g, In g I -> sel g = true -> formed t (D g) (MD g) /\ fit_is kern T (hm g) (q g) (SF g) (SM g)) /\
    (let f := save_data_plot o in let G := filter sel I in
     forall i k, (i < length E - 1)%nat -> (k < length t)%nat ->
     ((forall g, In g (inside E mp i G) -> 0 < nth k (D g) 0 /\ 0 < nth k (MD g) 0 /\ nth k (MD g) 0 <> 1 /\
         interp T (map log10R (SF g)) (nth k t 0) = log10R (nth k (D g) 0) /\ interp T (map log10R (SM g)) (nth k t 0) = log10R (nth k (MD g) 0)) ->
      written "mstar_fit_mean" f i k = written "mstar_data_mean" f i k /\ written "sfr_fit_mean" f i k = written "sfr_data_mean" f i k) /\
     (inside E mp i G <> [] -> (forall g, In g (inside E mp i G) -> interp T (map log10R (SF g)) (nth k t 0) <> 0) ->
      exists s m, written "sfr_fit_mean" f i k = Fin s /\ written "mstar_fit_mean" f i k = Fin m /\ 1 / 10 ^ 12 * m <= s) /\
     (inside E mp i G = [] ->
      written "mstar_data_mean" f i k = NaN /\ written "mstar_fit_mean" f i k = NaN /\ written "sfr_data_mean" f i k = NaN /\ written "sfr_fit_mean" f i k = NaN)).
Proof. exact galacticus_written. Qed.
Print Assumptions C91_galacticus_file.

Example C91_file : forall E t T G mp D MD SF SM, exists f, quality_is E t T G mp D MD SF SM f.
Proof. exact ex_written. Qed.
Example C91_hyp : let h := [4; 9; 7] in let mp (g : nat) := INR g in
  let T := [1; 2; 3] in
  forall g, In g (inside [11; 13] mp 0 [12; 14]%nat) -> forall k, (k < 3)%nat ->
    0 < nth k h 0 /\ nth k h 0 <> 1 /\ interp T (map log10R h) (nth k T 0) = log10R (nth k h 0) /\ In 12%nat (inside [11; 13] mp 0 [12; 14]%nat).
Proof. exact exq_perfect. Qed.

(** C92: an SFR of exactly one solar mass per year is counted as zero: three galaxies forming
    stars at that rate throughout give a mean rate of zero beside a positive mean mass. *)
Theorem C92_unit_rate_refuted : exists kern sing dm0 dm ds o,
  calculate_plot_galcus (Some FB) kern sing dm0 dm ds (repeat (map Fin [1; 1; 1]) 3) (map Fin [1; 2; 3]) (map Fin [11; 13]) = Some o /\
  forall k, (k < 3)%nat -> written "sfr_data_mean" (save_data_plot o) 0 k = Fin 0 /\
    exists m, written "mstar_data_mean" (save_data_plot o) 0 k = Fin m /\ 0 < m.
Proof. exact unit_rate_refuted. Qed.
Print Assumptions C92_unit_rate_refuted.

(** C92: galaxies exactly on an edge, or outside all bins, change nothing. *)
Theorem C92_edges_dropped : forall E t T G mp D MD SF SM f, quality_is E t T G mp D MD SF SM f ->
  forall P, increasing E -> (forall g, In g G -> P g = false -> In (mp g) E \/ mp g < hd 0 E \/ last E 0 < mp g) ->
  quality_is E t T (filter P G) mp D MD SF SM f.
Proof. exact edges_dropped. Qed.
Print Assumptions C92_edges_dropped.

(** C92: a bin without galaxies holds NaN. *)
Theorem C92_empty_bin : forall E t T G mp D MD SF SM f, quality_is E t T G mp D MD SF SM f ->
  forall i k, (i < length E - 1)%nat -> (k < length t)%nat -> inside E mp i G = [] ->
  written "mstar_data_mean" f i k = NaN /\ written "mstar_fit_mean" f i k = NaN /\ written "sfr_data_mean" f i k = NaN /\ written "sfr_fit_mean" f i k = NaN.
Proof. exact empty_bin. Qed.
Print Assumptions C92_empty_bin.

(** C92: the bins of the script are six, half a dex wide, from 11.25 to 14.25. *)
Theorem C92_default_bins : MPEAK_BINS = map Fin (evenly (1125 / 100) (1425 / 100) 7).
Proof. exact default_bins. Qed.
Print Assumptions C92_default_bins.

Example C92_hyp : increasing [11; 13; 14] /\ inside [11; 13; 14] (fun _ => 12) 1 [3; 4]%nat = [] /\ In 13 [11; 13; 14].
Proof. exact exq_edges. Qed.

(** C93: the SMDPL comparison raises when there is no subvolume, when a file is missing, and
    when the table of times has other than 117 entries. *)
Theorem C93_raises : forall fb kern sing files data smdpl_t E subvols,
  (subvols = [] \/ (exists v, In v subvols /\ (files v = None \/ data v = None)) \/
   (length smdpl_t <> 1%nat /\ length smdpl_t <> 117%nat /\ (2 <= length E)%nat)) ->
  calculate_plot_smdpl_dr1 fb kern sing files data smdpl_t E subvols = None.
Proof. exact smdpl_raises. Qed.
Print Assumptions C93_raises.

(** C93: without merging every one of the 576 subvolumes must be there. *)
Theorem C93_nomerging_raises : forall fb kern sing files data t E v, (v < 576)%nat -> files v = None \/ data v = None ->
  calculate_plot_smdpl_nomerging fb kern sing files data t E = None.
Proof. exact nomerging_raises. Qed.
Print Assumptions C93_nomerging_raises.

Example C93_hyp : length [1; 2; 3] <> 1%nat /\ length [1; 2; 3] <> 117%nat /\ (2 <= length [11; 13])%nat.
Proof. exact exq_lengths. Qed.
