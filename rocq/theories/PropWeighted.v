(** Properties of averaged star formation rates on finer and finer tables (C131) and of the
    halo-mass histograms of fitted galaxies today (C132). *)
From Coq Require Import Reals Lra Lia ZArith List Bool String.
From Coquelicot Require Import Coquelicot.
From Verif Require Import XReal RealFacts ModelUtils ModelKernels ModelSfh ModelLoad ModelIO ModelTargets ModelWeighted
  SpecCore SpecHist SpecTargets SpecMeasure SpecRefine SpecWeighted
  SfhProofs GasProofs RefineExamples MeasureTopProofs FstarRefine WeightedProofs TightQuality.
Import List ListNotations.
Open Scope R_scope.
Local Notation length := List.length.

(** C131: on fine enough tables [compute_fstar] is the mean star formation rate over the last
    [tau] Gyr, as closely as one likes. *)
Theorem C131_fstar_converges : forall log_mah_kern p mah lgt0 fb (m : R -> R) a b tau, 0 < a -> 0 < tau -> (forall t, a <= t <= b -> continuous m t) ->
  forall eps, 0 < eps -> exists h, 0 < h /\
  forall ts, halo_history log_mah_kern mah lgt0 m ts -> increasing ts -> Forall (fun t => a <= t <= b) ts -> spacing h ts ->
  exists sfh smh fs,
    calc_sfh_singlegal_smh log_mah_kern (map_d Fin p) mah (map Fin ts) lgt0 (Fin fb) = Some (map Fin sfh, map Fin smh) /\
    compute_fstar (map Fin ts) (map Fin smh) (Fin tau) = map Fin fs /\ length fs = length ts /\
    recent_mean (fun t => sfr_spec p fb (m t) t) ts fs tau eps.
Proof. exact fstar_converges. Qed.
Print Assumptions C131_fstar_converges.

(** C131: for any masses that grow by the integral of a non-negative rate up to [e] per Gyr,
    the error is at most this. *)
Theorem C131_fstar_error : forall (f : R -> R) (ts ms : list R) e B h tau, length ts = length ms -> increasing ts -> 0 < tau ->
  0 <= e -> 0 <= B -> 0 <= h ->
  (forall t, nth 0 ts 0 <= t <= nth (length ts - 1) ts 0 -> continuous f t) ->
  (forall t, nth 0 ts 0 <= t <= nth (length ts - 1) ts 0 -> 0 <= f t <= B) ->
  spacing h ts -> grows_by_integral f ts ms e ->
  exists fs, compute_fstar (map Fin ts) (map Fin ms) (Fin tau) = map Fin fs /\ length fs = length ts /\
  recent_mean f ts fs tau ((e * (nth (length ts - 1) ts 0 - nth 0 ts 0) + (2 * 10 ^ 9 * B + e) * h) / tau / 10 ^ 9).
Proof. exact fstar_refine. Qed.
Print Assumptions C131_fstar_error.

(** C131: on a given table it is not the mean of the tabulated history when the time [tau] ago
    falls between two entries: 3 instead of 7/2. *)
Theorem C131_between_refuted : exists ts ss mass fs, increasing (1 / 1000 :: ts) /\
  cumulative_mstar_formed (map Fin ts) (map Fin ss) = Some (map Fin mass) /\
  compute_fstar (map Fin ts) (map Fin mass) (Fin 1) = map Fin fs /\
  nth 0 ts 0 <= nth 2 ts 0 - 1 /\
  nth 2 fs 0 = 3 /\ RInt (pwl ((1 / 1000, 1 / 10 ^ 14) :: combine ts ss)) (nth 2 ts 0 - 1) (nth 2 ts 0) / 1 = 7 / 2.
Proof. exact fstar_between_refuted. Qed.
Print Assumptions C131_between_refuted.

Example C131_hyp : (forall t, 1 <= t <= 13 -> continuous (fun t => log10R (10 ^ 12 * t)) t) /\
  halo_history linear_halo mah_any LGT0 (fun t => log10R (10 ^ 12 * t)) [1; 5 / 2; 13] /\
  increasing [1; 5 / 2; 13] /\ Forall (fun t => 1 <= t <= 13) [1; 5 / 2; 13] /\ spacing (21 / 2) [1; 5 / 2; 13].
Proof. exact refine_example. Qed.
Example C131_error_hyp : length [1; 2; 4] = length (map (fun t => 10 ^ 9 * (t ^ 2 / 2)) [1; 2; 4]) /\
  (forall t, 1 <= t <= 4 -> continuous (fun t : R => t) t) /\ (forall t, 1 <= t <= 4 -> 0 <= t <= 4) /\
  spacing 2 [1; 2; 4] /\ grows_by_integral (fun t : R => t) [1; 2; 4] (map (fun t => 10 ^ 9 * (t ^ 2 / 2)) [1; 2; 4]) 0.
Proof. exact fstar_error_example. Qed.

(** C132: SMDPL, given the baryon fraction: [compute_weighted_histograms_z0] adds up the smooth
    bin weights of the fitted galaxies, and the weights times their log stellar masses, at the
    last table time. *)
Theorem C132_smdpl : forall kern sing lgt0 T, T = evenly (1 / 100) (pow10R lgt0) 200 -> 1 / 100 < pow10R lgt0 ->
  forall hm q p h M E, increasing E -> (2 <= length E)%nat ->
  forall dm ds I lm su, fit_files dm ds I lm su hm q ->
  let G := filter (fun g => above0 (lm g) && is1 (su g)) I in (forall g, In g G -> good kern sing T hm q p h M g) ->
  exists S F wc wh, compute_weighted_histograms_z0_smdpl (Some FB) kern sing dm ds (Fin lgt0) (map Fin E) = Some (map Fin wc, map Fin wh) /\
    (forall g, In g G -> galaxy_is kern sing T (hm g) (q g) (M g) (S g) (F g)) /\
    smooth_table G M (fun _ => 1) E wc /\ smooth_table G M (fun g => last (S g) 0) E wh.
Proof. exact smdpl_weighted. Qed.
Print Assumptions C132_smdpl.

(** C132: as committed it raises, because the baryon fraction is not given. *)
Theorem C132_smdpl_refuted : forall kern sing dm ds lgt0 E, compute_weighted_histograms_z0_smdpl GALPOP_FB kern sing dm ds lgt0 E = None.
Proof. exact smdpl_weighted_raises. Qed.
Print Assumptions C132_smdpl_refuted.

(** C132: TNG: the same of the fitted galaxies of one chunk; the tables of the 20 chunks add up
    to those of all fitted galaxies. *)
Theorem C132_tng : forall kern sing lgt0 T, T = evenly (1 / 100) (pow10R lgt0) 200 -> 1 / 100 < pow10R lgt0 ->
  forall hm q p h M E, increasing E -> (2 <= length E)%nat ->
  forall dm ds N lm ls su, fit_files dm ds (seq 0 N) lm su hm q -> lookup "loss" ds = Some (D1 (map ls (seq 0 N))) ->
  all_rows N dm -> all_rows N ds ->
  let G := filter (fun g => above0 (lm g) && above0 (ls g) && is1 (su g)) (seq 0 N) in (forall g, In g G -> good kern sing T hm q p h M g) ->
  exists S F (wc wh : nat -> list R),
    (forall r, (r < 20)%nat -> compute_weighted_histograms_z0_tng kern sing r dm ds (Fin lgt0) (map Fin E) = Some (map Fin (wc r), map Fin (wh r))) /\
    (forall g, In g G -> galaxy_is kern sing T (hm g) (q g) (M g) (S g) (F g)) /\
    (forall r, (r < 20)%nat -> let Gr := filter (fun g => above0 (lm g) && above0 (ls g) && is1 (su g)) (part N 20 r) in
       smooth_table Gr M (fun _ => 1) E (wc r) /\ smooth_table Gr M (fun g => last (S g) 0) E (wh r)) /\
    smooth_table G M (fun _ => 1) E (map (fun j => Rsum (map (fun r => nth j (wc r) 0) (seq 0 20))) (seq 0 (length E - 1))) /\
    smooth_table G M (fun g => last (S g) 0) E (map (fun j => Rsum (map (fun r => nth j (wh r) 0) (seq 0 20))) (seq 0 (length E - 1))).
Proof. exact tng_weighted_all. Qed.
Print Assumptions C132_tng.

(** C132: so no bin weighs more than the number of galaxies, and its mean log stellar mass lies
    between the least and the greatest of them. *)
Theorem C132_mean : forall kern sing lgt0 T, T = evenly (1 / 100) (pow10R lgt0) 200 -> 1 / 100 < pow10R lgt0 ->
  forall hm q p h M E, increasing E -> (2 <= length E)%nat ->
  forall dm ds I lm su, fit_files dm ds I lm su hm q ->
  let G := filter (fun g => above0 (lm g) && is1 (su g)) I in (forall g, In g G -> good kern sing T hm q p h M g) ->
  exists S F wc wh, compute_weighted_histograms_z0_smdpl (Some FB) kern sing dm ds (Fin lgt0) (map Fin E) = Some (map Fin wc, map Fin wh) /\
    (forall g, In g G -> galaxy_is kern sing T (hm g) (q g) (M g) (S g) (F g)) /\
    forall lo hi, (forall g, In g G -> lo <= last (S g) 0 <= hi) -> forall j, (Datatypes.S j < length E)%nat ->
      0 <= nth j wc 0 <= INR (length G) /\ lo * nth j wc 0 <= nth j wh 0 <= hi * nth j wc 0.
Proof. exact smdpl_smooth_mean. Qed.
Print Assumptions C132_mean.

Example C132_hyp : forall T, T = evenly (1 / 100) (pow10R 2) 200 ->
  1 / 100 < pow10R 2 /\ increasing (evenly 11 (1475 / 100) 12) /\ (2 <= length (evenly 11 (1475 / 100) 12))%nat /\
  fit_files (ex_dm [5; 8; 60]%nat) (ex_ds [5; 8; 60]%nat) [5; 8; 60]%nat ex_loss ex_flag ex_hm ex_q /\
  filter (fun g => above0 (ex_loss g) && is1 (ex_flag g)) [5; 8; 60]%nat = [5; 8]%nat /\
  (forall g, In g [5; 8]%nat ->
     good ex_kern ex_sing T ex_hm ex_q (fun _ => mkDiffstar 12 (-1) 1 (-1) 1 0 (-1) 0) (fun _ _ => 12) (fun _ => map (fun _ => 12) T) g) /\
  fit_files (ex_dm (seq 0 40)) (ex_ds (seq 0 40)) (seq 0 40) ex_loss ex_flag ex_hm ex_q /\
  all_rows 40 (ex_dm (seq 0 40)) /\ all_rows 40 (ex_ds (seq 0 40)) /\ lookup "loss" (ex_ds (seq 0 40)) = Some (D1 (map ex_loss (seq 0 40))) /\
  (forall g, In g (filter (fun g => above0 (ex_loss g) && above0 (ex_loss g) && is1 (ex_flag g)) (seq 0 40)) ->
     good ex_kern ex_sing T ex_hm ex_q (fun _ => mkDiffstar 12 (-1) 1 (-1) 1 0 (-1) 0) (fun _ _ => 12) (fun _ => map (fun _ => 12) T) g).
Proof. exact ex_weighted. Qed.
