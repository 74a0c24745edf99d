(** Properties of the smooth histograms and population losses: C28 (third copy of the
    triweight kernel), C45-C49, C67. *)
From Coq Require Import Reals Lra Lia ZArith Permutation String.
From Coquelicot Require Import Coquelicot.
From Coq Require Import List Bool.
From Verif Require Import XReal ModelUtils ModelKernels ModelSfh ModelPop ModelHist SpecCore SpecPop SpecHist
  HistProofs SmhmProofs LossProofs PopLossProofs.
Import List ListNotations.
Open Scope string_scope.
Open Scope list_scope.
Open Scope R_scope.

(** C28: the copy used by the histograms agrees with the others. *)
Theorem C28_triweight_third_copy : forall x m h, 0 < h ->
  tw_cuml_lax_kern (Fin x) (Fin m) (Fin h) = Fin (tw_cdf ((x - m) / h)) /\
  tw_cuml_lax_kern (Fin x) (Fin m) (Fin h) = tw_cuml_jax_kern (Fin x) (Fin m) (Fin h).
Proof. exact tw_lax_copy. Qed.
Print Assumptions C28_triweight_third_copy.

Theorem C28_triweight_bin_third_copy : forall x s lo hi, 0 < s -> lo <= hi ->
  tw_bin_weight_lax_kern (Fin x) (Fin s) (Fin lo) (Fin hi) = Fin (RInt (fun t => tw_pdf ((t - x) / s) / s) lo hi) /\
  0 <= RInt (fun t => tw_pdf ((t - x) / s) / s) lo hi <= 1.
Proof. exact tw_lax_bin. Qed.
Print Assumptions C28_triweight_bin_third_copy.

Example C28_hyp : 0 < 1 / 2 /\ 1 <= 2. Proof. lra. Qed.

(** C45: weight of one galaxy in one box. *)
Theorem C45_weight_range : forall x s lo hi, length s = length x -> length lo = length x -> length hi = length x ->
  Forall (fun w => 0 < w) s -> Forall2 Rle lo hi ->
  exists w, tw_ndhist_kern (map Fin x) (map Fin s) (map Fin lo) (map Fin hi) = Some (Fin w) /\
    w = cell_mass x s lo hi /\ 0 <= w <= 1.
Proof. exact weight_range. Qed.
Print Assumptions C45_weight_range.

(** C45: weights over a grid of contiguous bins telescope to the weight of the whole range. *)
Theorem C45_histogram_telescopes : forall Es X S, points (length Es) X S -> Forall (fun E => E <> []) Es ->
  exists h, tw_ndhist (map (map Fin) X) (map (map Fin) S) (map (map Fin) (lows (grid Es))) (map (map Fin) (highs (grid Es)))
    = Some (map Fin h) /\
  Rsum h = Rsum (map (fun p => cell_mass (fst p) (snd p) (map (hd 0) Es) (map (fun E => last E 0) Es)) (combine X S)).
Proof. exact hist_total. Qed.
Print Assumptions C45_histogram_telescopes.

(** C45: a grid that covers mean +- 3 sigma of every galaxy counts every galaxy once. *)
Theorem C45_histogram_counts_all : forall Es X S, points (length Es) X S -> Forall (fun E => E <> []) Es ->
  Forall2 (covers Es) X S ->
  exists h, tw_ndhist (map (map Fin) X) (map (map Fin) S) (map (map Fin) (lows (grid Es))) (map (map Fin) (highs (grid Es)))
    = Some (map Fin h) /\ Rsum h = INR (length X).
Proof. exact hist_count. Qed.
Print Assumptions C45_histogram_counts_all.

Theorem C45_weighted_histogram_counts_all : forall Es X S Y, points (length Es) X S -> length Y = length X ->
  Forall (fun E => E <> []) Es -> Forall2 (covers Es) X S ->
  exists h, tw_ndhist_weighted (map (map Fin) X) (map (map Fin) S) (map Fin Y)
      (map (map Fin) (lows (grid Es))) (map (map Fin) (highs (grid Es)))
    = Some (map Fin h) /\ Rsum h = Rsum Y.
Proof. exact whist_count. Qed.
Print Assumptions C45_weighted_histogram_counts_all.

(** C45: value of every entry, for any boxes. *)
Theorem C45_weighted_histogram_value : forall d X S Y LO HI, points d X S -> length Y = length X ->
  Forall2 (fun lo hi => length lo = d /\ length hi = d) LO HI ->
  tw_ndhist_weighted (map (map Fin) X) (map (map Fin) S) (map Fin Y) (map (map Fin) LO) (map (map Fin) HI)
  = Some (map Fin (map (fun b => Rsum (map (fun p => cell_mass (fst (fst p)) (snd (fst p)) (fst b) (snd b) * snd p)
                                        (combine (combine X S) Y))) (combine LO HI))).
Proof. exact whist_fin. Qed.
Print Assumptions C45_weighted_histogram_value.

Example C45_hyp : let Es := [[0; 5; 10]; [0; 1; 2; 10]] in
  points (length Es) [[5; 4]; [6; 5]] [[1; 1 / 2]; [1; 1]] /\ Forall (fun E => E <> []) Es /\
  Forall2 (covers Es) [[5; 4]; [6; 5]] [[1; 1 / 2]; [1; 1]] /\ length (grid Es) = 6%nat.
Proof.
  repeat split; repeat constructor; try discriminate; try lra;
    destruct k as [|[|k]]; simpl in *; try lra; exfalso; lia.
Qed.

(** C46 *)
Theorem C46_histogram_additive : forall d1 s1 d2 s2 lo hi h1 h2,
  tw_ndhist d1 s1 lo hi = Some h1 -> tw_ndhist d2 s2 lo hi = Some h2 ->
  tw_ndhist (d1 ++ d2) (s1 ++ s2) lo hi = Some (map2 xadd h1 h2).
Proof. exact hist_add. Qed.
Print Assumptions C46_histogram_additive.

Theorem C46_weighted_histogram_additive : forall d1 s1 y1 d2 s2 y2 lo hi h1 h2,
  tw_ndhist_weighted d1 s1 y1 lo hi = Some h1 -> tw_ndhist_weighted d2 s2 y2 lo hi = Some h2 ->
  tw_ndhist_weighted (d1 ++ d2) (s1 ++ s2) (y1 ++ y2) lo hi = Some (map2 xadd h1 h2).
Proof. exact whist_add. Qed.
Print Assumptions C46_weighted_histogram_additive.

Theorem C46_histogram_order_independent : forall d s d' s' lo hi, length d = length s -> length d' = length s' ->
  Permutation (combine d s) (combine d' s') -> tw_ndhist d s lo hi = tw_ndhist d' s' lo hi.
Proof. exact hist_perm. Qed.
Print Assumptions C46_histogram_order_independent.

Theorem C46_weighted_histogram_order_independent : forall d s y d' s' y' lo hi,
  length d = length s -> length d = length y -> length d' = length s' -> length d' = length y' ->
  Permutation (combine (combine d s) y) (combine (combine d' s') y') ->
  tw_ndhist_weighted d s y lo hi = tw_ndhist_weighted d' s' y' lo hi.
Proof. exact whist_perm. Qed.
Print Assumptions C46_weighted_histogram_order_independent.

Example C46_hyp : exists h1 h2,
  tw_ndhist [[Fin 1]] [[Fin 1]] [[Fin 0]] [[Fin 2]] = Some h1 /\ tw_ndhist [[Fin 3]; [NaN]] [[Fin 1]; [Fin 2]] [[Fin 0]] [[Fin 2]] = Some h2 /\
  Permutation (combine [[Fin 1]; [Fin 3]] [[Fin 1]; [Fin 2]]) (combine [[Fin 3]; [Fin 1]] [[Fin 2]; [Fin 1]]).
Proof. do 2 eexists. split; [reflexivity|]. split; [reflexivity|]. apply perm_swap. Qed.

(** C47 *)
Theorem C47_smhm_between_extremes : forall X S Y E a b, length S = length X -> length Y = length X ->
  Forall (fun w => 0 < w) S -> increasing E -> Forall (fun y => a <= y <= b) Y ->
  exists r, compute_smhm (map Fin X) (map Fin Y) (map Fin S) (map Fin E) = Some r /\
  length r = (length E - 1)%nat /\
  forall j, (j < length E - 1)%nat ->
    (nth j r NaN = NaN /\ forall i, (i < length X)%nat ->
       nth i X 0 + 3 * nth i S 0 <= nth j E 0 \/ nth (Datatypes.S j) E 0 <= nth i X 0 - 3 * nth i S 0) \/
    (exists v, nth j r NaN = Fin v /\ a <= v <= b /\ exists i, (i < length X)%nat /\
       nth j E 0 < nth i X 0 + 3 * nth i S 0 /\ nth i X 0 - 3 * nth i S 0 < nth (Datatypes.S j) E 0).
Proof. exact smhm_bounds. Qed.
Print Assumptions C47_smhm_between_extremes.

(** C47: it is the weighted mean, with weights the smoothed halo's part in the bin. *)
Theorem C47_smhm_value : forall X S Y E, length S = length X -> length Y = length X ->
  Forall (fun w => 0 < w) S -> increasing E ->
  exists r, compute_smhm (map Fin X) (map Fin Y) (map Fin S) (map Fin E) = Some r /\
  length r = (length E - 1)%nat /\
  forall j, (j < length E - 1)%nat ->
    let m i := tw_mass (nth i X 0) (nth i S 0) (nth j E 0) (nth (Datatypes.S j) E 0) in
    let W := Rsum (map m (seq 0 (length X))) in
    (0 < W /\ nth j r NaN = Fin (Rsum (map (fun i => m i * nth i Y 0) (seq 0 (length X))) / W)) \/
    (nth j r NaN = NaN /\ forall i, (i < length X)%nat ->
       nth i X 0 + 3 * nth i S 0 <= nth j E 0 \/ nth (Datatypes.S j) E 0 <= nth i X 0 - 3 * nth i S 0).
Proof. exact smhm_value. Qed.
Print Assumptions C47_smhm_value.

Example C47_hyp : length [1 / 2; 1 / 4] = length [12; 13] /\ Forall (fun w => 0 < w) [1 / 2; 1 / 4] /\
  increasing [11; 12; 20; 21] /\ Forall (fun y => 9 <= y <= 10) [9; 10].
Proof. split; [reflexivity|]. split; [repeat constructor; lra|]. split; [simpl; lra|]. repeat constructor; lra. Qed.

(** C48: the PDF of one sample. *)
Theorem C48_mstar_pdf : forall X W E, length W = length X -> increasing E -> (2 <= length E)%nat ->
  Forall (fun w => 0 <= w) W ->
  (exists i, (i < length X)%nat /\ 0 < nth i W 0 /\
     hd 0 E - 3 * ((last E 0 - hd 0 E) / INR (length E - 1)) < nth i X 0
     < last E 0 + 3 * ((last E 0 - hd 0 E) / INR (length E - 1))) ->
  exists h, compute_diff_histograms_mstar_atmobs_z (map Fin E) (map Fin X) (map Fin W) = Some (map Fin h) /\
    length h = (length E - 1)%nat /\ Forall (fun x => 0 <= x) h /\ Rsum h = 1 /\
    forall j, (j < length E - 1)%nat ->
      nth j h 0 = Rsum (map (fun i => tw_mass (nth i X 0) (mean_bin E) (nth j E 0) (nth (S j) E 0) * nth i W 0) (seq 0 (length X)))
                  / Rsum (map (fun i => tw_mass (nth i X 0) (mean_bin E) (hd 0 E) (last E 0) * nth i W 0) (seq 0 (length X))).
Proof. exact mstar_pdf. Qed.
Print Assumptions C48_mstar_pdf.

Theorem C48_mstar_pdf_undefined : forall X W E, length W = length X -> increasing E -> (2 <= length E)%nat ->
  (forall i, (i < length X)%nat -> nth i W 0 = 0 \/
     nth i X 0 <= hd 0 E - 3 * ((last E 0 - hd 0 E) / INR (length E - 1)) \/
     last E 0 + 3 * ((last E 0 - hd 0 E) / INR (length E - 1)) <= nth i X 0) ->
  compute_diff_histograms_mstar_atmobs_z (map Fin E) (map Fin X) (map Fin W) = Some (repeat NaN (length E - 1)).
Proof. exact mstar_pdf_nan. Qed.
Print Assumptions C48_mstar_pdf_undefined.

Example C48_hyp : increasing [9; 10; 11] /\ (exists i, (i < length [10; 3])%nat /\ 0 < nth i [1 / 2; 1] 0 /\
     hd 0 [9; 10; 11] - 3 * ((last [9; 10; 11] 0 - hd 0 [9; 10; 11]) / INR (length [9; 10; 11] - 1)) < nth i [10; 3] 0
     < last [9; 10; 11] 0 + 3 * ((last [9; 10; 11] 0 - hd 0 [9; 10; 11]) / INR (length [9; 10; 11] - 1))).
Proof. split; [simpl; lra|]. exists 0%nat. simpl. repeat split; try lia; lra. Qed.

(** C48, whole population: at each redshift the prediction is the PDF of the simulated
    sample, or all NaN when no simulated mass is within three mean bin widths of the
    bins. *)
Theorem C48_predicted_mstar_pdfs : forall (key : Type) split uniform mvn log_mah_kern,
  splits_ok split -> mvn_ok mvn ->
  forall u p P zs lgt0 fb E, get_bounded_diffstarpop_params u = Some p ->
  holds "" p P -> pop_in_bounds P -> slopes_nonzero P -> zs_ok key log_mah_kern lgt0 zs ->
  increasing E -> (2 <= length E)%nat ->
  exists pred, mstar_kern_tobs key split uniform mvn log_mah_kern u zs lgt0 (Fin fb) (map Fin E) = Some pred /\
    Forall2 (fun z row => exists n tobs X Y W, sim_ok log_mah_kern lgt0 n tobs z /\
      sample key split uniform mvn log_mah_kern p z lgt0 fb tobs n X Y W /\
      let hit := exists i, (i < length X)%nat /\
           hd 0 E - 3 * ((last E 0 - hd 0 E) / INR (length E - 1)) < nth i X 0
           < last E 0 + 3 * ((last E 0 - hd 0 E) / INR (length E - 1)) in
      (hit -> exists h, row = map Fin h /\ length h = (length E - 1)%nat /\ is_pdf h) /\
      (~ hit -> row = repeat NaN (length E - 1))) zs pred.
Proof. exact mstar_prediction. Qed.
Print Assumptions C48_predicted_mstar_pdfs.

(** A population of two simulated galaxies observed at 13 Gyr. *)
Example C48_population_hyp :
  let c := [Fin 12; Fin 13] in
  zs_ok unit (fun _ t _ => t) (Fin 1) [mkZPop unit (mkMah c c c c c) c [-1; 7]%Z c c c tt (Fin 13)].
Proof.
  intros c. constructor; [|constructor]. exists 2%nat, 13. exists [12; 13], [12; 13], [12; 13], [12; 13], [12; 13].
  repeat (split; [reflexivity|]). split; [lra|]. repeat (split; [reflexivity|]). split; [repeat split|].
  intros i _. exists (fun t => t). apply Forall_map, Forall_forall. intros j _. split; [apply exp_pos|reflexivity].
Qed.

(** C48: conditional sSFR PDFs from joint histograms. *)
Theorem C48_conditional_pdfs : forall nms nsf P W idx ids,
  (forall m, In m P -> length m = nms /\ Forall (fun r => length r = nsf /\ Forall (fun x => 0 <= x) r) m) ->
  Forall2 (fun w ix => length w = length ix /\ Forall (fun x => 0 <= x) w /\ Forall (fun i => (i < length P)%nat) ix) W idx ->
  Forall (fun a => (a < nms)%nat) ids ->
  exists r, conditional_pdfs nms nsf (map (map (map Fin)) P) (map (map Fin) W) idx ids = Some r /\
  length r = length W /\
  forall z t, (z < length W)%nat -> (t < length ids)%nat ->
    let q b := Rsum (map2 (fun i wi => nth b (nth (nth t ids 0%nat) (nth i P []) []) 0 * wi) (nth z idx []) (nth z W [])) in
    length (nth z r []) = length ids /\
    ((exists h, nth t (nth z r []) [] = map Fin h /\ length h = nsf /\ is_pdf h /\
        forall b, (b < nsf)%nat -> nth b h 0 = q b / Rsum (map q (seq 0 nsf))) \/
     (nth t (nth z r []) [] = repeat NaN nsf /\ forall b, (b < nsf)%nat -> q b = 0)).
Proof. exact conditional_pdf. Qed.
Print Assumptions C48_conditional_pdfs.

Example C48_conditional_hyp : let P := [[[1; 2]; [3; 4]]; [[0; 1]; [1; 0]]] in
  (forall m, In m P -> length m = 2%nat /\ Forall (fun r => length r = 2%nat /\ Forall (fun x => 0 <= x) r) m) /\
  Forall2 (fun w ix => length w = length ix /\ Forall (fun x => 0 <= x) w /\ Forall (fun i => (i < length P)%nat) ix)
    [[1; 1 / 2]; [0]] [[0; 1]; [1]]%nat /\ Forall (fun a => (a < 2)%nat) [0; 1]%nat.
Proof.
  cbv zeta. split; [|split; repeat constructor; try lra; cbn; lia].
  intros m [<-|[<-|[]]]; (split; [reflexivity|]); repeat constructor; lra.
Qed.

(** C48, whole population: every predicted sSFR row is a PDF or all NaN.  (C67) At a
    redshift, one referenced simulated halo-mass bin with no galaxy in range makes all rows
    NaN, whatever its weight. *)
Theorem C48_predicted_ssfr_pdfs : forall (key : Type) split uniform mvn log_mah_kern,
  splits_ok split -> mvn_ok mvn ->
  forall E1 E2 LO HI, increasing E1 -> (2 <= length E1)%nat -> increasing E2 -> (2 <= length E2)%nat ->
  cells LO HI -> length LO = ((length E1 - 1) * (length E2 - 1))%nat ->
  forall u p P zs lgt0 fb Wt idx ids, get_bounded_diffstarpop_params u = Some p ->
  holds "" p P -> pop_in_bounds P -> slopes_nonzero P -> zs_ok key log_mah_kern lgt0 zs ->
  Forall2 (fun w ix => length w = length ix /\ Forall (fun x => 0 <= x) w /\ Forall (fun i => (i < length zs)%nat) ix) Wt idx ->
  Forall (fun a => (a < length E1 - 1)%nat) ids ->
  exists r, mstar_ssfr_kern_tobs key split uniform mvn log_mah_kern u zs lgt0 (Fin fb)
      (mkSsfr (map (map Fin) LO) (map (map Fin) HI) (map Fin E1) (map Fin E2) (map (map Fin) Wt) idx ids) = Some r /\
    length r = length Wt /\
    (forall z t, (z < length Wt)%nat -> (t < length ids)%nat ->
      (exists h, nth t (nth z r []) [] = map Fin h /\ length h = (length E2 - 1)%nat /\ is_pdf h) \/
      nth t (nth z r []) [] = repeat NaN (length E2 - 1)) /\
    exists samples, Forall2 (fun z XY => exists n tobs W, sim_ok log_mah_kern lgt0 n tobs z /\
        sample key split uniform mvn log_mah_kern p z lgt0 fb tobs n (fst XY) (snd XY) W) zs samples /\
      forall z m, (z < length Wt)%nat -> (m < length (nth z idx []))%nat ->
        ~ in_range E1 E2 LO HI (fst (nth (nth m (nth z idx []) 0%nat) samples ([], [])))
                               (snd (nth (nth m (nth z idx []) 0%nat) samples ([], []))) ->
        nth z r [] = repeat (repeat NaN (length E2 - 1)) (length ids).
Proof. exact ssfr_prediction. Qed.
Print Assumptions C48_predicted_ssfr_pdfs.

Example C48_ssfr_hyp : increasing [9; 10; 11] /\ increasing [-12; -10] /\
  cells [[9; -12]; [10; -12]] [[10; -10]; [11; -10]].
Proof. split; [simpl; lra|]. split; [simpl; lra|]. repeat constructor; lra. Qed.

(** C49 *)
Theorem C49_mse : forall p t, length p = length t -> p <> [] ->
  exists v, mse (map Fin p) (map Fin t) = Some (Fin v) /\ 0 <= v /\ (v = 0 <-> p = t) /\
    v = Rsum (map2 (fun a b => (a - b) ^ 2) p t) / INR (length p).
Proof. exact mse_props. Qed.
Print Assumptions C49_mse.

Theorem C49_mstar_loss : forall (key : Type) split uniform mvn lmk u zs lgt0 fb bins pred target,
  mstar_kern_tobs key split uniform mvn lmk u zs lgt0 fb bins = Some (map (map Fin) pred) ->
  map (@length R) pred = map (@length R) target -> List.concat pred <> [] ->
  exists v, loss_mstar_kern_tobs key split uniform mvn lmk u zs lgt0 fb bins (map (map Fin) target) = Some (Fin v) /\
    0 <= v /\ (v = 0 <-> pred = target) /\
    v = 1000 * (Rsum (map2 (fun a b => (a - b) ^ 2) (List.concat pred) (List.concat target)) / INR (length (List.concat pred))).
Proof. exact loss_mstar_props. Qed.
Print Assumptions C49_mstar_loss.

Theorem C49_ssfr_loss : forall (key : Type) split uniform mvn lmk u zs lgt0 fb d pred target,
  mstar_ssfr_kern_tobs key split uniform mvn lmk u zs lgt0 fb d = Some (map (map (map Fin)) pred) ->
  map (map (@length R)) pred = map (map (@length R)) target -> List.concat (List.concat pred) <> [] ->
  exists v, loss_mstar_ssfr_kern_tobs key split uniform mvn lmk u zs lgt0 fb d (map (map (map Fin)) target) = Some (Fin v) /\
    0 <= v /\ (v = 0 <-> pred = target) /\
    v = 1000 * (Rsum (map2 (fun a b => (a - b) ^ 2) (List.concat (List.concat pred)) (List.concat (List.concat target)))
                / INR (length (List.concat (List.concat pred)))).
Proof. exact loss_ssfr_props. Qed.
Print Assumptions C49_ssfr_loss.

Theorem C49_combined_loss : forall (key : Type) split uniform mvn lmk u dm dc a b,
  loss_mstar key split uniform mvn lmk u dm = Some (Fin a) -> loss_ssfr key split uniform mvn lmk u dc = Some (Fin b) ->
  0 <= a -> 0 <= b ->
  exists v, loss_combined_kern key split uniform mvn lmk u dm dc = Some (Fin v) /\ v = a + b /\ (v = 0 <-> a = 0 /\ b = 0).
Proof. exact combined_sum. Qed.
Print Assumptions C49_combined_loss.

Theorem C49_combined_3loss : forall (key : Type) split uniform mvn lmk u dm dc ds a b c,
  loss_mstar key split uniform mvn lmk u dm = Some (Fin a) -> loss_ssfr key split uniform mvn lmk u dc = Some (Fin b) ->
  loss_ssfr key split uniform mvn lmk u ds = Some (Fin c) -> 0 <= a -> 0 <= b -> 0 <= c ->
  exists v, loss_combined_3loss_kern key split uniform mvn lmk u dm dc ds = Some (Fin v) /\ v = a + b + c /\
    (v = 0 <-> a = 0 /\ b = 0 /\ c = 0).
Proof. exact combined3_sum. Qed.
Print Assumptions C49_combined_3loss.

Example C49_hyp : map (@length R) [[1; 2]; [3]] = map (@length R) [[1; 5]; [3]] /\ List.concat [[1; 2]; [3]] <> [].
Proof. split; [reflexivity|discriminate]. Qed.

(** C67: a halo-mass bin of zero weight is not ignored. *)
Theorem C67_zero_weight_bin_ignored_refuted : exists ps : list (list (list xr)),
  conditional_pdfs 1 2 ps [[Fin 1]] [[0%nat]] [0%nat] = Some [[[Fin (1 / 4); Fin (3 / 4)]]] /\
  conditional_pdfs 1 2 ps [[Fin 1; Fin 0]] [[0%nat; 1%nat]] [0%nat] = Some [[[NaN; NaN]]].
Proof. exact zero_weight_bin_poisons. Qed.
Print Assumptions C67_zero_weight_bin_ignored_refuted.

Theorem C67_empty_bin_poisons : forall nms nsf ps W idx ids r z m,
  conditional_pdfs nms nsf ps W idx ids = Some r -> (z < length W)%nat -> (m < length (nth z idx []))%nat ->
  nth (nth m (nth z idx []) 0%nat) ps (nan_matrix nms nsf) = nan_matrix nms nsf ->
  nth z r [] = repeat (repeat NaN nsf) (length ids).
Proof. exact conditional_nan. Qed.
Print Assumptions C67_empty_bin_poisons.
