(** What the comparison files and the smooth histograms hold, for the programs that write them. *)
From Coq Require Import Reals Lra Lia ZArith List Bool String.
From Verif Require Import XReal ModelUtils ModelKernels ModelSfh ModelPop ModelHist ModelFit ModelLoad ModelIO SpecLoad ModelTargets ModelQuality
  SpecCore SpecHist SpecTargets SpecMeasure SpecQuality MeasureTopProofs QualityTopProofs.
From Verif Require Import WeightedProofs ModelWeighted SpecWeighted.
Import List ListNotations.
Open Scope R_scope.
Local Notation length := List.length.

Lemma galacticus_written : forall kern sing hm q p h M t E D mp, increasing (1 / 1000 :: t) ->
  let T := evenly (1 / 100) (138 / 10) 200 in
  forall dm0 dm ds hm0 M0 lm ls su I, halo_file dm0 I hm0 -> fit_files dm ds I lm su hm q -> lookup "loss" ds = Some (D1 (map ls I)) ->
  let sel g := above0 (lm g) && above0 (ls g) && is1 (su g) in
  (forall g, In g I -> length (D g) = length t) ->
  (forall g, In g I -> sel g = true -> good kern sing T hm q p h M g /\ Forall (fun s => 0 <= s) (D g) /\
     snd (sing (hm0 g) (map Fin t) LGT0) = map Fin (M0 g) /\ M0 g <> [] /\ mp g = last (M0 g) 0) ->
  exists o MD SF SM, calculate_plot_galcus (Some FB) kern sing dm0 dm ds (map (fun g => map Fin (D g)) I) (map Fin t) (map Fin E) = Some o /\
    (forall g, In g I -> sel g = true -> formed t (D g) (MD g) /\ fit_is kern T (hm g) (q g) (SF g) (SM g)) /\
    (let f := save_data_plot o in let G := filter sel I in
     forall i k, (i < length E - 1)%nat -> (k < length t)%nat ->
     ((forall g, In g (inside E mp i G) -> 0 < nth k (D g) 0 /\ 0 < nth k (MD g) 0 /\ nth k (MD g) 0 <> 1 /\
         interp T (map log10R (SF g)) (nth k t 0) = log10R (nth k (D g) 0) /\ interp T (map log10R (SM g)) (nth k t 0) = log10R (nth k (MD g) 0)) ->
      written "mstar_fit_mean" f i k = written "mstar_data_mean" f i k /\ written "sfr_fit_mean" f i k = written "sfr_data_mean" f i k) /\
     (inside E mp i G <> [] -> (forall g, In g (inside E mp i G) -> interp T (map log10R (SF g)) (nth k t 0) <> 0) ->
      exists s m, written "sfr_fit_mean" f i k = Fin s /\ written "mstar_fit_mean" f i k = Fin m /\ 1 / 10 ^ 12 * m <= s) /\
     (inside E mp i G = [] ->
      written "mstar_data_mean" f i k = NaN /\ written "mstar_fit_mean" f i k = NaN /\ written "sfr_data_mean" f i k = NaN /\ written "sfr_fit_mean" f i k = NaN)).
Proof.
  intros kern sing hm q p h M t E D mp Ht T dm0 dm ds hm0 M0 lm ls su I H1 H2 H3 sel H4 H5.
  destruct (galacticus_quality kern sing hm q p h M t E D mp Ht dm0 dm ds hm0 M0 lm ls su I H1 H2 H3 H4 H5) as (o & MD & SF & SM & Eo & F & Q).
  exists o, MD, SF, SM. split; [exact Eo|]. split; [exact F|]. cbv zeta. intros i k Hi Hk. split; [|split].
  - intros P. exact (perfect_fit _ _ _ _ _ _ _ _ _ _ Q i k Hi Hk P).
  - intros N P. exact (proj2 (ssfr_floor _ _ _ _ _ _ _ _ _ _ Q i k Hi Hk N) P).
  - intros N. exact (empty_bin _ _ _ _ _ _ _ _ _ _ Q i k Hi Hk N).
Qed.

Lemma smdpl_smooth_mean : forall kern sing lgt0 T, T = evenly (1 / 100) (pow10R lgt0) 200 -> 1 / 100 < pow10R lgt0 ->
  forall hm q p h M E, increasing E -> (2 <= length E)%nat ->
  forall dm ds I lm su, fit_files dm ds I lm su hm q ->
  let G := filter (fun g => above0 (lm g) && is1 (su g)) I in (forall g, In g G -> good kern sing T hm q p h M g) ->
  exists S F wc wh, compute_weighted_histograms_z0_smdpl (Some FB) kern sing dm ds (Fin lgt0) (map Fin E) = Some (map Fin wc, map Fin wh) /\
    (forall g, In g G -> galaxy_is kern sing T (hm g) (q g) (M g) (S g) (F g)) /\
    forall lo hi, (forall g, In g G -> lo <= last (S g) 0 <= hi) -> forall j, (Datatypes.S j < length E)%nat ->
      0 <= nth j wc 0 <= INR (length G) /\ lo * nth j wc 0 <= nth j wh 0 <= hi * nth j wc 0.
Proof.
  intros kern sing lgt0 T HT H0 hm q p h M E HE H2 dm ds I lm su Hf G HG.
  destruct (smdpl_weighted kern sing lgt0 T HT H0 hm q p h M E HE H2 dm ds I lm su Hf HG) as (S & F & wc & wh & Ew & Hg & W1 & W2).
  exists S, F, wc, wh. split; [exact Ew|]. split; [exact Hg|]. intros lo hi B j Hj.
  exact (smooth_mean G M (fun g => last (S g) 0) E wc wh lo hi HE H2 W1 W2 B j Hj).
Qed.
