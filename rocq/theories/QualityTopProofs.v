(** Proofs about the programs comparing simulated and fitted histories. *)
From Coq Require Import Reals Lra Lia ZArith List Bool String.
From Verif Require Import XReal RealFacts ModelUtils ModelKernels ModelSfh ModelPop ModelHist ModelFit ModelLoad ModelIO SpecLoad ModelTargets ModelQuality
  SpecCore SpecHist SpecTargets SpecMeasure SpecQuality
  XFacts IntegralProofs SfhProofs DtProofs FstarProofs SmhmProofs FitProofs HistProofs LossProofs PopProofs SplitProofs LoadProofs MoreLoadProofs SnapshotProofs
  TargetProofs TargetDataProofs TargetTopProofs MeasureProofs MeasureTopProofs QualityProofs.
Import List ListNotations.
Open Scope R_scope.
Local Notation length := List.length.

Lemma lgt0_value : LGT0 = Fin (log10R (138 / 10)).
Proof. unfold LGT0, TODAY. apply xlog10_fin. lra. Qed.
Lemma times_value : evenly (1 / 100) (138 / 10) 200 = evenly (1 / 100) (pow10R (log10R (138 / 10))) 200.
Proof. rewrite pow10_log10 by lra. reflexivity. Qed.
Lemma last_running l x : l <> [] -> is_running_max l (length l - 1) x -> last_ (cummax (map Fin l)) = Fin x.
Proof.
  intros HN HX. destruct (cummax_fin l) as (ms & E & L & M). rewrite E.
  assert (0 < length l)%nat by (destruct l; [contradiction|cbn; lia]).
  unfold last_. rewrite DtProofs.last_nth, map_length, L. change (nth (length l - 1) (map Fin ms) NaN) with (at_ (map Fin ms) (length l - 1)).
  rewrite at_map by lia. f_equal. specialize (M (length l - 1)%nat ltac:(lia)).
  apply Rle_antisym; eapply (running_mono l (length l - 1) (length l - 1)); eauto.
Qed.
Lemma clipped_row l : map xlog10 (map (fun m => if (m <? MH_MIN)%X then Fin 1 else m) (map Fin l)) = map Fin (map clipped_log l).
Proof.
  rewrite !map_map. apply map_ext. intros x. unfold clipped_log, MH_MIN. destruct (Rlt_dec x (10 ^ 7)) as [L|L].
  - rewrite (proj2 (xlt_fin _ _) L). rewrite xlog10_fin by lra. rewrite log10_1. reflexivity.
  - rewrite (proj2 (xlt_fin_false x (10 ^ 7))) by lra. rewrite xlog10_fin by lra. reflexivity.
Qed.
Lemma tng_row l : map (fun x => x - xlog10 (Fin H_TNG))%X (map Fin l) = map Fin (map (fun x => x - log10R (6774 / 10000)) l).
Proof. rewrite !map_map. apply map_ext. intros x. rewrite xlog10_fin by (unfold H_TNG; lra). reflexivity. Qed.

Lemma halo_file_mah dm I hm : halo_file dm I hm -> hdf_mah dm = Some (mah_cols hm I).
Proof.
  intros (H0 & H1 & H2 & H3 & H4). unfold hdf_mah, vmap. cbn [map].
  rewrite (col1_of _ _ _ H0), (col1_of _ _ _ H1), (col1_of _ _ _ H2), (col1_of _ _ _ H3), (col1_of _ _ _ H4). reflexivity.
Qed.

Section Top.
Variable kern : MahParams xr -> xr -> xr -> xr.
Variable sing : MahParams xr -> list xr -> xr -> list xr * list xr.
Variables (hm : nat -> MahParams xr) (q : nat -> DiffstarParams xr) (p : nat -> DiffstarParams R) (h : nat -> R -> R) (M : nat -> list R).
Variables (t E : list R) (D : nat -> list R) (mp : nat -> R).
Let T := evenly (1 / 100) (138 / 10) 200.
Hypothesis It : increasing (1 / 1000 :: t).
Notation good := (SpecMeasure.good kern sing T hm q p h M).
Definition MD_ g := massR t (D g).
Definition SF_ g := sf_ T p h g.
Definition SM_ g := massR T (SF_ g).
Notation sums := (sums_of T t D MD_ SF_ SM_ E mp).

Lemma T_ok : increasing T /\ length T = 200%nat.
Proof. unfold T. split; [apply evenly_increasing; [lia|lra]|apply evenly_len]. Qed.
Lemma SF_len g : length (SF_ g) = length T.
Proof. unfold SF_, sf_. apply map_length. Qed.
Lemma SM_len g : length (SM_ g) = length T.
Proof. unfold SM_. apply massR_length. symmetry. apply SF_len. Qed.
Lemma formed_value g : length (D g) = length t -> formed t (D g) (MD_ g).
Proof. intros H. apply cumulative_fin. symmetry. exact H. Qed.
Lemma fit_value g : good g -> fit_is kern T (hm g) (q g) (SF_ g) (SM_ g).
Proof.
  intros (E1 & E2 & _). unfold fit_is. rewrite E1. unfold FB. apply (calc_sfh_smh_value kern _ _ _ _ _ (h g)). exact E2.
Qed.
Lemma galpop_value I : (forall g, In g I -> length (D g) = length t) ->
  cumulative_mstar_formed_galpop (map Fin t) (map (fun g => map Fin (D g)) I) = Some (map (fun g => map Fin (MD_ g)) I).
Proof.
  intros H. unfold cumulative_mstar_formed_galpop, vmap. rewrite map_map. induction I as [|g I IH]; [reflexivity|].
  cbn [map sequence]. rewrite IH by (intros; apply H; now right). rewrite cumulative_fin by (symmetry; apply H; now left). reflexivity.
Qed.

Lemma select_rows I sel : (forall g, In g (filter sel I) -> good g) -> exists tb,
  select_tables kern sing (map sel I) (mah_cols hm I) (ds_cols (sfh_cols q I)) LGT0 (Some FB) = Some (tb, map sel I) /\
  tb_t tb = map Fin T /\ tb_log_smh tb = map (fun g => map Fin (map log10R (SM_ g))) (filter sel I) /\
  tb_log_ssfr tb = map (fun g => map Fin (map2 (fun a b => log10R a - log10R b) (SF_ g) (SM_ g))) (filter sel I).
Proof.
  intros GG. rewrite lgt0_value.
  destruct (select_value kern sing (fun _ => 138 / 10) (log10R (138 / 10)) T times_value ltac:(lra) ltac:(rewrite pow10_log10 by lra; lra) hm q p h M I sel GG)
    as (tb & M' & S' & F' & E1 & TA & _ & _ & V).
  exists tb. split; [exact E1|]. split; [apply (ta_t _ _ _ _ _ _ TA)|].
  assert (R : forall (X : list (list R)) (f : nat -> list R), length X = length (filter sel I) ->
     (forall k, (k < length (filter sel I))%nat -> nth k X [] = f (nth k (filter sel I) 0%nat)) -> map (map Fin) X = map (fun g => map Fin (f g)) (filter sel I)).
  { intros X f LX HX. rewrite <- (map_map f (map Fin)). f_equal. rewrite (list_as_seq X []), LX.
    transitivity (map f (map (fun k => nth k (filter sel I) 0%nat) (seq 0 (length (filter sel I))))); [rewrite map_map|rewrite <- list_as_seq; reflexivity].
    apply map_ext_in. intros k Hk. apply in_seq in Hk. apply HX. lia. }
  split; [rewrite (ta_s _ _ _ _ _ _ TA)|rewrite (ta_f _ _ _ _ _ _ TA)]; apply R; try (apply (ta_ns _ _ _ _ _ _ TA)); try (apply (ta_nf _ _ _ _ _ _ TA)); intros k Hk; apply V, Hk.
Qed.

(** One catalog: its galaxies are added to the sums. *)
Lemma catalog_added I sel mpx H : (forall g, In g I -> length (D g) = length t) ->
  (forall g, In g (filter sel I) -> good g /\ Forall (fun s => 0 <= s) (D g) /\ mpx g = Fin (mp g)) ->
  exists tb r, select_tables kern sing (map sel I) (mah_cols hm I) (ds_cols (sfh_cols q I)) LGT0 (Some FB) = Some (tb, map sel I) /\
    quality_rows tb (map sel I) (map (map xlog10) (map (fun g => map Fin (MD_ g)) I)) (map (fun g => map Fin (D g)) I) (map mpx I) (map Fin t) = Some r /\
    add_rows (length t) (length t) (map Fin E) r (sums H) = Some (sums (H ++ filter sel I)).
Proof.
  intros LD HG. destruct (select_rows I sel (fun g Hg => proj1 (HG g Hg))) as (tb & E1 & E2 & E3 & E4). destruct T_ok as [IT LT].
  assert (LG : forall g, In g (filter sel I) -> length (D g) = length t /\ length (MD_ g) = length t /\ length (SF_ g) = length T /\ length (SM_ g) = length T).
  { intros g Hg. apply filter_In in Hg. assert (L := LD g (proj1 Hg)). split; [exact L|]. split; [unfold MD_; apply massR_length; symmetry; exact L|].
    split; [apply SF_len|apply SM_len]. }
  exists tb. eexists. split; [exact E1|]. split.
  - rewrite map_map. apply (quality_rows_value T t I sel mpx D MD_ SF_ SM_ IT ltac:(lia) LG tb E2 E3 E4).
  - apply add_rows_value; [lia|exact LG|intros g Hg; apply HG, Hg|]. intros g Hg. destruct (HG g Hg) as (_ & P1 & _). split; [exact P1|].
    apply massR_positive; [symmetry; apply LG, Hg|exact It|exact P1].
Qed.
Lemma no_sums_value : repeat (no_sums (length t)) (nbins (map Fin E)) = sums [].
Proof.
  rewrite nbins_fin. unfold sums_of, no_sums, zeros. cbn [filter map Rsum fold_right count length INR].
  assert (Z : forall B (x : B) n, repeat x n = map (fun _ : nat => x) (seq 0 n)).
  { intros B x n. generalize 0%nat. induction n as [|n IH]; intros a; [reflexivity|]. cbn [repeat seq map]. rewrite (IH (S a)). reflexivity. }
  rewrite !Z. apply map_ext. reflexivity.
Qed.
Lemma means_value (v : nat -> nat -> R) G :
  map (fun i => map (fun x => x / Fin (INR (count (fun g => interior E i (mp g)) G)))%X (map (part_sum E mp v G i) (seq 0 (length t)))) (seq 0 (length E - 1))
  = bin_means E t G mp v.
Proof.
  unfold bin_means. apply map_ext. intros i. rewrite map_map. apply map_ext. intros k. unfold part_sum.
  rewrite <- mean_div, map_length. reflexivity.
Qed.
Lemma centers_value : map2 (fun a b => Fin (1 / 2) * (a + b))%X (tail_ (map Fin E)) (init_ (map Fin E))
  = map (fun i => Fin ((nth i E 0 + nth (S i) E 0) / 2)) (seq 0 (length E - 1)).
Proof.
  unfold tail_, init_. destruct E as [|a l]; [reflexivity|]. cbn [map tl]. cbn [length Nat.sub]. rewrite Nat.sub_0_r.
  revert a. induction l as [|b l IH]; intros a; [reflexivity|].
  change (removelast (Fin a :: map Fin (b :: l))) with (Fin a :: removelast (Fin b :: map Fin l)).
  change (map Fin (b :: l)) with (Fin b :: map Fin l). cbn [map2]. rewrite IH. cbn [length seq map].
  f_equal; [cbn [xadd xmul nth]; f_equal; lra|]. rewrite <- seq_shift, map_map. reflexivity.
Qed.
Lemma out_value G : quality_is E t T G mp D MD_ SF_ SM_ (save_data_plot (quality_out (map Fin E) (map Fin t) (sums G))).
Proof.
  constructor; unfold save_data_plot, quality_out, lookup; cbn [String.eqb Ascii.eqb Bool.eqb ql_t ql_bins ql_binsc ql_mstar_data ql_mstar_fit ql_sfr_data ql_sfr_fit];
    try reflexivity; f_equal; f_equal.
  - apply centers_value.
  - unfold sums_of. rewrite map_map. cbn [s_mstar_data s_ngals]. apply means_value.
  - unfold sums_of. rewrite map_map. cbn [s_mstar_fit s_ngals]. apply means_value.
  - unfold sums_of. rewrite map_map. cbn [s_sfr_data s_ngals]. apply means_value.
  - unfold sums_of. rewrite map_map. cbn [s_sfr_fit s_ngals]. apply means_value.
Qed.

Definition smdpl_sel (lm su : nat -> xr) (g : nat) : bool := above0 (lm g) && is1 (su g).
Lemma smdpl_loop files data P lm su I : length t = 117%nat -> forall subvols,
  (forall v, In v subvols -> (exists dm ds, files v = Some (dm, ds) /\ fit_files dm ds (I v) lm su hm q) /\
     data v = Some (map (fun g => map Fin (D g)) (I v), map (fun g => map Fin (P g)) (I v)) /\
     (forall g, In g (I v) -> length (D g) = 117%nat) /\
     (forall g, In g (filter (smdpl_sel lm su) (I v)) -> good g /\ Forall (fun s => 0 <= s) (D g) /\ P g <> [] /\
        is_running_max (map clipped_log (P g)) (length (P g) - 1) (mp g))) ->
  forall H tl, quality_loop (smdpl_tables (Some FB) kern sing files) (smdpl_sim data (map Fin t)) (map Fin E) subvols (sums H) tl
    = Some (sums (H ++ List.concat (map (fun v => filter (smdpl_sel lm su) (I v)) subvols)), match subvols with [] => tl | _ => Some (map Fin t) end).
Proof.
  intros L117. induction subvols as [|v subvols IH]; intros HV H tl.
  { cbn [quality_loop map List.concat]. rewrite app_nil_r. reflexivity. }
  destruct (HV v ltac:(now left)) as ((dm & ds & EF & FF) & ED & LD & HG).
  destruct (catalog_added (I v) (smdpl_sel lm su) (fun g => last_ (cummax (map Fin (map clipped_log (P g))))) H) as (tb & r & E1 & E2 & E3).
  { intros g Hg. rewrite L117. apply LD, Hg. }
  { intros g Hg. destruct (HG g Hg) as (G1 & G2 & G3 & G4). split; [exact G1|]. split; [exact G2|]. apply last_running.
    - destruct (P g); [contradiction|discriminate].
    - rewrite map_length. exact G4. }
  cbn [quality_loop]. unfold smdpl_tables at 1. rewrite EF, (load_smdpl_value _ _ _ _ _ _ _ FF).
  change (fun g => above0 (lm g) && is1 (su g)) with (smdpl_sel lm su). rewrite E1.
  unfold smdpl_sim at 1. rewrite ED. unfold load_SMDPL_data. rewrite galpop_value by (intros g Hg; rewrite L117; apply LD, Hg).
  cbn [sd_log_smahs sd_sfrh sd_logmp0 sd_t].
  replace (map last_ (map cummax (map (map xlog10) (map (map (fun m => if (m <? MH_MIN)%X then Fin 1 else m)) (map (fun g => map Fin (P g)) (I v))))))
    with (map (fun g => last_ (cummax (map Fin (map clipped_log (P g))))) (I v)).
  2:{ rewrite !map_map. apply map_ext. intros g. rewrite <- clipped_row. reflexivity. }
  rewrite E2, map_length. unfold SMDPL_NT. rewrite <- L117, E3. rewrite IH by (intros; apply HV; now right).
  cbn [map List.concat]. rewrite app_assoc. destruct subvols; reflexivity.
Qed.

Theorem smdpl_quality files data P lm su I subvols : length t = 117%nat -> subvols <> [] ->
  let sel g := above0 (lm g) && is1 (su g) in
  (forall v, In v subvols -> (exists dm ds, files v = Some (dm, ds) /\ fit_files dm ds (I v) lm su hm q) /\
     data v = Some (map (fun g => map Fin (D g)) (I v), map (fun g => map Fin (P g)) (I v)) /\
     (forall g, In g (I v) -> length (D g) = 117%nat) /\
     (forall g, In g (I v) -> sel g = true -> good g /\ Forall (fun s => 0 <= s) (D g) /\ P g <> [] /\
        is_running_max (map clipped_log (P g)) (length (P g) - 1) (mp g))) ->
  exists o MD SF SM, calculate_plot_smdpl_dr1 (Some FB) kern sing files data (map Fin t) (map Fin E) subvols = Some o /\
    (forall v g, In v subvols -> In g (I v) -> sel g = true -> formed t (D g) (MD g) /\ fit_is kern T (hm g) (q g) (SF g) (SM g)) /\
    quality_is E t T (List.concat (map (fun v => filter sel (I v)) subvols)) mp D MD SF SM (save_data_plot o).
Proof.
  intros L117 NS sel HV. eexists. exists MD_, SF_, SM_. split; [|split].
  - unfold calculate_plot_smdpl_dr1, quality_smdpl. unfold SMDPL_NT. rewrite <- L117, no_sums_value.
    rewrite (smdpl_loop files data P lm su I L117 subvols).
    + destruct subvols; [contradiction|]. reflexivity.
    + intros v Hv. destruct (HV v Hv) as (A1 & A2 & A3 & A4). split; [exact A1|]. split; [exact A2|]. split; [exact A3|].
      intros g Hg. apply filter_In in Hg. apply A4; apply Hg.
  - intros v g Hv Hg Hs. destruct (HV v Hv) as (_ & _ & A3 & A4). split; [apply formed_value; rewrite A3, L117 by exact Hg; reflexivity|].
    apply fit_value. apply A4; assumption.
  - apply out_value.
Qed.

Definition flag_sel (lm ls su : nat -> xr) (g : nat) : bool := above0 (lm g) && above0 (ls g) && is1 (su g).
Theorem galacticus_quality dm0 dm ds hm0 M0 lm ls su I : halo_file dm0 I hm0 ->
  fit_files dm ds I lm su hm q -> lookup "loss" ds = Some (D1 (map ls I)) ->
  let sel g := above0 (lm g) && above0 (ls g) && is1 (su g) in
  (forall g, In g I -> length (D g) = length t) ->
  (forall g, In g I -> sel g = true -> good g /\ Forall (fun s => 0 <= s) (D g) /\
     snd (sing (hm0 g) (map Fin t) LGT0) = map Fin (M0 g) /\ M0 g <> [] /\ mp g = last (M0 g) 0) ->
  exists o MD SF SM, calculate_plot_galcus (Some FB) kern sing dm0 dm ds (map (fun g => map Fin (D g)) I) (map Fin t) (map Fin E) = Some o /\
    (forall g, In g I -> sel g = true -> formed t (D g) (MD g) /\ fit_is kern T (hm g) (q g) (SF g) (SM g)) /\
    quality_is E t T (filter sel I) mp D MD SF SM (save_data_plot o).
Proof.
  intros FF0 FF FL sel LD HG.
  destruct (catalog_added I sel (fun g => last_ (snd (sing (hm0 g) (map Fin t) LGT0))) [] LD) as (tb & r & E1 & E2 & E3).
  { intros g Hg. apply filter_In in Hg. destruct (HG g (proj1 Hg) (proj2 Hg)) as (G1 & G2 & G3 & G4 & G5). split; [exact G1|]. split; [exact G2|].
    rewrite G3, G5. unfold last_. destruct (M0 g) as [|a l]; [contradiction|]. clear. revert a. induction l as [|b l IH]; intros a; [reflexivity|].
    change (last (a :: b :: l) 0) with (last (b :: l) 0). change (map Fin (a :: b :: l)) with (Fin a :: Fin b :: map Fin l).
    change (last (Fin a :: Fin b :: map Fin l) NaN) with (last (Fin b :: map Fin l) NaN). apply IH. }
  eexists. exists MD_, SF_, SM_. split; [|split].
  - unfold calculate_plot_galcus. rewrite galpop_value by exact LD. rewrite (halo_file_mah _ _ _ FF0).
    change (mah_cols hm0 I) with (maps_mah hm0 I). rewrite halopop_maps, (load_galacticus_value _ _ _ _ _ _ _ FF _ _ _ ls FL).
    change (fun g => above0 (lm g) && above0 (ls g) && is1 (su g)) with sel. rewrite E1, (map_map _ last_), E2, map_length, no_sums_value, E3. reflexivity.
  - intros g Hg Hs. split; [apply formed_value, LD, Hg|]. apply fit_value. apply HG; assumption.
  - apply out_value.
Qed.

Lemma tng_chunks dm ds sd N P lm ls su : fit_files dm ds (seq 0 N) lm su hm q -> lookup "loss" ds = Some (D1 (map ls (seq 0 N))) ->
  all_rows N dm -> all_rows N ds ->
  sd_log_smahs sd = map (map xlog10) (map (fun g => map Fin (MD_ g)) (seq 0 N)) -> sd_sfrh sd = map (fun g => map Fin (D g)) (seq 0 N) ->
  sd_logmp0 sd = map (fun g => last_ (cummax (map Fin (map (fun x => x - log10R (6774 / 10000)) (P g))))) (seq 0 N) -> sd_t sd = map Fin t ->
  (forall g, (g < N)%nat -> length (D g) = length t) ->
  (forall g, (g < N)%nat -> flag_sel lm ls su g = true -> good g /\ Forall (fun s => 0 <= s) (D g) /\ P g <> [] /\
     is_running_max (map (fun x => x - log10R (6774 / 10000)) (P g)) (length (P g) - 1) (mp g)) ->
  forall chunks, (forall r, In r chunks -> (r < 20)%nat) -> forall H,
  quality_chunks kern sing dm ds sd (map Fin E) chunks (sums H)
    = Some (sums (H ++ List.concat (map (fun r => filter (flag_sel lm ls su) (part N 20 r)) chunks))).
Proof.
  intros FF FL RM RS S1 S2 S3 S4 LD HG. induction chunks as [|r chunks IH]; intros HR H.
  { cbn [quality_chunks map List.concat]. rewrite app_nil_r. reflexivity. }
  assert (Hr := HR r ltac:(now left)). set (C := part N 20 r).
  assert (HC : forall i, In i C -> (i < N)%nat) by (intros i; apply part_range; exact Hr).
  destruct (take_file N C dm RM HC) as (dm' & Em & Vm). destruct (take_file N C ds RS HC) as (ds' & Ed & Vd).
  assert (FF' : fit_files dm' ds' C lm su hm q).
  { destruct FF. constructor; first [apply Vm; assumption|apply Vd; assumption]. }
  assert (FL' : lookup "loss" ds' = Some (D1 (map ls C))) by (apply Vd; exact FL).
  set (mpx := fun g => last_ (cummax (map Fin (map (fun x => x - log10R (6774 / 10000)) (P g))))).
  destruct (catalog_added C (flag_sel lm ls su) mpx H) as (tb & rw & E1 & E2 & E3).
  { intros g Hg. apply LD, HC, Hg. }
  { intros g Hg. apply filter_In in Hg. destruct (HG g (HC g (proj1 Hg)) (proj2 Hg)) as (G1 & G2 & G3 & G4).
    split; [exact G1|]. split; [exact G2|]. apply last_running; [destruct (P g); [contradiction|discriminate]|rewrite map_length; exact G4]. }
  assert (EC : chunk_indices N r = Some C) by (unfold chunk_indices, NCHUNKS; rewrite indices_for_rank_seq by exact Hr; unfold C; rewrite part_eq by exact Hr; reflexivity).
  cbn [quality_chunks]. rewrite S1, S2, S3, S4, !map_length, seq_length, EC. unfold load_diffstar_sfh_tables_tng.
  change (load_fitted_tables kern sing (Some FB)) with (load_diffstar_sfh_tables_galacticus (Some FB) kern sing).
  rewrite (col1_of _ _ _ (ff_h0 _ _ _ _ _ _ _ FF)), map_length, seq_length, EC, Em, Ed, (load_galacticus_value _ _ _ _ _ _ _ FF' _ _ _ ls FL').
  change (fun g => above0 (lm g) && above0 (ls g) && is1 (su g)) with (flag_sel lm ls su). rewrite E1.
  rewrite map_map, !take_map by exact HC. rewrite <- (map_map (fun g => map Fin (MD_ g)) (map xlog10)). fold mpx. rewrite E2, E3.
  rewrite IH by (intros; apply HR; now right). cbn [map List.concat]. rewrite app_assoc. reflexivity.
Qed.
Theorem tng_quality dm ds N P lm ls su : fit_files dm ds (seq 0 N) lm su hm q -> lookup "loss" ds = Some (D1 (map ls (seq 0 N))) ->
  all_rows N dm -> all_rows N ds ->
  let sel g := above0 (lm g) && above0 (ls g) && is1 (su g) in
  (forall g, (g < N)%nat -> length (D g) = length t) ->
  (forall g, (g < N)%nat -> sel g = true -> good g /\ Forall (fun s => 0 <= s) (D g) /\ P g <> [] /\
     is_running_max (map (fun x => x - log10R (6774 / 10000)) (P g)) (length (P g) - 1) (mp g)) ->
  exists o MD SF SM, calculate_plot_tng kern sing dm ds (map (fun g => map Fin (D g)) (seq 0 N)) (map (fun g => map Fin (P g)) (seq 0 N)) (map Fin t) (map Fin E) = Some o /\
    (forall g, (g < N)%nat -> sel g = true -> formed t (D g) (MD g) /\ fit_is kern T (hm g) (q g) (SF g) (SM g)) /\
    quality_is E t T (filter sel (seq 0 N)) mp D MD SF SM (save_data_plot o).
Proof.
  intros FF FL RM RS sel LD HG. eexists. exists MD_, SF_, SM_. split; [|split].
  - unfold calculate_plot_tng, load_tng_data. rewrite galpop_value by (intros g Hg; apply LD; apply in_seq in Hg; lia). rewrite map_length, no_sums_value.
    rewrite (tng_chunks dm ds _ N P lm ls su FF FL RM RS); [..|exact LD|exact HG|intros r Hr; apply in_seq in Hr; lia]; try reflexivity.
    cbn [sd_logmp0]. rewrite !map_map. apply map_ext. intros g. rewrite <- tng_row. reflexivity.
  - intros g Hg Hs. split; [apply formed_value, LD, Hg|]. apply fit_value. apply HG; assumption.
  - cbn [app]. change (flag_sel lm ls su) with sel. rewrite <- (map_map (part N 20) (filter sel)), <- filter_concat, parts_all by lia. apply out_value.
Qed.
End Top.

(** ** What the written means say *)
Lemma filter_twice {A} (P Q : A -> bool) l : filter P (filter Q l) = filter (fun x => Q x && P x) l.
Proof. induction l as [|a l IH]; [reflexivity|]. cbn [filter]. destruct (Q a); cbn [filter andb]; destruct (P a); rewrite ?IH; reflexivity. Qed.
Section Written.
Variables (E t T : list R) (G : list nat) (mp : nat -> R) (D MD SF SM : nat -> list R) (f : hdf).
Hypothesis Q : quality_is E t T G mp D MD SF SM f.
Notation lsf g k := (interp T (map log10R (SF g)) (nth k t 0)).
Notation lsm g k := (interp T (map log10R (SM g)) (nth k t 0)).
Lemma bin_cell v i k : (i < length E - 1)%nat -> (k < length t)%nat ->
  nth k (nth i (bin_means E t G mp v) []) NaN = mean (map (fun g => v g k) (inside E mp i G)).
Proof.
  intros Hi Hk. unfold bin_means. rewrite (nth_map_nat _ _ i 0%nat) by (rewrite seq_length; lia). rewrite seq_nth by lia.
  rewrite (nth_map_nat _ _ k 0%nat) by (rewrite seq_length; lia). rewrite seq_nth by lia. reflexivity.
Qed.
Lemma cells i k : (i < length E - 1)%nat -> (k < length t)%nat ->
  written "mstar_data_mean" f i k = mean (map (fun g => mass_seen (nth k (MD g) 0)) (inside E mp i G)) /\
  written "mstar_fit_mean" f i k = mean (map (fun g => mass_fitted (lsm g k)) (inside E mp i G)) /\
  written "sfr_data_mean" f i k = mean (map (fun g => sfr_seen (nth k (D g) 0) (nth k (MD g) 0)) (inside E mp i G)) /\
  written "sfr_fit_mean" f i k = mean (map (fun g => sfr_fitted (lsf g k) (lsm g k)) (inside E mp i G)).
Proof.
  intros Hi Hk. destruct Q as [_ _ _ Q1 Q2 Q3 Q4]. unfold written. rewrite Q1, Q2, Q3, Q4.
  split; [|split; [|split]]; rewrite bin_cell by assumption; reflexivity.
Qed.

Theorem perfect_fit i k : (i < length E - 1)%nat -> (k < length t)%nat ->
  (forall g, In g (inside E mp i G) -> 0 < nth k (D g) 0 /\ 0 < nth k (MD g) 0 /\ nth k (MD g) 0 <> 1 /\
     lsf g k = log10R (nth k (D g) 0) /\ lsm g k = log10R (nth k (MD g) 0)) ->
  written "mstar_fit_mean" f i k = written "mstar_data_mean" f i k /\ written "sfr_fit_mean" f i k = written "sfr_data_mean" f i k.
Proof.
  intros Hi Hk H. destruct (cells i k Hi Hk) as (-> & -> & -> & ->).
  split; f_equal; apply map_ext_in; intros g Hg; destruct (H g Hg) as (P1 & P2 & P3 & P4 & P5).
  - rewrite P5. unfold mass_fitted, mass_seen. pose proof (log10R_zero _ P2).
    destruct (Req_EM_T (log10R (nth k (MD g) 0)) 0), (Req_EM_T (nth k (MD g) 0) 1); try tauto. apply pow10_log10, P2.
  - rewrite P4, P5. unfold sfr_fitted, sfr_seen. pose proof (log10R_zero _ P1). pose proof (log10R_zero _ P2).
    destruct (Req_EM_T (log10R (nth k (MD g) 0)) 0), (Req_EM_T (nth k (MD g) 0) 1); try tauto.
    destruct (Req_EM_T (log10R (nth k (D g) 0)) 0), (Req_EM_T (nth k (D g) 0) 1), (Req_EM_T (nth k (D g) 0) 0); try tauto; try lra.
    rewrite !pow10_log10 by assumption. reflexivity.
Qed.

Lemma mean_ratio (l : list nat) (a b : nat -> R) c : l <> [] -> (forall g, In g l -> c * b g <= a g) ->
  exists x y, mean (map a l) = Fin x /\ mean (map b l) = Fin y /\ c * y <= x.
Proof.
  intros HN H. destruct l as [|g l]; [contradiction|].
  exists (Rsum (map a (g :: l)) / INR (length (map a (g :: l)))), (Rsum (map b (g :: l)) / INR (length (map b (g :: l)))).
  split; [reflexivity|]. split; [reflexivity|]. rewrite !map_length. set (L := g :: l) in *.
  assert (0 < INR (length L)) by (apply lt_0_INR; cbn; lia).
  replace (c * (Rsum (map b L) / INR (length L))) with ((c * Rsum (map b L)) / INR (length L)) by (field; lra).
  apply Rmult_le_compat_r; [left; apply Rinv_0_lt_compat; assumption|].
  clearbody L. clear HN. induction L as [|x L IH]; [unfold Rsum; cbn; lra|].
  cbn [map]. unfold Rsum in *. cbn [fold_right]. pose proof (H x ltac:(now left)).
  destruct L as [|y L]; [cbn [map fold_right]; lra|].
  assert (c * fold_right Rplus 0 (map b (y :: L)) <= fold_right Rplus 0 (map a (y :: L))).
  { apply IH; [intros; apply H; now right|]. apply lt_0_INR. cbn. lia. }
  lra.
Qed.
Theorem ssfr_floor i k : (i < length E - 1)%nat -> (k < length t)%nat -> inside E mp i G <> [] ->
  ((forall g, In g (inside E mp i G) -> 0 < nth k (MD g) 0 /\ 0 < nth k (D g) 0 /\ nth k (D g) 0 <> 1) ->
   exists s m, written "sfr_data_mean" f i k = Fin s /\ written "mstar_data_mean" f i k = Fin m /\ 1 / 10 ^ 12 * m <= s) /\
  ((forall g, In g (inside E mp i G) -> lsf g k <> 0) ->
   exists s m, written "sfr_fit_mean" f i k = Fin s /\ written "mstar_fit_mean" f i k = Fin m /\ 1 / 10 ^ 12 * m <= s).
Proof.
  intros Hi Hk HN. destruct (cells i k Hi Hk) as (-> & -> & -> & ->). split; intros H; apply mean_ratio; try exact HN; intros g Hg.
  - destruct (H g Hg) as (P1 & P2 & P3). unfold sfr_seen, mass_seen.
    destruct (Req_EM_T (nth k (MD g) 0) 1), (Req_EM_T (nth k (D g) 0) 0), (Req_EM_T (nth k (D g) 0) 1); try lra.
    eapply Rle_trans; [|apply Rmax_r]. right. field.
  - specialize (H g Hg). unfold sfr_fitted, mass_fitted. pose proof (pow10_pos (lsm g k)).
    destruct (Req_EM_T (lsf g k) 0), (Req_EM_T (lsm g k) 0); try lra.
    eapply Rle_trans; [|apply Rmax_r]. right. field.
Qed.

Theorem empty_bin i k : (i < length E - 1)%nat -> (k < length t)%nat -> inside E mp i G = [] ->
  written "mstar_data_mean" f i k = NaN /\ written "mstar_fit_mean" f i k = NaN /\ written "sfr_data_mean" f i k = NaN /\ written "sfr_fit_mean" f i k = NaN.
Proof. intros Hi Hk HN. destruct (cells i k Hi Hk) as (-> & -> & -> & ->). rewrite HN. repeat split; reflexivity. Qed.

Theorem unit_rates i k : (i < length E - 1)%nat -> (k < length t)%nat -> inside E mp i G <> [] ->
  (forall g, In g (inside E mp i G) -> nth k (D g) 0 = 1) -> written "sfr_data_mean" f i k = Fin 0.
Proof.
  intros Hi Hk HN H. destruct (cells i k Hi Hk) as (_ & _ & -> & _).
  rewrite (map_ext_in _ (fun _ => 0)).
  2:{ intros g Hg. rewrite (H g Hg). unfold sfr_seen. destruct (Req_EM_T 1 0); [reflexivity|]. destruct (Req_EM_T 1 1); [reflexivity|lra]. }
  destruct (inside E mp i G) as [|g l]; [contradiction|]. unfold mean. cbn [map]. f_equal.
  assert (Z : Rsum (0 :: map (fun _ : nat => 0) l) = 0) by (unfold Rsum; clear; cbn [fold_right]; induction l as [|x l IH]; cbn [map fold_right]; lra).
  rewrite Z. unfold Rdiv. ring.
Qed.

Theorem edges_dropped P : increasing E ->
  (forall g, In g G -> P g = false -> In (mp g) E \/ mp g < hd 0 E \/ last E 0 < mp g) ->
  quality_is E t T (filter P G) mp D MD SF SM f.
Proof.
  intros IE H. assert (B : forall v, bin_means E t (filter P G) mp v = bin_means E t G mp v).
  { intros v. unfold bin_means. apply map_ext_in. intros i Hi. apply in_seq in Hi. apply map_ext. intros k. f_equal. f_equal.
    rewrite filter_twice. apply filter_ext_in'. intros g Hg. destruct (P g) eqn:EP; [apply andb_true_l|].
    rewrite andb_false_l. symmetry. unfold interior. destruct (Rlt_dec (nth i E 0) (mp g)) as [a|]; [|reflexivity].
    destruct (Rlt_dec (mp g) (nth (S i) E 0)) as [b|]; [|reflexivity]. exfalso.
    pose proof (increasing_nth_lt E IE) as M. destruct (H g Hg EP) as [h|[h|h]].
    - apply (In_nth _ _ 0) in h. destruct h as (j & Hj & h). rewrite <- h in a, b. destruct (Nat.lt_ge_cases j i) as [c|c].
      + specialize (M j i c ltac:(lia)). lra.
      + destruct (Nat.eq_dec j i) as [->|n]; [lra|]. destruct (Nat.eq_dec j (S i)) as [->|n']; [lra|]. specialize (M (S i) j ltac:(lia) Hj). lra.
    - rewrite hd_nth in h. destruct (Nat.eq_dec i 0) as [->|n]; [lra|]. specialize (M 0%nat i ltac:(lia) ltac:(lia)). lra.
    - rewrite QualityProofs.last_nth in h. destruct (Nat.eq_dec (S i) (length E - 1)) as [e|n]; [rewrite e in b; lra|]. specialize (M (S i) (length E - 1)%nat ltac:(lia) ltac:(lia)). lra. }
  destruct Q. constructor; try assumption; rewrite B; assumption.
Qed.
End Written.

(** ** Exceptions *)
Lemma loop_missing tb sim E : forall subvols sums tl v, In v subvols -> tb v = None \/ sim v = None -> quality_loop tb sim E subvols sums tl = None.
Proof.
  induction subvols as [|a subvols IH]; intros sums tl v Hv HN; [destruct Hv|]. cbn [quality_loop].
  destruct Hv as [->|Hv].
  - destruct (tb v) as [[tb_v has_fit]|]; [|reflexivity]. destruct (sim v) as [sd|]; [destruct HN; discriminate|reflexivity].
  - destruct (tb a) as [[tb_v has_fit]|]; [|reflexivity]. destruct (sim a) as [sd|]; [|reflexivity].
    destruct (quality_rows _ _ _ _ _ _); [|reflexivity]. destruct (add_rows _ _ _ _ _); [|reflexivity]. apply (IH _ _ v Hv HN).
Qed.
Lemma add_rows_raises nt w E r sums : nt <> w -> (2 <= length E)%nat -> sums <> [] -> add_rows nt w E r sums = None.
Proof.
  intros HN HE HS. unfold add_rows. assert (nbins E <> 0)%nat by (unfold nbins; lia). destruct (nbins E) as [|n]; [lia|].
  destruct sums as [|b sums]; [contradiction|]. cbn [seq combine vmap map sequence]. unfold vmap. cbn [map sequence]. unfold add_bin at 1.
  apply Nat.eqb_neq in HN. rewrite HN. reflexivity.
Qed.
Theorem smdpl_raises fb kern sing files data smdpl_t E subvols :
  (subvols = [] \/ (exists v, In v subvols /\ (files v = None \/ data v = None)) \/
   (length smdpl_t <> 1%nat /\ length smdpl_t <> 117%nat /\ (2 <= length E)%nat)) ->
  calculate_plot_smdpl_dr1 fb kern sing files data smdpl_t E subvols = None.
Proof.
  intros H. unfold calculate_plot_smdpl_dr1, quality_smdpl. destruct H as [->|[(v & Hv & H)|(_ & H & HE)]].
  - reflexivity.
  - rewrite (loop_missing _ _ _ _ _ _ v Hv); [reflexivity|]. unfold smdpl_tables, smdpl_sim. destruct H as [->| ->]; [left|right]; reflexivity.
  - destruct subvols as [|v subvols]; [reflexivity|]. cbn [quality_loop].
    destruct (smdpl_tables fb kern sing files v) as [[tb_v has_fit]|]; [|reflexivity].
    assert (S : forall sd, smdpl_sim data smdpl_t v = Some sd -> sd_t sd = smdpl_t).
    { intros sd. unfold smdpl_sim. destruct (data v) as [[a b]|]; [|discriminate]. unfold load_SMDPL_data.
      destruct (cumulative_mstar_formed_galpop smdpl_t a); [|discriminate]. intros e. inversion e. reflexivity. }
    destruct (smdpl_sim data smdpl_t v) as [sd|]; [|reflexivity]. rewrite (S sd eq_refl).
    destruct (quality_rows _ _ _ _ _ _); [|reflexivity]. rewrite add_rows_raises; [reflexivity| | |].
    + unfold SMDPL_NT. intros e. apply H. symmetry. exact e.
    + exact HE.
    + unfold nbins. destruct (length E - 1)%nat eqn:e; [lia|]. discriminate.
Qed.
Lemma default_bins : MPEAK_BINS = map Fin (evenly (1125 / 100) (1425 / 100) 7).
Proof.
  unfold MPEAK_BINS, evenly. rewrite map_map. apply map_ext. intros i.
  cbn [xadd xmul]. f_equal. replace (INR (7 - 1)) with 6 by (cbn; lra). lra.
Qed.

(** ** Examples *)
Definition exq_p : nat -> DiffstarParams R := fun _ => mkDiffstar 12 (-1) 1 (-1) 1 0 (-1) 0.
Definition exq_T : list R := evenly (1 / 100) (138 / 10) 200.
Definition exq_M : nat -> list R := fun _ => map (fun _ => 12) exq_T.
Lemma exq_good g : (g < 40)%nat -> SpecMeasure.good ex_kern ex_sing exq_T ex_hm ex_q exq_p (fun _ _ => 12) exq_M g.
Proof.
  intros Hg. unfold good, ex_q. rewrite (proj2 (Nat.ltb_lt g 40) Hg). split; [reflexivity|]. split; [|split].
  - apply Forall_forall. intros t Ht. split; [|reflexivity]. apply evenly_ge in Ht; lra.
  - unfold ex_sing. cbn [snd]. unfold exq_M. rewrite !map_map. reflexivity.
  - apply map_length.
Qed.
Lemma exq_increasing n : increasing (1 / 1000 :: map (fun k => INR (S k) / 10) (seq 0 n)).
Proof.
  apply increasing_of_nth. intros i Hi. cbn [length] in Hi. rewrite map_length, seq_length in Hi.
  assert (N : forall j, (j < n)%nat -> nth j (map (fun k => INR (S k) / 10) (seq 0 n)) 0 = INR (S j) / 10).
  { intros j Hj. rewrite (nth_map_nat _ _ j 0%nat) by (rewrite seq_length; lia). rewrite seq_nth by lia. reflexivity. }
  destruct i as [|i]; cbn [nth].
  - rewrite N by lia. cbn [INR]. lra.
  - rewrite !N by lia. rewrite (S_INR (S i)). lra.
Qed.
Lemma exq_running : is_running_max (map clipped_log [10 ^ 12; 10 ^ 12; 3]) 2 12.
Proof.
  assert (A : clipped_log (10 ^ 12) = 12).
  { unfold clipped_log. destruct (Rlt_dec (10 ^ 12) (10 ^ 7)); [lra|]. unfold log10R. rewrite ln_pow by lra. cbn [INR]. field. pose proof ln10_pos. lra. }
  assert (B : clipped_log 3 = 0) by (unfold clipped_log; destruct (Rlt_dec 3 (10 ^ 7)); [reflexivity|lra]).
  cbn [map]. rewrite A, B. split.
  - intros j Hj. destruct j as [|[|[|j]]]; cbn [nth]; try lra. lia.
  - exists 1%nat. split; [lia|reflexivity].
Qed.
Lemma exq_smdpl :
  let t := map (fun k => INR (S k) / 10) (seq 0 117) in
  let I (v : nat) := [2 * v; 2 * v + 1; 2 * v + 50]%nat in
  let D (g : nat) := map (fun _ => 2) t in
  let P (g : nat) := [10 ^ 12; 10 ^ 12; 3] in
  let sel g := above0 (ex_loss g) && is1 (ex_flag g) in
  let files v := Some (ex_dm (I v), ex_ds (I v)) in
  let data v := Some (map (fun g => map Fin (D g)) (I v), map (fun g => map Fin (P g)) (I v)) in
  length t = 117%nat /\ increasing (1 / 1000 :: t) /\ sel 8%nat = true /\
  forall v, In v [4; 7]%nat -> (exists dm ds, files v = Some (dm, ds) /\ fit_files dm ds (I v) ex_loss ex_flag ex_hm ex_q) /\
     data v = Some (map (fun g => map Fin (D g)) (I v), map (fun g => map Fin (P g)) (I v)) /\
     (forall g, In g (I v) -> length (D g) = 117%nat) /\
     (forall g, In g (I v) -> sel g = true -> SpecMeasure.good ex_kern ex_sing exq_T ex_hm ex_q exq_p (fun _ _ => 12) exq_M g /\
        Forall (fun s => 0 <= s) (D g) /\ P g <> [] /\ is_running_max (map clipped_log (P g)) (length (P g) - 1) 12).
Proof.
  intros t I D P sel files data. assert (L : length t = 117%nat) by (unfold t; rewrite map_length; apply seq_length).
  split; [exact L|]. split; [apply exq_increasing|]. split; [unfold sel; rewrite ex_sel2; reflexivity|].
  intros v _. split; [exists (ex_dm (I v)), (ex_ds (I v)); split; [reflexivity|apply ex_fit_files]|]. split; [reflexivity|].
  split; [intros g _; unfold D; rewrite map_length; exact L|]. intros g _ Hs. unfold sel in Hs. rewrite ex_sel2 in Hs. apply Nat.ltb_lt in Hs.
  split; [apply exq_good, Hs|]. split; [unfold D; apply Forall_forall; intros s Hx; apply in_map_iff in Hx; destruct Hx as (_ & <- & _); lra|].
  split; [discriminate|exact exq_running].
Qed.
Lemma exq_tng :
  let t := map (fun k => INR (S k) / 10) (seq 0 100) in
  let D (g : nat) := map (fun _ => 2) t in
  let P (g : nat) := [12; 12; 11] in
  let sel g := above0 (ex_loss g) && above0 (ex_loss g) && is1 (ex_flag g) in
  increasing (1 / 1000 :: t) /\ all_rows 50 (ex_dm (seq 0 50)) /\ all_rows 50 (ex_ds (seq 0 50)) /\
  lookup "loss" (ex_ds (seq 0 50)) = Some (D1 (map ex_loss (seq 0 50))) /\ sel 5%nat = true /\ sel 45%nat = false /\
  (forall g, (g < 50)%nat -> length (D g) = length t) /\
  (forall g, (g < 50)%nat -> sel g = true -> SpecMeasure.good ex_kern ex_sing exq_T ex_hm ex_q exq_p (fun _ _ => 12) exq_M g /\
     Forall (fun s => 0 <= s) (D g) /\ P g <> [] /\
     is_running_max (map (fun x => x - log10R (6774 / 10000)) (P g)) (length (P g) - 1) (12 - log10R (6774 / 10000))).
Proof.
  intros t D P sel. destruct (ex_rows 50) as [R1 R2]. split; [apply exq_increasing|]. split; [exact R1|]. split; [exact R2|]. split; [reflexivity|].
  unfold sel. rewrite !ex_sel. split; [reflexivity|]. split; [reflexivity|]. split; [intros; apply map_length|].
  intros g _ Hs. rewrite ex_sel in Hs. apply Nat.ltb_lt in Hs. split; [apply exq_good, Hs|].
  split; [unfold D; apply Forall_forall; intros s Hx; apply in_map_iff in Hx; destruct Hx as (_ & <- & _); lra|]. split; [discriminate|].
  cbn [P map length Nat.sub]. split; [|exists 1%nat; split; [lia|reflexivity]]. intros j Hj. destruct j as [|[|[|j]]]; cbn [nth]; try lra. lia.
Qed.
Lemma exq_galacticus (r : R) : 0 <= r ->
  let t := [1; 2; 3] in
  let I := [5; 8; 60]%nat in
  let D (g : nat) := [r; r; r] in
  let sel g := above0 (ex_loss g) && above0 (ex_loss g) && is1 (ex_flag g) in
  increasing (1 / 1000 :: t) /\ halo_file (ex_dm I) I ex_hm /\ fit_files (ex_dm I) (ex_ds I) I ex_loss ex_flag ex_hm ex_q /\
  lookup "loss" (ex_ds I) = Some (D1 (map ex_loss I)) /\ filter sel I = [5; 8]%nat /\ (forall g, In g I -> length (D g) = length t) /\
  (forall g, In g I -> sel g = true -> SpecMeasure.good ex_kern ex_sing exq_T ex_hm ex_q exq_p (fun _ _ => 12) exq_M g /\ Forall (fun s => 0 <= s) (D g) /\
     snd (ex_sing (ex_hm g) (map Fin t) LGT0) = map Fin [12; 12; 12] /\ [12; 12; 12] <> [] /\ 12 = last [12; 12; 12] 0).
Proof.
  intros Hr t I D sel. split; [cbn; lra|]. split; [repeat split|]. split; [apply ex_fit_files|]. split; [reflexivity|].
  split; [unfold sel, I; cbn [filter]; rewrite !ex_sel; reflexivity|]. split; [reflexivity|].
  intros g _ Hs. unfold sel in Hs. rewrite ex_sel in Hs. apply Nat.ltb_lt in Hs. split; [apply exq_good, Hs|].
  split; [unfold D; do 3 (constructor; [exact Hr|]); constructor|]. split; [reflexivity|]. split; [discriminate|reflexivity].
Qed.

(** A rate of exactly one counts as none. *)
Lemma unit_rate_refuted : exists kern sing dm0 dm ds o,
  calculate_plot_galcus (Some FB) kern sing dm0 dm ds (repeat (map Fin [1; 1; 1]) 3) (map Fin [1; 2; 3]) (map Fin [11; 13]) = Some o /\
  forall k, (k < 3)%nat -> written "sfr_data_mean" (save_data_plot o) 0 k = Fin 0 /\
    exists m, written "mstar_data_mean" (save_data_plot o) 0 k = Fin m /\ 0 < m.
Proof.
  exists ex_kern, ex_sing, (ex_dm [5; 8; 60]%nat), (ex_dm [5; 8; 60]%nat), (ex_ds [5; 8; 60]%nat).
  destruct (exq_galacticus 1 ltac:(lra)) as (It & F0 & F & FL & FS & LD & HG).
  destruct (galacticus_quality ex_kern ex_sing ex_hm ex_q exq_p (fun _ _ => 12) exq_M [1; 2; 3] [11; 13] (fun _ => [1; 1; 1]) (fun _ => 12) It
              _ _ _ _ (fun _ => [12; 12; 12]) _ _ _ _ F0 F FL LD HG) as (o & MD & SF & SM & E1 & V & Q).
  exists o. split; [exact E1|]. rewrite FS in Q. intros k Hk.
  assert (IG : inside [11; 13] (fun _ => 12) 0 [5; 8]%nat = [5; 8]%nat).
  { unfold inside. cbn [filter]. unfold interior. cbn [nth]. destruct (Rlt_dec 11 12); [|lra]. destruct (Rlt_dec 12 13); [reflexivity|lra]. }
  split.
  - apply (unit_rates _ _ _ _ _ _ _ _ _ _ Q); [cbn; lia|exact Hk|rewrite IG; discriminate|].
    intros g _. destruct k as [|[|[|k]]]; [reflexivity..|lia].
  - assert (MV : forall g, In g [5; 8]%nat -> MD g = massR [1; 2; 3] [1; 1; 1]).
    { intros g Hg. assert (IG' : In g [5; 8; 60]%nat) by (destruct Hg as [<-|[<-|[]]]; [now left|right; now left]).
      assert (SG : above0 (ex_loss g) && above0 (ex_loss g) && is1 (ex_flag g) = true) by (rewrite ex_sel; destruct Hg as [<-|[<-|[]]]; reflexivity).
      destruct (V g IG' SG) as [V1 _]. unfold formed in V1. rewrite cumulative_fin in V1 by reflexivity. inversion V1 as [V2]. symmetry. apply map_Fin_inj. exact (f_equal (fun l => l) V2). }
    destruct (cells _ _ _ _ _ _ _ _ _ _ Q 0 k ltac:(cbn; lia) Hk) as (-> & _). rewrite IG.
    assert (MG : forall g, In g [5; 8]%nat -> 1 < nth k (MD g) 0).
    { intros g Hg. rewrite (MV g Hg). unfold massR, T_BIRTH_MIN_R, SFR_MIN_R. destruct k as [|[|[|k]]]; [..|lia]; cbn [combine cumR map nth]; lra. }
    eexists. split; [reflexivity|]. unfold Rsum. cbn [map fold_right length].
    assert (A5 := MG 5%nat ltac:(now left)). assert (A8 := MG 8%nat ltac:(right; now left)).
    unfold mass_seen. destruct (Req_EM_T (nth k (MD 5%nat) 0) 1); [lra|]. destruct (Req_EM_T (nth k (MD 8%nat) 0) 1); [lra|].
    apply Rdiv_lt_0_compat; [lra|]. cbn [INR]. lra.
Qed.
Lemma ex_written E t T G mp D MD SF SM : exists f, quality_is E t T G mp D MD SF SM f.
Proof.
  exists [("tarr", D1 (map Fin t)); ("mpeak_bins", D1 (map Fin E));
     ("mpeak_binsc", D1 (map (fun i => Fin ((nth i E 0 + nth (S i) E 0) / 2)) (seq 0 (length E - 1))));
     ("mstar_data_mean", D2 (bin_means E t G mp (fun g k => mass_seen (nth k (MD g) 0))));
     ("mstar_fit_mean", D2 (bin_means E t G mp (fun g k => mass_fitted (interp T (map log10R (SM g)) (nth k t 0)))));
     ("sfr_data_mean", D2 (bin_means E t G mp (fun g k => sfr_seen (nth k (D g) 0) (nth k (MD g) 0))));
     ("sfr_fit_mean", D2 (bin_means E t G mp (fun g k =>
        sfr_fitted (interp T (map log10R (SF g)) (nth k t 0)) (interp T (map log10R (SM g)) (nth k t 0)))))]%string.
  constructor; reflexivity.
Qed.
Lemma exq_perfect : let h := [4; 9; 7] in let mp (g : nat) := INR g in
  let T := [1; 2; 3] in
  forall g, In g (inside [11; 13] mp 0 [12; 14]%nat) -> forall k, (k < 3)%nat ->
    0 < nth k h 0 /\ nth k h 0 <> 1 /\ interp T (map log10R h) (nth k T 0) = log10R (nth k h 0) /\ In 12%nat (inside [11; 13] mp 0 [12; 14]%nat).
Proof.
  intros h mp T g _ k Hk.
  assert (A : In 12%nat (inside [11; 13] mp 0 [12; 14]%nat)).
  { apply filter_In. split; [now left|]. unfold interior, mp. cbn [nth]. replace (INR 12) with 12 by (rewrite INR_IZR_INZ; reflexivity).
    destruct (Rlt_dec 11 12); [|lra]. destruct (Rlt_dec 12 13); [reflexivity|lra]. }
  unfold interp, h, T. cbn [hd map combine].
  destruct k as [|[|[|k]]]; [..|lia]; cbn [nth].
  - split; [lra|]. split; [lra|]. split; [|exact A]. destruct (Rle_dec 1 1); [reflexivity|lra].
  - split; [lra|]. split; [lra|]. split; [|exact A]. destruct (Rle_dec 2 1); [lra|]. rewrite pwl_first by lra. field.
  - split; [lra|]. split; [lra|]. split; [|exact A]. destruct (Rle_dec 3 1); [lra|]. rewrite pwl_rest by lra. rewrite pwl_first by lra. field.
Qed.
Theorem nomerging_quality : forall kern sing hm q p h M t E D mp, increasing (1 / 1000 :: t) ->
  let T := evenly (1 / 100) (138 / 10) 200 in
  forall files data P lm su I, length t = 117%nat ->
  let sel g := above0 (lm g) && is1 (su g) in
  (forall v, (v < 576)%nat -> (exists dm ds, files v = Some (dm, ds) /\ fit_files dm ds (I v) lm su hm q) /\
     data v = Some (map (fun g => map Fin (D g)) (I v), map (fun g => map Fin (P g)) (I v)) /\
     (forall g, In g (I v) -> length (D g) = 117%nat) /\
     (forall g, In g (I v) -> sel g = true -> good kern sing T hm q p h M g /\ Forall (fun s => 0 <= s) (D g) /\ P g <> [] /\
        is_running_max (map clipped_log (P g)) (length (P g) - 1) (mp g))) ->
  exists o MD SF SM, calculate_plot_smdpl_nomerging (Some FB) kern sing files data (map Fin t) (map Fin E) = Some o /\
    (forall v g, (v < 576)%nat -> In g (I v) -> sel g = true -> formed t (D g) (MD g) /\ fit_is kern T (hm g) (q g) (SF g) (SM g)) /\
    quality_is E t T (List.concat (map (fun v => filter sel (I v)) (seq 0 576))) mp D MD SF SM (save_data_plot o).
Proof.
  intros kern sing hm q p h M t E D mp It T files data P lm su I L117 sel HV.
  destruct (smdpl_quality kern sing hm q p h M t E D mp It files data P lm su I (seq 0 576) L117 ltac:(discriminate)) as (o & MD & SF & SM & V1 & V2 & V3).
  { intros v Hv. apply in_seq in Hv. apply HV. lia. }
  exists o, MD, SF, SM. split; [exact V1|]. split; [|exact V3]. intros v g Hv. apply V2, in_seq. lia.
Qed.
Theorem nomerging_raises fb kern sing files data t E v : (v < 576)%nat -> files v = None \/ data v = None ->
  calculate_plot_smdpl_nomerging fb kern sing files data t E = None.
Proof.
  intros Hv H. apply (smdpl_raises fb kern sing files data t E (seq 0 576)). right. left. exists v. split; [apply in_seq; lia|exact H].
Qed.
Lemma exq_edges : increasing [11; 13; 14] /\ inside [11; 13; 14] (fun _ => 12) 1 [3; 4]%nat = [] /\ In 13 [11; 13; 14].
Proof.
  split; [cbn; lra|]. split; [|right; now left]. unfold inside. cbn [filter]. unfold interior. cbn [nth]. destruct (Rlt_dec 13 12); [lra|reflexivity].
Qed.
Lemma exq_lengths : length [1; 2; 3] <> 1%nat /\ length [1; 2; 3] <> 117%nat /\ (2 <= length [11; 13])%nat.
Proof. cbn. lia. Qed.
