(** Proofs about the measuring programs from the fit files to the final tables. *)
From Coq Require Import Reals Lra Lia ZArith List Bool String.
From Verif Require Import XReal RealFacts ModelUtils ModelKernels ModelSfh ModelPop ModelHist ModelLoad ModelIO SpecLoad ModelTargets SpecCore SpecHist SpecTargets SpecMeasure
  XFacts IntegralProofs SfhProofs DtProofs SmhmProofs FitProofs HistProofs LossProofs PopProofs SplitProofs SnapshotProofs TargetProofs TargetDataProofs TargetTopProofs MeasureProofs.
Import List ListNotations.
Open Scope R_scope.
Local Notation length := List.length.

(** ** Selection *)
Lemma above0_eq x : (Fin 0 <? x)%X = above0 x.
Proof. destruct x; reflexivity. Qed.
Lemma is1_eq x : xeq x (Fin 1) = is1 x.
Proof. destruct x; reflexivity. Qed.
Lemma positive_map (f : nat -> xr) I : positive (map f I) = map (fun g => above0 (f g)) I.
Proof. unfold positive. rewrite map_map. apply map_ext. intros g. apply above0_eq. Qed.
Lemma equals_map (f : nat -> xr) I : equals (Fin 1) (map f I) = map (fun g => is1 (f g)) I.
Proof. unfold equals. rewrite map_map. apply map_ext. intros g. apply is1_eq. Qed.
Lemma col1_of key f v : lookup key f = Some (D1 v) -> col1 key f = Some v.
Proof. intros H. unfold col1. rewrite H. reflexivity. Qed.

Section Files.
Variables (dm ds : hdf) (I : list nat) (lm su : nat -> xr) (hm : nat -> MahParams xr) (q : nat -> DiffstarParams xr).
Hypothesis FF : fit_files dm ds I lm su hm q.
Lemma file_mah : hdf_mah dm = Some (mah_cols hm I).
Proof.
  destruct FF. unfold hdf_mah, vmap. cbn [map].
  rewrite (col1_of _ _ _ ff_h0), (col1_of _ _ _ ff_h1), (col1_of _ _ _ ff_h2), (col1_of _ _ _ ff_h3), (col1_of _ _ _ ff_h4). reflexivity.
Qed.
Lemma file_sfh : hdf_sfh ds = Some (ds_cols (sfh_cols q I)).
Proof.
  destruct FF. unfold hdf_sfh, MS_FIELDS, Q_FIELDS, vmap. cbn [map app].
  rewrite (col1_of _ _ _ ff_q0), (col1_of _ _ _ ff_q1), (col1_of _ _ _ ff_q2), (col1_of _ _ _ ff_q3),
    (col1_of _ _ _ ff_q4), (col1_of _ _ _ ff_q5), (col1_of _ _ _ ff_q6), (col1_of _ _ _ ff_q7). reflexivity.
Qed.
Lemma load_smdpl_value kern sing lgt0 :
  load_diffstar_sfh_tables_smdpl (Some FB) kern sing dm ds lgt0
  = select_tables kern sing (map (fun g => above0 (lm g) && is1 (su g)) I) (mah_cols hm I) (ds_cols (sfh_cols q I)) lgt0 (Some FB).
Proof.
  unfold load_diffstar_sfh_tables_smdpl. rewrite file_mah, file_sfh. destruct FF.
  rewrite (col1_of _ _ _ ff_loss), (col1_of _ _ _ ff_succ), positive_map, equals_map, and_mask_map. reflexivity.
Qed.
Lemma load_galacticus_value kern sing lgt0 ls : lookup "loss" ds = Some (D1 (map ls I)) ->
  load_diffstar_sfh_tables_galacticus (Some FB) kern sing dm ds lgt0
  = select_tables kern sing (map (fun g => above0 (lm g) && above0 (ls g) && is1 (su g)) I) (mah_cols hm I) (ds_cols (sfh_cols q I)) lgt0 (Some FB).
Proof.
  intros HL. unfold load_diffstar_sfh_tables_galacticus, load_fitted_tables. rewrite file_mah, file_sfh. destruct FF.
  rewrite (col1_of _ _ _ ff_loss), (col1_of _ _ _ ff_succ), (col1_of _ _ _ HL), !positive_map, equals_map, !and_mask_map. reflexivity.
Qed.
End Files.

Lemma take_map {A} (f : nat -> A) N idx : (forall i, In i idx -> (i < N)%nat) -> take (map f (seq 0 N)) idx = Some (map f idx).
Proof.
  intros H. rewrite (take_some _ _ (f 0%nat)) by (intros k Hk; rewrite map_length, seq_length; apply H, Hk). f_equal.
  apply map_ext_in. intros k Hk. rewrite (nth_map_nat _ _ k 0%nat) by (rewrite seq_length; apply H, Hk). rewrite seq_nth by (apply H, Hk). reflexivity.
Qed.
Lemma take_file N idx f : all_rows N f -> (forall i, In i idx -> (i < N)%nat) ->
  exists f', take_hdf idx f = Some f' /\ forall key (g : nat -> xr), lookup key f = Some (D1 (map g (seq 0 N))) -> lookup key f' = Some (D1 (map g idx)).
Proof.
  intros HR HI. unfold take_hdf.
  induction f as [|[k d] f IH]; [exists []; split; [reflexivity|discriminate]|]. inversion HR as [|? ? R1 R2]; subst. cbn [snd] in R1.
  destruct (IH R2) as (f' & E & V).
  assert (exists w, match d with D1 v => option_map (fun w => (k, D1 w)) (take v idx) | D2 v => option_map (fun w => (k, D2 w)) (take v idx) end = Some (k, w) /\
            forall g : nat -> xr, d = D1 (map g (seq 0 N)) -> w = D1 (map g idx)) as (w & W1 & W2).
  { destruct d as [v|v].
    - rewrite (take_some v idx NaN) by (intros i Hi; rewrite R1; apply HI, Hi). eexists. split; [reflexivity|].
      intros g e. inversion e; subst v. f_equal. pose proof (take_map g N idx HI) as TM.
      rewrite (take_some _ idx NaN) in TM by (intros i Hi; rewrite map_length, seq_length; apply HI, Hi). inversion TM. reflexivity.
    - rewrite (take_some v idx []) by (intros i Hi; rewrite R1; apply HI, Hi). eexists. split; [reflexivity|]. discriminate. }
  exists ((k, w) :: f'). split.
  - unfold vmap in *. cbn [map fst snd]. rewrite W1. cbn [sequence]. rewrite E. reflexivity.
  - intros key g. cbn [lookup]. destruct (String.eqb k key); [|apply V]. intros e. inversion e. f_equal. apply W2. congruence.
Qed.

Lemma rank_start_value N n r : (r <= n)%nat -> (0 < n)%nat -> rank_start N n r = (r * (N / n) + Nat.min r (N mod n))%nat.
Proof.
  intros Hr Hn. induction r as [|r IH]; [reflexivity|].
  assert (E : rank_start N n (S r) = (rank_start N n r + rank_load N n r)%nat).
  { unfold rank_start, rank_load. generalize (rank_sizes N n). clear. intros l. revert r.
    induction l as [|a l IH]; intros [|r]; try reflexivity; [cbn; lia|].
    cbn [firstn fold_right nth]. specialize (IH r). cbn [firstn fold_right] in IH. rewrite IH. lia. }
  rewrite E, IH, rank_load_value by lia. destruct (Nat.ltb_spec r (N mod n)); lia.
Qed.
Lemma part_eq N n r : (r < n)%nat -> part N n r = seq (rank_start N n r) (rank_load N n r).
Proof. intros H. unfold part. rewrite rank_start_value, rank_load_value by lia. reflexivity. Qed.
Lemma part_range N n r i : (r < n)%nat -> In i (part N n r) -> (i < N)%nat.
Proof. intros H Hi. rewrite part_eq in Hi by exact H. apply in_seq in Hi. pose proof (rank_range N n r ltac:(lia)). lia. Qed.
Lemma parts_all N n : (0 < n)%nat -> List.concat (map (part N n) (seq 0 n)) = seq 0 N.
Proof.
  intros H. rewrite <- (concat_ranks N n H). f_equal. apply map_ext_in. intros r Hr. apply in_seq in Hr. apply part_eq. lia.
Qed.

(** ** Pooling *)
Lemma fold_left_map {A B C} (g : A -> C -> A) (f : B -> C) l a : fold_left g (map f l) a = fold_left (fun s v => g s (f v)) l a.
Proof. revert a. induction l as [|b l IH]; intros a; [reflexivity|]. cbn [map fold_left]. apply IH. Qed.
Lemma filter_concat {A} (P : A -> bool) ls : filter P (List.concat ls) = List.concat (map (filter P) ls).
Proof. induction ls as [|l ls IH]; [reflexivity|]. cbn [List.concat map]. rewrite filter_app, IH. reflexivity. Qed.
Lemma pool_sum {V} (P : nat -> bool) (w : nat -> R) (G : V -> list nat) vs :
  Rsum (map (fun v => Rsum (map w (filter P (G v)))) vs) = Rsum (map w (filter P (List.concat (map G vs)))).
Proof. rewrite filter_concat, concat_map, !map_map. apply Rsum_concat. Qed.
Lemma pool_all {V} (w : nat -> R) (G : V -> list nat) vs :
  Rsum (map (fun v => Rsum (map w (G v))) vs) = Rsum (map w (List.concat (map G vs))).
Proof. rewrite concat_map, !map_map. apply Rsum_concat. Qed.
Lemma pool_count {V} (P : nat -> bool) (G : V -> list nat) vs :
  Rsum (map (fun v => INR (count P (G v))) vs) = INR (count P (List.concat (map G vs))).
Proof.
  unfold count. rewrite filter_concat, !map_map. induction vs as [|v vs IH]; [reflexivity|]. cbn [map List.concat]. rewrite app_length, plus_INR, <- IH. reflexivity.
Qed.
Lemma finite_choice {V L} (R : V -> L -> Prop) vs : (forall v, In v vs -> exists l, R v l) -> exists ls, Forall2 R vs ls.
Proof.
  induction vs as [|v vs IH]; intros H; [exists []; constructor|]. destruct (H v (or_introl eq_refl)) as (l & Hl).
  destruct (IH (fun w Hw => H w (or_intror Hw))) as (ls & Hls). exists (l :: ls). constructor; assumption.
Qed.
Lemma concat_columns {V L C} (c : V -> list C) (f : L -> C) vs ls : Forall2 (fun v l => c v = map f l) vs ls ->
  List.concat (map c vs) = map f (List.concat ls).
Proof. induction 1 as [|v l vs ls E _ IH]; [reflexivity|]. cbn [map List.concat]. rewrite map_app, E, IH. reflexivity. Qed.
Lemma F2_impl {A B} (P Q : A -> B -> Prop) l m : (forall a b, P a b -> Q a b) -> Forall2 P l m -> Forall2 Q l m.
Proof. intros H. induction 1; constructor; auto. Qed.
Lemma tbl3_ext a b c f g : (forall i j k, f i j k = g i j k) -> tbl3 a b c f = tbl3 a b c g.
Proof. intros H. unfold tbl3. apply map_ext. intros i. apply tbl_ext. intros; apply H. Qed.
Lemma tbl4_ext a b c d f g : (forall i j k l, f i j k l = g i j k l) -> tbl4 a b c d f = tbl4 a b c d g.
Proof. intros H. unfold tbl4. apply map_ext. intros i. apply tbl3_ext. intros; apply H. Qed.

Section Pool.
Variables (k_max : nat) (hm : nat -> MahParams xr) (q : nat -> DiffstarParams xr) (up : nat -> Z) (cen sat : nat -> bool)
  (M S F : nat -> list R) (T : list R) (ids : list nat) (zs E Em Es : list R).
Theorem pool_value {V} (vs : list V) (G : V -> list nat) (o : V -> Out) : vs <> [] ->
  (forall v, In v vs -> contribution k_max hm q up (G v) cen sat M S F T ids zs E Em Es (o v)) ->
  exists f, collect (length ids) (length E - 1) (length Em - 1) (length Es - 1) (map (fun t => Fin (nth t T 0)) ids) (map o vs) = Some f /\
    final_tables k_max hm q up (map G vs) cen sat M S F T ids zs E Em Es f.
Proof.
  intros NE H. unfold collect. cbv zeta. unfold concatenate_samples_haloes.
  destruct (map (fun o => td_haloes (fst o)) (map o vs)) eqn:e; [destruct vs; [contradiction|discriminate]|].
  rewrite <- e. clear e. cbv zeta. rewrite !map_map.
  assert (ST : forall v, In v vs -> _) by (intros v Hv; exact (co_stats _ _ _ _ _ _ _ _ _ _ _ _ _ _ _ _ _ (H v Hv))).
  rewrite !fold_left_map.
  rewrite (sum2_zeros _ _ (fun v => td_counts (fst (o v))) _ vs (fun v Hv => st_c _ _ _ _ _ _ _ _ _ _ _ _ _ _ _ _ _ _ _ _ (ST v Hv))).
  rewrite (sum2_zeros _ _ (fun v => td_hist (fst (o v))) _ vs (fun v Hv => st_h _ _ _ _ _ _ _ _ _ _ _ _ _ _ _ _ _ _ _ _ (ST v Hv))).
  rewrite (sum2_zeros _ _ (fun v => td_wcounts (fst (o v))) _ vs (fun v Hv => st_wc _ _ _ _ _ _ _ _ _ _ _ _ _ _ _ _ _ _ _ _ (ST v Hv))).
  rewrite (sum2_zeros _ _ (fun v => td_whist (fst (o v))) _ vs (fun v Hv => st_wh _ _ _ _ _ _ _ _ _ _ _ _ _ _ _ _ _ _ _ _ (ST v Hv))).
  rewrite (sum2_zeros _ _ (fun v => td_counts_cen (fst (o v))) _ vs (fun v Hv => st_cc _ _ _ _ _ _ _ _ _ _ _ _ _ _ _ _ _ _ _ _ (ST v Hv))).
  rewrite (sum2_zeros _ _ (fun v => td_counts_sat (fst (o v))) _ vs (fun v Hv => st_cs _ _ _ _ _ _ _ _ _ _ _ _ _ _ _ _ _ _ _ _ (ST v Hv))).
  rewrite (sum3_zeros _ _ _ (fun v => pd_wcounts (snd (o v))) _ vs (fun v Hv => st_pw _ _ _ _ _ _ _ _ _ _ _ _ _ _ _ _ _ _ _ _ (ST v Hv))).
  rewrite (sum3_zeros _ _ _ (fun v => pd_counts (snd (o v))) _ vs (fun v Hv => st_pc _ _ _ _ _ _ _ _ _ _ _ _ _ _ _ _ _ _ _ _ (ST v Hv))).
  rewrite (sum4_zeros _ _ _ _ (fun v => pd_cent (snd (o v))) _ vs (fun v Hv => st_jc _ _ _ _ _ _ _ _ _ _ _ _ _ _ _ _ _ _ _ _ (ST v Hv))).
  rewrite (sum4_zeros _ _ _ _ (fun v => pd_sat (snd (o v))) _ vs (fun v Hv => st_js _ _ _ _ _ _ _ _ _ _ _ _ _ _ _ _ _ _ _ _ (ST v Hv))).
  eexists. split; [reflexivity|]. constructor; cbn [f_counts_diff f_hist_diff f_counts f_hist f_counts_cen f_counts_sat f_mstar_wcounts f_mstar_counts f_cent f_sat f_smhm f_age f_haloes].
  - constructor.
    + apply tbl_ext. intros i j. apply pool_count.
    + apply tbl_ext. intros i j. apply pool_sum.
    + apply tbl_ext. intros i j. apply pool_all.
    + apply tbl_ext. intros i j. apply (pool_all (fun g => tw_mass (at_t ids M i g) (mean_bin E) (nth j E 0) (nth (j + 1) E 0) * at_t ids S i g)).
    + apply tbl_ext. intros i j. apply (pool_count (fun g => cen g && inbin E j (at_t ids M i g))).
    + apply tbl_ext. intros i j. apply (pool_count (fun g => sat g && inbin E j (at_t ids M i g))).
    + apply tbl3_ext. intros i j a. apply (pool_sum (fun g => interior E j (at_t ids M i g)) (fun g => tw_mass (at_t ids S i g) (mean_bin Em) (nth a Em 0) (nth (a + 1) Em 0))).
    + apply tbl3_ext. intros i j a. apply (pool_count (fun g => interior E j (at_t ids M i g) && inbin Em a (at_t ids S i g))).
    + apply tbl4_ext. intros i j a b. apply (pool_sum (fun g => interior E j (at_t ids M i g) && cen g)
        (fun g => tw_mass (at_t ids S i g) (mean_bin Em) (nth a Em 0) (nth (a + 1) Em 0)
                        * tw_mass (Rmax (at_t ids F i g) (-12)) (mean_bin Es) (nth b Es 0) (nth (b + 1) Es 0))).
    + apply tbl4_ext. intros i j a b. apply (pool_sum (fun g => interior E j (at_t ids M i g) && sat g)
        (fun g => tw_mass (at_t ids S i g) (mean_bin Em) (nth a Em 0) (nth (a + 1) Em 0)
                        * tw_mass (Rmax (at_t ids F i g) (-12)) (mean_bin Es) (nth b Es 0) (nth (b + 1) Es 0))).
  - intros i j Hi Hj. rewrite div_entry by assumption. rewrite pool_count, pool_sum. rewrite <- mean_div, map_length. reflexivity.
  - reflexivity.
  - destruct (finite_choice (fun v L => sample_of hm q up T E ids zs (td_haloes (fst (o v))) L /\ fair_sample k_max (G v) M E ids L) vs) as (Ls & HL).
    { intros v Hv. apply (co_sample _ _ _ _ _ _ _ _ _ _ _ _ _ _ _ _ _ (H v Hv)). }
    exists Ls. split.
    + constructor; cbn [h_logmh_id h_logmh_val h_mah h_ms h_q h_upid h_tobs_id h_tobs_val h_redshift]; apply concat_columns;
        (eapply F2_impl; [|exact HL]); intros v L [SO _]; apply SO.
    + clear -HL. induction HL as [|v L vs Ls [_ FS] _ IH]; constructor; assumption.
Qed.
End Pool.

(** ** The bins used *)
Definition E_mh := evenly 11 (1475 / 100) 12.
Definition E_mh_g := evenly 11 (145 / 10) 12.
Definition E_ms := evenly 7 13 26.
Definition E_sf := evenly (-13) (-8) 30.
Lemma bins_mh : LOGMH_BINS = map Fin E_mh. Proof. apply linspace_evenly. lia. Qed.
Lemma bins_mh_g : LOGMH_BINS_GALACTICUS = map Fin E_mh_g. Proof. apply linspace_evenly. lia. Qed.
Lemma bins_ms : LOGMSTAR_BINS_PDF = map Fin E_ms. Proof. apply linspace_evenly. lia. Qed.
Lemma bins_sf : LOGSSFR_BINS_PDF = map Fin E_sf. Proof. apply linspace_evenly. lia. Qed.
Lemma bins_ok : increasing E_mh /\ increasing E_mh_g /\ increasing E_ms /\ increasing E_sf /\
  length E_mh = 12%nat /\ length E_mh_g = 12%nat /\ length E_ms = 26%nat /\ length E_sf = 30%nat.
Proof. do 4 (split; [apply evenly_increasing; [lia|lra]|]). do 3 (split; [apply evenly_len|]). apply evenly_len. Qed.

Section Programs.
Variable kern : MahParams xr -> xr -> xr -> xr.
Variable sing : MahParams xr -> list xr -> xr -> list xr * list xr.
Variable age : xr -> xr.
Variable A : R -> R.
Variables (lgt0 : R) (T zs : list R) (ids : list nat).
Hypothesis SU : setup age A lgt0 T zs ids.
Let AG := su_age _ _ _ _ _ _ SU.
Let AD := su_older _ _ _ _ _ _ SU.
Let HT := su_times _ _ _ _ _ _ SU.
Let T0 := su_first _ _ _ _ _ _ SU.
Let T1 := su_last _ _ _ _ _ _ SU.
Let ZN := su_some _ _ _ _ _ _ SU.
Let ZR := su_range _ _ _ _ _ _ SU.
Let HI := su_ids _ _ _ _ _ _ SU.
Variables (hm : nat -> MahParams xr) (q : nat -> DiffstarParams xr) (p : nat -> DiffstarParams R) (h : nat -> R -> R) (M : nat -> list R).
Notation goodg := (SpecMeasure.good kern sing T hm q p h M).
Notation Sg := (S_ T p h).
Notation Fg := (F_ T p h).

Lemma smdpl_one choice dm ds I lm su up nsub : choice_ok choice -> NoDup I -> fit_files dm ds I lm su hm q ->
  let G := filter (fun g => above0 (lm g) && is1 (su g)) I in
  (forall g, In g G -> goodg g) -> (exists g, In g G /\ up g = (-1)%Z) -> (exists g, In g G /\ up g <> (-1)%Z) -> (0 < nsub)%nat ->
  exists o, smdpl_subvol (Some FB) kern sing age choice dm ds (map up I) nsub (map Fin zs) (Fin lgt0) = Some o /\
    contribution (20000 / nsub) hm q up G (fun g => (up g =? -1)%Z) (fun g => negb (up g =? -1)%Z) M Sg Fg T ids zs E_mh E_ms E_sf o.
Proof.
  intros CH NI FF G GG HC HS HN. destruct bins_ok as (B1 & _ & B3 & B4 & L1 & _ & L3 & L4).
  destruct (catalog_value kern sing age A choice CH AG AD lgt0 T zs ids HT T0 T1 ZN ZR HI hm q p h M I (fun g => above0 (lm g) && is1 (su g)) NI GG
    E_mh E_ms E_sf (fun g => (up g =? -1)%Z) (fun g => negb (up g =? -1)%Z) up false (20000 / nsub) B1 ltac:(lia) B3 ltac:(lia) B4 ltac:(lia))
    as (tb & td & pd & V1 & V2 & V3 & V4).
  - destruct HC as (g & Hg & e). exists g. split; [exact Hg|]. apply Z.eqb_eq. exact e.
  - destruct HS as (g & Hg & e). exists g. split; [exact Hg|]. apply negb_true_iff, Z.eqb_neq. exact e.
  - discriminate.
  - exists (td, pd). split; [|exact V4]. unfold smdpl_subvol. rewrite (load_smdpl_value _ _ _ _ _ _ _ FF), V1, mask_map.
    destruct (Nat.eqb_spec nsub 0); [lia|]. rewrite bins_mh, bins_ms, bins_sf. unfold N_HALOS_MAX.
    replace (cen_smdpl (map up (filter _ I))) with (map (fun g => (up g =? -1)%Z) (filter (fun g => above0 (lm g) && is1 (su g)) I))
      by (unfold cen_smdpl; rewrite map_map; reflexivity).
    replace (sat_smdpl (map up (filter _ I))) with (map (fun g => negb (up g =? -1)%Z) (filter (fun g => above0 (lm g) && is1 (su g)) I))
      by (unfold sat_smdpl, cen_smdpl; rewrite !map_map; reflexivity).
    rewrite V2, V3. reflexivity.
Qed.

Lemma flag_one choice dm ds I lm ls su c skip k E : choice_ok choice -> NoDup I -> fit_files dm ds I lm su hm q -> lookup "loss" ds = Some (D1 (map ls I)) ->
  increasing E -> (2 <= length E)%nat ->
  let G := filter (fun g => above0 (lm g) && above0 (ls g) && is1 (su g)) I in
  (forall g, In g G -> goodg g) -> (exists g, In g G /\ c g = 1%Z) -> (exists g, In g G /\ c g = 0%Z) ->
  (skip = true -> forall t, In t ids -> exists j g, (j < length E - 1)%nat /\ In g G /\ half_open E j (nth t (M g) 0) = true) ->
  exists tb td pd, load_diffstar_sfh_tables_galacticus (Some FB) kern sing dm ds (Fin lgt0) = Some (tb, map (fun g => above0 (lm g) && above0 (ls g) && is1 (su g)) I) /\
    (let u := map c G in
     create_target_data age choice tb (cen_flag u) (sat_flag u) (upid_flag u) skip k (map Fin zs) (map Fin E) = Some td /\
     create_pdf_target_data age tb (cen_flag u) (sat_flag u) (map Fin zs) (map Fin E) LOGMSTAR_BINS_PDF LOGSSFR_BINS_PDF = Some pd) /\
    contribution k hm q (fun g => if (c g =? 1)%Z then (-1)%Z else c g) G (fun g => (c g =? 1)%Z) (fun g => (c g =? 0)%Z) M Sg Fg T ids zs E E_ms E_sf (td, pd).
Proof.
  intros CH NI FF FL IE LE G GG HC HS HK. destruct bins_ok as (_ & _ & B3 & B4 & _ & _ & L3 & L4).
  destruct (catalog_value kern sing age A choice CH AG AD lgt0 T zs ids HT T0 T1 ZN ZR HI hm q p h M I (fun g => above0 (lm g) && above0 (ls g) && is1 (su g)) NI GG
    E E_ms E_sf (fun g => (c g =? 1)%Z) (fun g => (c g =? 0)%Z) (fun g => if (c g =? 1)%Z then (-1)%Z else c g) skip k IE LE B3 ltac:(lia) B4 ltac:(lia))
    as (tb & td & pd & V1 & V2 & V3 & V4).
  - destruct HC as (g & Hg & e). exists g. split; [exact Hg|]. apply Z.eqb_eq. exact e.
  - destruct HS as (g & Hg & e). exists g. split; [exact Hg|]. apply Z.eqb_eq. exact e.
  - exact HK.
  - exists tb, td, pd. split; [rewrite (load_galacticus_value _ _ _ _ _ _ _ FF _ _ _ ls FL); exact V1|]. split; [|exact V4].
    cbv zeta. unfold cen_flag, sat_flag, upid_flag. rewrite !map_map, bins_ms, bins_sf. split; [exact V2|exact V3].
Qed.
Lemma galacticus_one choice dm ds I lm ls su c : choice_ok choice -> NoDup I -> fit_files dm ds I lm su hm q -> lookup "loss" ds = Some (D1 (map ls I)) ->
  let G := filter (fun g => above0 (lm g) && above0 (ls g) && is1 (su g)) I in
  (forall g, In g G -> goodg g) -> (exists g, In g G /\ c g = 1%Z) -> (exists g, In g G /\ c g = 0%Z) ->
  (forall t, In t ids -> exists j g, (j < 11)%nat /\ In g G /\ half_open E_mh_g j (nth t (M g) 0) = true) ->
  exists o, galacticus_catalog (Some FB) kern sing age choice dm ds (map c I) (map Fin zs) (Fin lgt0) = Some o /\
    contribution 20000 hm q (fun g => if (c g =? 1)%Z then (-1)%Z else c g) G (fun g => (c g =? 1)%Z) (fun g => (c g =? 0)%Z) M Sg Fg T ids zs E_mh_g E_ms E_sf o.
Proof.
  intros CH NI FF FL G GG HC HS HK. destruct bins_ok as (_ & B2 & _ & _ & _ & L2 & _ & _).
  destruct (flag_one choice dm ds I lm ls su c true 20000 E_mh_g CH NI FF FL B2 ltac:(lia) GG HC HS) as (tb & td & pd & V1 & [V2 V3] & V4).
  - intros _ t Ht. rewrite L2. apply HK, Ht.
  - exists (td, pd). split; [|exact V4]. unfold galacticus_catalog. rewrite V1, mask_map, bins_mh_g. unfold N_HALOS_MAX.
    rewrite V2, V3. reflexivity.
Qed.
Lemma tng_one choice dm ds N lm ls su c r : choice_ok choice -> fit_files dm ds (seq 0 N) lm su hm q -> lookup "loss" ds = Some (D1 (map ls (seq 0 N))) ->
  all_rows N dm -> all_rows N ds -> (r < 20)%nat ->
  let C := part N 20 r in
  let G := filter (fun g => above0 (lm g) && above0 (ls g) && is1 (su g)) C in
  (forall g, In g G -> goodg g) -> (exists g, In g G /\ c g = 1%Z) -> (exists g, In g G /\ c g = 0%Z) ->
  exists o, tng_chunk kern sing age choice dm ds (map c (seq 0 N)) r (map Fin zs) (Fin lgt0) = Some o /\
    contribution 1000 hm q (fun g => if (c g =? 1)%Z then (-1)%Z else c g) G (fun g => (c g =? 1)%Z) (fun g => (c g =? 0)%Z) M Sg Fg T ids zs E_mh E_ms E_sf o.
Proof.
  intros CH FF FL RM RS Hr C G GG HC HS. destruct bins_ok as (B1 & _ & _ & _ & L1 & _ & _ & _).
  assert (HCN : forall i, In i C -> (i < N)%nat).
  { intros i. apply part_range. exact Hr. }
  destruct (take_file N C dm RM HCN) as (dm' & Em & Vm). destruct (take_file N C ds RS HCN) as (ds' & Ed & Vd).
  assert (FF' : fit_files dm' ds' C lm su hm q).
  { destruct FF. constructor; first [apply Vm; assumption|apply Vd; assumption]. }
  assert (FL' : lookup "loss" ds' = Some (D1 (map ls C))) by (apply Vd; exact FL).
  assert (NC : NoDup C) by apply seq_NoDup.
  destruct (flag_one choice dm' ds' C lm ls su c false 1000 E_mh CH NC FF' FL' B1 ltac:(lia) GG HC HS ltac:(discriminate)) as (tb & td & pd & V1 & [V2 V3] & V4).
  exists (td, pd). split; [|exact V4]. unfold tng_chunk, load_diffstar_sfh_tables_tng.
  change (load_fitted_tables kern sing (Some FB)) with (load_diffstar_sfh_tables_galacticus (Some FB) kern sing).
  rewrite (col1_of _ _ _ (ff_h0 _ _ _ _ _ _ _ FF)), !map_length, seq_length.
  assert (EC : chunk_indices N r = Some C) by (unfold chunk_indices, NCHUNKS; rewrite indices_for_rank_seq by exact Hr; unfold C; rewrite part_eq by exact Hr; reflexivity).
  rewrite EC, Em, Ed, V1, take_map, mask_map, bins_mh by exact HCN.
  replace (N_HALOS_MAX / NCHUNKS)%nat with 1000%nat by (vm_compute; reflexivity).
  rewrite V2, V3. reflexivity.
Qed.

(** ** The whole programs *)
Definition no_out : Out := (mkTarget [] [] [] [] [] (mkHaloes [] [] [] [] [] [] [] [] []) [] [], mkPdf [] [] [] []).
Definition get_out (x : option Out) : Out := match x with Some o => o | None => no_out end.

Theorem smdpl_final (choice : nat -> nat -> nat -> list nat -> nat -> bool -> list nat) (dm ds : nat -> hdf) (I : nat -> list nat) lm su up subvols nmax nranks :
  (forall v, choice_ok (choice v)) -> subvols <> [] -> (0 < nranks)%nat ->
  let G v := filter (fun g => above0 (lm g) && is1 (su g)) (I v) in
  (forall v, In v subvols -> (v < nmax)%nat /\ NoDup (I v) /\ fit_files (dm v) (ds v) (I v) lm su hm q /\ (forall g, In g (G v) -> goodg g) /\
     (exists g, In g (G v) /\ up g = (-1)%Z) /\ (exists g, In g (G v) /\ up g <> (-1)%Z)) ->
  let process v := match smdpl_subvol (Some FB) kern sing age (choice v) (dm v) (ds v) (map up (I v)) (length subvols) (map Fin zs) (Fin lgt0) with
                   | Some o => Contributes o | None => Raises end in
  exists f S F, smdpl_script process subvols nmax (length zs) 11 25 29 nranks
      = Some (f, map (fun k => if existsb (Nat.eqb k) subvols then 1%nat else 0%nat) (seq 0 nmax)) /\
    (forall v g, In v subvols -> In g (G v) -> galaxy_is kern sing T (hm g) (q g) (M g) (S g) (F g)) /\
    final_tables (20000 / length subvols) hm q up (map G subvols) (fun g => (up g =? -1)%Z) (fun g => negb (up g =? -1)%Z) M S F T ids zs E_mh E_ms E_sf f.
Proof.
  intros CH NS HR G H process. destruct bins_ok as (_ & _ & _ & _ & L1 & _ & L3 & L4).
  assert (LS : (0 < length subvols)%nat) by (destruct subvols; [contradiction|cbn; lia]).
  set (run := fun v => smdpl_subvol (Some FB) kern sing age (choice v) (dm v) (ds v) (map up (I v)) (length subvols) (map Fin zs) (Fin lgt0)) in *.
  assert (V : forall v, In v subvols -> run v = Some (get_out (run v)) /\
    contribution (20000 / length subvols) hm q up (G v) (fun g => (up g =? -1)%Z) (fun g => negb (up g =? -1)%Z) M Sg Fg T ids zs E_mh E_ms E_sf (get_out (run v))).
  { intros v Hv. destruct (H v Hv) as (_ & NI & FF & GG & HC & HS).
    destruct (smdpl_one (choice v) (dm v) (ds v) (I v) lm su up (length subvols) (CH v) NI FF GG HC HS LS) as (o & E & C). fold (run v) in E.
    rewrite E. split; [reflexivity|exact C]. }
  destruct (pool_value _ _ _ _ _ _ _ _ _ _ _ _ _ _ _ subvols G (fun v => get_out (run v)) NS (fun v Hv => proj2 (V v Hv))) as (f & E & FT).
  exists f, Sg, Fg. split; [|split; [|exact FT]].
  - rewrite (smdpl_value (length zs) 11 25 29 process (fun v => get_out (run v)) (map (fun t => Fin (nth t T 0)) ids) subvols nmax nranks NS HR).
    + rewrite <- (F2_length _ _ _ HI), L1, L3, L4 in E. cbn [Nat.sub] in E. rewrite E. reflexivity.
    + intros v Hv. destruct (V v Hv) as [V1 V2]. split; [unfold process; fold (run v); destruct (run v); [reflexivity|discriminate]|]. split; [apply (co_age _ _ _ _ _ _ _ _ _ _ _ _ _ _ _ _ _ V2)|]. apply H, Hv.
  - intros v g Hv Hg. apply galaxy_value. destruct (H v Hv) as (_ & _ & _ & GG & _). apply GG, Hg.
Qed.

Theorem tng_final (choice : nat -> nat -> nat -> list nat -> nat -> bool -> list nat) dm ds N lm ls su c :
  (forall r, choice_ok (choice r)) -> fit_files dm ds (seq 0 N) lm su hm q -> lookup "loss" ds = Some (D1 (map ls (seq 0 N))) ->
  all_rows N dm -> all_rows N ds ->
  let sel g := above0 (lm g) && above0 (ls g) && is1 (su g) in
  (forall g, (g < N)%nat -> sel g = true -> goodg g) ->
  (forall r, (r < 20)%nat -> (exists g, In g (part N 20 r) /\ sel g = true /\ c g = 1%Z) /\ (exists g, In g (part N 20 r) /\ sel g = true /\ c g = 0%Z)) ->
     exists f S F, tng_measure_script (fun r => tng_chunk kern sing age (choice r) dm ds (map c (seq 0 N)) r (map Fin zs) (Fin lgt0)) (length zs) 11 25 29 20 = Some f /\
       (forall g, (g < N)%nat -> sel g = true -> galaxy_is kern sing T (hm g) (q g) (M g) (S g) (F g)) /\
       final_tables 1000 hm q (fun g => if (c g =? 1)%Z then (-1)%Z else c g) (map (fun r => filter sel (part N 20 r)) (seq 0 20))
         (fun g => (c g =? 1)%Z) (fun g => (c g =? 0)%Z) M S F T ids zs E_mh E_ms E_sf f.
Proof.
  intros CH FF FL RM RS sel GG HK. destruct bins_ok as (_ & _ & _ & _ & L1 & _ & L3 & L4).
  set (C := part N 20) in *.
  set (run := fun r => tng_chunk kern sing age (choice r) dm ds (map c (seq 0 N)) r (map Fin zs) (Fin lgt0)).
  assert (V : forall r, In r (seq 0 20) -> run r = Some (get_out (run r)) /\
    contribution 1000 hm q (fun g => if (c g =? 1)%Z then (-1)%Z else c g) (filter sel (C r)) (fun g => (c g =? 1)%Z) (fun g => (c g =? 0)%Z) M Sg Fg T ids zs E_mh E_ms E_sf (get_out (run r))).
  { intros r Hr. apply in_seq in Hr. destruct (HK r ltac:(lia)) as ((g1 & I1 & S1 & K1) & (g2 & I2 & S2 & K2)).
    destruct (tng_one (choice r) dm ds N lm ls su c r (CH r) FF FL RM RS ltac:(lia)) as (o & E & CO).
    - intros g Hg. apply filter_In in Hg. destruct Hg as [Hg Sg']. apply GG; [|exact Sg']. apply (part_range N 20 r g); [lia|exact Hg].
    - exists g1. split; [apply filter_In; split; assumption|exact K1].
    - exists g2. split; [apply filter_In; split; assumption|exact K2].
    - fold (run r) in E. rewrite E. split; [reflexivity|exact CO]. }
  destruct (pool_value _ _ _ _ _ _ _ _ _ _ _ _ _ _ _ (seq 0 20) (fun r => filter sel (C r)) (fun r => get_out (run r)) ltac:(discriminate) (fun v Hv => proj2 (V v Hv))) as (f & E & FT).
  exists f, Sg, Fg. split; [|split; [|exact FT]].
  - fold run. change (tng_measure_script run (length zs) 11 25 29 20) with (tng_measure_script run (length zs) 11 25 29 NCHUNKS).
    rewrite (tng_value (length zs) 11 25 29 run (fun r => get_out (run r))).
    + rewrite <- (F2_length _ _ _ HI), L1, L3, L4 in E. cbn [Nat.sub] in E.
      rewrite (co_age _ _ _ _ _ _ _ _ _ _ _ _ _ _ _ _ _ (proj2 (V 0%nat ltac:(apply in_seq; lia)))). exact E.
    + intros r Hr. apply V. apply in_seq. unfold NCHUNKS in Hr. lia.
  - intros g Hg Hs. apply galaxy_value. apply GG; assumption.
Qed.

Theorem galacticus_final (choice : nat -> nat -> nat -> list nat -> nat -> bool -> list nat) dm ds I lm ls su c nranks :
  (forall r, choice_ok (choice r)) -> (0 < nranks)%nat -> NoDup I -> fit_files dm ds I lm su hm q -> lookup "loss" ds = Some (D1 (map ls I)) ->
  let G := filter (fun g => above0 (lm g) && above0 (ls g) && is1 (su g)) I in
  (forall g, In g G -> goodg g) -> (exists g, In g G /\ c g = 1%Z) -> (exists g, In g G /\ c g = 0%Z) ->
  (forall t, In t ids -> exists j g, (j < 11)%nat /\ In g G /\ half_open E_mh_g j (nth t (M g) 0) = true) ->
  exists f S F, galacticus_measure_script (fun r => galacticus_catalog (Some FB) kern sing age (choice r) dm ds (map c I) (map Fin zs) (Fin lgt0)) (length zs) 11 25 29 nranks = Some f /\
    (forall g, In g G -> galaxy_is kern sing T (hm g) (q g) (M g) (S g) (F g)) /\
    final_tables 20000 hm q (fun g => if (c g =? 1)%Z then (-1)%Z else c g) [G]
      (fun g => (c g =? 1)%Z) (fun g => (c g =? 0)%Z) M S F T ids zs E_mh_g E_ms E_sf f.
Proof.
  intros CH HR NI FF FL G GG HC HS HK. destruct bins_ok as (_ & _ & _ & _ & _ & L2 & L3 & L4).
  set (run := fun r => galacticus_catalog (Some FB) kern sing age (choice r) dm ds (map c I) (map Fin zs) (Fin lgt0)).
  assert (V : forall r, exists o, run r = Some o /\
    contribution 20000 hm q (fun g => if (c g =? 1)%Z then (-1)%Z else c g) G (fun g => (c g =? 1)%Z) (fun g => (c g =? 0)%Z) M Sg Fg T ids zs E_mh_g E_ms E_sf o).
  { intros r. apply (galacticus_one (choice r) dm ds I lm ls su c (CH r) NI FF FL GG HC HS HK). }
  destruct (V 0%nat) as (o & E0 & CO).
  destruct (pool_value _ _ _ _ _ _ _ _ _ _ _ _ _ _ _ [tt] (fun _ => G) (fun _ => o) ltac:(discriminate) (fun v Hv => CO)) as (f & E & FT).
  exists f, Sg, Fg. split; [|split; [|exact FT]].
  - fold run. rewrite (galacticus_value (length zs) 11 25 29 run o nranks HR).
    + rewrite <- (F2_length _ _ _ HI), L2, L3, L4 in E. cbn [Nat.sub map] in E. rewrite (co_age _ _ _ _ _ _ _ _ _ _ _ _ _ _ _ _ _ CO). exact E.
    + intros r _. destruct (V r) as (o' & -> & _). discriminate.
    + exact E0.
  - intros g Hg. apply galaxy_value. apply GG, Hg.
Qed.
End Programs.

(** ** Example: galaxies with a constant halo mass; those from number 40 on have no fit *)
Definition ex_kern (_ : MahParams xr) (_ _ : xr) : xr := Fin 12.
Definition ex_sing (_ : MahParams xr) (t : list xr) (_ : xr) : list xr * list xr := (t, map (fun _ => Fin 12) t).
Definition ex_loss (g : nat) : xr := if Nat.ltb g 40 then Fin 1 else Fin (-1).
Definition ex_flag (g : nat) : xr := Fin 1.
Definition ex_hm (g : nat) : MahParams xr := mkMah (Fin 12) (Fin 0) (Fin 2) (Fin 1) (Fin 14).
Definition ex_q (g : nat) : DiffstarParams xr :=
  if Nat.ltb g 40 then map_d Fin (mkDiffstar 12 (-1) 1 (-1) 1 0 (-1) 0) else map_d (fun _ => NaN) (mkDiffstar 12 (-1) 1 (-1) 1 0 (-1) 0).
Definition ex_dm (I : list nat) : hdf :=
  [("loss", D1 (map ex_loss I)); ("logm0", D1 (map (fun g => logm0 (ex_hm g)) I)); ("logtc", D1 (map (fun g => logtc (ex_hm g)) I));
   ("early_index", D1 (map (fun g => early_index (ex_hm g)) I)); ("late_index", D1 (map (fun g => late_index (ex_hm g)) I)); ("t_peak", D1 (map (fun g => t_peak (ex_hm g)) I))]%string.
Definition ex_ds (I : list nat) : hdf :=
  [("loss", D1 (map ex_loss I)); ("success", D1 (map ex_flag I)); ("lgmcrit", D1 (map (fun g => d_lgmcrit (ex_q g)) I)); ("lgy_at_mcrit", D1 (map (fun g => d_lgy_at_mcrit (ex_q g)) I));
   ("indx_lo", D1 (map (fun g => d_indx_lo (ex_q g)) I)); ("indx_hi", D1 (map (fun g => d_indx_hi (ex_q g)) I)); ("lg_qt", D1 (map (fun g => d_lg_qt (ex_q g)) I));
   ("qlglgdt", D1 (map (fun g => d_qlglgdt (ex_q g)) I)); ("lg_drop", D1 (map (fun g => d_lg_drop (ex_q g)) I)); ("lg_rejuv", D1 (map (fun g => d_lg_rejuv (ex_q g)) I))]%string.
Lemma ex_fit_files I : fit_files (ex_dm I) (ex_ds I) I ex_loss ex_flag ex_hm ex_q.
Proof. constructor; reflexivity. Qed.
Lemma ex_rows N : all_rows N (ex_dm (seq 0 N)) /\ all_rows N (ex_ds (seq 0 N)).
Proof. split; repeat constructor; cbn [snd]; rewrite map_length, seq_length; reflexivity. Qed.

Lemma ex_setup T : T = evenly (1 / 100) (pow10R 2) 200 -> setup ex_age (fun z => 14 - z) 2 T [0; 1] [count (below 14) T; count (below 13) T].
Proof.
  intros HT. assert (P2 : pow10R 2 = 100).
  { replace 2 with (1 + 1) by lra. rewrite pow10_plus, pow10_1. lra. }
  constructor; try assumption; try lra; try discriminate.
  - intros z Hz. reflexivity.
  - intros; lra.
  - repeat constructor; lra.
  - constructor; [|constructor; [|constructor]].
    + exists 14. split; [|reflexivity]. exists 0%nat. split; [lia|]. unfold knot. cbn [INR]. split; [lra|]. field.
    + exists 13. split; [|reflexivity]. exists 199%nat. split; [lia|]. unfold knot.
      replace (INR 199) with 199 by (rewrite INR_IZR_INZ; reflexivity). replace (INR 200) with 200 by (rewrite INR_IZR_INZ; reflexivity).
      split; [lra|]. field.
Qed.
Lemma ex_good T g : T = evenly (1 / 100) (pow10R 2) 200 -> (g < 40)%nat ->
  SpecMeasure.good ex_kern ex_sing T ex_hm ex_q (fun _ => mkDiffstar 12 (-1) 1 (-1) 1 0 (-1) 0) (fun _ _ => 12) (fun _ => map (fun _ => 12) T) g.
Proof.
  intros HT Hg. unfold good, ex_q. rewrite (proj2 (Nat.ltb_lt g 40) Hg). split; [reflexivity|]. split; [|split].
  - apply Forall_forall. intros t Ht. split; [|reflexivity].
    pose proof (su_last _ _ _ _ _ _ (ex_setup T HT)) as L. cbv beta in L. rewrite HT in Ht. apply evenly_ge in Ht; lra.
  - unfold ex_sing. cbn [snd]. rewrite !map_map. reflexivity.
  - apply map_length.
Qed.
Lemma ex_sel g : above0 (ex_loss g) && above0 (ex_loss g) && is1 (ex_flag g) = Nat.ltb g 40.
Proof.
  unfold ex_loss, ex_flag, is1. destruct (Req_EM_T 1 1) as [_|n]; [|lra]. rewrite andb_true_r, andb_diag.
  destruct (Nat.ltb g 40); unfold above0; [destruct (Rlt_dec 0 1); [reflexivity|lra]|destruct (Rlt_dec 0 (-1)); [lra|reflexivity]].
Qed.
Lemma ex_sel2 g : above0 (ex_loss g) && is1 (ex_flag g) = Nat.ltb g 40.
Proof. rewrite <- ex_sel. rewrite andb_diag. reflexivity. Qed.

Lemma ex_smdpl T : T = evenly (1 / 100) (pow10R 2) 200 ->
  setup ex_age (fun z => 14 - z) 2 T [0; 1] [count (below 14) T; count (below 13) T] /\
  (forall v : nat, choice_ok ex_choice) /\
  let I (v : nat) := [2 * v; 2 * v + 1; 2 * v + 50]%nat in
  let G v := filter (fun g => above0 (ex_loss g) && is1 (ex_flag g)) (I v) in
  let up g := if Nat.even g then (-1)%Z else 3%Z in
  forall v, In v [4; 7]%nat -> (v < 10)%nat /\ NoDup (I v) /\ fit_files (ex_dm (I v)) (ex_ds (I v)) (I v) ex_loss ex_flag ex_hm ex_q /\
     (forall g, In g (G v) -> SpecMeasure.good ex_kern ex_sing T ex_hm ex_q (fun _ => mkDiffstar 12 (-1) 1 (-1) 1 0 (-1) 0) (fun _ _ => 12) (fun _ => map (fun _ => 12) T) g) /\
     (exists g, In g (G v) /\ up g = (-1)%Z) /\ (exists g, In g (G v) /\ up g <> (-1)%Z).
Proof.
  intros HT. split; [apply ex_setup; exact HT|]. split; [intros _; exact ex_choice_ok|]. intros I G up v Hv.
  assert (V : (v < 10)%nat) by (destruct Hv as [<-|[<-|[]]]; lia). split; [exact V|].
  assert (NI : NoDup (I v)) by (repeat constructor; cbn [In]; lia). split; [exact NI|]. split; [apply ex_fit_files|].
  assert (GI : forall g, In g (G v) <-> In g (I v) /\ (g < 40)%nat).
  { intros g. unfold G. rewrite filter_In, ex_sel2, Nat.ltb_lt. reflexivity. }
  split; [|split].
  - intros g Hg. apply ex_good; [exact HT|]. apply GI, Hg.
  - exists (2 * v)%nat. split; [apply GI; split; [now left|lia]|]. unfold up. rewrite Nat.even_mul. reflexivity.
  - exists (2 * v + 1)%nat. split; [apply GI; split; [right; now left|lia]|]. unfold up. rewrite Nat.even_add, Nat.even_mul. discriminate.
Qed.
Lemma ex_tng T : T = evenly (1 / 100) (pow10R 2) 200 ->
  let c g := if Nat.even g then 1%Z else 0%Z in
  let sel g := above0 (ex_loss g) && above0 (ex_loss g) && is1 (ex_flag g) in
  all_rows 40 (ex_dm (seq 0 40)) /\ all_rows 40 (ex_ds (seq 0 40)) /\ lookup "loss" (ex_ds (seq 0 40)) = Some (D1 (map ex_loss (seq 0 40))) /\
  (forall g, (g < 40)%nat -> sel g = true ->
     SpecMeasure.good ex_kern ex_sing T ex_hm ex_q (fun _ => mkDiffstar 12 (-1) 1 (-1) 1 0 (-1) 0) (fun _ _ => 12) (fun _ => map (fun _ => 12) T) g) /\
  (forall r, (r < 20)%nat -> (exists g, In g (part 40 20 r) /\ sel g = true /\ c g = 1%Z) /\ (exists g, In g (part 40 20 r) /\ sel g = true /\ c g = 0%Z)).
Proof.
  intros HT c sel. destruct (ex_rows 40) as [R1 R2]. split; [exact R1|]. split; [exact R2|]. split; [reflexivity|]. split; [intros g Hg _; apply ex_good; assumption|].
  intros r Hr. assert (P : part 40 20 r = [2 * r; 2 * r + 1]%nat).
  { unfold part. change (40 / 20)%nat with 2%nat. change (40 mod 20)%nat with 0%nat. rewrite Nat.min_0_r. cbn [Nat.ltb Nat.leb Nat.add seq].
    f_equal; [lia|f_equal; lia]. }
  rewrite P. split; [exists (2 * r)%nat|exists (2 * r + 1)%nat].
  - split; [now left|]. unfold sel, c. rewrite ex_sel, Nat.even_mul. split; [apply Nat.ltb_lt; lia|reflexivity].
  - split; [right; now left|]. unfold sel, c. rewrite ex_sel, Nat.even_add, Nat.even_mul. split; [apply Nat.ltb_lt; lia|reflexivity].
Qed.
Lemma ex_galacticus T : T = evenly (1 / 100) (pow10R 2) 200 ->
  let I := [5; 8; 60]%nat in
  let c g := if Nat.even g then 1%Z else 0%Z in
  let G := filter (fun g => above0 (ex_loss g) && above0 (ex_loss g) && is1 (ex_flag g)) I in
  (exists g, In g G /\ c g = 1%Z) /\ (exists g, In g G /\ c g = 0%Z) /\
  (forall g, In g G -> SpecMeasure.good ex_kern ex_sing T ex_hm ex_q (fun _ => mkDiffstar 12 (-1) 1 (-1) 1 0 (-1) 0) (fun _ _ => 12) (fun _ => map (fun _ => 12) T) g) /\
  (forall t, In t [count (below 14) T; count (below 13) T] ->
     exists j g, (j < 11)%nat /\ In g G /\ half_open (evenly 11 (145 / 10) 12) j (nth t (map (fun _ => 12) T) 0) = true).
Proof.
  intros HT I c G.
  assert (GI : forall g, In g G <-> In g I /\ (g < 40)%nat).
  { intros g. unfold G. rewrite filter_In, ex_sel, Nat.ltb_lt. reflexivity. }
  assert (G5 : In 5%nat G) by (apply GI; split; [now left|lia]).
  split; [exists 8%nat; split; [apply GI; split; [right; now left|lia]|reflexivity]|].
  split; [exists 5%nat; split; [exact G5|reflexivity]|]. split; [intros g Hg; apply ex_good; [exact HT|apply GI, Hg]|].
  intros t Ht. exists 3%nat, 5%nat. split; [lia|]. split; [exact G5|].
  pose proof (ex_setup T HT) as SU. pose proof (times _ 2 T HT (su_first _ _ _ _ _ _ SU) (su_last _ _ _ _ _ _ SU)) as (IT & LT & _ & LL).
  assert (RT : (t < length T)%nat).
  { pose proof (ids_in_range _ T _ _ (su_older _ _ _ _ _ _ SU) IT ltac:(lia) ltac:(rewrite LL; apply (su_last _ _ _ _ _ _ SU)) (su_range _ _ _ _ _ _ SU) (su_ids _ _ _ _ _ _ SU)) as R.
    rewrite Forall_forall in R. apply R, Ht. }
  rewrite (nth_map_nat (fun _ => 12) T t 0) by exact RT. apply half_open_true. rewrite !evenly_nth by lia.
  cbn [Nat.sub]. replace (INR 11) with 11 by (rewrite INR_IZR_INZ; reflexivity). replace (INR 3) with 3 by (rewrite INR_IZR_INZ; reflexivity).
  replace (INR 4) with 4 by (rewrite INR_IZR_INZ; reflexivity). lra.
Qed.
