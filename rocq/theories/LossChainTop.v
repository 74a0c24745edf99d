(** Data of the population fits from the measured galaxies: the theorems. *)
From Coq Require Import Reals List Bool ZArith Lia Lra String Permutation.
From Verif Require Import XReal ModelUtils ModelKernels ModelSfh ModelPop ModelHist ModelFit ModelLoad ModelIO SpecLoad ModelTargets ModelPopFit ModelSmhmFit ModelSubvol
  RealFacts XFacts SpecCore SpecHist SpecTargets SpecMeasure SpecPopFit SpecLossChain SfhProofs DtProofs FstarProofs PopProofs PopParamProofs HistProofs
  LossProofs FitProofs TableProofs SmhmProofs SnapshotProofs TargetProofs TargetTopProofs MeasureTopProofs LossDataProofs LossTargetProofs SsfrDataProofs LossChainProofs
  SpecSubvol SubvolProofs SubvolTopProofs.
Import List ListNotations.
Open Scope R_scope.
Local Notation length := List.length.


Section Top.
Variables (k : nat) (hm : nat -> MahParams xr) (q : nat -> DiffstarParams xr) (up : nat -> Z) (Gs : list (list nat)) (cen sat : nat -> bool)
  (M S F : nat -> list R) (T : list R) (ids : list nat) (zs E Em Es : list R) (f : Final).
Hypothesis FT : final_tables k hm q up Gs cen sat M S F T ids zs E Em Es f.
Hypothesis HE : (2 <= length E)%nat.
Hypothesis HEm : (2 <= length Em)%nat.
Hypothesis HEs : (2 <= length Es)%nat.
Hypothesis IEm : increasing Em.
Hypothesis IEs : increasing Es.
Hypothesis HK : kinds_agree Gs cen sat up.
Notation G := (List.concat Gs).
Notation pf := (measured f E Em Es).
Notation h := (f_haloes f).
Notation nz := (length ids).
Notation nm := (length E - 1)%nat.

Lemma usable_kept : usable All h nz nm = filter (fun c => Nat.leb 50 (kept k M E ids Gs (fst c) (snd c))) (list_prod (seq 0 nz) (seq 0 nm)).
Proof using All.
  destruct FT as [_ _ _ (Ls & SO & FS)]. unfold usable. apply filter_ext_in. intros [i j] Hc. apply in_prod_iff in Hc. destruct Hc as [A B].
  apply in_seq in A. apply in_seq in B. cbn [fst snd]. f_equal. apply (sampled_kept _ _ _ _ _ _ _ _ _ _ _ Ls SO FS); lia.
Qed.
Lemma age_at_target i : (i < nz)%nat -> nth i (f_age f) NaN = Fin (nth (nth i ids 0%nat) T 0).
Proof using All. intros H. rewrite (ft_age _ _ _ _ _ _ _ _ _ _ _ _ _ _ _ _ _ FT). now rewrite (nth_map_nat _ _ i 0%nat) by exact H. Qed.

Section Fit.
Variable key : Type.
Variable split : key -> nat -> list key.
Variable sing : MahParams xr -> list xr -> xr -> list xr * list xr.
Variable kern : MahParams xr -> xr -> xr -> xr.
Variable choice : nat -> nat -> list nat -> nat -> bool -> list nat.
Hypothesis HT : timewise sing kern.
Hypothesis HC : draws_ok choice.
Hypothesis HS : forall k n, length (split k n) = n.

Theorem mass_chain kd nhalos lgt0 fb rk : exists d U,
  mstar_data key split sing choice kd pf nhalos (Fin lgt0) fb rk = Some d /\ ml_lgt0 key d = Fin lgt0 /\ ml_fb key d = fb /\
  mass_fit_data kern hm up k Gs M S F T ids E Em Es kd nhalos lgt0 (split rk (length U)) U d.
Proof using All.
  pose proof (measured_files _ _ _ _ _ _ _ _ _ _ _ _ _ _ _ _ _ FT HE HEm HEs) as FA.
  destruct (ft_sample _ _ _ _ _ _ _ _ _ _ _ _ _ _ _ _ _ FT) as (Ls & SO & FS).
  assert (X : exists d, mstar_data key split sing choice kd pf nhalos (Fin lgt0) fb rk = Some d /\ forall z0 k0,
    ml_lgt0 key d = Fin lgt0 /\ ml_fb key d = fb /\ ml_bins key d = pf_mstar_bins pf /\
    let U := usable kd h nz nm in
    length (ml_zs key d) = length U /\ length (ml_target key d) = length U /\
    forall m, (m < length U)%nat ->
    let i := fst (nth m U (0%nat, 0%nat)) in let j := snd (nth m U (0%nat, 0%nat)) in
    let z := nth m (ml_zs key d) z0 in
    let q := mass_counts kd (length Es - 1) (c3 Gs M S ids E Em) (c4 Gs M S F ids E Em Es cen) (c4 Gs M S F ids E Em Es sat) i j in
    (exists P, length P = nhalos /\ incl P (sampled kd h i j) /\
      ((nhalos <= length (sampled kd h i j))%nat -> NoDup P) /\ drawn kern h lgt0 z P) /\
    z_tobs key z = nth i (f_age (pf_f pf)) NaN /\ z_key key z = nth m (split rk (length U)) k0 /\
    (total (length Em - 1) q <> 0 -> nth m (ml_target key d) [] = map (fun b => Fin (q b / total (length Em - 1) q)) (seq 0 (length Em - 1)))).
  { pose proof (mstar_data_spec key split sing kern choice HT HC HS pf nz nm (length Em - 1) (length Es - 1) _ _ _ _ _ FA nhalos lgt0 kd fb rk) as D.
    set (z1 := mkZPop key (mkMah [] [] [] [] []) [] [] [] [] [] rk NaN).
    destruct (D z1 rk) as (d & E1 & _). exists d. split; [exact E1|]. intros z0 k0. destruct (D z0 k0) as (d' & E2 & R).
    rewrite E1 in E2. inversion E2; subst d'. exact R. }
  destruct X as (d & E1 & R). exists d, (usable kd h nz nm). split; [exact E1|].
  set (z1 := mkZPop key (mkMah [] [] [] [] []) [] [] [] [] [] rk NaN).
  destruct (R z1 rk) as (R1 & R2 & R3 & R4 & R5 & _). split; [exact R1|]. split; [exact R2|].
  constructor.
  - intros ->. apply usable_kept.
  - intros NG HL. unfold usable. apply filter_ext_in. intros [i j] Hc. apply in_prod_iff in Hc. destruct Hc as [A B].
    apply in_seq in A. apply in_seq in B. cbn [fst snd]. f_equal.
    apply (sampled_all k hm q up Gs M T ids zs E f Ls SO FS); try lia; [exact NG|]. intros G' HG. apply HL; [exact HG|lia|lia].
  - intros NG c Hc. destruct (usable_in pf nz nm kd c Hc) as (_ & _ & L50).
    pose proof (sampled_le k hm q up Gs M T ids zs E f Ls SO FS kd (fst c) (snd c) NG) as LE. cbn [measured pf_f] in L50. lia.
  - exact R3.
  - exact (conj R4 R5).
  - intros m z0 k0 Hm. destruct (R z0 k0) as (_ & _ & _ & _ & _ & R6). specialize (R6 m Hm). cbv zeta in R6 |- *.
    set (i := fst (nth m (usable kd h nz nm) (0, 0)%nat)) in *. set (j := snd (nth m (usable kd h nz nm) (0, 0)%nat)) in *.
    destruct R6 as ((P & P1 & P2 & P3 & P4) & Q1 & Q2 & Q3).
    assert (IU : In (nth m (usable kd h nz nm) (0, 0)%nat) (usable kd h nz nm)) by (apply nth_In; exact Hm).
    destruct (usable_in pf nz nm kd _ IU) as (Hi & Hj & L50). fold i in Hi, L50. fold j in Hj, L50. cbn [measured pf_f] in L50.
    split; [exact Hi|]. split; [exact Hj|]. split; [|split; [|split; [exact Q2|split]]].
    + exists (gals Ls P). split; [unfold gals; rewrite map_length; exact P1|].
      split; [apply (gals_members k hm q up Gs M T ids zs E f Ls SO FS kd i j P P2)|].
      split; [apply (gals_pop hm q up T ids zs E f Ls SO kern lgt0 _ kd i j P P2 P4)|].
      intros NG NK. apply (gals_distinct k hm q up Gs M T ids zs E f Ls SO FS kd i j P NG P2), P3.
      destruct NK as [NK|[-> NK]]; [lia|]. rewrite (sampled_kept k hm q up Gs M T ids zs E f Ls SO FS i j Hi Hj). exact NK.
    + rewrite Q1. apply age_at_target. exact Hi.
    + intros b Hb. apply dist_nonneg; assumption.
    + intros (g & G1 & G2 & G3 & G4 & G5).
      pose proof (dist_positive up Gs M S F ids E Em Es HE HEm HEs IEm IEs kd i j g G1 G2 G3 G4 G5) as POS. split; [exact POS|].
      assert (EQ : forall b, mass_counts kd (length Es - 1) (c3 Gs M S ids E Em) (c4 Gs M S F ids E Em Es cen) (c4 Gs M S F ids E Em Es sat) i j b
        = mass_dist kd up M S F E Em Es ids G i j b) by (intros b; apply counts_dist; assumption).
      assert (ET : total (length Em - 1) (mass_counts kd (length Es - 1) (c3 Gs M S ids E Em) (c4 Gs M S F ids E Em Es cen) (c4 Gs M S F ids E Em Es sat) i j)
        = total (length Em - 1) (mass_dist kd up M S F E Em Es ids G i j)) by (apply Rsum_ext; intros b _; apply EQ).
      rewrite Q3 by (rewrite ET; lra). rewrite ET. apply map_ext. intros b. now rewrite EQ.
Qed.

(** sSFR *)
Lemma c4_joint kd who i j a b : (forall g, In g G -> who g = of_kind kd (up g)) -> c4 Gs M S F ids E Em Es who i j a b = joint_dist kd up M S F E Em Es ids G i j a b.
Proof using. intros H. unfold c4, joint_dist. f_equal. f_equal. apply filter_ext_in. intros g Hg. rewrite H by exact Hg. apply andb_comm. Qed.
Lemma n2d_number kd who i j : (forall g, In g G -> who g = of_kind kd (up g)) -> n2d Gs M ids E who i j = number kd up M E ids G i j.
Proof using. intros H. unfold n2d, number, count. do 2 f_equal. apply filter_ext_in. intros g Hg. now rewrite H by exact Hg. Qed.
Lemma half_open_inbin j x : half_open E j x = true -> inbin E j x = true.
Proof using.
  unfold half_open, inbin. destruct (Rle_dec _ _); [|discriminate]. destruct (Rlt_dec _ _) as [l|]; [|discriminate]. intros _.
  destruct (Nat.eqb _ _); [|reflexivity]. destruct (Rle_dec _ _); [reflexivity|lra].
Qed.
Lemma share_ext nms nsf c c' a b : (forall a b, c a b = c' a b) -> share nms nsf c a b = share nms nsf c' a b.
Proof using.
  intros H. unfold share. assert (X : total nms (fun a => total nsf (fun b => Rmax (c a b) 0)) = total nms (fun a => total nsf (fun b => Rmax (c' a b) 0))).
  { unfold total. apply Rsum_ext. intros x _. apply Rsum_ext. intros y _. now rewrite H. }
  rewrite X, H. reflexivity.
Qed.
Lemma total_ext n c c' : (forall b, c b = c' b) -> total n c = total n c'.
Proof using. intros H. unfold total. apply Rsum_ext. intros x _. apply H. Qed.
Lemma number_nonneg kd i j : 0 <= number kd up M E ids G i j. Proof using. apply pos_INR. Qed.

Theorem ssfr_chain (b : bool) nhalos lgt0 fb rk : let kd := if b then Sat else Cen in
  (0 < nz)%nat -> (20 <= length Em - 1)%nat -> (forall i, (i < nz)%nat -> used_bins kd h nm i <> []) -> exists d U,
  ssfr_data key split sing choice b pf nhalos (Fin lgt0) fb rk = Some d /\ sl_lgt0 key d = Fin lgt0 /\ sl_fb key d = fb /\
  s_mbins (sl_data key d) = map Fin Em /\ s_sbins (sl_data key d) = map Fin Es /\ s_ids (sl_data key d) = fitted_bins /\
  ssfr_fit_data kern hm up k Gs M S F T ids E Em Es kd nhalos lgt0 (split rk (length U)) U d.
Proof using All.
  intros kd N0 N20 UB.
  pose proof (measured_files _ _ _ _ _ _ _ _ _ _ _ _ _ _ _ _ _ FT HE HEm HEs) as FA.
  destruct (ft_sample _ _ _ _ _ _ _ _ _ _ _ _ _ _ _ _ _ FT) as (Ls & SO & FS).
  set (who := if b then sat else cen).
  assert (HW : forall g, In g G -> who g = of_kind kd (up g)) by (intros g Hg; unfold who, kd; destruct b; apply HK; exact Hg).
  assert (NN : forall i j, (if b then n2d Gs M ids E sat else n2d Gs M ids E cen) i j = number kd up M E ids G i j).
  { intros i j. rewrite <- (n2d_number kd who i j HW). unfold who. destruct b; reflexivity. }
  assert (CC : forall i j a c, (if b then c4 Gs M S F ids E Em Es sat else c4 Gs M S F ids E Em Es cen) i j a c = joint_dist kd up M S F E Em Es ids G i j a c).
  { intros i j a c. rewrite <- (c4_joint kd who i j a c HW). unfold who. destruct b; reflexivity. }
  assert (TN : forall i, (i < nz)%nat -> total nm ((if b then n2d Gs M ids E sat else n2d Gs M ids E cen) i) <> 0).
  { intros i Hi. rewrite (total_ext _ _ (number kd up M E ids G i)) by (intros j; apply NN). apply Rgt_not_eq. apply Rsum_pos.
    - apply Forall_map, Forall_forall. intros j _. apply number_nonneg.
    - specialize (UB i Hi). destruct (used_bins kd h nm i) as [|j js] eqn:EU; [congruence|].
      assert (Ij : In j (used_bins kd h nm i)) by (rewrite EU; now left). apply in_those in Ij. destruct Ij as [Hj L50]. apply Nat.leb_le in L50.
      apply Exists_exists. exists (number kd up M E ids G i j). split; [apply in_map, in_seq; lia|].
      destruct (sampled kd h i j) as [|n ns] eqn:ES; [cbn in L50; lia|].
      assert (IM : In (halo (row Ls n)) (members kd up M E ids G i j)).
      { apply (gals_members k hm q up Gs M T ids zs E f Ls SO FS kd i j [n]); [|now left]. intros x [<-|[]]. rewrite ES. now left. }
      apply filter_In in IM. destruct IM as [IG IB]. apply andb_prop in IB. destruct IB as [IK IH].
      unfold number, count. apply lt_0_INR. 
      assert (IF : In (halo (row Ls n)) (filter (fun g => of_kind kd (up g) && inbin E j (at_t ids M i g)) G)).
      { apply filter_In. split; [exact IG|]. rewrite IK. cbn [andb]. now apply half_open_inbin. }
      destruct (filter _ G); [contradiction|cbn; lia]. }
  assert (X : exists d, ssfr_data key split sing choice b pf nhalos (Fin lgt0) fb rk = Some d /\ forall z0 k0, let U := usable kd h nz nm in
    sl_lgt0 key d = Fin lgt0 /\ sl_fb key d = fb /\ s_mbins (sl_data key d) = map Fin Em /\ s_sbins (sl_data key d) = map Fin Es /\ s_ids (sl_data key d) = fitted_bins /\
    length (sl_target key d) = nz /\
    (forall i, (i < nz)%nat -> length (nth i (sl_target key d) []) = 5%nat /\
     forall t, (t < 5)%nat ->
     let q := blend (seq 0 nm) (bin_weight nm ((if b then n2d Gs M ids E sat else n2d Gs M ids E cen) i))
       (fun j => share (length Em - 1) (length Es - 1) ((if b then c4 Gs M S F ids E Em Es sat else c4 Gs M S F ids E Em Es cen) i j)) (nth t fitted_bins 0%nat) in
     nth t (nth i (sl_target key d) []) [] =
       if Rlt_dec 0 (total (length Es - 1) q) then map (fun b => Fin (q b / total (length Es - 1) q)) (seq 0 (length Es - 1)) else repeat (Fin 0) (length Es - 1)) /\
    length (sl_zs key d) = length U /\
    forall m, (m < length U)%nat ->
    let i := fst (nth m U (0%nat, 0%nat)) in let j := snd (nth m U (0%nat, 0%nat)) in
    let z := nth m (sl_zs key d) z0 in
    (exists P, length P = nhalos /\ incl P (sampled kd h i j) /\
      ((nhalos <= length (sampled kd h i j))%nat -> NoDup P) /\ drawn kern h lgt0 z P) /\
    z_tobs key z = nth i (f_age f) NaN /\ z_key key z = nth m (split rk (length U)) k0).
  { pose proof (ssfr_data_spec key split sing kern choice HT HC HS pf nz nm (length Em - 1) (length Es - 1) _ _ _ _ _ FA nhalos lgt0 b fb rk) as D.
    set (z1 := mkZPop key (mkMah [] [] [] [] []) [] [] [] [] [] rk NaN).
    destruct (D z1 rk N0 N20 TN UB) as (d & E1 & _). exists d. split; [exact E1|]. intros z0 k0. destruct (D z0 k0 N0 N20 TN UB) as (d' & E2 & R).
    rewrite E1 in E2. inversion E2; subst d'. destruct R as (R1 & R2 & R3 & R4 & R5 & _ & _ & R6). exact (conj R1 (conj R2 (conj R3 (conj R4 (conj R5 R6))))). }
  destruct X as (d & E1 & R). exists d, (usable kd h nz nm). split; [exact E1|].
  set (z1 := mkZPop key (mkMah [] [] [] [] []) [] [] [] [] [] rk NaN).
  destruct (R z1 rk) as (R1 & R2 & R3 & R4 & R5 & R6 & R7 & R8 & _). do 5 (split; [assumption|]).
  constructor.
  - intros NG HL. unfold usable. apply filter_ext_in. intros [i j] Hc. apply in_prod_iff in Hc. destruct Hc as [A B].
    apply in_seq in A. apply in_seq in B. cbn [fst snd]. f_equal.
    apply (sampled_all k hm q up Gs M T ids zs E f Ls SO FS); try lia; [exact NG|]. intros G' HG. apply HL; [exact HG|lia|lia].
  - intros NG c Hc. destruct (usable_in pf nz nm kd c Hc) as (_ & _ & L50).
    pose proof (sampled_le k hm q up Gs M T ids zs E f Ls SO FS kd (fst c) (snd c) NG) as LE. cbn [measured pf_f] in L50. lia.
  - split; [exact R6|]. intros i t Hi Ht. destruct (R7 i Hi) as [_ R7']. specialize (R7' t Ht). cbv zeta in R7' |- *. rewrite R7'.
    set (q1 := blend _ _ _ _). set (q2 := blend _ (bin_weight _ (number _ _ _ _ _ _ _)) _ _).
    assert (EQ : forall x, q1 x = q2 x).
    { intros x. unfold q1, q2, blend. apply Rsum_ext. intros j _. f_equal.
      - unfold bin_weight. rewrite NN. f_equal. apply total_ext. intros y. apply NN.
      - apply share_ext. intros y y'. apply CC. }
    rewrite (total_ext _ q1 q2 EQ). destruct (Rlt_dec 0 (total (length Es - 1) q2)); [|reflexivity]. apply map_ext. intros x. now rewrite EQ.
  - split; [exact R8|]. intros m z0 k0 Hm. destruct (R z0 k0) as (_ & _ & _ & _ & _ & _ & _ & _ & R9). specialize (R9 m Hm). cbv zeta in R9 |- *.
    set (i := fst (nth m (usable kd h nz nm) (0, 0)%nat)) in *. set (j := snd (nth m (usable kd h nz nm) (0, 0)%nat)) in *.
    destruct R9 as ((P & P1 & P2 & P3 & P4) & Q1 & Q2).
    assert (IU : In (nth m (usable kd h nz nm) (0, 0)%nat) (usable kd h nz nm)) by (apply nth_In; exact Hm).
    destruct (usable_in pf nz nm kd _ IU) as (Hi & Hj & L50). fold i in Hi, L50. fold j in Hj, L50. cbn [measured pf_f] in L50.
    split; [exact Hi|]. split; [exact Hj|]. split; [|split; [|exact Q2]].
    + exists (gals Ls P). split; [unfold gals; rewrite map_length; exact P1|].
      split; [apply (gals_members k hm q up Gs M T ids zs E f Ls SO FS kd i j P P2)|].
      split; [apply (gals_pop hm q up T ids zs E f Ls SO kern lgt0 _ kd i j P P2 P4)|].
      intros NG NK. apply (gals_distinct k hm q up Gs M T ids zs E f Ls SO FS kd i j P NG P2), P3. lia.
    + rewrite Q1. apply age_at_target. exact Hi.
Qed.

(** A used cell whose galaxies all lie on its lower edge *)
Theorem edge_nan nhalos lgt0 fb rk d i j jran_split uniform mvn u v :
  mstar_data key split sing choice All pf nhalos (Fin lgt0) fb rk = Some d -> (i < nz)%nat -> (j < nm)%nat ->
  (50 <= kept k M E ids Gs i j)%nat -> (forall g, In g G -> interior E j (at_t ids M i g) = false) ->
  loss_mstar key jran_split uniform mvn kern u d = Some v -> v = NaN.
Proof using All.
  intros D Hi Hj K50 NI LV.
  pose proof (measured_files _ _ _ _ _ _ _ _ _ _ _ _ _ _ _ _ _ FT HE HEm HEs) as FA.
  apply (mstar_zero_total key split sing kern choice HT HC pf nz nm (length Em - 1) (length Es - 1) _ _ _ _ _ FA nhalos lgt0 All fb rk d i j jran_split uniform mvn u v); try assumption.
  - lia.
  - cbn [measured pf_f]. rewrite usable_kept. apply filter_In. split; [apply in_prod_iff; split; apply in_seq; lia|]. apply Nat.leb_le. exact K50.
  - intros b _. cbn [mass_counts]. unfold c3. rewrite (filter_ext_in _ (fun _ => false)).
    + replace (filter (fun _ : nat => false) G) with (@nil nat); [reflexivity|]. generalize G. intros l. induction l; [reflexivity|assumption].
    + intros g Hg. now apply NI.
Qed.

(** Mean stellar mass *)
Definition drawn_cell nhalos (i j : nat) : list nat := choice i j (sampled All h i j) nhalos false.
Definition cell_value nhalos (t0 : R) (c : nat * nat) : MahParams (list xr) * list xr * xr * xr :=
  let P := drawn_cell nhalos (fst c) (snd c) in
  (pop_mah pf P, map (fun n => kern (halo_mah h n) (Fin (Rpower 10 t0)) (Fin t0)) P, nth (fst c) (f_age f) NaN, entry (f_smhm f) (fst c) (snd c)).
Lemma drawn_ok nhalos i j : (0 < nhalos)%nat -> (nhalos <= length (sampled All h i j))%nat ->
  length (drawn_cell nhalos i j) = nhalos /\ incl (drawn_cell nhalos i j) (sampled All h i j) /\ NoDup (drawn_cell nhalos i j).
Proof using HC.
  intros N0 H. destruct (HC i j (sampled All h i j) nhalos false) as (A & B & C).
  - apply those_NoDup.
  - intros Z. rewrite Z in H. cbn in H. revert N0 H. clear. lia.
  - intros _. exact H.
  - exact (conj A (conj B (C eq_refl))).
Qed.
Lemma entry_cell (X : list (list xr)) i j r : entry X i j = Fin r -> cell_of X i j = Some (Fin r).
Proof using.
  unfold entry, cell_of. intros H. destruct (nth_error X i) as [w|] eqn:EW.
  - rewrite (nth_error_nth X i [] EW) in H. destruct (nth_error w j) as [x|] eqn:EX.
    + rewrite (nth_error_nth w j NaN EX) in H. now rewrite H.
    + apply nth_error_None in EX. rewrite nth_overflow in H by exact EX. discriminate.
  - apply nth_error_None in EW. rewrite (nth_overflow X) in H by exact EW. rewrite nth_overflow in H by (cbn; apply Nat.le_0_l). discriminate.
Qed.
Lemma smhm_cell_spec nhalos t0 i j : (0 < nhalos)%nat -> (i < nz)%nat -> (j < nm)%nat -> smhm_cell sing choice nhalos (Fin t0) pf i j =
  Some (if Nat.leb nhalos (kept k M E ids Gs i j) then Some (cell_value nhalos t0 (i, j)) else None).
Proof using All.
  intros N0 Hi Hj.
  pose proof (measured_files _ _ _ _ _ _ _ _ _ _ _ _ _ _ _ _ _ FT HE HEm HEs) as FA.
  destruct (ft_sample _ _ _ _ _ _ _ _ _ _ _ _ _ _ _ _ _ FT) as (Ls & SO & FS).
  rewrite <- (sampled_kept k hm q up Gs M T ids zs E f Ls SO FS i j Hi Hj). unfold smhm_cell.
  change everyone with (who All). rewrite in_cell_sampled by apply FA. cbn [measured pf_f].
  destruct (Nat.leb_spec nhalos (length (sampled All h i j))) as [L|L].
  2:{ rewrite (proj2 (Nat.ltb_lt _ _)) by exact L. reflexivity. }
  rewrite (proj2 (Nat.ltb_ge _ _)) by exact L. fold (drawn_cell nhalos i j). set (P := drawn_cell nhalos i j).
  destruct (drawn_ok nhalos i j N0 L) as (P1 & P2 & P3). fold P in P1, P2, P3.
  assert (HP : forall n, In n P -> (n < length (h_tobs_id h))%nat) by (intros n Hn; apply P2, in_those in Hn; apply Hn).
  rewrite (take_spec (h_mah h) P []) by (intros n Hn; pose proof (fa_mah _ _ _ _ _ _ _ _ _ _ FA) as Z; cbn [measured pf_f] in Z; rewrite Z; auto).
  rewrite (take_spec (h_upid h) P 0%Z) by (intros n Hn; pose proof (fa_upid _ _ _ _ _ _ _ _ _ _ FA) as Z; cbn [measured pf_f] in Z; rewrite Z; auto).
  rewrite (nth_error_nth' _ NaN) by (pose proof (fa_age _ _ _ _ _ _ _ _ _ _ FA) as Z; cbn [measured pf_f] in Z; rewrite Z; exact Hi).
  assert (B : exists r, entry (f_smhm f) i j = Fin r).
  { rewrite (ft_smhm _ _ _ _ _ _ _ _ _ _ _ _ _ _ _ _ _ FT i j Hi Hj).
    destruct P as [|n P'] eqn:EP; [cbn in P1; lia|].
    assert (IM : In (halo (row Ls n)) (members All up M E ids G i j)).
    { apply (gals_members k hm q up Gs M T ids zs E f Ls SO FS All i j [n]); [|now left]. intros x [<-|[]]. apply P2. now left. }
    apply filter_In in IM. destruct IM as [IG IB]. cbn [of_kind andb] in IB. apply half_open_inbin in IB.
    assert (IF : In (halo (row Ls n)) (filter (fun g => inbin E j (at_t ids M i g)) G)) by (apply filter_In; split; assumption).
    destruct (filter _ G) as [|g0 gs]; [contradiction|]. cbn [map mean]. eexists. reflexivity. }
  destruct B as (r & B). rewrite (entry_cell _ _ _ _ B).
  rewrite mah_columns_spec.
  2:{ rewrite Forall_map. apply Forall_forall. intros n Hn.
      pose proof (fa_five _ _ _ _ _ _ _ _ _ _ FA) as F5. rewrite Forall_forall in F5. apply F5, nth_In.
      rewrite (fa_mah _ _ _ _ _ _ _ _ _ _ FA). apply HP. exact Hn. }
  rewrite !map_map. change (mkMah _ _ _ _ _) with (pop_mah pf P).
  rewrite (mah_halopop_eq _ (length P)) by apply pop_mah_cols.
  unfold cell_value. cbn [fst snd]. fold P. rewrite B. do 5 f_equal.
  symmetry. rewrite (list_as_seq P 0%nat) at 1. rewrite !map_map. apply map_ext_in. intros n Hn. apply in_seq in Hn. symmetry.
  rewrite pop_mah_gal by lia. rewrite HT. unfold last_. rewrite (last_map _ _ NaN) by discriminate.
  change (last (logspace (Fin (-1)) (Fin t0) 50) NaN) with (last_ (logspace (Fin (-1)) (Fin t0) 50)).
  rewrite logspace_last by lia. reflexivity.
Qed.

Theorem mean_chain nhalos lgt0 rk : (0 < nhalos)%nat -> exists d U,
  get_loss_data_smhm key split sing choice pf nhalos (Fin lgt0) rk = Some d /\ sd_keys key d = split rk (length U) /\
  mean_fit_data kern hm up k Gs M S T ids E nhalos lgt0 U d.
Proof using All.
  intros N0.
  pose proof (measured_files _ _ _ _ _ _ _ _ _ _ _ _ _ _ _ _ _ FT HE HEm HEs) as FA.
  destruct (ft_sample _ _ _ _ _ _ _ _ _ _ _ _ _ _ _ _ _ FT) as (Ls & SO & FS).
  set (U := filter (fun c => Nat.leb nhalos (kept k M E ids Gs (fst c) (snd c))) (list_prod (seq 0 nz) (seq 0 nm))).
  assert (UIN : forall c, In c U -> (fst c < nz)%nat /\ (snd c < nm)%nat /\ (nhalos <= length (sampled All h (fst c) (snd c)))%nat).
  { intros [i j] Hc. apply filter_In in Hc. destruct Hc as [A B]. apply in_prod_iff in A. destruct A as [A A']. apply in_seq in A. apply in_seq in A'.
    cbn [fst snd] in *. apply Nat.leb_le in B. split; [lia|]. split; [lia|]. rewrite (sampled_kept k hm q up Gs M T ids zs E f Ls SO FS) by lia. exact B. }
  assert (V : exists l, vmap (fun ij => smhm_cell sing choice nhalos (Fin lgt0) pf (fst ij) (snd ij)) (all_cells pf) = Some l /\
    flat_map (fun c => match c with Some p => [p] | None => [] end) l = map (cell_value nhalos lgt0) U).
  { unfold all_cells. rewrite <- list_prod_flat. rewrite (fa_age _ _ _ _ _ _ _ _ _ _ FA).
    unfold nbins. rewrite (fa_mh _ _ _ _ _ _ _ _ _ _ FA). replace (Datatypes.S nm - 1)%nat with nm by lia.
    rewrite (vmap_map_some _ (fun c => if Nat.leb nhalos (kept k M E ids Gs (fst c) (snd c)) then Some (cell_value nhalos lgt0 c) else None)).
    - eexists. split; [reflexivity|]. unfold U. generalize (list_prod (seq 0 nz) (seq 0 nm)). intros l.
      induction l as [|c l IH]; [reflexivity|]. cbn [map flat_map filter]. destruct (Nat.leb nhalos _); cbn [map app]; rewrite IH; reflexivity.
    - intros [i j] Hc. cbn [fst snd]. apply in_prod_iff in Hc. destruct Hc as [A B]. apply in_seq in A. apply in_seq in B. apply smhm_cell_spec; lia. }
  destruct V as (l & V1 & V2). unfold get_loss_data_smhm. rewrite V1. cbv zeta. rewrite V2. rewrite !map_map, !map_length.
  eexists. exists U. split; [reflexivity|]. cbn [sd_keys sd_mah sd_logmp0 sd_tobs sd_target sd_lgmu_infall sd_logmhost_infall sd_gyr_since_infall].
  split; [reflexivity|].
  assert (FILL : forall c : xr, map (fun x => repeat c (length (snd (fst (fst (cell_value nhalos lgt0 x)))))) U = repeat (repeat c nhalos) (length U)).
  { intros c. rewrite (map_ext_in _ (fun _ => repeat c nhalos)).
    - clear. induction U as [|x u IH]; [reflexivity|]. cbn. now rewrite IH.
    - intros x Hx. f_equal. cbn [cell_value snd fst]. rewrite map_length. destruct (UIN x Hx) as (_ & _ & L). apply (drawn_ok nhalos _ _ N0 L). }
  constructor; cbn [sd_keys sd_mah sd_logmp0 sd_tobs sd_target sd_lgmu_infall sd_logmhost_infall sd_gyr_since_infall].
  - reflexivity.
  - rewrite !map_length. auto.
  - rewrite !FILL. auto.
  - intros m p0 Hm. cbv zeta. set (c := nth m U (0, 0)%nat).
    assert (IU : In c U) by (apply nth_In; exact Hm). destruct (UIN c IU) as (Hi & Hj & L). destruct (drawn_ok nhalos _ _ N0 L) as (P1 & P2 & P3).
    set (P := drawn_cell nhalos (fst c) (snd c)) in *.
    pose proof (gals_members k hm q up Gs M T ids zs E f Ls SO FS All (fst c) (snd c) P P2) as MB.
    assert (PB : forall n, In n P -> (n < length (List.concat Ls))%nat).
    { intros n Hn. apply P2 in Hn. apply (in_sampled hm q up T ids zs E f Ls SO) in Hn. apply Hn. }
    exists (gals Ls P). split; [unfold gals; rewrite map_length; exact P1|]. split.
    { intros g Hg. apply MB in Hg. apply filter_In in Hg. destruct Hg as [A B]. apply filter_In. split; [exact A|]. cbn [of_kind andb] in B. now apply half_open_inbin. }
    split; [intros NG; apply (gals_distinct k hm q up Gs M T ids zs E f Ls SO FS All (fst c) (snd c) P NG P2 P3)|].
    rewrite (nth_indep _ p0 (fst (fst (fst (cell_value nhalos lgt0 (0, 0)%nat))))) by (rewrite map_length; exact Hm).
    rewrite (map_nth (fun x => fst (fst (fst (cell_value nhalos lgt0 x))))). fold c. cbn [cell_value fst snd]. fold P.
    split; [rewrite <- P1; apply pop_mah_cols|]. split.
    { intros n Hn. rewrite pop_mah_gal by lia. unfold gals. rewrite (nth_map_nat _ _ n 0%nat) by lia.
      cbn [measured pf_f]. apply (mah_at hm q up T ids zs E f Ls SO). apply PB, nth_In. lia. }
    split.
    { rewrite (nth_map_nat _ _ m (0, 0)%nat) by exact Hm. fold c. cbn [cell_value fst snd]. fold P. unfold gals. rewrite map_map. apply map_ext_in.
      intros n Hn. rewrite (mah_at hm q up T ids zs E f Ls SO) by (apply PB; exact Hn). reflexivity. }
    split.
    { rewrite (nth_map_nat _ _ m (0, 0)%nat) by exact Hm. fold c. cbn [cell_value fst snd]. apply age_at_target. exact Hi. }
    rewrite (nth_map_nat _ _ m (0, 0)%nat) by exact Hm. fold c. cbn [cell_value fst snd].
    rewrite (ft_smhm _ _ _ _ _ _ _ _ _ _ _ _ _ _ _ _ _ FT _ _ Hi Hj).
    assert (NB : filter (fun g => inbin E (snd c) (at_t ids M (fst c) g)) G <> []).
    { destruct P as [|n P'] eqn:EP; [cbn in P1; lia|]. specialize (MB (halo (row Ls n)) (or_introl eq_refl)). apply filter_In in MB.
      destruct MB as [A B]. cbn [of_kind andb] in B. apply half_open_inbin in B. intros Z.
      assert (IF : In (halo (row Ls n)) (filter (fun g => inbin E (snd c) (at_t ids M (fst c) g)) G)) by (apply filter_In; split; assumption).
      rewrite Z in IF. contradiction. }
    destruct (filter _ G) as [|g0 gs]; [congruence|]. cbn [map mean]. rewrite <- (map_length (at_t ids S (fst c)) (g0 :: gs)). reflexivity.
Qed.
End Fit.
End Top.

(** From the fit files to the data of the population fits *)
Section Programs.
Variable key : Type.
Variable split : key -> nat -> list key.
Variable sing : MahParams xr -> list xr -> xr -> list xr * list xr.
Variable kern : MahParams xr -> xr -> xr -> xr.
Variable draw : nat -> nat -> list nat -> nat -> bool -> list nat.
Hypothesis HT : timewise sing kern.
Hypothesis HC : draws_ok draw.
Hypothesis HS : forall k n, length (split k n) = n.

Lemma fed k hm q up Gs cen sat M S F T ids zs E f : final_tables k hm q up Gs cen sat M S F T ids zs E (evenly 7 13 26) (evenly (-13) (-8) 30) f ->
  (2 <= length E)%nat -> ids <> [] -> kinds_agree Gs cen sat up ->
  fits_fed split sing kern draw hm up k Gs M S F T ids E (evenly 7 13 26) (evenly (-13) (-8) 30) f.
Proof using HT HC HS.
  intros FT HE NI HK nhalos lgt0 fb rk. cbv zeta.
  assert (I1 : increasing (evenly 7 13 26)) by (apply evenly_increasing; [lia|lra]).
  assert (I2 : increasing (evenly (-13) (-8) 30)) by (apply evenly_increasing; [lia|lra]).
  assert (L1 : length (evenly 7 13 26) = 26%nat) by apply evenly_len. assert (L2 : length (evenly (-13) (-8) 30) = 30%nat) by apply evenly_len.
  split; [|split].
  - intros kd. apply (mass_chain k hm q up Gs cen sat M S F T ids zs); try assumption; lia.
  - intros b UB. apply (ssfr_chain k hm q up Gs cen sat M S F T ids zs); try assumption; try lia. destruct ids; [congruence|cbn; lia].
  - intros N0. apply (mean_chain k hm q up Gs cen sat M S F T ids zs); try assumption; lia.
Qed.
Lemma setup_some age A lgt0 T zs ids : setup age A lgt0 T zs ids -> ids <> [].
Proof using. intros [_ _ _ _ _ NE _ FI]. destruct FI; [congruence|discriminate]. Qed.

Theorem smdpl_fed age A T zs ids : setup age A (log10R (138 / 10)) T zs ids ->
  forall hm q p h M (choice : nat -> nat -> nat -> list nat -> nat -> bool -> list nat) (dm ds : nat -> hdf) (I : nat -> list nat) lm su up nmax nranks
    sim_name dmdir dsdir V nm,
  (forall v, choice_ok (choice v)) -> V <> [] -> (0 < nranks)%nat -> ascending V -> regular V nm ->
  holds "diffstar_fits_subvol_" ".hdf5" dsdir V nm ds -> beside sim_name dmdir V nm dm ->
  let G v := filter (fun g => above0 (lm g) && is1 (su g)) (I v) in
  (forall v, In v V -> (v < nmax)%nat /\ NoDup (I v) /\ fit_files (dm v) (ds v) (I v) lm su hm q /\ (forall g, In g (G v) -> SpecMeasure.good kern sing T hm q p h M g) /\
     (exists g, In g (G v) /\ up g = (-1)%Z) /\ (exists g, In g (G v) /\ up g <> (-1)%Z)) ->
  exists f used S F, measure_smdpl (Some FB) kern sing age choice (fun v => map up (I v)) sim_name dmdir dsdir nmax (map Fin zs) nranks = Some (f, used) /\
    (forall v g, In v V -> In g (G v) -> galaxy_is kern sing T (hm g) (q g) (M g) (S g) (F g)) /\
    fits_fed split sing kern draw hm up (20000 / length V) (map G V) M S F T ids (evenly 11 (1475 / 100) 12) (evenly 7 13 26) (evenly (-13) (-8) 30) f.
Proof using HT HC HS.
  intros SU hm q p h M choice dm ds I lm su up nmax nranks sim_name dmdir dsdir V nm CH NV NR AV RV HO BE G HG.
  destruct (measure_value kern sing age A T zs ids SU hm q p h M choice dm ds I lm su up nmax nranks sim_name dmdir dsdir V nm CH NV NR AV RV HO BE HG) as (f & S & F & E1 & E2 & E3).
  eexists f, _, S, F. split; [exact E1|]. split; [exact E2|]. apply (fed _ _ q _ _ _ _ _ _ _ _ _ zs _ _ E3).
  - apply Nat.leb_le. reflexivity.
  - exact (setup_some _ _ _ _ _ _ SU).
  - intros g _. split; reflexivity.
Qed.

Lemma flag_kinds Gs c : (forall g, In g (List.concat Gs) -> c g = 1%Z \/ c g = 0%Z) ->
  kinds_agree Gs (fun g => (c g =? 1)%Z) (fun g => (c g =? 0)%Z) (fun g => if (c g =? 1)%Z then (-1)%Z else c g).
Proof using. intros H g Hg. destruct (H g Hg) as [E|E]; rewrite E; split; reflexivity. Qed.

Theorem tng_fed age A lgt0 T zs ids : setup age A lgt0 T zs ids ->
  forall hm q p h M (choice : nat -> nat -> nat -> list nat -> nat -> bool -> list nat) dm ds N lm ls su c,
  (forall r, choice_ok (choice r)) -> fit_files dm ds (seq 0 N) lm su hm q -> lookup "loss" ds = Some (D1 (map ls (seq 0 N))) ->
  all_rows N dm -> all_rows N ds ->
  let sel g := above0 (lm g) && above0 (ls g) && is1 (su g) in
  (forall g, (g < N)%nat -> sel g = true -> SpecMeasure.good kern sing T hm q p h M g /\ (c g = 1%Z \/ c g = 0%Z)) ->
  (forall r, (r < 20)%nat -> (exists g, In g (part N 20 r) /\ sel g = true /\ c g = 1%Z) /\ (exists g, In g (part N 20 r) /\ sel g = true /\ c g = 0%Z)) ->
  exists f S F, tng_measure_script (fun r => tng_chunk kern sing age (choice r) dm ds (map c (seq 0 N)) r (map Fin zs) (Fin lgt0)) (length zs) 11 25 29 20 = Some f /\
    (forall g, (g < N)%nat -> sel g = true -> galaxy_is kern sing T (hm g) (q g) (M g) (S g) (F g)) /\
    fits_fed split sing kern draw hm (fun g => if (c g =? 1)%Z then (-1)%Z else c g) 1000 (map (fun r => filter sel (part N 20 r)) (seq 0 20)) M S F T ids
      (evenly 11 (1475 / 100) 12) (evenly 7 13 26) (evenly (-13) (-8) 30) f.
Proof using HT HC HS.
  intros SU hm q p h M choice dm ds N lm ls su c CH FF FL RM RS sel GG HK.
  destruct (tng_final kern sing age A lgt0 T zs ids SU hm q p h M choice dm ds N lm ls su c CH FF FL RM RS (fun g Hg Hs => proj1 (GG g Hg Hs)) HK) as (f & S & F & E1 & E2 & E3).
  exists f, S, F. split; [exact E1|]. split; [exact E2|]. apply (fed _ _ q _ _ _ _ _ _ _ _ _ zs _ _ E3).
  - apply Nat.leb_le. reflexivity.
  - exact (setup_some _ _ _ _ _ _ SU).
  - apply flag_kinds. intros g Hg. apply in_concat in Hg. destruct Hg as (l & Hl & Hg). apply in_map_iff in Hl. destruct Hl as (r & <- & Hr).
    apply filter_In in Hg. destruct Hg as [Hg Hs]. apply GG; [|exact Hs]. apply in_seq in Hr. apply (part_range N 20 r g); [lia|exact Hg].
Qed.

Theorem galacticus_fed age A lgt0 T zs ids : setup age A lgt0 T zs ids ->
  forall hm q p h M (choice : nat -> nat -> nat -> list nat -> nat -> bool -> list nat) dm ds I lm ls su c nranks,
  (forall r, choice_ok (choice r)) -> (0 < nranks)%nat -> NoDup I -> fit_files dm ds I lm su hm q -> lookup "loss" ds = Some (D1 (map ls I)) ->
  let G := filter (fun g => above0 (lm g) && above0 (ls g) && is1 (su g)) I in
  (forall g, In g G -> SpecMeasure.good kern sing T hm q p h M g /\ (c g = 1%Z \/ c g = 0%Z)) -> (exists g, In g G /\ c g = 1%Z) -> (exists g, In g G /\ c g = 0%Z) ->
  (forall t, In t ids -> exists j g, (j < 11)%nat /\ In g G /\ half_open (evenly 11 (145 / 10) 12) j (nth t (M g) 0) = true) ->
  exists f S F, galacticus_measure_script (fun r => galacticus_catalog (Some FB) kern sing age (choice r) dm ds (map c I) (map Fin zs) (Fin lgt0)) (length zs) 11 25 29 nranks = Some f /\
    (forall g, In g G -> galaxy_is kern sing T (hm g) (q g) (M g) (S g) (F g)) /\
    fits_fed split sing kern draw hm (fun g => if (c g =? 1)%Z then (-1)%Z else c g) 20000 [G] M S F T ids
      (evenly 11 (145 / 10) 12) (evenly 7 13 26) (evenly (-13) (-8) 30) f.
Proof using HT HC HS.
  intros SU hm q p h M choice dm ds I lm ls su c nranks CH NR ND FF FL G GG G1 G2 HH.
  destruct (galacticus_final kern sing age A lgt0 T zs ids SU hm q p h M choice dm ds I lm ls su c nranks CH NR ND FF FL (fun g Hg => proj1 (GG g Hg)) G1 G2 HH) as (f & S & F & E1 & E2 & E3).
  exists f, S, F. split; [exact E1|]. split; [exact E2|]. apply (fed _ _ q _ _ _ _ _ _ _ _ _ zs _ _ E3).
  - apply Nat.leb_le. reflexivity.
  - exact (setup_some _ _ _ _ _ _ SU).
  - apply flag_kinds. intros g Hg. cbn [List.concat] in Hg. rewrite app_nil_r in Hg. apply GG, Hg.
Qed.
End Programs.

(** ** Worked example: 120 galaxies of log halo mass [x] at one time, every other one central *)
Definition exl_ids : list nat := [0%nat].
Definition exl_M (x : R) (g : nat) : list R := [x].
Definition exl_S (g : nat) : list R := [10].
Definition exl_F (g : nat) : list R := [-10].
Definition exl_up (g : nat) : Z := if Nat.even g then (-1)%Z else 3%Z.
Definition exl_E : list R := [11; 12; 13].
Definition exl_q (g : nat) : DiffstarParams xr := map_d Fin (mkDiffstar 12 (-1) 1 (-1) 1 0 (-1) 0).
Definition exl_hm (g : nat) : MahParams xr := mkMah (Fin 12) (Fin 0) (Fin 2) (Fin 1) (Fin 10).
Definition exl_L : list (nat * nat * nat) := map (fun g => (0, 0, g)%nat) (seq 0 120).
Definition exl_haloes : Haloes := mkHaloes (map bin exl_L) (map (fun r => Fin ((nth (bin r) exl_E 0 + nth (Datatypes.S (bin r)) exl_E 0) / 2)) exl_L)
  (map (fun r => let p := exl_hm (halo r) in [logm0 p; logtc p; early_index p; late_index p; t_peak p]) exl_L)
  (map (fun r => let p := exl_q (halo r) in [d_lgmcrit p; d_lgy_at_mcrit p; d_indx_lo p; d_indx_hi p]) exl_L)
  (map (fun r => let p := exl_q (halo r) in [d_lg_qt p; d_qlglgdt p; d_lg_drop p; d_lg_rejuv p]) exl_L)
  (map (fun r => exl_up (halo r)) exl_L) (map tgt exl_L) (map (fun r => Fin (nth (nth (tgt r) exl_ids 0%nat) [138 / 10] 0)) exl_L)
  (map (fun r => Fin (nth (tgt r) [0] 0)) exl_L).
Definition exl_Em : list R := evenly 7 13 26.
Definition exl_Es : list R := evenly (-13) (-8) 30.
Definition exl_cen (g : nat) : bool := (exl_up g =? -1)%Z.
Definition exl_sat (g : nat) : bool := negb (exl_up g =? -1)%Z.
Definition exl_G : list nat := seq 0 120.
Definition exl_final (x : R) : Final := mkFinal
  (tbl 1 2 (fun i j => Rsum (map (fun g => tw_mass (at_t exl_ids (exl_M x) i g) (mean_bin exl_E) (nth j exl_E 0) (nth (j + 1) exl_E 0)) exl_G)))
  (tbl 1 2 (fun i j => Rsum (map (fun g => tw_mass (at_t exl_ids (exl_M x) i g) (mean_bin exl_E) (nth j exl_E 0) (nth (j + 1) exl_E 0) * at_t exl_ids exl_S i g) exl_G)))
  (tbl 1 2 (fun i j => INR (count (fun g => inbin exl_E j (at_t exl_ids (exl_M x) i g)) exl_G)))
  (tbl 1 2 (fun i j => Rsum (map (at_t exl_ids exl_S i) (filter (fun g => inbin exl_E j (at_t exl_ids (exl_M x) i g)) exl_G))))
  (tbl 1 2 (fun i j => INR (count (fun g => exl_cen g && inbin exl_E j (at_t exl_ids (exl_M x) i g)) exl_G)))
  (tbl 1 2 (fun i j => INR (count (fun g => exl_sat g && inbin exl_E j (at_t exl_ids (exl_M x) i g)) exl_G)))
  [] (map (fun i => map (fun j => mean (map (at_t exl_ids exl_S i) (filter (fun g => inbin exl_E j (at_t exl_ids (exl_M x) i g)) exl_G))) (seq 0 2)) (seq 0 1))
  [Fin (138 / 10)] exl_haloes
  (tbl3 1 2 (length exl_Em - 1) (c3 [exl_G] (exl_M x) exl_S exl_ids exl_E exl_Em))
  (tbl3 1 2 (length exl_Em - 1) (fun i j a => INR (count (fun g => interior exl_E j (at_t exl_ids (exl_M x) i g) && inbin exl_Em a (at_t exl_ids exl_S i g)) exl_G)))
  (tbl4 1 2 (length exl_Em - 1) (length exl_Es - 1) (c4 [exl_G] (exl_M x) exl_S exl_F exl_ids exl_E exl_Em exl_Es exl_cen))
  (tbl4 1 2 (length exl_Em - 1) (length exl_Es - 1) (c4 [exl_G] (exl_M x) exl_S exl_F exl_ids exl_E exl_Em exl_Es exl_sat)).

Lemma filter_true {A} (P : A -> bool) l : (forall a, In a l -> P a = true) -> filter P l = l.
Proof. induction l as [|a l IH]; intros H; [reflexivity|]. cbn [filter]. rewrite (H a (or_introl eq_refl)), IH; [reflexivity|]. intros b Hb. apply H. now right. Qed.
Lemma filter_false {A} (P : A -> bool) l : (forall a, In a l -> P a = false) -> filter P l = [].
Proof. induction l as [|a l IH]; intros H; [reflexivity|]. cbn [filter]. rewrite (H a (or_introl eq_refl)), IH; [reflexivity|]. intros b Hb. apply H. now right. Qed.
Lemma exl_half x j g : 11 <= x < 12 -> half_open exl_E j (at_t exl_ids (exl_M x) 0 g) = Nat.eqb j 0 \/ (2 <= j)%nat.
Proof.
  intros H. destruct j as [|[|j]]; [left|left|right; lia]; unfold half_open; cbn; destruct (Rle_dec _ _); try destruct (Rlt_dec _ _); try reflexivity; lra.
Qed.

Lemma exl_tables x : 11 <= x < 12 ->
  final_tables 1000 exl_hm exl_q exl_up [exl_G] exl_cen exl_sat (exl_M x) exl_S exl_F [138 / 10] exl_ids [0] exl_E exl_Em exl_Es (exl_final x).
Proof.
  intros Hx. constructor.
  - constructor; reflexivity.
  - intros i j Hi Hj. cbn in Hi, Hj. unfold entry. destruct i; [|lia]. destruct j as [|[|]]; [reflexivity|reflexivity|lia].
  - reflexivity.
  - exists [exl_L]. split.
    + unfold exl_final. cbn [f_haloes List.concat]. rewrite app_nil_r. constructor; reflexivity.
    + constructor; [|constructor]. constructor.
      * unfold exl_L. apply FinFun.Injective_map_NoDup; [|apply seq_NoDup]. intros a b H. now inversion H.
      * intros r Hr. unfold exl_L in Hr. apply in_map_iff in Hr. destruct Hr as (g & <- & Hg). cbn. repeat split; try lia; try lra. exact Hg.
      * intros i j Hi Hj. cbn in Hi, Hj. destruct i; [|lia]. unfold exl_L, exl_G. unfold count at 1. rewrite filter_map_length.
        unfold count. destruct j as [|[|]]; [| |lia].
        -- rewrite filter_true by reflexivity. rewrite filter_true.
           { rewrite seq_length. reflexivity. }
           intros g _. destruct (exl_half x 0 g Hx) as [E|E]; [exact E|lia].
        -- rewrite filter_false by reflexivity. rewrite filter_false; [reflexivity|].
           intros g _. destruct (exl_half x 1 g Hx) as [E|E]; [exact E|lia].
Qed.
Lemma exl_kinds : kinds_agree [exl_G] exl_cen exl_sat exl_up.
Proof. intros g _. split; reflexivity. Qed.
Lemma exl_sizes : (2 <= length exl_E)%nat /\ (2 <= length exl_Em)%nat /\ (2 <= length exl_Es)%nat /\ increasing exl_Em /\ increasing exl_Es /\ (20 <= length exl_Em - 1)%nat.
Proof.
  unfold exl_Em, exl_Es. rewrite !evenly_len. split; [cbn; lia|]. split; [lia|]. split; [lia|].
  split; [apply evenly_increasing; [lia|lra]|]. split; [apply evenly_increasing; [lia|lra]|lia].
Qed.
Lemma exl_kept x : 11 <= x < 12 -> kept 1000 (exl_M x) exl_E exl_ids [exl_G] 0 0 = 120%nat.
Proof.
  intros Hx. unfold kept, exl_G, count. cbn [map]. rewrite filter_true.
  - rewrite seq_length. reflexivity.
  - intros g _. destruct (exl_half x 0 g Hx) as [E|E]; [exact E|lia].
Qed.
Lemma exl_edge : forall g, In g (List.concat [exl_G]) -> interior exl_E 0 (at_t exl_ids (exl_M 11) 0 g) = false.
Proof. intros g _. unfold interior. cbn. destruct (Rlt_dec _ _); [lra|reflexivity]. Qed.
Lemma exl_inside : In 0%nat (List.concat [exl_G]) /\ of_kind Cen (exl_up 0) = true /\ interior exl_E 0 (at_t exl_ids (exl_M (23 / 2)) 0 0) = true /\
  hd 0 exl_Em < at_t exl_ids exl_S 0 0 < last exl_Em 0 /\ hd 0 exl_Es < Rmax (at_t exl_ids exl_F 0 0) (-12) < last exl_Es 0.
Proof.
  split; [left; reflexivity|]. split; [reflexivity|]. split.
  - unfold interior. cbn. destruct (Rlt_dec _ _); [destruct (Rlt_dec _ _); [reflexivity|lra]|lra].
  - assert (L1 : last exl_Em 0 = 13) by (unfold exl_Em; rewrite last_nth, evenly_len, evenly_nth by lia; cbn [Nat.sub]; rewrite !INR_IZR_INZ; cbn; lra).
    assert (L2 : last exl_Es 0 = -8) by (unfold exl_Es; rewrite last_nth, evenly_len, evenly_nth by lia; cbn [Nat.sub]; rewrite !INR_IZR_INZ; cbn; lra).
    assert (H1 : hd 0 exl_Em = 7) by (cbn; lra). assert (H2 : hd 0 exl_Es = -13) by (cbn; lra).
    rewrite L1, L2, H1, H2. cbn. unfold Rmax. destruct (Rle_dec _ _); lra.
Qed.
Lemma exl_used : used_bins Cen exl_haloes 2 0 = [0%nat] /\ used_bins Sat exl_haloes 2 0 = [0%nat].
Proof. split; vm_compute; reflexivity. Qed.
