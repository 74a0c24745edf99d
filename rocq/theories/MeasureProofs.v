(** Proofs about the measurement of the targets of one catalog. *)
From Coq Require Import Reals Lra Lia ZArith List Bool String.
From Verif Require Import XReal RealFacts ModelUtils ModelKernels ModelSfh ModelPop ModelHist ModelLoad ModelIO SpecLoad ModelTargets SpecCore SpecHist SpecTargets SpecMeasure
  XFacts IntegralProofs SfhProofs DtProofs SmhmProofs FitProofs HistProofs LossProofs PopProofs SplitProofs SnapshotProofs TargetProofs TargetDataProofs TargetTopProofs.
Import List ListNotations.
Open Scope R_scope.
Local Notation length := List.length.

(** ** Galaxies by position *)
Lemma keep_map {A B} (sel : A -> bool) (f : A -> B) I : keep (map sel I) (map f I) = map f (filter sel I).
Proof. induction I as [|a I IH]; [reflexivity|]. cbn [map keep filter]. destruct (sel a); cbn [map]; rewrite IH; reflexivity. Qed.
Lemma mask_map {A B} (sel : A -> bool) (f : A -> B) I : mask (map sel I) (map f I) = Some (map f (filter sel I)).
Proof. unfold mask. rewrite same_len_true by (rewrite !map_length; reflexivity). rewrite keep_map. reflexivity. Qed.
Lemma and_mask_map {A} (a b : A -> bool) I : and_mask (map a I) (map b I) = Some (map (fun g => a g && b g) I).
Proof. unfold and_mask. rewrite same_len_true by (rewrite !map_length; reflexivity). rewrite map2_map_same. reflexivity. Qed.

Section Pick.
Variable G : list nat.
Notation g_ k := (nth k G 0%nat).
Lemma those_pick (P Q : nat -> bool) : (forall k, (k < length G)%nat -> Q k = P (g_ k)) ->
  map (fun k => g_ k) (those (length G) Q) = filter P G.
Proof.
  intros H. rewrite (those_ext _ Q (fun k => P (g_ k))) by exact H. unfold those.
  transitivity (filter P (map (fun k => g_ k) (seq 0 (length G)))); [rewrite TargetProofs.filter_map; reflexivity|].
  rewrite <- list_as_seq. reflexivity.
Qed.
Lemma len_pick (P Q : nat -> bool) : (forall k, (k < length G)%nat -> Q k = P (g_ k)) ->
  length (those (length G) Q) = count P G.
Proof. intros H. unfold count. rewrite <- (those_pick P Q H), map_length. reflexivity. Qed.
Lemma sum_pick (P Q : nat -> bool) (v w : nat -> R) : (forall k, (k < length G)%nat -> Q k = P (g_ k)) ->
  (forall k, (k < length G)%nat -> v k = w (g_ k)) ->
  Rsum (map v (those (length G) Q)) = Rsum (map w (filter P G)).
Proof.
  intros H K. rewrite <- (those_pick P Q H), map_map. f_equal. apply map_ext_in. intros k Hk. apply K.
  apply in_those in Hk. apply Hk.
Qed.
Lemma sum_all (v w : nat -> R) : (forall k, (k < length G)%nat -> v k = w (g_ k)) -> Rsum (map v (seq 0 (length G))) = Rsum (map w G).
Proof.
  intros K. transitivity (Rsum (map w (map (fun k => g_ k) (seq 0 (length G))))); [|rewrite <- list_as_seq; reflexivity].
  rewrite map_map. f_equal. apply map_ext_in. intros k Hk. apply in_seq in Hk. apply K. lia.
Qed.
End Pick.
Lemma filter_those n P Q : filter P (those n Q) = those n (fun k => Q k && P k).
Proof. unfold those. induction (seq 0 n) as [|a l IH]; [reflexivity|]. cbn [filter]. destruct (Q a); cbn [filter andb]; rewrite IH; reflexivity. Qed.

Lemma each_tbl {A} (v : nat -> nat -> A) ids m : map (fun t => map (v t) (seq 0 m)) ids
  = map (fun i => map (v (nth i ids 0%nat)) (seq 0 m)) (seq 0 (length ids)).
Proof. rewrite (list_as_seq ids 0%nat) at 1. rewrite map_map. reflexivity. Qed.
Lemma tbl_ext_in a b f g : (forall i j, (i < a)%nat -> (j < b)%nat -> f i j = g i j) -> tbl a b f = tbl a b g.
Proof. intros H. unfold tbl. apply map_ext_in. intros i Hi. apply map_ext_in. intros j Hj. apply in_seq in Hi, Hj. rewrite H by lia. reflexivity. Qed.

Lemma NoDup_map_in {A B} (f : A -> B) l : (forall x y, In x l -> In y l -> f x = f y -> x = y) -> NoDup l -> NoDup (map f l).
Proof.
  intros H. induction 1 as [|a l N _ IH]; [constructor|]. cbn [map]. constructor.
  - intros C. apply in_map_iff in C. destruct C as (b & E & Hb). apply N. rewrite <- (H b a); [exact Hb|now right|now left|exact E].
  - apply IH. intros x y Hx Hy. apply H; now right.
Qed.

(** ** Ages are determined by redshifts *)
Lemma knot_mono i j : (i <= j)%nat -> knot i <= knot j.
Proof. intros H. unfold knot. apply le_INR in H. lra. Qed.
Lemma age_at_inj A z a b : age_at A z a -> age_at A z b -> a = b.
Proof.
  intros (i & _ & Hi & ->) (j & _ & Hj & ->). assert (i = j); [|subst; reflexivity].
  destruct (Nat.lt_trichotomy i j) as [C|[C|C]]; [exfalso|exact C|exfalso].
  - pose proof (knot_mono (S i) j C). lra.
  - pose proof (knot_mono (S j) i C). lra.
Qed.
Lemma ids_unique A T zs ids ids' :
  Forall2 (fun z n => exists a, age_at A z a /\ n = count (below a) T) zs ids ->
  Forall2 (fun z n => exists a, age_at A z a /\ n = count (below a) T) zs ids' -> ids = ids'.
Proof.
  intros H. revert ids'. induction H as [|z n zs ids (a & Ha & ->) H IH]; intros ids' H'; inversion H'; subst; [reflexivity|].
  match goal with K : exists _, _ |- _ => destruct K as (b & Hb & ->) end. rewrite (age_at_inj A z b a Hb Ha). f_equal. apply IH. assumption.
Qed.
Lemma ids_in_range A T zs ids : (forall z z', 0 <= z < z' -> z' <= 10 -> A z' < A z) -> increasing T -> (2 <= length T)%nat -> A 0 <= last T 0 ->
  Forall (fun z => 0 <= z < 10) zs ->
  Forall2 (fun z n => exists a, age_at A z a /\ n = count (below a) T) zs ids -> Forall (fun t => (t < length T)%nat) ids.
Proof.
  intros HA IT L2 HL F H. induction H as [|z n zs ids (a & Ha & ->) H IH]; [constructor|]. inversion F; subst. constructor; [|apply IH; assumption].
  destruct (age_at_bounds A z a HA ltac:(assumption) Ha) as (lo & hi & B1 & B2 & B3 & B4 & B5).
  destruct (count_below_spec T a IT) as (C1 & C2 & _).
  destruct (Nat.lt_ge_cases (count (below a) T) (length T)) as [C|C]; [exact C|exfalso].
  specialize (C2 (length T - 1)%nat ltac:(lia)).
  assert (EL : nth (length T - 1) T 0 = last T 0).
  { clear. induction T as [|x [|y T] IH]; [reflexivity..|]. cbn [length Nat.sub last]. cbn [length Nat.sub] in IH. rewrite Nat.sub_0_r in *. cbn [nth]. exact IH. }
  rewrite EL in C2. assert (A lo <= A 0); [|lra]. destruct (Req_dec lo 0) as [->|N]; [lra|]. left. apply HA; lra.
Qed.

(** ** One catalog *)
Section Catalog.
Variable kern : MahParams xr -> xr -> xr -> xr.
Variable sing : MahParams xr -> list xr -> xr -> list xr * list xr.
Variable age : xr -> xr.
Variable A : R -> R.
Variable choice : nat -> nat -> list nat -> nat -> bool -> list nat.
Hypothesis CH : choice_ok choice.
Hypothesis AG : forall z, 0 <= z <= 10 -> age (Fin z) = Fin (A z).
Hypothesis AD : forall z z', 0 <= z < z' -> z' <= 10 -> A z' < A z.
Variables (lgt0 : R) (T zs : list R) (ids : list nat).
Hypothesis HT : T = evenly (1 / 100) (pow10R lgt0) 200.
Hypothesis T0 : 1 / 100 < A 0.
Hypothesis T1 : A 0 <= pow10R lgt0.
Hypothesis ZN : zs <> [].
Hypothesis ZR : Forall (fun z => 0 <= z < 10) zs.
Hypothesis HI : Forall2 (fun z n => exists a, age_at A z a /\ n = count (below a) T) zs ids.
Variables (hm : nat -> MahParams xr) (q : nat -> DiffstarParams xr) (p : nat -> DiffstarParams R) (h : nat -> R -> R) (M : nat -> list R).
Notation good := (SpecMeasure.good kern sing T hm q p h M).
Definition sf_ (g : nat) : list R := map (fun t => sfr_spec (p g) (156 / 1000) (h g t) t) T.
Definition S_ (g : nat) : list R := map log10R (massR T (sf_ g)).
Definition F_ (g : nat) : list R := map2 (fun a b => log10R a - log10R b) (sf_ g) (massR T (sf_ g)).

Lemma galaxy_value g : good g -> galaxy_is kern sing T (hm g) (q g) (M g) (S_ g) (F_ g).
Proof.
  intros (E1 & E2 & E3 & _). split; [exact E3|]. exists (sf_ g), (massR T (sf_ g)). split; [|split; reflexivity].
  rewrite E1. unfold FB. apply (calc_sfh_smh_value kern _ _ _ _ _ (h g)). exact E2.
Qed.

Lemma times : increasing T /\ length T = 200%nat /\ hd 0 T = 1 / 100 /\ last T 0 = pow10R lgt0.
Proof.
  assert (L : length T = 200%nat) by (rewrite HT; apply evenly_len).
  assert (LL : forall l : list R, last l 0 = nth (length l - 1) l 0).
  { clear. intros l. induction l as [|x [|y l] IH]; [reflexivity..|]. change (last (x :: y :: l) 0) with (last (y :: l) 0). rewrite IH. cbn [length Nat.sub]. rewrite Nat.sub_0_r. reflexivity. }
  split; [rewrite HT; apply evenly_increasing; [lia|lra]|]. split; [exact L|]. split.
  - assert (HH : forall l : list R, hd 0 l = nth 0 l 0) by (intros []; reflexivity).
    rewrite HH, HT, evenly_nth by lia. cbn [INR]. lra.
  - rewrite LL, L, HT, evenly_nth by lia. cbn [Nat.sub]. field. apply not_0_INR. discriminate.
Qed.

Variables (I : list nat) (sel : nat -> bool).
Hypothesis NI : NoDup I.
Let G := filter sel I.
Hypothesis GG : forall g, In g G -> good g.
Definition mah_cols (G : list nat) : MahParams (list xr) :=
  mkMah (map (fun g => logm0 (hm g)) G) (map (fun g => logtc (hm g)) G) (map (fun g => early_index (hm g)) G)
        (map (fun g => late_index (hm g)) G) (map (fun g => t_peak (hm g)) G).
Definition sfh_cols (G : list nat) : DiffstarParams (list xr) :=
  mkDiffstar (map (fun g => d_lgmcrit (q g)) G) (map (fun g => d_lgy_at_mcrit (q g)) G) (map (fun g => d_indx_lo (q g)) G)
        (map (fun g => d_indx_hi (q g)) G) (map (fun g => d_lg_qt (q g)) G) (map (fun g => d_qlglgdt (q g)) G)
        (map (fun g => d_lg_drop (q g)) G) (map (fun g => d_lg_rejuv (q g)) G).

Lemma select_value : exists tb M' S' F', select_tables kern sing (map sel I) (mah_cols I) (ds_cols (sfh_cols I)) (Fin lgt0) (Some FB) = Some (tb, map sel I) /\
  tables_are tb (length G) T M' S' F' /\ tb_mah tb = mah_cols G /\ tb_sfh tb = sfh_cols G /\
  forall k, (k < length G)%nat -> nth k M' [] = M (nth k G 0%nat) /\ nth k S' [] = S_ (nth k G 0%nat) /\ nth k F' [] = F_ (nth k G 0%nat).
Proof.
  pose proof times as (IT & LT & _).
  destruct (tables_loaded_T kern sing (mah_cols G) (sfh_cols G) lgt0 (length G) (fun k => p (nth k G 0%nat)) (fun k => h (nth k G 0%nat))
              (fun k => M (nth k G 0%nat)) T HT ltac:(lra)) as (tb & M' & S' & F' & E1 & TA & _ & E2 & E3 & V).
  - unfold cols_len_mah, mah_cols. cbn. rewrite !map_length. repeat split; reflexivity.
  - unfold cols_len_d, sfh_cols. cbn. rewrite !map_length. repeat split; reflexivity.
  - intros k Hk. destruct (GG (nth k G 0%nat) (nth_In _ _ Hk)) as (A1 & A2 & A3 & A4).
    assert (EM : gal_mah (mah_cols G) k = hm (nth k G 0%nat)).
    { unfold gal_mah, map_mah, mah_cols. cbn. rewrite !(nth_map_nat _ _ k 0%nat) by exact Hk. destruct (hm (nth k G 0%nat)); reflexivity. }
    assert (ED : gal_d (sfh_cols G) k = q (nth k G 0%nat)).
    { unfold gal_d, map_d, sfh_cols. cbn. rewrite !(nth_map_nat _ _ k 0%nat) by exact Hk. destruct (q (nth k G 0%nat)); reflexivity. }
    rewrite EM, ED. repeat split; assumption.
  - exists tb, M', S', F'. split; [|split; [exact TA|split; [exact E2|split; [exact E3|]]]].
    + unfold select_tables, mask_mah, mah_cols, ds_cols, sfh_cols.
      cbn [logm0 logtc early_index late_index t_peak d_lgmcrit d_lgy_at_mcrit d_indx_lo d_indx_hi d_lg_qt d_qlglgdt d_lg_drop d_lg_rejuv].
      rewrite !mask_map. unfold vmap. cbn [map]. rewrite !mask_map. cbn [sequence ds_make]. fold G.
      change (sfh_tables kern sing (mkMah _ _ _ _ _) _ (Fin lgt0) (Some FB)) with (sfh_tables kern sing (mah_cols G) (sfh_cols G) (Fin lgt0) (Some FB)).
      rewrite E1. reflexivity.
    + intros k Hk. destruct (V k Hk) as (V1 & sfr & smh & V2 & V3 & V4). split; [exact V1|].
      destruct (GG (nth k G 0%nat) (nth_In _ _ Hk)) as (A1 & A2 & A3 & A4).
      assert (EM : gal_mah (mah_cols G) k = hm (nth k G 0%nat)).
      { unfold gal_mah, map_mah, mah_cols. cbn. rewrite !(nth_map_nat _ _ k 0%nat) by exact Hk. destruct (hm (nth k G 0%nat)); reflexivity. }
      rewrite EM in V2. unfold FB in V2. rewrite (calc_sfh_smh_value kern _ _ _ _ _ (h (nth k G 0%nat)) A2) in V2.
      inversion V2 as [[W1 W2]]. apply map_Fin_inj in W1, W2. rewrite V3, V4, <- W1, <- W2. split; reflexivity.
Qed.

Variables (E Em Es : list R) (cen sat : nat -> bool) (up : nat -> Z) (skip : bool) (k_max : nat).
Hypothesis IE : increasing E. Hypothesis LE : (2 <= length E)%nat.
Hypothesis IEm : increasing Em. Hypothesis LEm : (2 <= length Em)%nat.
Hypothesis IEs : increasing Es. Hypothesis LEs : (2 <= length Es)%nat.
Hypothesis HC : exists g, In g G /\ cen g = true.
Hypothesis HS : exists g, In g G /\ sat g = true.
Hypothesis HK : skip = true -> forall t, In t ids -> exists j g, (j < length E - 1)%nat /\ In g G /\ half_open E j (nth t (M g) 0) = true.

Theorem catalog_value : exists tb td pd,
  select_tables kern sing (map sel I) (mah_cols I) (ds_cols (sfh_cols I)) (Fin lgt0) (Some FB) = Some (tb, map sel I) /\
  create_target_data age choice tb (map cen G) (map sat G) (map up G) skip k_max (map Fin zs) (map Fin E) = Some td /\
  create_pdf_target_data age tb (map cen G) (map sat G) (map Fin zs) (map Fin E) (map Fin Em) (map Fin Es) = Some pd /\
  contribution k_max hm q up G cen sat M S_ F_ T ids zs E Em Es (td, pd).
Proof.
  pose proof times as (IT & LT & HDT & LST).
  destruct select_value as (tb & M' & S' & F' & SV & TA & TM & TS & V).
  assert (LI : length ids = length zs) by (symmetry; apply (F2_length _ _ _ HI)).
  assert (RI : Forall (fun t => (t < length T)%nat) ids).
  { apply (ids_in_range A T zs); try assumption; [lia|lra]. }
  assert (RT : return_target_redshift_index age (tb_t tb) (map Fin zs) = Some ids).
  { rewrite (ta_t _ _ _ _ _ _ TA). destruct (snapshot age A AG AD T zs IT ltac:(lia) ltac:(lra)) as (ids' & R1 & R2).
    - assert (A 10 < A 0) by (apply AD; lra). lra.
    - exact ZR.
    - rewrite R1. f_equal. apply (ids_unique A T zs); assumption. }
  assert (ZN' : map Fin zs <> []) by (destruct zs; [contradiction|discriminate]).
  assert (IC : In true (map cen G)) by (destruct HC as (g & Hg & <-); apply in_map; exact Hg).
  assert (IS : In true (map sat G)) by (destruct HS as (g & Hg & <-); apply in_map; exact Hg).
  assert (VM : forall i k, (k < length G)%nat -> val M' (nth i ids 0%nat) k = at_t ids M i (nth k G 0%nat)).
  { intros i k Hk. unfold val, at_t. destruct (V k Hk) as (-> & _). reflexivity. }
  assert (VS : forall i k, (k < length G)%nat -> val S' (nth i ids 0%nat) k = at_t ids S_ i (nth k G 0%nat)).
  { intros i k Hk. unfold val, at_t. destruct (V k Hk) as (_ & -> & _). reflexivity. }
  assert (VF : forall i k, (k < length G)%nat -> val F' (nth i ids 0%nat) k = at_t ids F_ i (nth k G 0%nat)).
  { intros i k Hk. unfold val, at_t. destruct (V k Hk) as (_ & _ & ->). reflexivity. }
  assert (NC : forall (f : nat -> bool) k, (k < length G)%nat -> nth k (map f G) false = f (nth k G 0%nat)).
  { intros f k Hk. apply nth_map_nat. exact Hk. }
  assert (SK : skip = true -> forall t, In t ids -> exists j k, (j < length E - 1)%nat /\ (k < length G)%nat /\ half_open E j (val M' t k) = true).
  { intros e t Ht. destruct (HK e t Ht) as (j & g & Hj & Hg & Hh). apply In_nth with (d := 0%nat) in Hg. destruct Hg as (k & Hk & <-).
    exists j, k. split; [exact Hj|]. split; [exact Hk|]. unfold val. destruct (V k Hk) as (-> & _). exact Hh. }
  destruct (targets_counts age choice CH tb (length G) T M' S' F' (map Fin zs) ids (map cen G) (map sat G) (map up G) skip k_max E TA RT RI ZN' IC IS
             (map_length _ _) (map_length _ _) (map_length _ _) IE LE SK) as (td & D1 & D2).
  destruct (targets_samples age choice CH tb (length G) T M' S' F' (map Fin zs) ids (map cen G) (map sat G) (map up G) skip k_max E TA RT RI ZN' IC IS
             (map_length _ _) (map_length _ _) (map_length _ _) IE LE SK) as (td' & D1' & L & SI & NL & LIn & LC).
  rewrite D1 in D1'. inversion D1'; subst td'; clear D1'.
  destruct (pdf_targets age tb (length G) T M' S' F' (map Fin zs) ids (map cen G) (map sat G) E Em Es TA RT RI (map_length _ _) (map_length _ _) IEm LEm IEs LEs)
    as (pd & P1 & P2).
  exists tb, td, pd. split; [exact SV|]. split; [exact D1|]. split; [exact P1|].
  cbv zeta in D2, P2. destruct D2 as (C1 & C2 & C3 & C4 & C5 & C6 & C7). destruct P2 as (Q1 & Q2 & Q3 & Q4).
  constructor; cbn [fst snd].
  - constructor.
    + rewrite C1. apply tbl_ext. intros i j. f_equal. apply len_pick. intros k Hk. rewrite (VM i k Hk). reflexivity.
    + rewrite C2. apply tbl_ext. intros i j. apply sum_pick; intros k Hk; [rewrite (VM i k Hk); reflexivity|apply VS; exact Hk].
    + rewrite C3. apply tbl_ext. intros i j. apply sum_all. intros k Hk. rewrite (VM i k Hk). reflexivity.
    + rewrite C4. apply tbl_ext. intros i j.
      apply (sum_all G _ (fun g => tw_mass (at_t ids M i g) (mean_bin E) (nth j E 0) (nth (j + 1) E 0) * at_t ids S_ i g)).
      intros k Hk. rewrite (VM i k Hk), (VS i k Hk). reflexivity.
    + rewrite C5. apply tbl_ext. intros i j. f_equal. apply (len_pick G (fun g => cen g && _)). intros k Hk. rewrite (VM i k Hk), (NC cen k Hk). reflexivity.
    + rewrite C6. apply tbl_ext. intros i j. f_equal. apply (len_pick G (fun g => sat g && _)). intros k Hk. rewrite (VM i k Hk), (NC sat k Hk). reflexivity.
    + rewrite Q1. rewrite each_tbl. unfold tbl3. apply map_ext. intros i. unfold tbl. apply map_ext. intros j. apply map_ext. intros a. f_equal.
      apply (sum_pick G (fun g => interior E j (at_t ids M i g)) _ _ (fun g => tw_mass (at_t ids S_ i g) (mean_bin Em) (nth a Em 0) (nth (a + 1) Em 0))); intros k Hk.
      * rewrite (VM i k Hk), andb_true_r. reflexivity.
      * rewrite (VS i k Hk). reflexivity.
    + rewrite Q2. rewrite each_tbl. unfold tbl3. apply map_ext. intros i. unfold tbl. apply map_ext. intros j. apply map_ext. intros a. f_equal. f_equal.
      rewrite filter_those. apply (len_pick G (fun g => interior E j (at_t ids M i g) && inbin Em a (at_t ids S_ i g))). intros k Hk.
      rewrite (VM i k Hk), (VS i k Hk), andb_true_r. reflexivity.
    + rewrite Q3. rewrite each_tbl. unfold tbl4, tbl3. apply map_ext. intros i. apply map_ext. intros j. apply tbl_ext. intros a b.
      apply (sum_pick G (fun g => interior E j (at_t ids M i g) && cen g) _ _ (fun g => tw_mass (at_t ids S_ i g) (mean_bin Em) (nth a Em 0) (nth (a + 1) Em 0)
                        * tw_mass (Rmax (at_t ids F_ i g) (-12)) (mean_bin Es) (nth b Es 0) (nth (b + 1) Es 0))); intros k Hk.
      * rewrite (VM i k Hk), (NC cen k Hk). reflexivity.
      * rewrite (VS i k Hk), (VF i k Hk). reflexivity.
    + rewrite Q4. rewrite each_tbl. unfold tbl4, tbl3. apply map_ext. intros i. apply map_ext. intros j. apply tbl_ext. intros a b.
      apply (sum_pick G (fun g => interior E j (at_t ids M i g) && sat g) _ _ (fun g => tw_mass (at_t ids S_ i g) (mean_bin Em) (nth a Em 0) (nth (a + 1) Em 0)
                        * tw_mass (Rmax (at_t ids F_ i g) (-12)) (mean_bin Es) (nth b Es 0) (nth (b + 1) Es 0))); intros k Hk.
      * rewrite (VM i k Hk), (NC sat k Hk). reflexivity.
      * rewrite (VS i k Hk), (VF i k Hk). reflexivity.
  - exact C7.
  - exists (map (fun r => (fst r, nth (halo r) G 0%nat)) L). destruct SI as [s1 s2 s3 s4 s5 s6 s7 s8 s9].
    rewrite TM in s3. rewrite TS in s4, s5. rewrite (ta_t _ _ _ _ _ _ TA) in s8. split.
    + constructor; rewrite map_map; unfold bin, tgt, halo in *; cbn [fst snd].
      * exact s1.
      * exact s2.
      * rewrite s3. apply map_ext_in. intros r Hr. destruct (LIn r Hr) as (_ & _ & R3 & _). unfold mah_cols, cols_mah. cbn [map logm0 logtc early_index late_index t_peak].
        rewrite !(nth_map_nat _ _ _ 0%nat) by exact R3. reflexivity.
      * rewrite s4. apply map_ext_in. intros r Hr. destruct (LIn r Hr) as (_ & _ & R3 & _). unfold sfh_cols, ds_cols.
        cbn [map firstn d_lgmcrit d_lgy_at_mcrit d_indx_lo d_indx_hi d_lg_qt d_qlglgdt d_lg_drop d_lg_rejuv].
        rewrite !(nth_map_nat _ _ _ 0%nat) by exact R3. reflexivity.
      * rewrite s5. apply map_ext_in. intros r Hr. destruct (LIn r Hr) as (_ & _ & R3 & _). unfold sfh_cols, ds_cols.
        cbn [map skipn d_lgmcrit d_lgy_at_mcrit d_indx_lo d_indx_hi d_lg_qt d_qlglgdt d_lg_drop d_lg_rejuv].
        rewrite !(nth_map_nat _ _ _ 0%nat) by exact R3. reflexivity.
      * rewrite s6. apply map_ext_in. intros r Hr. destruct (LIn r Hr) as (_ & _ & R3 & _). apply nth_map_nat. exact R3.
      * exact s7.
      * rewrite s8. apply map_ext_in. intros r Hr. destruct (LIn r Hr) as (R1 & _). apply (nth_map_nat Fin T _ 0).
        rewrite Forall_forall in RI. apply RI. apply nth_In. exact R1.
      * rewrite s9. apply map_ext_in. intros r Hr. destruct (LIn r Hr) as (R1 & _). apply (nth_map_nat Fin zs _ 0). unfold tgt in R1. lia.
    + assert (NG : NoDup G) by (apply NoDup_filter; exact NI). constructor.
      * apply NoDup_map_in; [|exact NL]. intros x y Hx Hy e. inversion e as [[e1 e2]].
        destruct (LIn x Hx) as (_ & _ & X3 & _). destruct (LIn y Hy) as (_ & _ & Y3 & _).
        apply (proj1 (NoDup_nth G 0%nat) NG) in e2; [|exact X3|exact Y3]. destruct x as [[? ?] ?], y as [[? ?] ?]. unfold halo in e2. cbn in e1, e2. congruence.
      * intros r Hr. apply in_map_iff in Hr. destruct Hr as (r' & <- & Hr'). destruct (LIn r' Hr') as (R1 & R2 & R3 & R4).
        unfold tgt, bin, halo in *. cbn [fst snd]. split; [exact R1|]. split; [exact R2|]. split; [apply nth_In; exact R3|].
        rewrite <- VM by exact R3. exact R4.
      * intros i j Hi Hj. transitivity (Nat.min k_max (length (those (length G) (fun k => half_open E j (val M' (nth i ids 0%nat) k))))).
        -- rewrite <- (LC i j Hi Hj). unfold count. rewrite TargetProofs.filter_map, map_length. reflexivity.
        -- f_equal. apply len_pick. intros k Hk. rewrite (VM i k Hk). reflexivity.
Qed.
End Catalog.
