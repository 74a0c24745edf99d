(** One-dimensional histograms: stellar-to-halo mass relation and stellar mass PDFs. *)
From Coq Require Import Reals Lra Lia List Bool Permutation.
From Coquelicot Require Import Coquelicot.
From Verif Require Import XReal XFacts RealFacts ModelUtils ModelKernels ModelSfh ModelPop ModelHist SpecCore SpecHist
  TriweightProofs SfhProofs PopProofs HistProofs PopMcProofs.
Import List ListNotations.
Open Scope R_scope.

Lemma removelast_map {A B} (f : A -> B) l : removelast (map f l) = map f (removelast l).
Proof. induction l as [|a [|b l] IH]; [reflexivity..|]. cbn [removelast map] in *. rewrite IH. reflexivity. Qed.
Lemma removelast_len {A} (l : list A) : length (removelast l) = (length l - 1)%nat.
Proof. induction l as [|a [|b l] IH]; [reflexivity..|]. cbn [removelast length] in *. rewrite IH. lia. Qed.
Lemma tl_len {A} (l : list A) : length (tl l) = (length l - 1)%nat.
Proof. destruct l; simpl; lia. Qed.
Lemma tl_map {A B} (f : A -> B) l : tl (map f l) = map f (tl l).
Proof. destruct l; reflexivity. Qed.
Lemma bins_of_len E : length (bins_of E) = (length E - 1)%nat.
Proof. unfold bins_of. rewrite combine_length, removelast_len, tl_len. lia. Qed.

Lemma nth_bins E j : (j < length E - 1)%nat -> nth j (bins_of E) (0, 0) = (nth j E 0, nth (S j) E 0).
Proof.
  revert j. induction E as [|a [|b E] IH]; intros j H; simpl in H; try lia.
  rewrite bins_cons. destruct j; [reflexivity|]. cbn [nth] in *. rewrite IH by (simpl; lia). reflexivity.
Qed.

Lemma col_fin l : col (map Fin l) = map (map Fin) (map (fun x => [x]) l).
Proof. unfold col. rewrite !map_map. reflexivity. Qed.

Lemma combine3_nth X S Y : length S = length X -> length Y = length X ->
  combine (combine (map (fun x => [x]) X) (map (fun x => [x]) S)) Y
  = map (fun i => (([nth i X 0], [nth i S 0]), nth i Y 0)) (seq 0 (length X)).
Proof.
  revert S Y. induction X as [|x X IH]; intros [|s S] [|y Y] H1 H2; try discriminate; [reflexivity|].
  cbn [map combine length seq nth]. apply f_equal. rewrite IH by (simpl in *; lia).
  rewrite <- seq_shift, map_map. reflexivity.
Qed.

Lemma points1 X S : length S = length X -> Forall (fun w => 0 < w) S ->
  points 1 (map (fun x => [x]) X) (map (fun x => [x]) S).
Proof.
  revert S. induction X as [|x X IH]; intros [|s S] H1 H2; try discriminate; [constructor|].
  inversion H2; subst. constructor; [auto|]. apply IH; [simpl in *; lia|assumption].
Qed.

Lemma whist1 X S Y E : length S = length X -> length Y = length X -> Forall (fun w => 0 < w) S ->
  tw_ndhist_weighted (col (map Fin X)) (col (map Fin S)) (map Fin Y)
    (col (init_ (map Fin E))) (col (tail_ (map Fin E)))
  = Some (map Fin (map (fun b => wmass X S Y (fst b) (snd b)) (bins_of E))).
Proof.
  intros H1 H2 H3. unfold init_, tail_. rewrite removelast_map, tl_map, !col_fin.
  rewrite (whist_fin 1); [|apply points1; assumption|rewrite map_length; assumption|].
  2:{ unfold boxes. pose proof (removelast_len E) as L1. pose proof (tl_len E) as L2.
      revert L1 L2. generalize (removelast E), (tl E). intros l m L1 L2. assert (L : length l = length m) by lia. clear -L.
      revert m L; induction l; intros [|b m] L; try discriminate; simpl; constructor; auto. }
  apply f_equal. apply f_equal. rewrite combine3_nth by assumption.
  unfold bins_of. generalize (removelast E), (tl E). intros l m.
  revert m; induction l as [|a l IH]; intros [|b m]; try reflexivity. cbn [map combine]. rewrite IH. apply f_equal2; [|reflexivity].
  unfold wmass. cbn [fst snd]. rewrite map_map. cbn [fst snd cell_mass]. apply Rsum_ext. intros. ring.
Qed.

Lemma incr_lt E j : increasing E -> (S j < length E)%nat -> nth j E 0 < nth (S j) E 0.
Proof.
  revert j. induction E as [|a [|b E] IH]; intros j Hi Hj; simpl in Hj; try lia.
  destruct Hi as [H1 H2]. destruct j; [exact H1|]. apply (IH j H2). simpl. lia.
Qed.

Lemma incr_hd_last E : increasing E -> (2 <= length E)%nat -> hd 0 E < last E 0.
Proof.
  induction E as [|a [|b E] IH]; intros Hi Hj; simpl in Hj; try lia. destruct Hi as [H1 H2].
  destruct E as [|c E]; [exact H1|]. specialize (IH H2 ltac:(simpl; lia)). cbn [hd] in *.
  change (last (a :: b :: c :: E) 0) with (last (b :: c :: E) 0). lra.
Qed.

Lemma F_nth {A} (P : A -> Prop) l i d : Forall P l -> (i < length l)%nat -> P (nth i l d).
Proof. intros H Hi. rewrite Forall_forall in H. apply H, nth_In, Hi. Qed.

Lemma wmass_1 (X S Y : list R) lo hi : length Y = length X ->
  wmass X S (map (fun _ => 1) Y) lo hi = Rsum (map (fun i => tw_mass (nth i X 0) (nth i S 0) lo hi) (seq 0 (length X))).
Proof.
  intros H. apply Rsum_ext. intros i Hi. apply in_seq in Hi.
  rewrite (nth_map (fun _ : R => 1) Y i 0) by lia. ring.
Qed.

Lemma Rsum_le {A} (f g : A -> R) l : (forall a, In a l -> f a <= g a) -> Rsum (map f l) <= Rsum (map g l).
Proof.
  intros H. unfold Rsum. induction l as [|a l IH]; simpl; [lra|].
  apply Rplus_le_compat; [apply H; now left|apply IH; intros; apply H; now right].
Qed.
Lemma Rsum_scal_f {A} c (f : A -> R) l : Rsum (map (fun a => c * f a) l) = c * Rsum (map f l).
Proof. rewrite <- Rsum_scal, map_map. reflexivity. Qed.
Lemma Rsum_zero_all {A} (f : A -> R) l : (forall a, In a l -> 0 <= f a) -> Rsum (map f l) = 0 -> forall a, In a l -> f a = 0.
Proof.
  unfold Rsum. induction l as [|b l IH]; intros H E a Ha; [contradiction|]. simpl in E.
  pose proof (H b (or_introl eq_refl)).
  pose proof (Rsum_nonneg (map f l)) as N. rewrite Forall_map in N. unfold Rsum in N.
  specialize (N ltac:(apply Forall_forall; intros; apply H; now right)).
  destruct Ha as [<-|Ha]; [lra|]. apply IH; auto; [|lra]. intros; apply H; now right.
Qed.

Lemma map_fin_nth f l j : (j < length l)%nat -> nth j (map Fin (map f l)) NaN = Fin (f (nth j l (0, 0))).
Proof.
  intros H. rewrite (nth_map Fin (map f l) j 0) by (rewrite map_length; exact H).
  rewrite (nth_map f l j (0, 0)) by exact H. reflexivity.
Qed.

Lemma smhm_value X S Y E : length S = length X -> length Y = length X -> Forall (fun w => 0 < w) S -> increasing E ->
  exists r, compute_smhm (map Fin X) (map Fin Y) (map Fin S) (map Fin E) = Some r /\
  length r = (length E - 1)%nat /\
  forall j, (j < length E - 1)%nat ->
    let m i := tw_mass (nth i X 0) (nth i S 0) (nth j E 0) (nth (Datatypes.S j) E 0) in
    let W := Rsum (map m (seq 0 (length X))) in
    (0 < W /\ nth j r NaN = Fin (Rsum (map (fun i => m i * nth i Y 0) (seq 0 (length X))) / W)) \/
    (nth j r NaN = NaN /\ forall i, (i < length X)%nat ->
       nth i X 0 + 3 * nth i S 0 <= nth j E 0 \/ nth (Datatypes.S j) E 0 <= nth i X 0 - 3 * nth i S 0).
Proof.
  intros H1 H2 H3 HE. unfold compute_smhm. cbv zeta.
  rewrite map_map. replace (map (fun _ : R => Fin 1) Y) with (map Fin (map (fun _ => 1) Y)) by (rewrite map_map; reflexivity).
  rewrite !whist1 by (rewrite ?map_length; assumption).
  eexists. split; [reflexivity|]. split.
  { rewrite map2_length, !map_length, bins_of_len. lia. }
  intros j Hj.
  set (m := fun i => tw_mass (nth i X 0) (nth i S 0) (nth j E 0) (nth (Datatypes.S j) E 0)).
  set (W := Rsum (map m (seq 0 (length X)))).
  rewrite (map2_nth _ _ _ _ NaN NaN) by (rewrite !map_length, bins_of_len; exact Hj).
  rewrite !map_fin_nth by (rewrite bins_of_len; exact Hj). rewrite !nth_bins by exact Hj. cbn [fst snd].
  assert (Hlt : nth j E 0 < nth (Datatypes.S j) E 0) by (apply incr_lt; [exact HE|lia]).
  assert (Hm : forall i, In i (seq 0 (length X)) -> 0 <= m i).
  { intros i Hi. apply in_seq in Hi. apply tw_mass_range; [|lra]. apply (F_nth (fun w => 0 < w)); [exact H3|lia]. }
  rewrite wmass_1 by exact H2. fold m. fold W.
  assert (HW : 0 <= W). { apply Rsum_nonneg. apply Forall_map, Forall_forall. exact Hm. }
  unfold wmass. fold m.
  destruct HW as [HW|HW].
  - left. split; [exact HW|]. rewrite xdiv_fin by lra. reflexivity.
  - right. pose proof (Rsum_zero_all m _ Hm (eq_sym HW)) as Z. split.
    + apply xdiv_zero_zero; [auto|]. rewrite (Rsum_ext _ (fun _ => 0)); [apply Rsum_zero|].
      intros i Hi. fold (m i). rewrite Z by exact Hi. ring.
    + intros i Hi. apply tw_mass_zero_iff; [apply (F_nth (fun w => 0 < w)); [exact H3|lia]|exact Hlt|].
      apply Z. apply in_seq. lia.
Qed.

Lemma smhm_bounds X S Y E a b : length S = length X -> length Y = length X -> Forall (fun w => 0 < w) S -> increasing E ->
  Forall (fun y => a <= y <= b) Y ->
  exists r, compute_smhm (map Fin X) (map Fin Y) (map Fin S) (map Fin E) = Some r /\
  length r = (length E - 1)%nat /\
  forall j, (j < length E - 1)%nat ->
    (nth j r NaN = NaN /\ forall i, (i < length X)%nat ->
       nth i X 0 + 3 * nth i S 0 <= nth j E 0 \/ nth (Datatypes.S j) E 0 <= nth i X 0 - 3 * nth i S 0) \/
    (exists v, nth j r NaN = Fin v /\ a <= v <= b /\ exists i, (i < length X)%nat /\
       nth j E 0 < nth i X 0 + 3 * nth i S 0 /\ nth i X 0 - 3 * nth i S 0 < nth (Datatypes.S j) E 0).
Proof.
  intros H1 H2 H3 HE HY. destruct (smhm_value X S Y E H1 H2 H3 HE) as (r & R1 & R2 & R3).
  exists r. split; [exact R1|]. split; [exact R2|]. intros j Hj.
  assert (Hlt : nth j E 0 < nth (Datatypes.S j) E 0) by (apply incr_lt; [exact HE|lia]).
  destruct (R3 j Hj) as [(HW & V)|N]; [right|left; exact N].
  eexists. split; [exact V|].
  set (m := fun i => tw_mass (nth i X 0) (nth i S 0) (nth j E 0) (nth (Datatypes.S j) E 0)) in *.
  assert (HS : forall i, (i < length X)%nat -> 0 < nth i S 0).
  { intros. apply (F_nth (fun w => 0 < w)); [exact H3|lia]. }
  assert (Hm : forall i, In i (seq 0 (length X)) -> 0 <= m i).
  { intros i Hi. apply in_seq in Hi. apply tw_mass_range; [apply HS; lia|lra]. }
  split.
  - assert (HYi : forall i, In i (seq 0 (length X)) -> a <= nth i Y 0 <= b).
    { intros i Hi. apply in_seq in Hi. apply (F_nth (fun y => a <= y <= b)); [exact HY|lia]. }
    cbv zeta in *. fold m in HW |- *.
    split; apply Rmult_le_reg_r with (1 := HW); unfold Rdiv; rewrite Rmult_assoc, Rinv_l, Rmult_1_r by lra;
      rewrite <- Rsum_scal_f; apply Rsum_le; intros i Hi; specialize (Hm i Hi); specialize (HYi i Hi);
      fold (m i); nra.
  - destruct (Exists_dec (fun i => 0 < m i) (seq 0 (length X))) as [Ex|Nx]; [intros; apply Rlt_dec|..].
    + apply Exists_exists in Ex as (i & Hi & Hp). exists i. assert (Hi' := Hi). apply in_seq in Hi. split; [lia|].
      destruct (Rle_lt_dec (nth i X 0 + 3 * nth i S 0) (nth j E 0)) as [l|l].
      { exfalso. assert (m i = 0); [|lra]. apply tw_mass_zero_iff; [apply HS; lia|exact Hlt|auto]. }
      destruct (Rle_lt_dec (nth (Datatypes.S j) E 0) (nth i X 0 - 3 * nth i S 0)) as [l'|l']; [|auto].
      exfalso. assert (m i = 0); [|lra]. apply tw_mass_zero_iff; [apply HS; lia|exact Hlt|auto].
    + exfalso. apply Forall_Exists_neg in Nx. rewrite Forall_forall in Nx.
      rewrite (Rsum_ext _ (fun _ => 0)) in HW; [rewrite Rsum_zero in HW; lra|].
      intros i Hi. specialize (Nx i Hi). specialize (Hm i Hi). cbv beta in Nx. fold (m i). lra.
Qed.

(** *** Stellar mass PDFs *)
Lemma mean_width E : (2 <= length E)%nat ->
  xmean (diff_ (map Fin E)) = Fin ((last E 0 - hd 0 E) / INR (length E - 1)).
Proof.
  intros H. unfold xmean, diff_, tail_, init_. rewrite removelast_map, tl_map.
  rewrite (map2_map_fin xsub Rminus) by reflexivity. rewrite xsum_fin. unfold len. rewrite map_length, map2_length.
  rewrite removelast_len, tl_len, Nat.min_id.
  rewrite xdiv_fin by (apply not_0_INR; lia). apply f_equal. apply f_equal2; [|reflexivity].
  clear H. induction E as [|a [|b E] IH]; [simpl; ring..|].
  change (removelast (a :: b :: E)) with (a :: removelast (b :: E)).
  change (tl (a :: b :: E)) with (b :: E). change (tl (b :: E)) with E in IH.
  change (map2 Rminus (b :: E) (a :: removelast (b :: E)))
    with ((b - a) :: map2 Rminus E (removelast (b :: E))).
  change (fold_right Rplus 0 (b - a :: map2 Rminus E (removelast (b :: E))))
    with ((b - a) + fold_right Rplus 0 (map2 Rminus E (removelast (b :: E)))). rewrite IH.
  change (last (a :: b :: E) 0) with (last (b :: E) 0). cbn [hd]. ring.
Qed.

Lemma repeat_map_fin {A} (l : list A) v f : (forall x, In x l -> f x = Fin v) -> map f l = map Fin (repeat v (length l)).
Proof. induction l as [|a l IH]; intros H; [reflexivity|]. simpl. rewrite H by now left. rewrite IH; auto. intros; apply H; now right. Qed.

Lemma map_zeros n v : map (fun z => (Fin v + z)%X) (zeros n) = map Fin (repeat v n).
Proof. unfold zeros. induction n; [reflexivity|]. cbn [repeat map]. rewrite IHn. apply f_equal2; [|reflexivity]. simpl. now rewrite Rplus_0_r. Qed.

Lemma bins_wmass X S Y E : length S = length X -> Forall (fun w => 0 < w) S -> E <> [] ->
  Rsum (map (fun b => wmass X S Y (fst b) (snd b)) (bins_of E)) = wmass X S Y (hd 0 E) (last E 0).
Proof.
  intros H1 H3 HE. unfold wmass.
  rewrite (Rsum_swap (fun b i => tw_mass (nth i X 0) (nth i S 0) (fst b) (snd b) * nth i Y 0)).
  apply Rsum_ext. intros i Hi. apply in_seq in Hi.
  rewrite (Rsum_ext _ (fun b => nth i Y 0 * tw_mass (nth i X 0) (nth i S 0) (fst b) (snd b))) by (intros; ring).
  rewrite Rsum_scal_f, telescope; [ring| |exact HE]. apply (F_nth (fun w => 0 < w)); [exact H3|lia].
Qed.

Lemma mean_bin_pos E : increasing E -> (2 <= length E)%nat -> 0 < mean_bin E.
Proof.
  intros H1 H2. unfold mean_bin. apply Rdiv_lt_0_compat; [pose proof (incr_hd_last E H1 H2); lra|].
  apply lt_0_INR. lia.
Qed.
Lemma F_repeat {A} (P : A -> Prop) v n : P v -> Forall P (repeat v n).
Proof. intros. induction n; simpl; auto. Qed.

Lemma nth_repeat_R n (v : R) i : (i < n)%nat -> nth i (repeat v n) 0 = v.
Proof. revert i; induction n; intros [|i] H; try lia; simpl; auto. apply IHn. lia. Qed.

Lemma wmass_repeat X s Y lo hi : wmass X (repeat s (length X)) Y lo hi
  = Rsum (map (fun i => tw_mass (nth i X 0) s lo hi * nth i Y 0) (seq 0 (length X))).
Proof. apply Rsum_ext. intros i Hi. apply in_seq in Hi. rewrite nth_repeat_R by lia. reflexivity. Qed.

Lemma mstar_counts X W E : length W = length X -> increasing E -> (2 <= length E)%nat ->
  let s := repeat (mean_bin E) (length X) in
  compute_diff_histograms_mstar_atmobs_z (map Fin E) (map Fin X) (map Fin W)
  = Some (map (fun b => Fin (wmass X s W (fst b) (snd b)) / Fin (wmass X s W (hd 0 E) (last E 0)))%X (bins_of E)).
Proof.
  intros H1 HE H2 s. unfold compute_diff_histograms_mstar_atmobs_z. cbv zeta. rewrite mean_width by exact H2.
  fold (mean_bin E). unfold len. rewrite !map_length, map_zeros. fold s.
  assert (LS : length s = length X) by apply repeat_length.
  assert (PS : Forall (fun w => 0 < w) s) by (apply F_repeat, mean_bin_pos; assumption).
  rewrite whist1 by assumption.
  rewrite xsum_fin. fold (Rsum (map (fun b => wmass X s W (fst b) (snd b)) (bins_of E))).
  rewrite bins_wmass; [|assumption..|destruct E; [simpl in H2; lia|discriminate]].
  rewrite !map_map. reflexivity.
Qed.

Lemma mstar_pdf X W E : length W = length X -> increasing E -> (2 <= length E)%nat -> Forall (fun w => 0 <= w) W ->
  (exists i, (i < length X)%nat /\ 0 < nth i W 0 /\
     hd 0 E - 3 * ((last E 0 - hd 0 E) / INR (length E - 1)) < nth i X 0
     < last E 0 + 3 * ((last E 0 - hd 0 E) / INR (length E - 1))) ->
  exists h, compute_diff_histograms_mstar_atmobs_z (map Fin E) (map Fin X) (map Fin W) = Some (map Fin h) /\
    length h = (length E - 1)%nat /\ Forall (fun x => 0 <= x) h /\ Rsum h = 1 /\
    forall j, (j < length E - 1)%nat ->
      nth j h 0 = Rsum (map (fun i => tw_mass (nth i X 0) (mean_bin E) (nth j E 0) (nth (S j) E 0) * nth i W 0) (seq 0 (length X)))
                  / Rsum (map (fun i => tw_mass (nth i X 0) (mean_bin E) (hd 0 E) (last E 0) * nth i W 0) (seq 0 (length X))).
Proof.
  intros H1 HE H2 HW (i & Hi & Hwi & Hxi). fold (mean_bin E) in Hxi. rewrite mstar_counts by assumption. cbv zeta.
  pose proof (mean_bin_pos E HE H2) as Ps. pose proof (incr_hd_last E HE H2) as HL.
  set (s := repeat (mean_bin E) (length X)).
  assert (LS : length s = length X) by apply repeat_length.
  assert (PS : Forall (fun w => 0 < w) s) by (apply F_repeat; assumption).
  assert (NN : forall lo hi, lo <= hi -> forall k, In k (seq 0 (length X)) -> 0 <= tw_mass (nth k X 0) (nth k s 0) lo hi * nth k W 0).
  { intros lo hi Hlh k Hk. apply in_seq in Hk. apply Rmult_le_pos.
    - apply tw_mass_range; [|exact Hlh]. apply (F_nth (fun w => 0 < w)); [exact PS|lia].
    - apply (F_nth (fun w => 0 <= w)); [exact HW|lia]. }
  assert (T : 0 < wmass X s W (hd 0 E) (last E 0)).
  { unfold wmass. apply Rsum_pos.
    - apply Forall_map, Forall_forall. intros k Hk. apply NN; [lra|exact Hk].
    - apply Exists_exists. eexists. split; [apply in_map_iff; exists i; split; [reflexivity|apply in_seq; lia]|].
      apply Rmult_lt_0_compat; [|exact Hwi]. unfold s. rewrite nth_repeat_R by exact Hi. apply tw_mass_pos; lra. }
  set (Tt := wmass X s W (hd 0 E) (last E 0)) in *.
  exists (map (fun b => wmass X s W (fst b) (snd b) / Tt) (bins_of E)).
  split; [|split; [|split; [|split]]].
  - rewrite map_map. apply f_equal. apply map_ext. intros b. apply xdiv_fin. lra.
  - rewrite map_length. apply bins_of_len.
  - apply Forall_forall. intros y Hy. apply (In_nth _ _ 0) in Hy as (j & Hj & <-). rewrite map_length, bins_of_len in Hj.
    rewrite (nth_map _ _ _ (0, 0)) by (rewrite bins_of_len; exact Hj). rewrite nth_bins by exact Hj. cbn [fst snd].
    apply Rmult_le_pos; [|left; apply Rinv_0_lt_compat; exact T]. apply Rsum_nonneg. apply Forall_map, Forall_forall.
    apply NN. left. apply incr_lt; [exact HE|lia].
  - rewrite (Rsum_ext _ (fun b => / Tt * wmass X s W (fst b) (snd b))) by (intros; unfold Rdiv; ring).
    rewrite Rsum_scal_f, bins_wmass; [|assumption..|destruct E; [simpl in H2; lia|discriminate]]. fold Tt. field. lra.
  - intros j Hj. rewrite (nth_map _ _ _ (0, 0)) by (rewrite bins_of_len; exact Hj). rewrite nth_bins by exact Hj. cbn [fst snd].
    rewrite <- !wmass_repeat. reflexivity.
Qed.

(** No galaxy with weight near the bins: every entry is 0/0. *)
Lemma mstar_pdf_nan X W E : length W = length X -> increasing E -> (2 <= length E)%nat ->
  (forall i, (i < length X)%nat -> nth i W 0 = 0 \/
     nth i X 0 <= hd 0 E - 3 * ((last E 0 - hd 0 E) / INR (length E - 1)) \/
     last E 0 + 3 * ((last E 0 - hd 0 E) / INR (length E - 1)) <= nth i X 0) ->
  compute_diff_histograms_mstar_atmobs_z (map Fin E) (map Fin X) (map Fin W) = Some (repeat NaN (length E - 1)).
Proof.
  intros H1 HE H2 H. fold (mean_bin E) in H. rewrite mstar_counts by assumption. cbv zeta. apply f_equal.
  pose proof (mean_bin_pos E HE H2) as Ps. pose proof (incr_hd_last E HE H2) as HL.
  assert (Z : forall lo hi, hd 0 E <= lo -> lo < hi -> hi <= last E 0 -> wmass X (repeat (mean_bin E) (length X)) W lo hi = 0).
  { intros lo hi A B C. rewrite wmass_repeat. rewrite (Rsum_ext _ (fun _ => 0)); [apply Rsum_zero|].
    intros i Hi. apply in_seq in Hi. destruct (H i ltac:(lia)) as [->|D]; [ring|].
    rewrite (proj2 (tw_mass_zero_iff _ _ lo hi Ps B)); [ring|]. lra. }
  assert (Zt := Z (hd 0 E) (last E 0) ltac:(lra) HL ltac:(lra)).
  rewrite Zt. rewrite <- bins_of_len.
  assert (G : forall b, In b (bins_of E) -> hd 0 E <= fst b /\ fst b < snd b /\ snd b <= last E 0).
  { clear -HE. induction E as [|a [|b E] IH]; intros c Hc; [contradiction..|]. rewrite bins_cons in Hc.
    destruct HE as [h1 h2]. change (last (a :: b :: E) 0) with (last (b :: E) 0). cbn [hd] in *.
    assert (L : b <= last (b :: E) 0).
    { destruct E as [|e E]; [simpl; lra|]. left. apply (incr_hd_last (b :: e :: E) h2). simpl. lia. }
    destruct Hc as [<-|Hc]; cbn [fst snd]; [lra|]. destruct (IH h2 c Hc) as (x & y & z). lra. }
  revert G. generalize (bins_of E). intros l G. induction l as [|b l IHl]; [reflexivity|].
  cbn [map repeat length]. rewrite IHl by (intros; apply G; now right). apply f_equal2; [|reflexivity].
  destruct (G b (or_introl eq_refl)) as (x & y & z). rewrite Z by assumption. apply xdiv_zero_zero; reflexivity.
Qed.
