(** Target histograms and halo samples. *)
From Coq Require Import Reals List Bool ZArith Lia Lra.
From Coquelicot Require Import Coquelicot.
From Verif Require Import XReal ModelUtils ModelKernels ModelSfh ModelPop ModelHist ModelLoad ModelIO ModelTargets
  RealFacts XFacts SpecCore SpecHist SpecTargets SfhProofs DtProofs FstarProofs PopParamProofs HistProofs SmhmProofs
  LossProofs TableProofs SnapshotProofs.
Import List ListNotations.
Open Scope R_scope.

(** ** Boolean masks *)
Lemma keep_length {A} (m : list bool) (l : list A) : length m = length l ->
  length (keep m l) = length (filter (fun b : bool => b) m).
Proof.
  revert l. induction m as [|b m IH]; intros [|a l] H; try discriminate; [reflexivity|].
  cbn [keep filter]. destruct b; cbn [length]; rewrite IH by (simpl in H; lia); reflexivity.
Qed.
Lemma filter_map {A B} (f : A -> B) (P : B -> bool) l : filter P (map f l) = map f (filter (fun a => P (f a)) l).
Proof. induction l as [|a l IH]; [reflexivity|]. cbn [map filter]. destruct (P (f a)); cbn [map]; rewrite IH; reflexivity. Qed.
Lemma keep_those {A} (m : list bool) (l : list A) d : length m = length l ->
  keep m l = map (fun k => nth k l d) (those (length l) (fun k => nth k m false)).
Proof.
  unfold those. revert l. induction m as [|b m IH]; intros [|a l] H; try discriminate; [reflexivity|].
  change (length (a :: l)) with (S (length l)). cbn [seq]. rewrite <- seq_shift.
  assert (G : map (fun k => nth k (a :: l) d) (filter (fun k => nth k (b :: m) false) (map S (seq 0 (length l)))) = keep m l).
  { rewrite filter_map, map_map. symmetry. apply IH. simpl in H. lia. }
  cbn [keep]. destruct b.
  - change (filter (fun k => nth k (true :: m) false) (0%nat :: map S (seq 0 (length l))))
      with (0%nat :: filter (fun k => nth k (true :: m) false) (map S (seq 0 (length l)))).
    rewrite map_cons, G. reflexivity.
  - change (filter (fun k => nth k (false :: m) false) (0%nat :: map S (seq 0 (length l))))
      with (filter (fun k => nth k (false :: m) false) (map S (seq 0 (length l)))).
    symmetry. exact G.
Qed.
Lemma mask_those {A} (m : list bool) (l : list A) d : length m = length l ->
  mask m l = Some (map (fun k => nth k l d) (those (length l) (fun k => nth k m false))).
Proof.
  intros H. unfold mask. rewrite same_len_true by exact H. f_equal. apply keep_those. exact H.
Qed.
Lemma nth_map_nat {A B} (f : A -> B) l k d e : (k < length l)%nat -> nth k (map f l) e = f (nth k l d).
Proof. intros H. rewrite (nth_indep _ e (f d)) by (rewrite map_length; exact H). apply map_nth. Qed.
Lemma those_ext n P Q : (forall k, (k < n)%nat -> P k = Q k) -> those n P = those n Q.
Proof.
  intros H. unfold those. assert (G : forall k, In k (seq 0 n) -> P k = Q k) by (intros k Hk; apply in_seq in Hk; apply H; lia).
  revert G. generalize (seq 0 n). intros s. induction s as [|a s IH]; intros G; [reflexivity|]. cbn [filter].
  rewrite (G a) by now left. rewrite IH by (intros; apply G; now right). reflexivity.
Qed.
Lemma in_those n P k : In k (those n P) <-> (k < n)%nat /\ P k = true.
Proof. unfold those. rewrite filter_In, in_seq. split; intros [A B]; split; auto; lia. Qed.
Lemma those_NoDup n P : NoDup (those n P).
Proof. apply NoDup_filter, seq_NoDup. Qed.
Lemma those_and n P Q : filter Q (those n P) = those n (fun k => P k && Q k).
Proof.
  unfold those. generalize (seq 0 n). intros s. induction s as [|a s IH]; [reflexivity|]. cbn [filter].
  destruct (P a); cbn [filter andb]; [destruct (Q a)|]; rewrite IH; reflexivity.
Qed.

Lemma list_as_seq {A} (l : list A) d : l = map (fun k => nth k l d) (seq 0 (length l)).
Proof.
  induction l as [|a l IH]; [reflexivity|]. cbn [length seq map nth]. f_equal.
  rewrite <- seq_shift, map_map. exact IH.
Qed.

(** ** Columns *)
Lemma column_fin w X t : Forall (fun r => length r = w) X -> (t < w)%nat ->
  column w (map (map Fin) X) t = Some (map Fin (map (fun k => val X t k) (seq 0 (length X)))).
Proof.
  intros F H. unfold column. rewrite (proj2 (Nat.ltb_lt t w) H).
  rewrite (vmap_map_some _ (fun r => nth t r (Fin 0))).
  - f_equal. rewrite map_map, map_map. rewrite (list_as_seq X []) at 1. rewrite !map_map. apply map_ext_in. intros k Hk.
    apply in_seq in Hk. unfold val. apply nth_map_nat. rewrite Forall_forall in F. rewrite F by (apply nth_In; lia). exact H.
  - intros r Hr. apply in_map_iff in Hr. destruct Hr as (r' & <- & Hr). rewrite Forall_forall in F. apply nth_error_nth'.
    rewrite map_length, F by exact Hr. exact H.
Qed.

(** ** Bins *)
Lemma nbins_fin E : nbins (map Fin E) = (length E - 1)%nat.
Proof. unfold nbins. now rewrite map_length. Qed.
Lemma at_fin E j : (j < length E)%nat -> at_ (map Fin E) j = Fin (nth j E 0).
Proof. intros H. unfold at_. apply nth_map_nat. exact H. Qed.
Lemma xle_dec a b : (Fin a <=? Fin b)%X = if Rle_dec a b then true else false.
Proof. destruct (Rle_dec a b) as [h|h]; [apply xle_fin_true, h|apply xle_fin_false; lra]. Qed.
Lemma xlt_dec a b : (Fin a <? Fin b)%X = if Rlt_dec a b then true else false.
Proof. destruct (Rlt_dec a b) as [h|h]; [apply xlt_fin, h|apply xlt_fin_false; lra]. Qed.
Lemma in_np_bin_fin E j x : (j < length E - 1)%nat -> in_np_bin (map Fin E) j (Fin x) = inbin E j x.
Proof.
  intros H. unfold in_np_bin, inbin. rewrite !at_fin by lia. rewrite map_length, xle_dec, xlt_dec, xle_dec.
  replace (j + 1)%nat with (S j) by lia. destruct (Rle_dec (nth j E 0) x); [|reflexivity].
  cbn [andb]. destruct (Nat.eqb (j + 2) (length E)); reflexivity.
Qed.
Lemma in_sample_bin_fin E j x : (j < length E - 1)%nat -> in_sample_bin (map Fin E) j (Fin x) = half_open E j x.
Proof.
  intros H. unfold in_sample_bin, half_open. rewrite !at_fin by lia. rewrite xle_dec, xlt_dec.
  replace (j + 1)%nat with (S j) by lia. destruct (Rle_dec (nth j E 0) x); reflexivity.
Qed.
Lemma in_open_bin_fin E j x : (j < length E - 1)%nat -> in_open_bin (map Fin E) j (Fin x) = interior E j x.
Proof.
  intros H. unfold in_open_bin, interior. rewrite !at_fin by lia. rewrite !xlt_dec.
  replace (j + 1)%nat with (S j) by lia. destruct (Rlt_dec (nth j E 0) x); reflexivity.
Qed.

Lemma isfinite_map {A} (f : A -> R) l : forallb isfinite (map Fin (map f l)) = true.
Proof. induction l; [reflexivity|]. cbn [map forallb]. rewrite IHl. reflexivity. Qed.

Lemma filter_ext_in' {A} (f g : A -> bool) l : (forall a, In a l -> f a = g a) -> filter f l = filter g l.
Proof.
  induction l as [|a l IH]; intros H; [reflexivity|]. cbn [filter]. rewrite (H a) by now left.
  rewrite IH by (intros; apply H; now right). reflexivity.
Qed.

Section OnHalos.
Variables (f g : nat -> R) (ks : list nat).
Let m := map Fin (map f ks).
Let s := map Fin (map g ks).
Lemma nonempty_m : ks <> [] -> negb (Nat.eqb (length m) 0) = true.
Proof. unfold m. rewrite !map_length. destruct ks; [contradiction|reflexivity]. Qed.

Lemma same_len_ms : same_len m s = true.
Proof. apply same_len_true. unfold m, s. now rewrite !map_length. Qed.

Lemma binned_count_ks E : ks <> [] -> binned_count m s (map Fin E)
  = Some (map Fin (map (fun j => INR (length (filter (fun k => inbin E j (f k)) ks))) (seq 0 (length E - 1)))).
Proof.
  intros NE. unfold binned_count. rewrite same_len_ms, nonempty_m by exact NE. unfold m, s. rewrite !isfinite_map. cbn [andb]. f_equal.
  rewrite !map_map, nbins_fin. apply map_ext_in. intros j Hj. apply in_seq in Hj. unfold xcount. f_equal. f_equal.
  rewrite filter_map, map_length. f_equal. apply filter_ext. intros k. apply in_np_bin_fin. lia.
Qed.

Lemma combine_map {A B C} (u : A -> B) (v : A -> C) l : combine (map u l) (map v l) = map (fun a => (u a, v a)) l.
Proof. induction l; [reflexivity|]. cbn [map combine]. rewrite IHl. reflexivity. Qed.

Lemma binned_sum_ks E : ks <> [] -> binned_sum m s (map Fin E)
  = Some (map Fin (map (fun j => Rsum (map g (filter (fun k => inbin E j (f k)) ks))) (seq 0 (length E - 1)))).
Proof.
  intros NE. unfold binned_sum. rewrite same_len_ms, nonempty_m by exact NE. unfold m, s. rewrite !isfinite_map. cbn [andb]. f_equal.
  rewrite !map_map, nbins_fin. apply map_ext_in. intros j Hj. apply in_seq in Hj.
  rewrite combine_map, filter_map, map_map. cbn [fst snd].
  rewrite (filter_ext _ (fun k => inbin E j (f k))) by (intros k; apply in_np_bin_fin; lia).
  rewrite <- (map_map g Fin). apply xsum_fin.
Qed.

Lemma histograms_ks E : ks <> [] -> compute_histograms_atz (map Fin E) m s
  = Some (map Fin (map (fun j => INR (length (filter (fun k => inbin E j (f k)) ks))) (seq 0 (length E - 1))),
          map Fin (map (fun j => Rsum (map g (filter (fun k => inbin E j (f k)) ks))) (seq 0 (length E - 1)))).
Proof. intros NE. unfold compute_histograms_atz. rewrite binned_count_ks, binned_sum_ks by exact NE. reflexivity. Qed.

Lemma bins_of_seq (E : list R) {B} (h : R -> R -> B) :
  map (fun b => h (fst b) (snd b)) (bins_of E) = map (fun j => h (nth j E 0) (nth (S j) E 0)) (seq 0 (length E - 1)).
Proof.
  rewrite (list_as_seq (bins_of E) (0, 0)), map_map.
  assert (L : length (bins_of E) = (length E - 1)%nat).
  { unfold bins_of. rewrite combine_length, removelast_len, tl_len. lia. }
  rewrite L. apply map_ext_in. intros j Hj. apply in_seq in Hj. rewrite nth_bins by lia. reflexivity.
Qed.

Lemma wmass_ks w (y : nat -> R) lo hi :
  wmass (map f ks) (repeat w (length ks)) (map y ks) lo hi = Rsum (map (fun k => tw_mass (f k) w lo hi * y k) ks).
Proof.
  replace (length ks) with (length (map f ks)) by apply map_length.
  rewrite wmass_repeat. f_equal. rewrite map_length. symmetry. etransitivity; [apply f_equal, (list_as_seq ks 0%nat)|]. rewrite map_map.
  apply map_ext_in. intros i Hi. apply in_seq in Hi. rewrite !(nth_map_nat _ ks i 0%nat) by lia. reflexivity.
Qed.

Lemma diff_histograms_ks E : increasing E -> (2 <= length E)%nat ->
  compute_diff_histograms_atz (map Fin E) m s
  = Some (map Fin (map (fun j => Rsum (map (fun k => tw_mass (f k) (mean_bin E) (nth j E 0) (nth (S j) E 0)) ks)) (seq 0 (length E - 1))),
          map Fin (map (fun j => Rsum (map (fun k => tw_mass (f k) (mean_bin E) (nth j E 0) (nth (S j) E 0) * g k) ks)) (seq 0 (length E - 1)))).
Proof.
  intros HE H2. unfold compute_diff_histograms_atz. cbv zeta.
  assert (Ls : length s = length ks) by (unfold s; rewrite !map_length; reflexivity). rewrite Ls.
  rewrite mean_sigma by exact H2. pose proof (mean_bin_pos E HE H2) as P.
  assert (W : forall y : nat -> R, tw_ndhist_weighted (col m) (col (map Fin (repeat (mean_bin E) (length ks)))) (map Fin (map y ks))
              (col (init_ (map Fin E))) (col (tail_ (map Fin E)))
            = Some (map Fin (map (fun j => Rsum (map (fun k => tw_mass (f k) (mean_bin E) (nth j E 0) (nth (S j) E 0) * y k) ks)) (seq 0 (length E - 1))))).
  { intros y. unfold m. rewrite whist1; [|rewrite repeat_length, map_length; reflexivity|rewrite !map_length; reflexivity|].
    - f_equal. f_equal. rewrite (bins_of_seq E (fun a b => wmass (map f ks) (repeat (mean_bin E) (length ks)) (map y ks) a b)).
      apply map_ext. intros j. apply wmass_ks.
    - apply Forall_forall. intros w Hw. apply repeat_spec in Hw. subst. exact P. }
  assert (O : map (fun _ => Fin 1) s = map Fin (map (fun _ => 1) ks)) by (unfold s; rewrite !map_map; reflexivity).
  rewrite O, (W (fun _ => 1)). unfold s. rewrite (W g).
  f_equal. f_equal. f_equal. apply map_ext. intros j. f_equal. apply map_ext. intros k. ring.
Qed.
End OnHalos.

(** ** Samples *)
Lemma where_true_those n (P : nat -> bool) : where_true (map P (seq 0 n)) = those n P.
Proof.
  unfold where_true. rewrite (keep_those _ _ 0%nat) by (rewrite seq_length; reflexivity).
  rewrite seq_length, map_length, seq_length. etransitivity; [|apply map_id].
  transitivity (map (fun k => k) (those n (fun k => nth k (map P (seq 0 n)) false))).
  - apply map_ext_in. intros k Hk. apply in_those in Hk. rewrite seq_nth by lia. lia.
  - f_equal. apply those_ext. intros k Hk. rewrite (nth_map_nat P _ k 0%nat) by (rewrite seq_length; lia).
    rewrite seq_nth by lia. reflexivity.
Qed.

Definition pairs_of (sels : list (nat * list nat)) : list (nat * nat) := flat_map (fun s => map (pair (fst s)) (snd s)) sels.
Lemma repeat_pairs {A} (F : nat -> A) sels :
  flat_map (fun s => repeat (F (fst s)) (length (snd s))) sels = map (fun jk => F (fst jk)) (pairs_of sels).
Proof.
  unfold pairs_of. induction sels as [|[j c] sels IH]; [reflexivity|]. cbn [flat_map fst snd]. rewrite IH, map_app, map_map.
  f_equal. cbn [fst]. induction c as [|x c IHc]; [reflexivity|]. cbn [length repeat map]. rewrite IHc. reflexivity.
Qed.
Lemma concat_pairs {A} (G : nat -> A) sels :
  List.concat (map (fun s : nat * list nat => map G (snd s)) sels) = map (fun jk => G (snd jk)) (pairs_of sels).
Proof.
  unfold pairs_of. induction sels as [|[j c] sels IH]; [reflexivity|]. cbn [map List.concat flat_map fst snd].
  rewrite IH, map_app, map_map. reflexivity.
Qed.
Lemma take_some {A} (l : list A) (ks : list nat) d : (forall k, In k ks -> (k < length l)%nat) ->
  take l ks = Some (map (fun k => nth k l d) ks).
Proof. intros H. unfold take. apply vmap_map_some. intros k Hk. apply nth_error_nth'. apply H, Hk. Qed.

Section Sample.
Variable choice : nat -> nat -> list nat -> nat -> bool -> list nat.
Hypothesis CH : choice_ok choice.
Variables (i n per_bin : nat) (E : list R) (f : nat -> R).
Hypothesis H2 : (2 <= length E)%nat.
Definition cand (j : nat) : list nat := those n (fun k => half_open E j (f k)).
Definition sel (j : nat) : list nat := choice i j (cand j) (Nat.min per_bin (length (cand j))) false.
Lemma sel_ok j : length (sel j) = Nat.min per_bin (length (cand j)) /\ NoDup (sel j) /\
  forall k, In k (sel j) -> (k < n)%nat /\ half_open E j (f k) = true.
Proof.
  destruct (CH i j (cand j) (Nat.min per_bin (length (cand j))) (those_NoDup _ _) ltac:(lia)) as (A & B & C).
  split; [exact A|]. split; [exact B|]. intros k Hk. apply C in Hk. apply in_those in Hk. exact Hk.
Qed.

Lemma sample_indices_value skip :
  sample_indices choice i skip per_bin (map Fin E) (map Fin (map f (seq 0 n)))
  = flat_map (fun j => if skip && Nat.eqb (length (cand j)) 0 then [] else [(j, sel j)]) (seq 0 (length E - 1)).
Proof.
  unfold sample_indices. rewrite nbins_fin. rewrite !flat_map_concat_map. f_equal. apply map_ext_in. intros j Hj. apply in_seq in Hj.
  cbv zeta. rewrite !map_map.
  rewrite (map_ext _ (fun k => half_open E j (f k))) by (intros k; apply in_sample_bin_fin; lia).
  rewrite where_true_those. reflexivity.
Qed.

Lemma pairs_value skip :
  pairs_of (sample_indices choice i skip per_bin (map Fin E) (map Fin (map f (seq 0 n))))
  = flat_map (fun j => map (pair j) (sel j)) (seq 0 (length E - 1)).
Proof.
  rewrite sample_indices_value. generalize (seq 0 (length E - 1)). intros s. unfold pairs_of.
  induction s as [|j s IH]; [reflexivity|]. cbn [flat_map]. rewrite flat_map_app, IH. f_equal.
  destruct skip; cbn [andb].
  - destruct (Nat.eqb_spec (length (cand j)) 0) as [e|e]; [|cbn [flat_map fst snd]; apply app_nil_r].
    destruct (sel_ok j) as (Ls & _). rewrite e, Nat.min_0_r in Ls. destruct (sel j); [reflexivity|discriminate].
  - cbn [flat_map fst snd]. apply app_nil_r.
Qed.

Lemma sels_nonempty skip : (skip = true -> exists j k, (j < length E - 1)%nat /\ (k < n)%nat /\ half_open E j (f k) = true) ->
  sample_indices choice i skip per_bin (map Fin E) (map Fin (map f (seq 0 n))) <> [].
Proof.
  rewrite sample_indices_value. intros H. destruct skip; cbn [andb].
  - destruct (H eq_refl) as (j & k & Hj & Hk & B). intros C.
    assert (I : In (j, sel j) []); [|contradiction]. rewrite <- C. apply in_flat_map. exists j. split; [apply in_seq; lia|].
    destruct (Nat.eqb_spec (length (cand j)) 0) as [e|e]; [|now left].
    exfalso. assert (Ik : In k (cand j)) by (apply in_those; auto). destruct (cand j); [contradiction|discriminate].
  - destruct (length E - 1)%nat eqn:e; [lia|]. discriminate.
Qed.
Lemma sels_empty : (forall j k, (j < length E - 1)%nat -> (k < n)%nat -> half_open E j (f k) = false) ->
  sample_indices choice i true per_bin (map Fin E) (map Fin (map f (seq 0 n))) = [].
Proof.
  rewrite sample_indices_value. intros H.
  assert (G : forall s, (forall j, In j s -> (j < length E - 1)%nat) ->
    flat_map (fun j => if true && Nat.eqb (length (cand j)) 0 then [] else [(j, sel j)]) s = []).
  { induction s as [|j s IH]; intros Hs; [reflexivity|]. cbn [flat_map]. rewrite IH by (intros; apply Hs; now right).
    rewrite app_nil_r. assert (e : cand j = []).
    { destruct (cand j) as [|k c] eqn:e; [reflexivity|exfalso]. assert (Ik : In k (cand j)) by (rewrite e; now left).
      apply in_those in Ik. destruct Ik as [Hk Q]. rewrite H in Q; [discriminate|apply Hs; now left|exact Hk]. }
    rewrite e. reflexivity. }
  apply G. intros j Hj. apply in_seq in Hj. lia.
Qed.

Definition Lof : list (nat * nat) := flat_map (fun j => map (pair j) (sel j)) (seq 0 (length E - 1)).

Lemma sample_value skip (mah ms q : nat -> list xr) (upid : list Z) (tobs z : xr) : length upid = n ->
  (skip = true -> exists j k, (j < length E - 1)%nat /\ (k < n)%nat /\ half_open E j (f k) = true) ->
  sample_halos choice i skip per_bin (map Fin E) (map Fin (map f (seq 0 n))) (map mah (seq 0 n)) (map ms (seq 0 n))
    (map q (seq 0 n)) upid tobs z
  = Some (mkHaloes (map fst Lof) (map (fun jk => Fin ((nth (fst jk) E 0 + nth (S (fst jk)) E 0) / 2)) Lof)
            (map (fun jk => mah (snd jk)) Lof) (map (fun jk => ms (snd jk)) Lof) (map (fun jk => q (snd jk)) Lof)
            (map (fun jk => nth (snd jk) upid 0%Z) Lof) (map (fun _ => i) Lof) (map (fun _ => tobs) Lof) (map (fun _ => z) Lof)).
Proof.
  intros Lu NE. pose proof (sels_nonempty skip NE) as N. pose proof (pairs_value skip) as P. fold Lof in P.
  unfold sample_halos. set (sels := sample_indices _ _ _ _ _ _) in *. cbv zeta.
  assert (IN : forall s, In s sels -> forall k, In k (snd s) -> (k < n)%nat).
  { intros s Hs k Hk. assert (In (fst s, k) (pairs_of sels)).
    { apply in_flat_map. exists s. split; [exact Hs|]. apply in_map. exact Hk. }
    rewrite P in H. apply in_flat_map in H. destruct H as (j & _ & H). apply in_map_iff in H. destruct H as (k' & e & Hk').
    inversion e; subst. apply sel_ok in Hk'. apply Hk'. }
  assert (IB : forall jk, In jk Lof -> (fst jk < length E - 1)%nat /\ (snd jk < n)%nat).
  { intros [j k] H. apply in_flat_map in H. destruct H as (j' & Hj & H). apply in_map_iff in H. destruct H as (k' & e & Hk').
    inversion e; subst. apply in_seq in Hj. apply sel_ok in Hk'. cbn [fst snd]. split; [lia|apply Hk']. }
  assert (PK : forall A (l : list A) d, length l = n ->
     option_map (@List.concat A) (vmap (fun s => take l (snd s)) sels) = Some (map (fun jk => nth (snd jk) l d) Lof)).
  { intros A l d Hl. rewrite (vmap_map_some _ (fun s => map (fun k => nth k l d) (snd s))).
    - cbn [option_map]. rewrite (concat_pairs (fun k => nth k l d)), P. reflexivity.
    - intros s Hs. apply take_some. intros k Hk. rewrite Hl. apply (IN s Hs k Hk). }
  assert (LS : forall (g : nat -> list xr), length (map g (seq 0 n)) = n) by (intros; now rewrite map_length, seq_length).
  rewrite !(PK _ (map _ (seq 0 n)) []) by apply LS. rewrite (PK _ upid 0%Z Lu).
  assert (NG : forall (g : nat -> list xr), map (fun jk => nth (snd jk) (map g (seq 0 n)) []) Lof = map (fun jk => g (snd jk)) Lof).
  { intros g. apply map_ext_in. intros jk H. apply IB in H. rewrite (nth_map_nat g _ _ 0%nat) by (rewrite seq_length; lia).
    rewrite seq_nth by lia. reflexivity. }
  rewrite !NG. rewrite (repeat_pairs (fun j => j)), P.
  rewrite (repeat_pairs (fun j => ((at_ (map Fin E) j + at_ (map Fin E) (j + 1)) / Fin 2)%X)), P.
  assert (RP : forall A (a : A), repeat a (length (map fst Lof)) = map (fun _ => a) Lof).
  { intros A a. rewrite map_length. generalize Lof. intros l. induction l as [|x l IH]; [reflexivity|]. cbn [length repeat map]. rewrite IH. reflexivity. }
  rewrite !RP.
  destruct sels as [|s0 sels']; [contradiction|]. f_equal. f_equal.
  apply map_ext_in. intros jk H. apply IB in H. rewrite !at_fin by lia. xr_simp. rewrite xdiv_fin by lra.
  replace (fst jk + 1)%nat with (S (fst jk)) by lia. reflexivity.
Qed.
End Sample.
