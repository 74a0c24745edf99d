(** Saving and loading the loss data. *)
From Coq Require Import Reals List Bool ZArith Lia String Ascii NArith DecimalString DecimalNat.
From Verif Require Import XReal ModelUtils ModelLoad ModelPopFit XFacts SpecPopFit LoadProofs FitLoopProofs.
Import List ListNotations.

(** ** String order *)
Lemma acmp_trans a b c : Ascii.compare a b = Lt -> Ascii.compare b c = Lt -> Ascii.compare a c = Lt.
Proof. unfold Ascii.compare. rewrite !N.compare_lt_iff. lia. Qed.
Lemma scmp_trans s : forall t u, String.compare s t = Lt -> String.compare t u = Lt -> String.compare s u = Lt.
Proof.
  induction s as [|a s IH]; intros [|b t] [|c u]; cbn; try discriminate; try reflexivity.
  destruct (Ascii.compare a b) eqn:E1; try discriminate; destruct (Ascii.compare b c) eqn:E2; try discriminate; intros H1 H2.
  - apply Ascii.compare_eq_iff in E1, E2. subst. replace (Ascii.compare c c) with Eq by (symmetry; unfold Ascii.compare; apply N.compare_refl). eauto.
  - apply Ascii.compare_eq_iff in E1. subst. now rewrite E2.
  - apply Ascii.compare_eq_iff in E2. subst. now rewrite E1.
  - now rewrite (acmp_trans a b c).
Qed.
Lemma scmp_irrefl s : String.compare s s = Eq.
Proof. induction s as [|a s IH]; [reflexivity|]. cbn. replace (Ascii.compare a a) with Eq by (symmetry; unfold Ascii.compare; apply N.compare_refl). exact IH. Qed.

(** ** Keys *)
Definition K : nat := N.to_nat 10000.
Lemma K_Z : Z.of_nat K = 10000%Z. Proof. unfold K. lia. Qed.
Lemma K_1001 : (1001 < K)%nat. Proof. pose proof K_Z. lia. Qed.
(** Digits *)
Definition dig (k : nat) (d : Decimal.uint) : Decimal.uint :=
  match k with 0 => Decimal.D0 d | 1 => Decimal.D1 d | 2 => Decimal.D2 d | 3 => Decimal.D3 d | 4 => Decimal.D4 d
  | 5 => Decimal.D5 d | 6 => Decimal.D6 d | 7 => Decimal.D7 d | 8 => Decimal.D8 d | _ => Decimal.D9 d end.
Definition chr (k : nat) : ascii := ascii_of_nat (48 + k).
Ltac digits k := destruct k as [|[|[|[|[|[|[|[|[|[|k]]]]]]]]]]; try lia.
Lemma of_dig k d acc : (k < 10)%nat -> Nat.of_uint_acc (dig k d) acc = Nat.of_uint_acc d (k + 10 * acc).
Proof.
  intros H. assert (E : Nat.tail_mul 10 acc = (10 * acc)%nat) by apply Nat.tail_mul_spec. rewrite <- E.
  digits k; reflexivity.
Qed.
Lemma str_dig k d : (k < 10)%nat -> NilEmpty.string_of_uint (dig k d) = String (chr k) (NilEmpty.string_of_uint d).
Proof. intros H. digits k; reflexivity. Qed.
Definition str4 (a b c d : nat) : string := String (chr a) (String (chr b) (String (chr c) (String (chr d) ""))).
Lemma key_digits a b c d : (a < 10)%nat -> (b < 10)%nat -> (c < 10)%nat -> (d < 10)%nat ->
  key04 (d + 10 * (c + 10 * (b + 10 * a))) = str4 a b c d.
Proof.
  intros Ha Hb Hc Hd. set (u := dig a (dig b (dig c (dig d Decimal.Nil)))).
  assert (E : (d + 10 * (c + 10 * (b + 10 * a)))%nat = Nat.of_uint u).
  { unfold u, Nat.of_uint. rewrite !of_dig by assumption. cbn [Nat.of_uint_acc]. lia. }
  rewrite E. unfold key04. rewrite DecimalNat.Unsigned.to_of. unfold u, str4. clear E u.
  assert (Q : forall k z, (k < 9)%nat -> NilEmpty.string_of_uint (Decimal.unorm (dig (S k) z)) = String (chr (S k)) (NilEmpty.string_of_uint z)).
  { intros k z H. digits k; reflexivity. }
  destruct a as [|a].
  - cbn [dig]. destruct b as [|b].
    + cbn [dig]. destruct c as [|c].
      * cbn [dig]. digits d; reflexivity.
      * change (Decimal.unorm (Decimal.D0 (Decimal.D0 (dig (S c) (dig d Decimal.Nil))))) with (Decimal.unorm (dig (S c) (dig d Decimal.Nil))).
        rewrite Q, str_dig by lia. reflexivity.
    + change (Decimal.unorm (Decimal.D0 (dig (S b) (dig c (dig d Decimal.Nil))))) with (Decimal.unorm (dig (S b) (dig c (dig d Decimal.Nil)))).
      rewrite Q, !str_dig by lia. reflexivity.
  - rewrite Q, !str_dig by lia. reflexivity.
Qed.
Lemma key_last : key04 K = "10000"%string.
Proof.
  set (u := dig 1 (dig 0 (dig 0 (dig 0 (dig 0 Decimal.Nil))))).
  assert (E : K = Nat.of_uint u).
  { unfold u, Nat.of_uint. rewrite !of_dig by lia. cbn [Nat.of_uint_acc]. pose proof K_Z. lia. }
  rewrite E. unfold key04. rewrite DecimalNat.Unsigned.to_of. reflexivity.
Qed.
Lemma four_digits i : (i < K)%nat -> exists a b c d, (a < 10)%nat /\ (b < 10)%nat /\ (c < 10)%nat /\ (d < 10)%nat /\
  i = (d + 10 * (c + 10 * (b + 10 * a)))%nat.
Proof.
  intros H. pose proof K_Z. exists (i / 10 / 10 / 10)%nat, ((i / 10 / 10) mod 10)%nat, ((i / 10) mod 10)%nat, (i mod 10)%nat.
  pose proof (Nat.div_mod i 10 ltac:(lia)). pose proof (Nat.div_mod (i / 10) 10 ltac:(lia)). pose proof (Nat.div_mod (i / 10 / 10) 10 ltac:(lia)).
  pose proof (Nat.mod_upper_bound i 10 ltac:(lia)). pose proof (Nat.mod_upper_bound (i / 10) 10 ltac:(lia)).
  pose proof (Nat.mod_upper_bound (i / 10 / 10) 10 ltac:(lia)). lia.
Qed.
Lemma chr_cmp a b : (a < 10)%nat -> (b < 10)%nat -> Ascii.compare (chr a) (chr b) = Nat.compare a b.
Proof. intros Ha Hb. digits a; digits b; reflexivity. Qed.
Lemma key_lt_all i j : (i < j)%nat -> (j < K)%nat -> String.compare (key04 i) (key04 j) = Lt.
Proof.
  intros Hij Hj. destruct (four_digits i ltac:(lia)) as (a & b & c & d & A & B & C & D & ->).
  destruct (four_digits j Hj) as (a' & b' & c' & d' & A' & B' & C' & D' & ->).
  rewrite !key_digits by assumption. unfold str4. cbn [String.compare]. rewrite !chr_cmp by assumption.
  destruct (Nat.compare_spec a a'); [|reflexivity|lia]. destruct (Nat.compare_spec b b'); [|reflexivity|lia].
  destruct (Nat.compare_spec c c'); [|reflexivity|lia]. destruct (Nat.compare_spec d d'); [lia|reflexivity|lia].
Qed.
Lemma adj_lt i : (i + 1 < K)%nat -> String.compare (key04 i) (key04 (S i)) = Lt.
Proof. intros H. apply key_lt_all; lia. Qed.
Lemma key_lt i d : (i + S d < K)%nat -> String.compare (key04 i) (key04 (i + S d)) = Lt.
Proof. intros H. apply key_lt_all; lia. Qed.
Lemma last_cmp i : (i < K)%nat -> String.compare (key04 i) (key04 K) = if Nat.leb i 1000 then Lt else Gt.
Proof.
  intros H. destruct (four_digits i H) as (a & b & c & d & A & B & C & D & ->).
  rewrite key_digits, key_last by assumption. unfold str4.
  change "10000"%string with (String (chr 1) (String (chr 0) (String (chr 0) (String (chr 0) "0")))).
  cbn [String.compare]. rewrite !chr_cmp by lia.
  destruct (Nat.leb_spec (d + 10 * (c + 10 * (b + 10 * a))) 1000) as [L|L].
  - destruct (Nat.compare_spec a 1); [|reflexivity|lia]. destruct (Nat.compare_spec b 0); [|lia|lia].
    destruct (Nat.compare_spec c 0); [|lia|lia]. destruct (Nat.compare_spec d 0); [reflexivity|lia|lia].
  - destruct (Nat.compare_spec a 1); [|lia|reflexivity]. destruct (Nat.compare_spec b 0); [|lia|reflexivity].
    destruct (Nat.compare_spec c 0); [|lia|reflexivity]. destruct (Nat.compare_spec d 0); [lia|lia|reflexivity].
Qed.
Lemma key_inj i j : (i <= K)%nat -> (j <= K)%nat -> key04 i = key04 j -> i = j.
Proof.
  assert (Q : forall i j, (i < j)%nat -> (j <= K)%nat -> key04 i <> key04 j).
  { clear. intros i j Hij Hj E. destruct (Nat.eq_dec j K) as [->|N].
    - pose proof (last_cmp i Hij) as C. rewrite E, scmp_irrefl in C. destruct (Nat.leb i 1000); discriminate.
    - pose proof (key_lt i (j - i - 1) ltac:(lia)) as C. replace (i + S (j - i - 1))%nat with j in C by lia.
      rewrite E, scmp_irrefl in C. discriminate. }
  intros Hi Hj E. destruct (Nat.lt_trichotomy i j) as [L|[L|L]]; [exfalso; now apply (Q i j)|exact L|exfalso; now apply (Q j i)].
Qed.
Lemma keys_nodup n : (n <= S K)%nat -> NoDup (map key04 (seq 0 n)).
Proof.
  intros Hn. assert (Q : forall l, NoDup l -> (forall i, In i l -> (i <= K)%nat) -> NoDup (map key04 l)).
  { induction l as [|a l IH]; intros D B; [constructor|]. inversion D; subst. cbn [map]. constructor.
    - intros Hi. apply in_map_iff in Hi. destruct Hi as (j & E & Hj). apply key_inj in E; [subst; contradiction| |]; apply B; [now right|now left].
    - apply IH; [assumption|]. intros. apply B. now right. }
  apply Q; [apply seq_NoDup|]. intros i Hi. apply in_seq in Hi. lia.
Qed.

(** ** Sorting *)
Lemma insert_front k l : (match l with [] => True | h :: _ => String.compare k h = Lt end) -> insert_key k l = k :: l.
Proof. destruct l as [|h t]; [reflexivity|]. intros H. cbn [insert_key]. unfold String.leb. now rewrite H. Qed.
Lemma sort_keys m : forall i, (i + m <= K)%nat -> sorted_keys (map key04 (seq i m)) = map key04 (seq i m).
Proof.
  induction m as [|m IH]; intros i H; [reflexivity|]. cbn [seq map]. unfold sorted_keys. cbn [fold_right].
  fold (sorted_keys (map key04 (seq (S i) m))). rewrite IH by lia. apply insert_front.
  destruct m as [|m]; [exact I|]. cbn [seq map]. apply adj_lt. lia.
Qed.
(** With one key too many *)
Lemma insert_after k h t : String.compare k h = Gt -> insert_key k (h :: t) = h :: insert_key k t.
Proof. intros H. cbn [insert_key]. unfold String.leb. now rewrite H. Qed.
Lemma sort_high m : forall i, (1001 <= i)%nat -> (i + m = K)%nat ->
  fold_right insert_key [key04 K] (map key04 (seq i m)) = key04 K :: map key04 (seq i m).
Proof.
  induction m as [|m IH]; intros i L H; [reflexivity|]. cbn [seq map fold_right]. rewrite IH by lia.
  rewrite insert_after.
  - f_equal. apply insert_front. destruct m as [|m]; [exact I|]. cbn [seq map]. apply adj_lt. lia.
  - rewrite last_cmp by lia. destruct (Nat.leb_spec i 1000); [lia|reflexivity].
Qed.
Lemma sort_low m r : forall i, (i + m = 1001)%nat ->
  fold_right insert_key (key04 K :: r) (map key04 (seq i m)) = map key04 (seq i m) ++ key04 K :: r.
Proof.
  induction m as [|m IH]; intros i H; [reflexivity|]. cbn [seq map fold_right]. rewrite IH by lia. cbn [app].
  apply insert_front. destruct m as [|m].
  - cbn [seq map app]. rewrite last_cmp by (unfold K; lia). destruct (Nat.leb_spec i 1000); [reflexivity|lia].
  - cbn [seq map app]. apply adj_lt. unfold K. lia.
Qed.
Lemma sort_over : sorted_keys (map key04 (seq 0 (S K))) =
  map key04 (seq 0 1001) ++ key04 K :: map key04 (seq 1001 (K - 1001)).
Proof.
  unfold sorted_keys. rewrite seq_S, map_app, fold_right_app. cbn [Nat.add map fold_right insert_key].
  assert (E : seq 0 K = seq 0 1001 ++ seq 1001 (K - 1001)).
  { transitivity (seq 0 (1001 + (K - 1001))); [f_equal; unfold K; lia|]. apply (seq_app 1001 (K - 1001) 0). }
  rewrite E, map_app, fold_right_app, (sort_high (K - 1001) 1001) by (pose proof K_Z; lia). apply sort_low. reflexivity.
Qed.

(** ** Looking up *)
Lemma lookup_nth {A} (ks : list string) (l : list A) i d e : NoDup ks -> List.length ks = List.length l -> (i < List.length l)%nat ->
  lookup (nth i ks d) (combine ks l) = Some (nth i l e).
Proof.
  revert l i. induction ks as [|k ks IH]; intros [|a l] i D L H; cbn in *; try lia; try discriminate.
  inversion D; subst. destruct i as [|i].
  - now rewrite String.eqb_refl.
  - destruct (String.eqb_spec k (nth i ks d)) as [E|E]; [|apply IH; [assumption|lia|lia]].
    exfalso. apply H2. rewrite E. apply nth_In. lia.
Qed.
Lemma fst_combine {A B} (a : list A) (b : list B) : List.length a = List.length b -> map fst (combine a b) = a.
Proof. revert b. induction a as [|x a IH]; intros [|y b] H; cbn in *; try lia; try discriminate; [reflexivity|]. f_equal. apply IH. lia. Qed.
Lemma vmap_nth {A B} (g : A -> option B) is_ js d e : List.length is_ = List.length js ->
  (forall q, (q < List.length is_)%nat -> g (nth q is_ d) = Some (nth q js e)) -> vmap g is_ = Some js.
Proof.
  revert js. induction is_ as [|a l IH]; intros [|b js] L H; try discriminate; [reflexivity|]. unfold vmap in *. cbn [map sequence].
  pose proof (H 0%nat ltac:(cbn; lia)) as H0. cbn [nth] in H0. rewrite H0. rewrite (IH js); [reflexivity|cbn in L; lia|].
  intros q Hq. apply (H (S q)). cbn. lia.
Qed.

Lemma slice_nth {A} (d : A) l : forall i m, (i + m <= List.length l)%nat -> map (fun i => nth i l d) (seq i m) = firstn m (skipn i l).
Proof.
  induction l as [|a l IH]; intros i m H.
  - cbn in H. assert (i = 0%nat /\ m = 0%nat) as [-> ->] by lia. reflexivity.
  - destruct i as [|i].
    + destruct m as [|m]; [reflexivity|]. cbn [seq map skipn firstn nth]. f_equal. rewrite <- seq_shift, map_map. cbn [nth].
      apply (IH 0%nat m). cbn in H. lia.
    + rewrite <- seq_shift, map_map. cbn [nth skipn]. apply IH. cbn in H. lia.
Qed.

Section Save.
Variable arr num : Type.
Variable shape : arr -> list nat.
Variable stack : list arr -> arr.
Notation ragged := (is_ragged arr shape).
Notation save := (save_value arr num shape stack).
Notation load := (load_item arr num).

Lemma shape_eqb_spec s t : shape_eqb s t = true <-> s = t.
Proof. unfold shape_eqb. destruct (list_eq_dec Nat.eq_dec s t); split; congruence. Qed.
Lemma ragged_true l : ragged l = true -> exists a b, In a l /\ In b l /\ shape a <> shape b.
Proof.
  destruct l as [|a r]; [discriminate|]. cbn. intros H. apply negb_true_iff in H.
  assert (X : exists b, In b r /\ shape_eqb (shape b) (shape a) = false).
  { induction r as [|b r IH]; [discriminate|]. cbn in H. destruct (shape_eqb (shape b) (shape a)) eqn:E.
    - destruct (IH H) as (c & I & F). exists c. split; [now right|exact F].
    - exists b. split; [now left|exact E]. }
  destruct X as (b & I & F). exists b, a. split; [now right|]. split; [now left|]. intros C. apply shape_eqb_spec in C. congruence.
Qed.
Lemma ragged_false l : ragged l = false -> forall a b, In a l -> In b l -> shape a = shape b.
Proof.
  destruct l as [|x r]; [intros _ ? ? []|]. cbn. intros H. apply negb_false_iff in H. rewrite forallb_forall in H.
  assert (Q : forall a, In a (x :: r) -> shape a = shape x) by (intros a [<-|I]; [reflexivity|now apply shape_eqb_spec, H]).
  intros a b Ha Hb. rewrite (Q a Ha), (Q b Hb). reflexivity.
Qed.
Lemma ragged_is l a b : In a l -> In b l -> shape a <> shape b -> ragged l = true.
Proof. intros Ha Hb N. destruct (ragged l) eqn:E; [reflexivity|]. exfalso. apply N. now apply (ragged_false l). Qed.

Lemma load_sub l : (Z.of_nat (List.length l) <= 10000)%Z ->
  load (Sub arr num (combine (map key04 (seq 0 (List.length l))) l)) = Some (VSeq arr num l).
Proof.
  intros H. rewrite <- K_Z in H. assert (LK : List.length (map key04 (seq 0 (List.length l))) = List.length l) by (rewrite map_length, seq_length; reflexivity).
  cbn [load_item]. rewrite fst_combine by exact LK. rewrite sort_keys by lia.
  destruct l as [|a0 l0] eqn:El; [reflexivity|]. rewrite <- El in *.
  rewrite (vmap_nth _ _ l ""%string a0); [reflexivity|exact LK|].
  intros q Hq. apply lookup_nth; [apply keys_nodup; lia|exact LK|lia].
Qed.
Lemma save_load v : (forall l, v = VSeq _ _ l -> (Z.of_nat (List.length l) <= 10000)%Z) ->
  exists w, load (save v) = Some w /\ read_back shape stack v w.
Proof.
  intros H. destruct v as [a|x|l]; cbn [save_value].
  - eexists. split; [reflexivity|constructor].
  - eexists. split; [reflexivity|constructor].
  - destruct (ragged l) eqn:R.
    + eexists. split; [apply load_sub, (H l eq_refl)|]. destruct (ragged_true l R) as (a & b & A & B & N). exact (rb_list _ _ l a b A B N).
    + eexists. split; [reflexivity|]. apply rb_stack. now apply ragged_false.
Qed.
Lemma save_load_over l a b : Z.of_nat (List.length l) = 10001%Z -> In a l -> In b l -> shape a <> shape b ->
  load (save (VSeq arr num l)) = Some (VSeq arr num (firstn 1001 l ++ skipn (N.to_nat 10000) l ++ firstn (N.to_nat 8999) (skipn 1001 l))).
Proof.
  intros H Ha Hb N. cbn [save_value]. rewrite (ragged_is l a b Ha Hb N).
  assert (L : List.length l = S K) by (pose proof K_Z; lia).
  assert (LK : List.length (map key04 (seq 0 (List.length l))) = List.length l) by (rewrite map_length, seq_length; reflexivity).
  cbn [load_item]. rewrite fst_combine by exact LK. rewrite L, sort_over, <- L.
  set (g := fun i => nth i l a).
  assert (G : vmap (fun k => lookup k (combine (map key04 (seq 0 (List.length l))) l)) (map key04 (seq 0 1001) ++ key04 K :: map key04 (seq 1001 (K - 1001))) =
     Some (map g (seq 0 1001 ++ K :: seq 1001 (K - 1001)))).
  { assert (X : map key04 (seq 0 1001) ++ key04 K :: map key04 (seq 1001 (K - 1001)) = map key04 (seq 0 1001 ++ K :: seq 1001 (K - 1001)))
      by (rewrite map_app; reflexivity). rewrite X. clear X.
    assert (Y : forall is_, (forall i, In i is_ -> (i <= K)%nat) -> vmap (fun k => lookup k (combine (map key04 (seq 0 (List.length l))) l)) (map key04 is_) = Some (map g is_)).
    { induction is_ as [|i is_ IH]; intros B; [reflexivity|]. unfold vmap in *. cbn [map sequence].
      rewrite IH by (intros; apply B; now right). specialize (B i (or_introl eq_refl)).
      replace (key04 i) with (nth i (map key04 (seq 0 (List.length l))) (key04 0)).
      - rewrite (lookup_nth _ l i _ a); [reflexivity|apply keys_nodup; lia|exact LK|lia].
      - rewrite map_nth, seq_nth by lia. reflexivity. }
    apply Y. intros i Hi. apply in_app_or in Hi. destruct Hi as [Hi|[<-|Hi]]; [apply in_seq in Hi; unfold K; lia|lia|apply in_seq in Hi; unfold K in *; lia]. }
  rewrite G. cbn [option_map]. f_equal. f_equal.
  assert (SL : forall i m, (i + m <= List.length l)%nat -> map g (seq i m) = firstn m (skipn i l)).
  { intros i m Him. unfold g. now apply slice_nth. }
  rewrite map_app. cbn [map]. rewrite !SL by (rewrite L; unfold K; lia). f_equal.
  replace (K - 1001)%nat with (N.to_nat 8999) by (unfold K; lia).
  fold K. change (g K :: firstn (N.to_nat 8999) (skipn 1001 l)) with ([g K] ++ firstn (N.to_nat 8999) (skipn 1001 l)). f_equal.
  change [g K] with (map g (seq K 1)). rewrite SL by lia. apply firstn_all2. rewrite skipn_length. lia.
Qed.

Lemma group_load fields vs : NoDup fields -> List.length vs = List.length fields ->
  (forall l, In (VSeq _ _ l) vs -> (Z.of_nat (List.length l) <= 10000)%Z) ->
  exists g ws, save_group arr num shape stack fields vs = Some g /\ load_group arr num g = Some ws /\ Forall2 (read_back shape stack) vs ws.
Proof.
  intros D L H. unfold save_group. rewrite L, Nat.eqb_refl. eexists.
  assert (W : exists ws, Forall2 (fun v w => load (save v) = Some w /\ read_back shape stack v w) vs ws).
  { clear -H. induction vs as [|v vs IH]; [exists []; constructor|]. destruct IH as (ws & F); [intros; apply H; now right|].
    destruct (save_load v) as (w & A & B); [intros l ->; apply H; now left|]. exists (w :: ws). constructor; auto. }
  destruct W as (ws & F). exists ws. split; [reflexivity|]. split; [|clear -F; induction F as [|? ? ? ? [? ?]]; constructor; auto].
  unfold load_group. cbn [fst snd]. pose proof (F2_length _ _ _ F) as LW.
  destruct vs as [|v0 vr] eqn:EV; [destruct fields; [inversion F; reflexivity|discriminate]|]. rewrite <- EV in *.
  destruct ws as [|w0 wr] eqn:EW; [rewrite EV in F; inversion F|]. rewrite <- EW in *.
  apply (vmap_nth _ _ _ ""%string w0); [lia|]. intros q Hq.
  rewrite (lookup_nth fields (map save vs) q _ (save v0)) by (try assumption; rewrite ?map_length; lia).
  rewrite map_nth. clear - F Hq L LW. assert (Hq2 : (q < List.length vs)%nat) by lia. clear Hq L LW. revert q Hq2.
  induction F as [|v w vs ws [A B] F IH]; intros q Hq; [cbn in Hq; lia|]. destruct q as [|q]; [exact A|]. cbn [nth]. apply IH. cbn in Hq. lia.
Qed.
Lemma save_ok (m c s : list (value arr num)) : List.length m = 12%nat -> List.length c = 18%nat -> List.length s = 18%nat ->
  (forall l, In (VSeq _ _ l) (m ++ c ++ s) -> (Z.of_nat (List.length l) <= 10000)%Z) ->
  exists f m' c' s', save_loss_data_h5 arr num shape stack m c s = Some f /\ load_loss_data_h5 arr num f = Some (m', c', s') /\
    Forall2 (read_back shape stack) m m' /\ Forall2 (read_back shape stack) c c' /\ Forall2 (read_back shape stack) s s'.
Proof.
  intros Lm Lc Ls H.
  assert (N1 : NoDup MSTAR_FIELDS) by (repeat constructor; cbn; intuition discriminate).
  assert (N2 : NoDup SSFR_FIELDS) by (repeat constructor; cbn; intuition discriminate).
  assert (N3 : NoDup SSFR_SAT_FIELDS) by (repeat constructor; cbn; intuition discriminate).
  destruct (group_load MSTAR_FIELDS m N1 Lm) as (g1 & w1 & A1 & B1 & F1); [intros l Hl; apply H; rewrite !in_app_iff; auto|].
  destruct (group_load SSFR_FIELDS c N2 Lc) as (g2 & w2 & A2 & B2 & F2); [intros l Hl; apply H; rewrite !in_app_iff; auto|].
  destruct (group_load SSFR_SAT_FIELDS s N3 Ls) as (g3 & w3 & A3 & B3 & F3); [intros l Hl; apply H; rewrite !in_app_iff; auto|].
  exists (g1, g2, g3), w1, w2, w3. unfold save_loss_data_h5, load_loss_data_h5. rewrite A1, A2, A3. cbn [fst snd]. rewrite B1, B2, B3. auto.
Qed.
Lemma save_wrong (m c s : list (value arr num)) : (List.length m <> 12 \/ List.length c <> 18 \/ List.length s <> 18)%nat ->
  save_loss_data_h5 arr num shape stack m c s = None.
Proof.
  intros H. unfold save_loss_data_h5, save_group. cbn [List.length MSTAR_FIELDS SSFR_FIELDS SSFR_SAT_FIELDS].
  destruct (Nat.eqb_spec (List.length m) 12), (Nat.eqb_spec (List.length c) 18), (Nat.eqb_spec (List.length s) 18); try reflexivity. lia.
Qed.
End Save.
