(** Choosing the table time of a target redshift. *)
From Coq Require Import Reals List Bool ZArith Lia Lra.
From Coquelicot Require Import Coquelicot.
From Verif Require Import XReal ModelUtils ModelKernels ModelSfh ModelPop ModelHist ModelLoad ModelIO ModelTargets
  RealFacts XFacts SpecCore SpecHist SpecTargets SfhProofs DtProofs FstarProofs HistProofs TableProofs.
Import List ListNotations.
Open Scope R_scope.

Lemma xle_fin a b : (Fin a <=? Fin b)%X = true <-> a <= b.
Proof.
  split; [|apply xle_fin_true]. intros H. destruct (Rle_lt_dec a b) as [h|h]; [exact h|].
  rewrite xle_fin_false in H by exact h. discriminate.
Qed.

Definition decreasing_nth (l : list R) : Prop := forall i j, (i < j)%nat -> (j < length l)%nat -> nth j l 0 < nth i l 0.

(** Position of a value in a strictly increasing list *)
Lemma locate xp x : increasing xp -> (2 <= length xp)%nat ->
  x < nth 0 xp 0 \/ nth (length xp - 1) xp 0 <= x \/
  exists k, (S k < length xp)%nat /\ nth k xp 0 <= x < nth (S k) xp 0.
Proof.
  intros H L. destruct (ss_right_spec xp x H) as (K1 & K2 & K3). set (k := searchsorted_right _ _) in *.
  destruct (Nat.eq_dec k 0) as [e|e]; [left; apply K3; lia|].
  destruct (Nat.eq_dec k (length xp)) as [e'|e']; [right; left; apply K2; lia|].
  right; right. exists (k - 1)%nat. replace (S (k - 1)) with k by lia. split; [lia|]. split; [apply K2; lia|apply K3; lia].
Qed.

Section Inverse.
Variables xp fp : list R.
Hypothesis HL : length xp = length fp.
Hypothesis H2 : (2 <= length xp)%nat.
Hypothesis Hinc : increasing xp.
Hypothesis Hdec : decreasing_nth fp.

Definition ival (x : R) : R := match jnp_interp (Fin x) (map Fin xp) (map Fin fp) with Fin v => v | _ => 0 end.
Lemma ival_spec x : jnp_interp (Fin x) (map Fin xp) (map Fin fp) = Fin (ival x) /\
  (x <= nth 0 xp 0 -> ival x = nth 0 fp 0) /\
  (nth (length xp - 1) xp 0 <= x -> ival x = nth (length xp - 1) fp 0) /\
  (forall i, (S i < length xp)%nat -> nth i xp 0 <= x < nth (S i) xp 0 ->
     ival x = nth i fp 0 + (nth (S i) fp 0 - nth i fp 0) / (nth (S i) xp 0 - nth i xp 0) * (x - nth i xp 0)).
Proof.
  destruct (jnp_interp_fin x xp fp HL ltac:(lia) Hinc) as (v & E & A & B & C).
  unfold ival. rewrite E. auto.
Qed.

Opaque ival.

(** value within a segment *)
Lemma seg_between k x : (S k < length xp)%nat -> nth k xp 0 <= x < nth (S k) xp 0 ->
  nth (S k) fp 0 < ival x <= nth k fp 0.
Proof.
  intros Hk Hx. destruct (ival_spec x) as (_ & _ & _ & C). rewrite (C k Hk Hx).
  assert (D : nth (S k) fp 0 < nth k fp 0) by (apply Hdec; lia).
  set (d := nth k fp 0 - nth (S k) fp 0). set (w := nth (S k) xp 0 - nth k xp 0). set (u := x - nth k xp 0).
  assert (0 < d) by (unfold d; lra). assert (0 < w) by (unfold w; lra). assert (0 <= u < w) by (unfold u, w; lra).
  replace (nth (S k) fp 0 - nth k fp 0) with (- d) by (unfold d; ring).
  replace (nth (S k) fp 0) with (nth k fp 0 - d) by (unfold d; ring).
  assert (Q : 0 <= u / w < 1).
  { split; [apply Rmult_le_pos; [lra|left; apply Rinv_0_lt_compat; lra]|].
    apply (Rmult_lt_reg_r w); [lra|]. unfold Rdiv. rewrite Rmult_assoc, Rinv_l by lra. lra. }
  replace (- d / w * u) with (- (d * (u / w))) by (unfold Rdiv; ring).
  assert (0 <= d * (u / w)) by (apply Rmult_le_pos; lra). assert (d * (u / w) < d * 1) by (apply Rmult_lt_compat_l; lra). lra.
Qed.

Lemma fp_le i j : (i <= j)%nat -> (j < length xp)%nat -> nth j fp 0 <= nth i fp 0.
Proof. intros H L. destruct (Nat.eq_dec i j) as [->|]; [lra|]. left. apply Hdec; lia. Qed.
Lemma xp_le i j : (i <= j)%nat -> (j < length xp)%nat -> nth i xp 0 <= nth j xp 0.
Proof. intros H L. destruct (Nat.eq_dec i j) as [->|]; [lra|]. left. apply (increasing_nth_lt xp Hinc); lia. Qed.

Lemma ival_range x : nth (length xp - 1) fp 0 <= ival x <= nth 0 fp 0.
Proof.
  assert (F : nth (length xp - 1) fp 0 <= nth 0 fp 0) by (apply fp_le; lia).
  destruct (ival_spec x) as (_ & A & B & _).
  destruct (locate xp x Hinc H2) as [H|[H|(k & Hk & H)]].
  - rewrite A by lra. lra.
  - rewrite B by lra. lra.
  - pose proof (seg_between k x Hk H). pose proof (fp_le 0 k ltac:(lia) ltac:(lia)).
    pose proof (fp_le (S k) (length xp - 1) ltac:(lia) ltac:(lia)). lra.
Qed.

(** the interpolant exceeds [z] exactly before the interpolated crossing *)
Lemma ival_crossing i z x : (S i < length xp)%nat -> nth (S i) fp 0 <= z < nth i fp 0 ->
  let a := nth i xp 0 + (nth (S i) xp 0 - nth i xp 0) * ((nth i fp 0 - z) / (nth i fp 0 - nth (S i) fp 0)) in
  z < ival x <-> x < a.
Proof.
  intros Hi Hz a.
  assert (X : nth i xp 0 < nth (S i) xp 0) by (apply (increasing_nth_lt xp Hinc); lia).
  assert (q : 0 < (nth i fp 0 - z) / (nth i fp 0 - nth (S i) fp 0) <= 1).
  { split; [apply Rdiv_lt_0_compat; lra|]. apply (Rmult_le_reg_r (nth i fp 0 - nth (S i) fp 0)); [lra|].
    unfold Rdiv. rewrite Rmult_assoc, Rinv_l by lra. lra. }
  assert (Ha : nth i xp 0 < a <= nth (S i) xp 0).
  { unfold a. set (q' := (_ / _)) in *. set (w := nth (S i) xp 0 - nth i xp 0).
    assert (0 < w) by (unfold w; lra). assert (0 < w * q') by (apply Rmult_lt_0_compat; lra).
    assert (w * q' <= w * 1) by (apply Rmult_le_compat_l; lra).
    replace (nth (S i) xp 0) with (nth i xp 0 + w) by (unfold w; ring). lra. }
  destruct (ival_spec x) as (_ & A & B & C).
  destruct (Rlt_le_dec x (nth i xp 0)) as [h|h].
  - split; [intros; lra|]. intros _.
    assert (nth i fp 0 <= ival x); [|lra].
    destruct (locate xp x Hinc H2) as [H|[H|(k & Hk & H)]].
    + rewrite A by lra. apply fp_le; lia.
    + pose proof (xp_le i (length xp - 1) ltac:(lia) ltac:(lia)). lra.
    + destruct (le_lt_dec i k) as [l|l]; [pose proof (xp_le i k l ltac:(lia)); lra|].
      pose proof (seg_between k x Hk H). pose proof (fp_le (S k) i ltac:(lia) ltac:(lia)). lra.
  - destruct (Rlt_le_dec x (nth (S i) xp 0)) as [h'|h'].
    + rewrite (C i Hi (conj h h')). unfold a.
      set (d := nth i fp 0 - nth (S i) fp 0). set (w := nth (S i) xp 0 - nth i xp 0).
      assert (0 < d) by (unfold d; lra). assert (0 < w) by (unfold w; lra).
      replace (nth (S i) fp 0 - nth i fp 0) with (- d) by (unfold d; ring).
      set (u := x - nth i xp 0).
      assert (E1 : nth i fp 0 + - d / w * u - z = (d / w) * (w * ((nth i fp 0 - z) / d) - u)) by (field; lra).
      assert (E2 : nth i xp 0 + w * ((nth i fp 0 - z) / d) - x = w * ((nth i fp 0 - z) / d) - u) by (unfold u; ring).
      assert (P : 0 < d / w) by (apply Rdiv_lt_0_compat; lra).
      set (g := w * ((nth i fp 0 - z) / d) - u) in *.
      split; intros K.
      * assert (0 < d / w * g) by lra. assert (0 < g); [|lra].
        apply (Rmult_lt_reg_l (d / w)); lra.
      * assert (0 < d / w * g); [apply Rmult_lt_0_compat; lra|lra].
    + split; [|intros; lra]. intros K. exfalso.
      assert (ival x <= nth (S i) fp 0); [|lra].
      destruct (locate xp x Hinc H2) as [H|[H|(k & Hk & H)]].
      * pose proof (xp_le 0 i ltac:(lia) ltac:(lia)). lra.
      * rewrite B by lra. apply fp_le; lia.
      * destruct (le_lt_dec k i) as [l|l]; [pose proof (xp_le (S k) (S i) ltac:(lia) ltac:(lia)); lra|].
        pose proof (seg_between k x Hk H). pose proof (fp_le (S i) k ltac:(lia) ltac:(lia)). lra.
Qed.

(** position of a value in the decreasing table *)
Lemma locate_dec z : nth (length xp - 1) fp 0 <= z < nth 0 fp 0 ->
  exists i, (S i < length xp)%nat /\ nth (S i) fp 0 <= z < nth i fp 0.
Proof.
  intros [Hl Hu].
  assert (G : forall n, (n < length xp)%nat -> nth n fp 0 <= z -> exists i, (S i <= n)%nat /\ nth (S i) fp 0 <= z < nth i fp 0).
  { induction n; intros Hn H; [lra|]. destruct (Rle_lt_dec (nth n fp 0) z) as [h|h].
    - destruct (IHn ltac:(lia) h) as (i & Hi & K). exists i. split; [lia|exact K].
    - exists n. split; [lia|lra]. }
  destruct (G (length xp - 1)%nat ltac:(lia) Hl) as (i & Hi & K). exists i. split; [lia|exact K].
Qed.

Lemma ival_mono x y : x <= y -> ival y <= ival x.
Proof.
  intros H. destruct (Rle_lt_dec (ival y) (ival x)) as [h|h]; [exact h|exfalso].
  pose proof (ival_range x). pose proof (ival_range y).
  destruct (locate_dec (ival x)) as (i & Hi & K); [lra|].
  pose proof (proj1 (ival_crossing i (ival x) y Hi K) h).
  destruct (Rlt_le_dec x (nth i xp 0 + (nth (S i) xp 0 - nth i xp 0) * ((nth i fp 0 - ival x) / (nth i fp 0 - nth (S i) fp 0)))) as [l|l];
    [|cbv zeta in *; lra].
  pose proof (proj2 (ival_crossing i (ival x) x Hi K) l). lra.
Qed.
End Inverse.

Global Opaque ival.
(** np.digitize on a nonincreasing finite list that is not constant *)
Fixpoint nonincreasing (l : list R) : Prop :=
  match l with
  | a :: ((b :: _) as r) => b <= a /\ nonincreasing r
  | _ => True
  end.

Lemma xge_fin_true a b : b <= a -> xge (Fin a) (Fin b) = true.
Proof. intros H. apply xle_fin. exact H. Qed.

Lemma mono_xge l : nonincreasing l -> mono xge (map Fin l) = true.
Proof.
  induction l as [|a [|b l] IH]; intros H; try reflexivity.
  destruct H as [H1 H2]. change (map Fin (a :: b :: l)) with (Fin a :: map Fin (b :: l)).
  cbn [map mono] in *. rewrite (xge_fin_true a b H1). apply IH. exact H2.
Qed.

Lemma mono_xle_last l : mono xle (map Fin l) = true -> l <> [] -> hd 0 l <= last l 0.
Proof.
  induction l as [|a [|b l] IH]; intros H N; [contradiction|simpl; lra|].
  cbn [map mono] in H. apply andb_true_iff in H. destruct H as [H1 H2]. apply xle_fin in H1.
  specialize (IH H2 ltac:(discriminate)). change (last (a :: b :: l) 0) with (last (b :: l) 0). cbn [hd] in *. lra.
Qed.

Lemma ss_right_filter l z : nondecreasing l ->
  searchsorted_right (map Fin l) (Fin z) = length (filter (fun v => if Rle_dec v z then true else false) l).
Proof.
  induction l as [|a l IH]; intros H; [reflexivity|].
  assert (Hl : nondecreasing l) by (destruct l; [exact I|apply H]).
  cbn [map searchsorted_right filter]. destruct (Rle_dec a z) as [h|h].
  - replace (Fin a <=? Fin z)%X with true by (symmetry; apply xle_fin; exact h). cbn [length]. f_equal. auto.
  - replace (Fin a <=? Fin z)%X with false.
    + symmetry. clear IH. assert (G : forall l, nondecreasing (a :: l) -> length (filter (fun v => if Rle_dec v z then true else false) l) = 0%nat).
      { clear l H Hl. intros l. revert a h. induction l as [|b l IH]; intros a h H; [reflexivity|].
        destruct H as [H1 H2]. cbn [filter]. destruct (Rle_dec b z); [lra|]. apply (IH b n H2). }
      apply G, H.
    + symmetry. apply not_true_iff_false. intros C. apply xle_fin in C. lra.
Qed.

Lemma nondecreasing_rev l : nonincreasing l -> nondecreasing (rev l).
Proof.
  assert (snoc : forall l x, nondecreasing l -> (l <> [] -> last l 0 <= x) -> nondecreasing (l ++ [x])).
  { clear. induction l as [|a [|b l] IH]; intros x H K; [exact I| |].
    - simpl. split; [apply K; discriminate|exact I].
    - destruct H as [H1 H2]. change ((a :: b :: l) ++ [x]) with (a :: ((b :: l) ++ [x])).
      cbn [app] in *. split; [exact H1|]. apply IH; [exact H2|]. intros _. apply K. discriminate. }
  induction l as [|a l IH]; intros H; [exact I|]. cbn [rev]. apply snoc.
  - apply IH. destruct l; [exact I|apply H].
  - intros N. destruct l as [|b l]; [contradiction N; reflexivity|]. destruct H as [H _]. cbn [rev].
    rewrite last_last. exact H.
Qed.

Lemma filter_len_le {A} (f : A -> bool) l : (length (filter f l) <= length l)%nat.
Proof. induction l as [|a l IH]; [apply le_n|]. cbn [filter length]. destruct (f a); cbn [length]; lia. Qed.
Lemma filter_complement {A} (f g : A -> bool) l : (forall a, In a l -> f a = negb (g a)) ->
  length (filter f l) = (length l - length (filter g l))%nat.
Proof.
  induction l as [|a l IH]; intros H; [reflexivity|].
  assert (G := IH (fun b Hb => H b (or_intror Hb))). cbn [filter length]. rewrite (H a (or_introl eq_refl)).
  pose proof (filter_len_le g l). destruct (g a); cbn [negb length]; lia.
Qed.
Lemma filter_rev' {A} (f : A -> bool) l : length (filter f (rev l)) = length (filter f l).
Proof.
  induction l as [|a l IH]; [reflexivity|]. cbn [rev filter]. rewrite filter_app, app_length, IH. cbn [filter].
  destruct (f a); cbn [length]; lia.
Qed.

Lemma digitize_dec l z : nonincreasing l -> last l 0 < hd 0 l ->
  np_digitize (Fin z) (map Fin l) = Some (length (filter (fun v => if Rlt_dec z v then true else false) l)).
Proof.
  intros H N. unfold np_digitize.
  replace (mono xle (map Fin l)) with false.
  2:{ symmetry. apply not_true_iff_false. intros C. apply mono_xle_last in C; [lra|]. intros ->. simpl in N. lra. }
  rewrite (mono_xge l H). rewrite <- map_rev, ss_right_filter by (apply nondecreasing_rev, H).
  rewrite filter_rev', map_length. f_equal. symmetry. apply filter_complement.
  intros v _. destruct (Rlt_dec z v), (Rle_dec v z); auto; lra.
Qed.

(** The redshift knots *)
Lemma knots_length {A} (f : nat -> A) n : length (map f (seq 0 n)) = n.
Proof. now rewrite map_length, seq_length. Qed.

Lemma knot_lt i j : (i < j)%nat -> knot i < knot j.
Proof. intros H. unfold knot. apply lt_INR in H. lra. Qed.

Lemma knot0 : knot 0 = 0. Proof. unfold knot. simpl. lra. Qed.

Lemma increasing_of_nth l : (forall i, (S i < length l)%nat -> nth i l 0 < nth (S i) l 0) -> increasing l.
Proof.
  induction l as [|a [|b l] IH]; intros H; try exact I. split; [apply (H 0%nat); simpl; lia|].
  apply IH. intros i Hi. apply (H (S i)). simpl in *. lia.
Qed.

Lemma filter_map_length {X Y} (f : X -> Y) (g : Y -> bool) l : length (filter g (map f l)) = length (filter (fun x => g (f x)) l).
Proof. induction l as [|a l IH]; [reflexivity|]. cbn [map filter]. destruct (g (f a)); cbn [length]; lia. Qed.

Section Snap.
Variables (NK : nat) (kn : list R) (g : xr -> xr) (A : R -> R).
Hypothesis NK_pos : (2 <= NK)%nat.
Hypothesis NK_knots : forall j, (j < NK)%nat <-> (j < 1999)%nat.
Hypothesis knotNK : knot NK = 10.
Hypothesis kn_length : length kn = S NK.
Hypothesis nth_kn : forall i, (i <= NK)%nat -> nth i kn 0 = knot (NK - i).
Hypothesis Hg : forall t, g (Fin t) = jnp_interp (Fin t) (map Fin (map A kn)) (map Fin kn).
Ltac nk := first [lia | pose proof NK_pos; lia].
Lemma kn_dec : decreasing_nth kn.
Proof. intros i j H L. rewrite kn_length in L. rewrite !nth_kn by lia. apply knot_lt. lia. Qed.
Lemma knot_range j : (j <= NK)%nat -> 0 <= knot j <= 10.
Proof.
  intros H. rewrite <- knot0, <- knotNK at 1. split.
  - destruct j; [lra|]. left. apply knot_lt. lia.
  - destruct (Nat.eq_dec j NK) as [->|]; [lra|]. left. apply knot_lt. lia.
Qed.
Hypothesis HA : forall z z', 0 <= z < z' -> z' <= 10 -> A z' < A z.

Lemma nth_ages i : (i <= NK)%nat -> nth i (map A kn) 0 = A (knot (NK - i)).
Proof.
  intros H. rewrite (nth_indep _ 0 (A 0)) by (rewrite map_length, kn_length; nk). rewrite map_nth, nth_kn by nk. reflexivity.
Qed.
Lemma ages_inc : increasing (map A kn).
Proof.
  apply increasing_of_nth. intros i Hi. rewrite map_length, kn_length in Hi. rewrite !nth_ages by nk.
  pose proof (knot_range (NK - i) ltac:(nk)). pose proof (knot_range (NK - S i) ltac:(nk)).
  apply HA; [|lra]. split; [lra|]. apply knot_lt. nk.
Qed.

Definition zt (t : R) : R := ival (map A kn) kn t.
Lemma ages_len : length (map A kn) = length kn. Proof. apply map_length. Qed.
Lemma ages_2 : (2 <= length (map A kn))%nat. Proof. rewrite ages_len, kn_length. nk. Qed.
Lemma zt_eq t : g (Fin t) = Fin (zt t).
Proof. rewrite Hg. apply ival_spec; [apply ages_len|apply ages_2|apply ages_inc]. Qed.
Lemma zt_range t : 0 <= zt t <= 10.
Proof.
  pose proof (ival_range _ _ ages_len ages_2 ages_inc kn_dec t) as R. fold (zt t) in R.
  rewrite ages_len, kn_length in R. rewrite !nth_kn in R by nk.
  replace (NK - (S NK - 1))%nat with 0%nat in R by nk. replace (NK - 0)%nat with NK in R by nk.
  rewrite knot0, knotNK in R. exact R.
Qed.
Lemma zt_late t : A 0 <= t -> zt t = 0.
Proof.
  intros H. destruct (ival_spec _ _ ages_len ages_2 ages_inc t) as (_ & _ & B & _). fold (zt t) in B.
  rewrite ages_len, kn_length in B. rewrite nth_ages, nth_kn in B by nk.
  replace (NK - (S NK - 1))%nat with 0%nat in B by nk. rewrite knot0 in B. auto.
Qed.
Lemma zt_early t : t <= A 10 -> zt t = 10.
Proof.
  intros H. destruct (ival_spec _ _ ages_len ages_2 ages_inc t) as (_ & B & _). fold (zt t) in B.
  rewrite nth_ages, nth_kn in B by nk. replace (NK - 0)%nat with NK in B by nk. rewrite knotNK in B. auto.
Qed.
Lemma zt_mono t t' : t <= t' -> zt t' <= zt t.
Proof. apply ival_mono; [apply ages_len|apply ages_2|apply ages_inc|apply kn_dec]. Qed.

Lemma zt_crossing z a t : age_at A z a -> z < zt t <-> t < a.
Proof.
  intros (j & Hj & Hz & ->). apply NK_knots in Hj.
  pose proof (ival_crossing _ _ ages_len ages_2 ages_inc kn_dec (NK - S j) z t) as C. fold (zt t) in C.
  rewrite ages_len, kn_length in C. rewrite !nth_ages, !nth_kn in C by nk.
  replace (NK - S (NK - S j))%nat with j in C by nk. replace (NK - (NK - S j))%nat with (S j) in C by nk.
  specialize (C ltac:(nk) Hz). cbv zeta in C. rewrite C. clear C.
  assert (D : knot j < knot (S j)) by (apply knot_lt; nk).
  replace (A (knot (S j)) + (A (knot j) - A (knot (S j))) * ((knot (S j) - z) / (knot (S j) - knot j)))
    with (A (knot j) + (A (knot (S j)) - A (knot j)) * ((z - knot j) / (knot (S j) - knot j))) by (field; lra).
  reflexivity.
Qed.

Lemma age_at_exists z : 0 <= z < 10 -> exists a, age_at A z a.
Proof.
  intros H.
  assert (G : forall n, (n <= NK)%nat -> z < knot n -> exists j, (j < n)%nat /\ knot j <= z < knot (S j)).
  { induction n; intros Hn K; [rewrite knot0 in K; lra|].
    destruct (Rle_lt_dec (knot n) z) as [h|h]; [exists n; split; [nk|lra]|].
    destruct (IHn ltac:(nk) h) as (j & Hj & K'). exists j. split; [nk|exact K']. }
  destruct (G NK (le_n _)) as (j & Hj & K); [rewrite knotNK; lra|].
  eexists. exists j. split; [apply NK_knots; nk|]. split; [exact K|reflexivity].
Qed.

Lemma nonincreasing_map T : increasing T -> nonincreasing (map zt T).
Proof.
  induction T as [|a [|b T] IH]; intros H; try exact I. destruct H as [H1 H2]. cbn [map].
  split; [apply zt_mono; lra|apply IH, H2].
Qed.

Lemma digitize_one T z : increasing T -> T <> [] -> hd 0 T < A 0 -> A 10 < last T 0 -> hd 0 T < last T 0 ->
  zt (last T 0) < zt (hd 0 T) ->
  np_digitize (Fin z) (map g (map Fin T)) = Some (count (fun t => if Rlt_dec z (zt t) then true else false) T).
Proof.
  intros H N H0 H1 H2 H3. rewrite map_map. rewrite (map_ext _ (fun t => Fin (zt t))) by (intros; apply zt_eq).
  rewrite <- (map_map zt Fin). rewrite digitize_dec; [|apply nonincreasing_map, H|].
  - rewrite filter_map_length. reflexivity.
  - destruct T as [|a T]; [contradiction|]. cbn [hd map] in *.
    replace (last (zt a :: map zt T) 0) with (zt (last (a :: T) 0)); [exact H3|].
    clear. revert a. induction T as [|b T IH]; intros a; [reflexivity|].
    change (last (a :: b :: T) 0) with (last (b :: T) 0). cbn [map].
    change (last (zt a :: zt b :: map zt T) 0) with (last (zt b :: map zt T) 0). apply IH.
Qed.

(** times strictly apart on the two sides give different redshifts *)
Lemma zt_strict t t' : t < t' -> t < A 0 -> A 10 < t' -> zt t' < zt t.
Proof.
  intros H H0 H1. pose proof (zt_range t). pose proof (zt_range t'). pose proof (zt_mono t t' ltac:(lra)).
  destruct (Rlt_le_dec (zt t') (zt t)) as [h|h]; [exact h|exfalso].
  assert (E : zt t = zt t') by lra.
  destruct (Req_dec (zt t) 10) as [e|e].
  - (* z = 10 at t', but t' > A 10 *)
    assert (zt t' < 10); [|lra].
    destruct (Rlt_le_dec t' (A 0)) as [l|l]; [|rewrite (zt_late t' l); lra].
    destruct (locate (map A kn) t' ages_inc ages_2) as [K|[K|(k & Hk & K)]].
    + rewrite nth_ages in K by nk. replace (NK - 0)%nat with NK in K by nk. rewrite knotNK in K. lra.
    + rewrite ages_len, kn_length, nth_ages in K by nk. replace (NK - (S NK - 1))%nat with 0%nat in K by nk. rewrite knot0 in K. lra.
    + destruct (ival_spec _ _ ages_len ages_2 ages_inc t') as (_ & _ & _ & C). fold (zt t') in C. rewrite (C k Hk K).
      rewrite ages_len, kn_length in Hk.
      assert (D : nth (S k) kn 0 < nth k kn 0) by (apply kn_dec; rewrite ?kn_length; nk).
      assert (D2 : nth k (map A kn) 0 < nth (S k) (map A kn) 0) by lra.
      assert (M : nth k kn 0 <= 10) by (rewrite nth_kn by nk; apply knot_range; nk).
      destruct (Req_dec (nth k (map A kn) 0) t') as [q|q].
      * (* exactly at a knot other than the first *)
        rewrite q, Rminus_eq_0, Rmult_0_r, Rplus_0_r. rewrite nth_kn by nk.
        destruct k as [|k]; [exfalso; rewrite nth_ages in q by nk; replace (NK - 0)%nat with NK in q by nk; rewrite knotNK in q; lra|].
        replace 10 with (knot NK) by apply knotNK. apply knot_lt. nk.
      * assert (0 < (t' - nth k (map A kn) 0)) by lra.
        assert (0 < (nth k kn 0 - nth (S k) kn 0) / (nth (S k) (map A kn) 0 - nth k (map A kn) 0)) by (apply Rdiv_lt_0_compat; lra).
        assert (P : 0 < (nth k kn 0 - nth (S k) kn 0) / (nth (S k) (map A kn) 0 - nth k (map A kn) 0) * (t' - nth k (map A kn) 0))
          by (apply Rmult_lt_0_compat; lra).
        unfold Rdiv in *. replace (nth (S k) kn 0 - nth k kn 0) with (- (nth k kn 0 - nth (S k) kn 0)) by ring.
        rewrite !Ropp_mult_distr_l_reverse. lra.
  - destruct (age_at_exists (zt t) ltac:(lra)) as (a & Ha).
    assert (N1 : ~ t < a) by (intros K; apply (zt_crossing _ _ _ Ha) in K; lra).
    (* any z slightly below has a crossing after t' *)
    assert (N2 : a <= t) by lra.
    (* choose z = zt t'; t' >= a as well; show contradiction by strictness before A 0 *)
    destruct (locate (map A kn) t ages_inc ages_2) as [K|[K|(k & Hk & K)]].
    + rewrite nth_ages in K by nk. replace (NK - 0)%nat with NK in K by nk. rewrite knotNK in K.
      pose proof (zt_early t ltac:(lra)). lra.
    + rewrite ages_len, kn_length, nth_ages in K by nk. replace (NK - (S NK - 1))%nat with 0%nat in K by nk. rewrite knot0 in K. lra.
    + pose proof (seg_between _ _ ages_len ages_2 ages_inc kn_dec k t Hk K) as [S1 S2]. fold (zt t) in S1, S2.
      destruct (ival_spec _ _ ages_len ages_2 ages_inc t) as (_ & _ & _ & C). fold (zt t) in C. specialize (C k Hk K).
      assert (D2 : nth k (map A kn) 0 < nth (S k) (map A kn) 0) by lra.
      assert (D : nth (S k) kn 0 < nth k kn 0) by (apply kn_dec; rewrite ?kn_length; rewrite ages_len, kn_length in Hk; nk).
      destruct (Rlt_le_dec t' (nth (S k) (map A kn) 0)) as [l|l].
      * destruct (ival_spec _ _ ages_len ages_2 ages_inc t') as (_ & _ & _ & C'). fold (zt t') in C'. specialize (C' k Hk ltac:(lra)).
        assert (P : 0 < (nth k kn 0 - nth (S k) kn 0) / (nth (S k) (map A kn) 0 - nth k (map A kn) 0) * (t' - t))
          by (apply Rmult_lt_0_compat; [apply Rdiv_lt_0_compat|]; lra).
        assert (Q : zt t - zt t' = (nth k kn 0 - nth (S k) kn 0) / (nth (S k) (map A kn) 0 - nth k (map A kn) 0) * (t' - t)) by (rewrite C, C'; field; lra).
        lra.
      * assert (zt t' <= nth (S k) kn 0); [|lra].
        destruct (Nat.eq_dec (S k) NK) as [e'|e'].
        -- rewrite e' in l. rewrite nth_ages in l by nk. replace (NK - NK)%nat with 0%nat in l by nk. rewrite knot0 in l.
           rewrite (zt_late t' l). rewrite e', nth_kn by nk. replace (NK - NK)%nat with 0%nat by nk. rewrite knot0. lra.
        -- destruct (ival_spec _ _ ages_len ages_2 ages_inc (nth (S k) (map A kn) 0)) as (_ & _ & _ & C').
           fold (zt (nth (S k) (map A kn) 0)) in C'.
           rewrite ages_len, kn_length in *.
           specialize (C' (S k) ltac:(nk) (conj (Rle_refl _) (increasing_nth_lt _ ages_inc (S k) (S (S k)) ltac:(nk) ltac:(rewrite ages_len, kn_length; nk)))).
           rewrite Rminus_eq_0, Rmult_0_r, Rplus_0_r in C'. rewrite <- C'. apply zt_mono. exact l.
Qed.

Lemma snapshot_abs T zs : increasing T -> (2 <= length T)%nat -> hd 0 T < A 0 -> A 10 < last T 0 ->
  Forall (fun z => 0 <= z < 10) zs ->
  exists ids, vmap (fun z => np_digitize z (map g (map Fin T))) (map Fin zs) = Some ids /\
    Forall2 (fun z n => exists a, age_at A z a /\ n = count (below a) T) zs ids.
Proof.
  intros H L H0 H1 Hz.
  assert (N : T <> []) by (intros ->; simpl in L; nk).
  assert (HT : hd 0 T < last T 0).
  { pose proof (increasing_nth_lt T H 0 (length T - 1) ltac:(nk) ltac:(nk)) as K.
    destruct T as [|a T]; [contradiction|]. cbn [hd nth] in *. rewrite last_nth. exact K. }
  pose proof (zt_strict _ _ HT H0 H1) as HZ.
  induction Hz as [|z zs Hz _ IH].
  - exists []. split; [reflexivity|constructor].
  - destruct IH as (ids & E & F). destruct (age_at_exists z Hz) as (a & Ha).
    exists (count (below a) T :: ids). split.
    + cbn [map]. unfold vmap in *. cbn [map sequence].
      rewrite (digitize_one T z H N H0 H1 HT HZ). rewrite E. f_equal. f_equal.
      unfold count. f_equal. apply filter_ext. intros t. unfold below. pose proof (zt_crossing z a t Ha) as X.
      destruct (Rlt_dec z (zt t)), (Rlt_dec t a); tauto.
    + constructor; [exists a; auto|exact F].
Qed.

(** Redshift 10 and beyond select the first table time *)
Lemma snapshot_high_abs T z : increasing T -> (2 <= length T)%nat -> hd 0 T < A 0 -> A 10 < last T 0 -> 10 <= z ->
  vmap (fun z => np_digitize z (map g (map Fin T))) [Fin z] = Some [0%nat].
Proof.
  intros H L H0 H1 Hz. unfold vmap. cbn [map sequence].
  assert (N : T <> []) by (intros ->; simpl in L; nk).
  assert (HT : hd 0 T < last T 0).
  { pose proof (increasing_nth_lt T H 0 (length T - 1) ltac:(nk) ltac:(nk)) as K.
    destruct T as [|a T]; [contradiction|]. cbn [hd nth] in *. rewrite last_nth. exact K. }
  rewrite (digitize_one T z H N H0 H1 HT (zt_strict _ _ HT H0 H1)). f_equal. f_equal.
  unfold count. clear H L H0 H1 N HT. induction T as [|t T IH]; [reflexivity|]. cbn [filter].
  pose proof (zt_range t). destruct (Rlt_dec z (zt t)); [lra|exact IH].
Qed.
End Snap.

(** The knots of [get_redshift_from_age] *)
Definition kn0 : list R := rev (map knot (seq 0 2000)).
Lemma redshift_knots_eq : redshift_knots = map Fin kn0.
Proof.
  unfold redshift_knots, linspace, kn0. rewrite map_rev, map_map. f_equal. apply map_ext. intros i.
  replace (2000 - 1)%nat with 1999%nat by reflexivity. unfold knot.
  replace (INR 1999) with 1999 by (rewrite INR_IZR_INZ; reflexivity).
  xr_simp. rewrite xdiv_fin by lra. xr_simp. f_equal. field.
Qed.
Lemma kn0_length : length kn0 = 2000%nat.
Proof. unfold kn0. rewrite rev_length. apply knots_length. Qed.
Lemma nth_kn0 i : (i <= 1999)%nat -> nth i kn0 0 = knot (1999 - i).
Proof.
  intros H. unfold kn0. rewrite rev_nth by (rewrite knots_length; lia). rewrite knots_length.
  rewrite (nth_indep _ 0 (knot 0)) by (rewrite knots_length; lia).
  rewrite (map_nth knot). rewrite seq_nth by lia. reflexivity.
Qed.
Lemma knot_1999 : knot 1999 = 10. Proof. unfold knot. rewrite INR_IZR_INZ. simpl. lra. Qed.
Lemma in_kn0 z : In z kn0 -> 0 <= z <= 10.
Proof.
  unfold kn0. intros H. apply in_rev in H. apply in_map_iff in H. destruct H as (j & <- & Hj). apply in_seq in Hj.
  unfold knot. pose proof (pos_INR j). assert (INR j <= 1999); [|lra].
  replace 1999 with (INR 1999) by (rewrite INR_IZR_INZ; reflexivity). apply le_INR. lia.
Qed.

Definition decreasing_to_10 (A : R -> R) : Prop := forall z z', 0 <= z < z' -> z' <= 10 -> A z' < A z.
Section Real.
Variable age : xr -> xr.
Variable A : R -> R.
Hypothesis Hage : forall z, 0 <= z <= 10 -> age (Fin z) = Fin (A z).
Hypothesis HA : forall z z', 0 <= z < z' -> z' <= 10 -> A z' < A z.

Lemma get_redshift_eq t : get_redshift_from_age age (Fin t) = jnp_interp (Fin t) (map Fin (map A kn0)) (map Fin kn0).
Proof.
  unfold get_redshift_from_age, np_interp. rewrite redshift_knots_eq. f_equal. rewrite !map_map.
  apply map_ext_in. intros z Hz. apply Hage, in_kn0, Hz.
Qed.

Lemma snapshot T zs : increasing T -> (2 <= length T)%nat -> hd 0 T < A 0 -> A 10 < last T 0 ->
  Forall (fun z => 0 <= z < 10) zs ->
  exists ids, return_target_redshift_index age (map Fin T) (map Fin zs) = Some ids /\
    Forall2 (fun z n => exists a, age_at A z a /\ n = count (below a) T) zs ids.
Proof.
  apply (snapshot_abs 1999 kn0 (get_redshift_from_age age) A ltac:(lia) (fun j => iff_refl _) knot_1999 kn0_length nth_kn0 get_redshift_eq HA).
Qed.
Lemma snapshot_high T z : increasing T -> (2 <= length T)%nat -> hd 0 T < A 0 -> A 10 < last T 0 -> 10 <= z ->
  return_target_redshift_index age (map Fin T) [Fin z] = Some [0%nat].
Proof.
  apply (snapshot_high_abs 1999 kn0 (get_redshift_from_age age) A ltac:(lia) (fun j => iff_refl _) knot_1999 kn0_length nth_kn0 get_redshift_eq HA).
Qed.
End Real.
