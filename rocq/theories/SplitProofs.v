(** The split of a catalog over ranks, block loading, and the fitting scripts end to end. *)
From Coq Require Import Reals List Bool ZArith Ascii String Lia Lra.
From Verif Require Import XReal ModelUtils ModelKernels ModelSfh ModelLoad ModelIO SpecFit SpecIO
  RealFacts XFacts SfhProofs TextProofs TableProofs.
Import List ListNotations.
Open Scope nat_scope.

(** ** np.array_split *)
Fixpoint split_sizes {A} (ss : list nat) (a : list A) : list (list A) :=
  match ss with [] => [] | s :: ss => firstn s a :: split_sizes ss (skipn s a) end.

Lemma skipn_skipn : forall {A} (p s : nat) (a : list A), skipn s (skipn p a) = skipn (p + s) a.
Proof.
  intros A p. induction p as [|p IH]; intros s a; [reflexivity|].
  destruct a; [rewrite !skipn_nil; reflexivity|]. cbn [skipn Nat.add]. apply IH.
Qed.

Lemma slices_split : forall {A} ss (a : list A) p,
  map (fun i => let st := nth i (p :: cumsum p ss) 0 in let en := nth (i + 1) (p :: cumsum p ss) 0 in
                firstn (en - st) (skipn st a)) (seq 0 (List.length ss))
  = split_sizes ss (skipn p a).
Proof.
  intros A. induction ss as [|s ss IH]; intros a p; [reflexivity|].
  cbn [List.length seq map]. cbv zeta. cbn [Nat.add nth cumsum]. replace (p + s - p) with s by lia.
  change (split_sizes (s :: ss) (skipn p a)) with (firstn s (skipn p a) :: split_sizes ss (skipn s (skipn p a))).
  apply f_equal. rewrite skipn_skipn. rewrite <- (IH a (p + s)).
  rewrite <- seq_shift, map_map. apply map_ext. intro i. cbn [Nat.add nth]. reflexivity.
Qed.

Lemma concat_split_sizes : forall {A} ss (a : list A), List.length a <= fold_right Nat.add 0 ss ->
  List.concat (split_sizes ss a) = a.
Proof.
  intros A. induction ss as [|s ss IH]; intros a H; cbn [split_sizes List.concat fold_right] in *.
  - destruct a; [reflexivity|cbn in H; lia].
  - rewrite IH by (rewrite skipn_length; lia). apply firstn_skipn.
Qed.
Lemma split_sizes_length : forall {A} ss (a : list A), List.length (split_sizes ss a) = List.length ss.
Proof. intros A. induction ss; intros; cbn [split_sizes List.length]; auto. Qed.
Lemma split_sizes_nth : forall {A} ss (a : list A) r, r < List.length ss ->
  nth_error (split_sizes ss a) r =
  Some (firstn (nth r ss 0) (skipn (fold_right Nat.add 0 (firstn r ss)) a)).
Proof.
  intros A. induction ss as [|s ss IH]; intros a r H; [cbn in H; lia|].
  destruct r as [|r]; [reflexivity|]. cbn [split_sizes nth_error nth firstn fold_right].
  rewrite IH by (cbn in H; lia). rewrite skipn_skipn. reflexivity.
Qed.

Lemma sum_app : forall a b, fold_right Nat.add 0 (a ++ b) = fold_right Nat.add 0 a + fold_right Nat.add 0 b.
Proof. induction a; intros; cbn [app fold_right]; [reflexivity|rewrite IHa; lia]. Qed.
Lemma sum_repeat : forall x n, fold_right Nat.add 0 (repeat x n) = n * x.
Proof. induction n; cbn [repeat fold_right]; [reflexivity|rewrite IHn; lia]. Qed.

Definition rank_sizes (N n : nat) : list nat := repeat (N / n + 1) (N mod n) ++ repeat (N / n) (n - N mod n).
Lemma rank_sizes_length : forall N n, 0 < n -> List.length (rank_sizes N n) = n.
Proof.
  intros N n H. unfold rank_sizes. rewrite app_length, !repeat_length.
  pose proof (Nat.mod_upper_bound N n). lia.
Qed.
Lemma rank_sizes_sum : forall N n, 0 < n -> fold_right Nat.add 0 (rank_sizes N n) = N.
Proof.
  intros N n H. unfold rank_sizes. rewrite sum_app, !sum_repeat.
  pose proof (Nat.mod_upper_bound N n). pose proof (Nat.div_mod N n).
  assert (E : N = n * (N / n) + N mod n) by lia.
  set (q := N / n) in *. set (r := N mod n) in *. clearbody q r. nia.
Qed.
Lemma nth_repeat_lt : forall {A} (x d : A) n i, i < n -> nth i (repeat x n) d = x.
Proof. intros A x d. induction n; intros i H; [lia|]. destruct i; [reflexivity|]. cbn. apply IHn. lia. Qed.
Lemma rank_sizes_nth : forall N n r, 0 < n -> r < n ->
  nth r (rank_sizes N n) 0 = N / n + (if r <? N mod n then 1 else 0).
Proof.
  intros N n r H Hr. unfold rank_sizes. pose proof (Nat.mod_upper_bound N n).
  destruct (Nat.ltb_spec r (N mod n)) as [L|L].
  - rewrite app_nth1 by (rewrite repeat_length; exact L).
    rewrite nth_repeat_lt by exact L. reflexivity.
  - rewrite app_nth2 by (rewrite repeat_length; exact L). rewrite repeat_length.
    rewrite nth_repeat_lt by lia. lia.
Qed.

Lemma array_split_sizes : forall {A} (a : list A) n, 0 < n ->
  array_split a n = Some (split_sizes (rank_sizes (List.length a) n) a).
Proof.
  intros A a n H. unfold array_split. destruct (Nat.eqb_spec n 0) as [E|E]; [lia|]. cbv zeta.
  apply f_equal. change ([0] ++ repeat (List.length a / n + 1) (List.length a mod n) ++ repeat (List.length a / n) (n - List.length a mod n))
    with (0 :: rank_sizes (List.length a) n).
  change (cumsum 0 (0 :: rank_sizes (List.length a) n)) with (0 :: cumsum 0 (rank_sizes (List.length a) n)).
  pose proof (slices_split (rank_sizes (List.length a) n) a 0) as S.
  rewrite (rank_sizes_length (List.length a) n H) in S. exact S.
Qed.

(** first index of a rank *)
Definition rank_start (N n r : nat) : nat := fold_right Nat.add 0 (firstn r (rank_sizes N n)).
Definition rank_load (N n r : nat) : nat := nth r (rank_sizes N n) 0.

Lemma sum_firstn_le : forall ss r, fold_right Nat.add 0 (firstn r ss) + nth r ss 0 <= fold_right Nat.add 0 ss.
Proof.
  induction ss as [|s ss IH]; intros r; [destruct r; cbn; lia|].
  destruct r as [|r]; cbn [firstn fold_right nth]; [lia|]. specialize (IH r). lia.
Qed.
Lemma rank_range : forall N n r, 0 < n -> rank_start N n r + rank_load N n r <= N.
Proof. intros N n r H. rewrite <- (rank_sizes_sum N n H) at 3. apply sum_firstn_le. Qed.

Lemma firstn_skipn_seq : forall l s n, s + l <= n -> firstn l (skipn s (seq 0 n)) = seq s l.
Proof.
  intros l s n H. replace n with (s + (l + (n - s - l))) by lia.
  rewrite seq_app, skipn_app, seq_length, Nat.sub_diag. rewrite skipn_all2 by (rewrite seq_length; lia).
  cbn [app skipn Nat.add]. rewrite seq_app, firstn_app, seq_length, Nat.sub_diag. cbn [firstn].
  rewrite app_nil_r. apply firstn_all2. rewrite seq_length. lia.
Qed.

Lemma indices_for_rank_seq : forall N n r, r < n ->
  indices_for_rank N n r = Some (seq (rank_start N n r) (rank_load N n r)).
Proof.
  intros N n r H. unfold indices_for_rank. rewrite array_split_sizes by lia. rewrite seq_length.
  rewrite split_sizes_nth by (rewrite rank_sizes_length; lia).
  fold (rank_start N n r) (rank_load N n r). rewrite firstn_skipn_seq; [reflexivity|].
  apply rank_range. lia.
Qed.

Lemma concat_ranks : forall N n, 0 < n ->
  List.concat (map (fun r => seq (rank_start N n r) (rank_load N n r)) (seq 0 n)) = seq 0 N.
Proof.
  intros N n H.
  assert (E : map (fun r => seq (rank_start N n r) (rank_load N n r)) (seq 0 n) = split_sizes (rank_sizes N n) (seq 0 N)).
  { apply nth_ext with (d := []) (d' := []).
    - rewrite map_length, seq_length, split_sizes_length, rank_sizes_length by exact H. reflexivity.
    - intros r Hr. rewrite map_length, seq_length in Hr.
      pose proof (indices_for_rank_seq N n r Hr) as I. unfold indices_for_rank in I.
      rewrite array_split_sizes, seq_length in I by exact H.
      rewrite (nth_error_nth _ _ _ I).
      apply nth_error_nth. rewrite nth_error_map, (nth_error_nth' _ 0) by (rewrite seq_length; exact Hr).
      rewrite seq_nth by exact Hr. reflexivity. }
  rewrite E. apply concat_split_sizes. rewrite seq_length, rank_sizes_sum by exact H. lia.
Qed.

Lemma rank_load_value : forall N n r, 0 < n -> r < n -> rank_load N n r = N / n + (if r <? N mod n then 1 else 0).
Proof. exact rank_sizes_nth. Qed.

(** Every element of a split array is in exactly one part, in order. *)
Lemma array_split_concat : forall {A} (a : list A) n parts, array_split a n = Some parts ->
  List.concat parts = a /\ List.length parts = n /\
  forall r part, nth_error parts r = Some part -> List.length part = rank_load (List.length a) n r.
Proof.
  intros A a n parts H.
  destruct (Nat.eq_dec n 0) as [E|E]; [subst n; discriminate|].
  rewrite array_split_sizes in H by lia. injection H as <-.
  split; [apply concat_split_sizes; rewrite rank_sizes_sum by lia; lia|].
  split; [rewrite split_sizes_length; apply rank_sizes_length; lia|].
  intros r part Hp.
  assert (Hr : r < n).
  { apply nth_error_Some_lt in Hp || (assert (nth_error (split_sizes (rank_sizes (List.length a) n) a) r <> None) by congruence;
      apply nth_error_Some in H; rewrite split_sizes_length, rank_sizes_length in H by lia; exact H). }
  rewrite split_sizes_nth in Hp by (rewrite rank_sizes_length; lia). injection Hp as <-.
  rewrite firstn_length, skipn_length. fold (rank_start (List.length a) n r) (rank_load (List.length a) n r).
  pose proof (rank_range (List.length a) n r). lia.
Qed.
