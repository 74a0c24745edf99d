(** Time-interval arrays. *)
From Coq Require Import Reals Lra Lia List Bool Arith.
From Verif Require Import XReal XFacts RealFacts ModelUtils ModelKernels ModelSfh SpecCore IntegralProofs.
Import List ListNotations.
Open Scope R_scope.

Lemma nth_upd {A} (l : list A) j v i d : (j < length l)%nat ->
  nth i (upd l j v) d = if Nat.eqb i j then v else nth i l d.
Proof.
  revert j i. induction l as [|a l IH]; intros [|j] [|i] H; simpl in *; try lia; auto.
  rewrite IH by lia. reflexivity.
Qed.

Lemma nth_upd_slice {A} (vs : list A) : forall l j i d, (j + length vs <= length l)%nat ->
  nth i (upd_slice l j vs) d
  = if (Nat.leb j i && Nat.ltb i (j + length vs))%bool then nth (i - j) vs d else nth i l d.
Proof.
  induction vs as [|v vs IH]; intros l j i d H.
  - cbn [upd_slice length]. replace (j + 0)%nat with j by lia.
    destruct (Nat.leb_spec j i); destruct (Nat.ltb_spec i j); cbn [andb]; try reflexivity; lia.
  - cbn [upd_slice]. simpl in H. rewrite IH by (rewrite upd_length; lia).
    rewrite nth_upd by lia. simpl length.
    destruct (Nat.leb_spec (S j) i); destruct (Nat.ltb_spec i (S j + length vs));
      destruct (Nat.leb_spec j i); destruct (Nat.ltb_spec i (j + S (length vs))); cbn [andb]; try lia;
      destruct (Nat.eqb_spec i j); try lia; subst; auto.
    + replace (i - j)%nat with (S (i - S j)) by lia. reflexivity.
    + rewrite Nat.sub_diag. reflexivity.
Qed.

Lemma length_tail {A} (l : list A) : length (tail_ l) = (length l - 1)%nat.
Proof. destruct l; simpl; lia. Qed.
Lemma length_init {A} (l : list A) : length (init_ l) = (length l - 1)%nat.
Proof.
  unfold init_. induction l as [|a l IH]; [reflexivity|]. destruct l; [reflexivity|].
  change (length (removelast (a :: a0 :: l))) with (S (length (removelast (a0 :: l)))).
  rewrite IH. simpl. lia.
Qed.
Lemma nth_tail {A} (l : list A) i d : nth i (tail_ l) d = nth (S i) l d.
Proof. destruct l; simpl; auto. destruct i; reflexivity. Qed.
Lemma nth_init {A} (l : list A) i d : (i < length l - 1)%nat -> nth i (init_ l) d = nth i l d.
Proof.
  unfold init_. revert i. induction l as [|a l IH]; intros i H; [simpl in H; lia|].
  destruct l as [|b l]; [simpl in H; lia|].
  change (removelast (a :: b :: l)) with (a :: removelast (b :: l)).
  destruct i; [reflexivity|]. cbn [nth]. apply IH. simpl in *. lia.
Qed.
Lemma last_nth {A} (l : list A) d : last l d = nth (length l - 1) l d.
Proof.
  induction l as [|a l IH]; [reflexivity|]. destruct l as [|b l]; [reflexivity|].
  change (last (a :: b :: l) d) with (last (b :: l) d). rewrite IH.
  simpl length. replace (S (S (length l)) - 1)%nat with (S (length l)) by lia.
  cbn [nth]. replace (S (length l) - 1)%nat with (length l) by lia. reflexivity.
Qed.

Lemma nth_Fin (l : list R) i : (i < length l)%nat -> nth i (map Fin l) NaN = Fin (nth i l 0).
Proof. intros. apply nth_map. assumption. Qed.

Ltac len := unfold zeros; repeat (rewrite upd_slice_length || rewrite upd_length || rewrite map2_length
  || rewrite length_tail || rewrite length_init || rewrite map_length || rewrite repeat_length); try lia.

Definition mids (t : list xr) := map2 (fun a b => Fin (1 / 2) * (a + b))%X (init_ t) (tail_ t).
Lemma mids_length t : length (mids t) = (length t - 1)%nat.
Proof. unfold mids. len. Qed.
Lemma mids_nth (t : list R) i : (i < length t - 1)%nat ->
  nth i (mids (map Fin t)) NaN = Fin ((nth i t 0 + nth (S i) t 0) / 2).
Proof.
  intros H. unfold mids. rewrite (map2_nth _ _ _ i NaN NaN) by len.
  rewrite nth_init by len. rewrite nth_tail, !nth_Fin by lia. xr_simp. f_equal. field.
Qed.
Lemma dmids_nth (t : list R) i : (i < length t - 2)%nat ->
  nth i (diff_ (mids (map Fin t))) NaN = Fin ((nth (S (S i)) t 0 - nth i t 0) / 2).
Proof.
  intros H. unfold diff_. rewrite (map2_nth _ _ _ i NaN NaN) by (len; rewrite mids_length; len).
  rewrite nth_init by (rewrite mids_length; len). rewrite nth_tail, !mids_nth by lia.
  xr_simp. f_equal. field.
Qed.
Lemma diff_length t : length (diff_ t) = (length t - 1)%nat.
Proof. unfold diff_. len. Qed.

Lemma Fin_ext_nth l n (f : nat -> R) : length l = n ->
  (forall i, (i < n)%nat -> nth i l NaN = Fin (f i)) ->
  l = map Fin (map f (seq 0 n)).
Proof.
  intros <- H. apply nth_ext with (d := NaN) (d' := NaN).
  - rewrite !map_length, seq_length. reflexivity.
  - intros i Hi. rewrite H by exact Hi. rewrite nth_Fin by (rewrite map_length, seq_length; exact Hi).
    f_equal. rewrite (nth_map f (seq 0 (length l)) i 0%nat) by (rewrite seq_length; exact Hi).
    rewrite seq_nth by exact Hi. reflexivity.
Qed.

Lemma edge_0 t : dt_edge t 0 = nth 0 t 0 - (nth 1 t 0 - nth 0 t 0) / 2.
Proof. reflexivity. Qed.
Lemma edge_mid t i : (0 < i < length t)%nat -> dt_edge t i = (nth (i - 1) t 0 + nth i t 0) / 2.
Proof.
  intros H. unfold dt_edge. destruct (Nat.eqb_spec i 0); [lia|].
  destruct (Nat.eqb_spec i (length t)); [lia|]. reflexivity.
Qed.
Lemma edge_last t : (3 <= length t)%nat -> dt_edge t (length t)
  = nth (length t - 1) t 0 + (nth (length t - 1) t 0 - nth (length t - 3) t 0) / 4.
Proof.
  intros H. unfold dt_edge. destruct (Nat.eqb_spec (length t) 0); [lia|].
  rewrite Nat.eqb_refl. destruct (Nat.eqb_spec (length t) 2); [lia|]. reflexivity.
Qed.
Lemma edge_last2 t : length t = 2%nat -> dt_edge t (length t) = nth 1 t 0 + (nth 1 t 0 - nth 0 t 0) / 2.
Proof. intros H. unfold dt_edge. rewrite H. reflexivity. Qed.

Definition dtR (t : list R) : list R := map (fun i => dt_edge t (S i) - dt_edge t i) (seq 0 (length t)).

Lemma dtR_length t : length (dtR t) = length t.
Proof. unfold dtR. rewrite map_length, seq_length. reflexivity. Qed.
Lemma dtR_nth t i : (i < length t)%nat -> nth i (dtR t) 0 = dt_edge t (S i) - dt_edge t i.
Proof.
  intros H. unfold dtR. rewrite (nth_map _ (seq 0 (length t)) i 0%nat) by (rewrite seq_length; exact H).
  rewrite seq_nth by exact H. reflexivity.
Qed.

Lemma jax_dt_fin t : (3 <= length t)%nat ->
  jax_get_dt_array (map Fin t) = Some (map Fin (dtR t)).
Proof.
  intros Hn. unfold jax_get_dt_array. rewrite map_length.
  replace (length t <? 3)%nat with false by (symmetry; apply Nat.ltb_ge; lia).
  fold (mids (map Fin t)). set (n := length t).
  f_equal.
  match goal with |- ?l = _ => assert (L : length l = n) by (len) end.
  assert (Hn' : (3 <= n)%nat) by exact Hn.
  unfold dtR. fold n. apply Fin_ext_nth; [exact L|]. intros i Hi.
  assert (Ld : length (diff_ (mids (map Fin t))) = (n - 2)%nat)
    by (rewrite diff_length, mids_length, map_length; fold n; lia).
  rewrite nth_upd by (len).
  rewrite nth_upd by (len).
  rewrite nth_upd_slice by (unfold zeros; rewrite repeat_length, Ld; lia).
  unfold last_, at_. rewrite !last_nth, Ld, mids_length, map_length. fold n.
  rewrite !(nth_Fin t) by (fold n; lia). rewrite !mids_nth by (fold n; lia).
  rewrite dmids_nth by (fold n; lia).
  destruct (Nat.eqb_spec i (n - 1)).
  - subst i. replace (S (n - 1)) with n by lia. pose proof (edge_last t Hn) as EL. fold n in EL. rewrite EL.
    rewrite edge_mid by (fold n; lia). fold n.
    rewrite xdiv_fin by lra. xr_simp. f_equal.
    replace (S (S (n - 2 - 1))) with (n - 1)%nat by lia.
    replace (n - 2 - 1)%nat with (n - 3)%nat by lia.
    replace (S (n - 1 - 1)) with (n - 1)%nat by lia. lra.
  - rewrite (edge_mid t (S i)) by (fold n; lia). replace (S i - 1)%nat with i by lia.
    destruct (Nat.eqb_spec i 0).
    + subst i. rewrite edge_0. xr_simp. rewrite xdiv_fin by lra. xr_simp. apply f_equal. lra.
    + replace (Nat.leb 1 i) with true by (symmetry; apply Nat.leb_le; lia).
      replace (Nat.ltb i (1 + (n - 2))) with true by (symmetry; apply Nat.ltb_lt; lia).
      cbn [andb]. rewrite dmids_nth by (fold n; lia). rewrite edge_mid by (fold n; lia).
      f_equal. replace (S (S (i - 1))) with (S i) by lia. lra.
Qed.

(** NumPy loop *)
Lemma loop_inv (t : list R) : (2 <= length t)%nat -> forall k, (k <= length t - 1)%nat ->
  exists dt, fold_left (get_dt_loop (map Fin t)) (seq 0 k) (zeros (length t), Fin (dt_edge t 0))
    = (dt, Fin (dt_edge t k)) /\ length dt = length t /\
    forall i, (i < k)%nat -> nth i dt NaN = Fin (dt_edge t (S i) - dt_edge t i).
Proof.
  intros Hn. induction k as [|k IH]; intros Hk.
  - exists (zeros (length t)). split; [reflexivity|]. split; [apply repeat_length|]. intros; lia.
  - destruct IH as (dt & E & L & H); [lia|].
    replace (S k) with (k + 1)%nat by lia. rewrite seq_app, fold_left_app, E. cbn [seq fold_left Nat.add].
    unfold get_dt_loop. unfold at_. rewrite !nth_Fin by lia. xr_simp. rewrite xdiv_fin by lra.
    assert (Ee : (nth (k + 1) t 0 + nth k t 0) / 2 = dt_edge t (S k)).
    { rewrite edge_mid by lia. replace (S k - 1)%nat with k by lia. replace (k + 1)%nat with (S k) by lia. lra. }
    rewrite Ee. replace (k + 1)%nat with (S k) by lia.
    eexists. split; [reflexivity|]. split; [rewrite upd_length; exact L|].
    intros i Hi. rewrite nth_upd by lia. xr_simp.
    destruct (Nat.eqb_spec i k); [subst; reflexivity|]. apply H. lia.
Qed.

Lemma np_dt_fin t : (2 <= length t)%nat -> get_dt_array (map Fin t) = Some (map Fin (dtR t)).
Proof.
  intros Hn. unfold get_dt_array. rewrite map_length. set (n := length t).
  replace (n <? 2)%nat with false by (symmetry; apply Nat.ltb_ge; lia).
  unfold at_ at 1 2 3. rewrite !nth_Fin by lia. xr_simp. rewrite xdiv_fin by lra. xr_simp.
  destruct (loop_inv t Hn (n - 1)) as (dt & E & L & H); [fold n; lia|]. fold n in E, L.
  replace (dt_edge t 0) with (nth 0 t 0 + - ((nth 1 t 0 + - nth 0 t 0) / 2)) in E
    by (unfold dt_edge; cbn [Nat.eqb]; lra).
  rewrite E. f_equal.
  match goal with |- ?l = _ => assert (L' : length l = n) by (rewrite upd_length; exact L) end.
  unfold dtR. fold n. apply Fin_ext_nth; [exact L'|]. intros i Hi.
  rewrite nth_upd by lia. destruct (Nat.eqb_spec i (n - 1)) as [->|Hne]; [|apply H; lia].
  unfold at_. rewrite nth_Fin by (fold n; lia). rewrite H by lia.
  rewrite xdiv_fin by lra. xr_simp. f_equal.
  replace (S (n - 2)) with (n - 1)%nat by lia. replace (S (n - 1)) with n by lia.
  destruct (Nat.eq_dec n 2) as [H2|H2].
  - pose proof (edge_last2 t H2) as EL. fold n in EL. rewrite EL, H2. cbn [Nat.sub].
    rewrite edge_0, edge_mid by (fold n; lia). cbn [Nat.sub]. lra.
  - pose proof (edge_last t ltac:(fold n; lia)) as EL. fold n in EL. rewrite EL.
    rewrite (edge_mid t (n - 1)), (edge_mid t (n - 2)) by (fold n; lia).
    replace (n - 1 - 1)%nat with (n - 2)%nat by lia. replace (n - 2 - 1)%nat with (n - 3)%nat by lia. lra.
Qed.

Lemma increasing_nth_lt t : increasing t -> forall i j, (i < j)%nat -> (j < length t)%nat -> nth i t 0 < nth j t 0.
Proof.
  induction t as [|a t IH]; intros H i j Hij Hj; [simpl in Hj; lia|].
  destruct j as [|j]; [lia|]. simpl in Hj. destruct i as [|i].
  - cbn [nth]. apply increasing_head_lt; [exact H|lia].
  - cbn [nth]. apply IH; [apply increasing_tail in H; exact H|lia|lia].
Qed.

Lemma edge_lt t i : (2 <= length t)%nat -> increasing t -> (i < length t)%nat -> dt_edge t i < dt_edge t (S i).
Proof.
  intros Hn Hinc Hi. set (n := length t) in *.
  pose proof (increasing_nth_lt t Hinc) as M.
  assert (H01 : nth 0 t 0 < nth 1 t 0) by (apply M; lia).
  destruct (Nat.eq_dec i 0) as [->|Hi0].
  - rewrite edge_0, edge_mid by (fold n; lia). cbn [Nat.sub]. lra.
  - rewrite (edge_mid t i) by (fold n; lia).
    assert (nth (i - 1) t 0 < nth i t 0) by (apply M; lia).
    destruct (Nat.eq_dec (S i) n) as [e|e].
    + rewrite e. destruct (Nat.eq_dec n 2) as [H2|H2].
      * pose proof (edge_last2 t H2) as EL. fold n in EL. rewrite EL.
        assert (i = 1)%nat by lia. subst i. cbn [Nat.sub]. lra.
      * pose proof (edge_last t ltac:(fold n; lia)) as EL. fold n in EL. rewrite EL.
        replace (n - 1)%nat with i by lia.
        assert (nth (n - 3) t 0 < nth i t 0) by (apply M; lia). lra.
    + rewrite edge_mid by (fold n; lia). replace (S i - 1)%nat with i by lia.
      assert (nth i t 0 < nth (S i) t 0) by (apply M; lia). lra.
Qed.

Lemma sum_telescope (f : nat -> R) n : fold_right Rplus 0 (map (fun i => f (S i) - f i) (seq 0 n)) = f n - f 0%nat.
Proof.
  induction n as [|n IH]; [simpl; ring|].
  replace (S n) with (n + 1)%nat by lia. rewrite seq_app, map_app, fold_right_app. cbn [seq map fold_right Nat.add].
  assert (G : forall l c, fold_right Rplus c l = fold_right Rplus 0 l + c).
  { induction l as [|a l IHl]; intros c; simpl; [ring|]. rewrite IHl. ring. }
  rewrite G, IH. replace (n + 1)%nat with (S n) by lia. ring.
Qed.

Lemma dt_arrays t : (3 <= length t)%nat -> exists d,
  jax_get_dt_array (map Fin t) = Some (map Fin d) /\ get_dt_array (map Fin t) = Some (map Fin d) /\
  length d = length t /\
  (forall i, (i < length t)%nat -> nth i d 0 = dt_edge t (S i) - dt_edge t i) /\
  fold_right Rplus 0 d = dt_edge t (length t) - dt_edge t 0 /\
  (increasing t -> Forall (fun x => 0 < x) d).
Proof.
  intros Hn. exists (dtR t). split; [apply jax_dt_fin, Hn|]. split; [apply np_dt_fin; lia|].
  split; [apply dtR_length|]. split; [apply dtR_nth|]. split; [apply (sum_telescope (dt_edge t))|].
  intros Hinc. apply Forall_forall. intros x Hx. unfold dtR in Hx. apply in_map_iff in Hx as (i & <- & Hi).
  apply in_seq in Hi. pose proof (edge_lt t i ltac:(lia) Hinc ltac:(lia)). lra.
Qed.

Lemma np_dt_arrays t : (2 <= length t)%nat -> exists d,
  get_dt_array (map Fin t) = Some (map Fin d) /\ length d = length t /\
  (forall i, (i < length t)%nat -> nth i d 0 = dt_edge t (S i) - dt_edge t i) /\
  fold_right Rplus 0 d = dt_edge t (length t) - dt_edge t 0 /\
  (increasing t -> Forall (fun x => 0 < x) d).
Proof.
  intros Hn. exists (dtR t). split; [apply np_dt_fin; lia|].
  split; [apply dtR_length|]. split; [apply dtR_nth|]. split; [apply (sum_telescope (dt_edge t))|].
  intros Hinc. apply Forall_forall. intros x Hx. unfold dtR in Hx. apply in_map_iff in Hx as (i & <- & Hi).
  apply in_seq in Hi. pose proof (edge_lt t i ltac:(lia) Hinc ltac:(lia)). lra.
Qed.

Lemma np_dt_short t : (length t < 2)%nat -> get_dt_array t = None.
Proof. intros H. unfold get_dt_array. replace (length t <? 2)%nat with true by (symmetry; apply Nat.ltb_lt; lia). reflexivity. Qed.

(** Edges commute with affine maps of the values *)
Lemma edge_affine a b t i : (2 <= length t)%nat -> (i <= length t)%nat ->
  dt_edge (map (fun x => a * x + b) t) i = a * dt_edge t i + b.
Proof.
  intros Hn Hi. unfold dt_edge. rewrite map_length. set (n := length t) in *.
  assert (N : forall j, (j < n)%nat -> nth j (map (fun x => a * x + b) t) 0 = a * nth j t 0 + b).
  { intros j Hj. apply nth_map with (f := fun x => a * x + b). exact Hj. }
  destruct (Nat.eqb_spec i 0).
  - rewrite !N by lia. field.
  - destruct (Nat.eqb_spec i n).
    + rewrite !N by lia. destruct (Nat.eqb n 2); field.
    + rewrite !N by lia. field.
Qed.
