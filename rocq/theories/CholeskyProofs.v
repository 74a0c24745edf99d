(** The Cholesky factor of a positive definite matrix: it exists, has positive pivots and
    reproduces the matrix. *)
From Coq Require Import Reals List Lia Lra.
From Verif Require Import XReal XFacts ModelUtils ModelPop SpecPop ModelGrad ModelPopGrad SpecPopGrad.
Import ListNotations.
Open Scope R_scope.

(** ** Finite sums *)
Lemma sumR_S f n : sumR f (S n) = sumR f n + f n.
Proof.
  unfold sumR. rewrite seq_S, map_app. cbn [map plus]. induction (map f (seq 0 n)) as [|a l IH]; cbn; [lra|]. rewrite IH. lra.
Qed.
Lemma sumR_0 f : sumR f 0 = 0. Proof. reflexivity. Qed.
Lemma sumR_ext f g n : (forall i, (i < n)%nat -> f i = g i) -> sumR f n = sumR g n.
Proof. induction n as [|n IH]; intros H; [reflexivity|]. rewrite !sumR_S, IH by (intros; apply H; lia). rewrite (H n) by lia. reflexivity. Qed.
Lemma sumR_plus f g n : sumR (fun i => f i + g i) n = sumR f n + sumR g n.
Proof. induction n as [|n IH]; [rewrite !sumR_0; lra|]. rewrite !sumR_S, IH. lra. Qed.
Lemma sumR_scal c f n : sumR (fun i => c * f i) n = c * sumR f n.
Proof. induction n as [|n IH]; [rewrite !sumR_0; lra|]. rewrite !sumR_S, IH. lra. Qed.
Lemma sumR_zero n : sumR (fun _ => 0) n = 0.
Proof. induction n as [|n IH]; [reflexivity|]. rewrite sumR_S, IH. lra. Qed.
Lemma sumR_swap f n m : sumR (fun i => sumR (fun j => f i j) m) n = sumR (fun j => sumR (fun i => f i j) n) m.
Proof.
  induction n as [|n IH]; [rewrite sumR_0; symmetry; rewrite (sumR_ext _ (fun _ => 0)) by reflexivity; apply sumR_zero|].
  rewrite sumR_S, IH, <- sumR_plus. apply sumR_ext. intros j _. rewrite sumR_S. reflexivity.
Qed.
Lemma sumR_extend f n m : (n <= m)%nat -> (forall i, (n <= i < m)%nat -> f i = 0) -> sumR f m = sumR f n.
Proof.
  intros H. induction H as [|m H IH]; intros Z; [reflexivity|]. rewrite sumR_S, IH by (intros; apply Z; lia). rewrite Z by lia. lra.
Qed.

(** ** Lists of reals *)
Definition vec (f : nat -> R) (n : nat) : list xr := map (fun i => Fin (f i)) (seq 0 n).
Lemma vec_len f n : length (vec f n) = n. Proof. unfold vec. rewrite map_length, seq_length. reflexivity. Qed.
Lemma vec_nth f n i d : (i < n)%nat -> nth i (vec f n) d = Fin (f i).
Proof. intros H. unfold vec. rewrite (nth_indep _ d (Fin (f 0%nat))) by (rewrite map_length, seq_length; exact H). rewrite (map_nth (fun i => Fin (f i))), seq_nth by exact H. reflexivity. Qed.
Lemma vec_S f n : vec f (S n) = vec f n ++ [Fin (f n)].
Proof. unfold vec. rewrite seq_S, map_app. reflexivity. Qed.
Lemma vec_ext f g n : (forall i, (i < n)%nat -> f i = g i) -> vec f n = vec g n.
Proof. intros H. unfold vec. apply map_ext_in. intros i Hi. apply in_seq in Hi. rewrite H by lia. reflexivity. Qed.
Lemma vec_firstn f n k : (k <= n)%nat -> firstn k (vec f n) = vec f k.
Proof. intros H. unfold vec. replace n with (k + (n - k))%nat by lia. rewrite seq_app, map_app, firstn_app, map_length, seq_length, Nat.sub_diag, firstn_O, app_nil_r. apply firstn_all2. rewrite map_length, seq_length. lia. Qed.
Notation xdotp := (dotp xr (Fin 0) xadd xmul).
Notation xrow := (chol_row xr (Fin 0) xadd xsub xmul xdiv xsqrt).
Notation xchol := (cholesky xr (Fin 0) xadd xsub xmul xdiv xsqrt).
Lemma map2_app {A B C} (f : A -> B -> C) a b a' b' : length a = length b -> map2 f (a ++ a') (b ++ b') = map2 f a b ++ map2 f a' b'.
Proof. revert b. induction a as [|x a IH]; intros [|y b] H; cbn in *; try lia; [reflexivity|]. rewrite IH by lia. reflexivity. Qed.
Lemma dotp_vec f g n : xdotp (vec f n) (vec g n) = Fin (sumR (fun i => f i * g i) n).
Proof.
  unfold dotp, sumR, vec. generalize (seq 0 n). induction l as [|a l IH]; [reflexivity|]. cbn [map map2 fold_right]. rewrite IH. reflexivity.
Qed.

(** Back substitution. *)
Lemma back_solve (L : nat -> nat -> R) : forall k y, (forall i, (i < k)%nat -> L i i <> 0) ->
  (forall i j, (i < j)%nat -> L i j = 0) ->
  exists w, forall j, (j < k)%nat -> sumR (fun i => L i j * w i) k = y j.
Proof.
  induction k as [|k IH]; intros y HL HT; [exists (fun _ => 0); intros; lia|].
  set (wk := y k / L k k). destruct (IH (fun j => y j - L k j * wk)) as [w Hw]; [intros; apply HL; lia|exact HT|].
  exists (fun i => if Nat.eqb i k then wk else w i). intros j Hj. rewrite sumR_S, Nat.eqb_refl.
  rewrite (sumR_ext _ (fun i => L i j * w i)) by (intros i Hi; replace (Nat.eqb i k) with false by (symmetry; apply Nat.eqb_neq; lia); reflexivity).
  destruct (Nat.eq_dec j k) as [->|n].
  - rewrite (sumR_ext _ (fun _ => 0)), sumR_zero by (intros i Hi; rewrite HT by lia; ring). unfold wk. field. apply HL. lia.
  - rewrite Hw by lia. ring.
Qed.

Definition good (L M : nat -> nat -> R) (k : nat) : Prop :=
  (forall i, (i < k)%nat -> 0 < L i i) /\ (forall i j, (i < j)%nat -> L i j = 0) /\
  (forall i j, (i < k)%nat -> (j < k)%nat -> sumR (fun l => L i l * L j l) k = M i j).
Definition tri (L : nat -> nat -> R) (k : nat) : list (list xr) := map (fun i => vec (L i) (S i)) (seq 0 k).

Lemma pivot_pos L M n k y : (k < n)%nat -> (forall i j, M i j = M j i) ->
  (forall v : nat -> R, (exists i, (i < n)%nat /\ v i <> 0) -> 0 < sumR (fun i => sumR (fun j => v i * M i j * v j) n) n) ->
  good L M k -> (forall j, (j < k)%nat -> sumR (fun l => y l * L j l) k = M k j) ->
  0 < M k k - sumR (fun l => y l * y l) k.
Proof.
  intros Hk HS HP (G1 & G2 & G3) Hy.
  destruct (back_solve L k y) as [w Hw]; [intros i Hi; specialize (G1 i Hi); lra|exact G2|].
  set (v := fun i => if Nat.ltb i k then - w i else if Nat.eqb i k then 1 else 0).
  assert (V1 : forall i, (i < k)%nat -> v i = - w i) by (intros i Hi; unfold v; apply Nat.ltb_lt in Hi; rewrite Hi; reflexivity).
  assert (V2 : v k = 1) by (unfold v; rewrite Nat.ltb_irrefl, Nat.eqb_refl; reflexivity).
  assert (V3 : forall i, (S k <= i < n)%nat -> v i = 0).
  { intros i Hi. unfold v. replace (Nat.ltb i k) with false by (symmetry; apply Nat.ltb_ge; lia). replace (Nat.eqb i k) with false by (symmetry; apply Nat.eqb_neq; lia). reflexivity. }
  specialize (HP v ltac:(exists k; split; [exact Hk|rewrite V2; lra])).
  rewrite (sumR_extend _ (S k) n) in HP; [|lia|intros i Hi; rewrite V3 by exact Hi; rewrite (sumR_ext _ (fun _ => 0)) by (intros; ring); apply sumR_zero].
  rewrite (sumR_ext _ (fun i => sumR (fun j => v i * M i j * v j) (S k))) in HP
    by (intros i Hi; apply sumR_extend; [lia|]; intros j Hj; rewrite (V3 j Hj); ring).
  rewrite sumR_S in HP. rewrite (sumR_ext _ (fun i => sumR (fun j => w i * M i j * w j) k + - (w i * M i k))) in HP.
  2:{ intros i Hi. rewrite sumR_S, V2, (V1 i Hi). replace (- w i * M i k * 1) with (- (w i * M i k)) by ring. f_equal.
      apply sumR_ext. intros j Hj. rewrite (V1 j Hj). ring. }
  rewrite sumR_S, V2 in HP. rewrite (sumR_ext (fun j => 1 * M k j * v j) (fun j => - (w j * M j k))) in HP.
  2:{ intros j Hj. rewrite (V1 j Hj), (HS k j). ring. }
  rewrite sumR_plus in HP.
  assert (E1 : sumR (fun i => sumR (fun j => w i * M i j * w j) k) k = sumR (fun l => y l * y l) k).
  { rewrite (sumR_ext _ (fun i => sumR (fun l => w i * L i l * y l) k)).
    - rewrite sumR_swap. apply sumR_ext. intros l Hl. rewrite <- (Hw l Hl) at 2. rewrite <- sumR_scal. 
      rewrite (sumR_ext _ (fun i => y l * (L i l * w i))) by (intros; ring). reflexivity.
    - intros i Hi. rewrite (sumR_ext _ (fun j => sumR (fun l => w i * L i l * (L j l * w j)) k)).
      + rewrite sumR_swap. apply sumR_ext. intros l Hl. rewrite sumR_scal, (Hw l Hl). reflexivity.
      + intros j Hj. rewrite <- (G3 i j Hi Hj). rewrite (Rmult_comm (w i * _)), <- Rmult_assoc, <- sumR_scal. apply sumR_ext. intros; ring. }
  assert (E2 : sumR (fun i => w i * M i k) k = sumR (fun l => y l * y l) k).
  { rewrite (sumR_ext _ (fun i => sumR (fun l => y l * (L i l * w i)) k)).
    - rewrite sumR_swap. apply sumR_ext. intros l Hl. rewrite sumR_scal, (Hw l Hl). reflexivity.
    - intros i Hi. rewrite (HS i k), <- (Hy i Hi), <- sumR_scal. apply sumR_ext. intros; ring. }
  assert (E3 : sumR (fun i => - (w i * M i k)) k = - sumR (fun l => y l * y l) k).
  { rewrite <- E2. rewrite (sumR_ext _ (fun i => (-1) * (w i * M i k))) by (intros; ring). rewrite sumR_scal. ring. }
  rewrite E1, E3 in HP. lra.
Qed.

(** Forward substitution computed by the first loop of a row. *)
Lemma row_acc L M n k row : (k < n)%nat -> row = vec M n -> (forall i, (i < k)%nat -> 0 < L i i) -> forall j, (j <= k)%nat ->
  exists y, fold_left (fun acc Lj => let j := length acc in acc ++ [((nth j row (Fin 0) - xdotp acc (firstn j Lj)) / nth j Lj (Fin 0))%X]) (tri L j) [] = vec y j /\
    (forall i, (i < j)%nat -> sumR (fun l => y l * L i l) (S i) = M i).
Proof.
  intros Hk -> HL. induction j as [|j IH]; intros Hj; [exists (fun _ => 0); split; [reflexivity|intros; lia]|].
  destruct (IH ltac:(lia)) as (y & E & Hy). set (yj := (M j - sumR (fun l => y l * L j l) j) / L j j).
  exists (fun i => if Nat.eqb i j then yj else y i).
  assert (Yl : forall i, (i < j)%nat -> (if Nat.eqb i j then yj else y i) = y i) by (intros i Hi; replace (Nat.eqb i j) with false by (symmetry; apply Nat.eqb_neq; lia); reflexivity).
  split.
  - unfold tri in *. rewrite seq_S, map_app, fold_left_app, E. cbn [map fold_left plus]. rewrite vec_len, (vec_S (fun i => if Nat.eqb i j then yj else y i)), Nat.eqb_refl.
    rewrite (vec_ext _ y j Yl). f_equal. f_equal. rewrite vec_nth by lia. rewrite vec_firstn by lia. rewrite vec_nth by lia. rewrite dotp_vec.
    unfold yj. unfold xsub. cbn [xopp xadd]. rewrite xdiv_fin by (specialize (HL j ltac:(lia)); lra). reflexivity.
  - intros i Hi. rewrite sumR_S. destruct (Nat.eq_dec i j) as [->|ne].
    + rewrite Nat.eqb_refl. rewrite (sumR_ext _ (fun l => y l * L j l)) by (intros l Hl; rewrite Yl by lia; reflexivity).
      unfold yj. field. specialize (HL j ltac:(lia)). lra.
    + rewrite (sumR_ext _ (fun l => y l * L i l)) by (intros l Hl; rewrite Yl by lia; reflexivity). rewrite Yl by lia. rewrite <- (Hy i) by lia. rewrite sumR_S. reflexivity.
Qed.

Lemma chol_steps n M : (forall i j, M i j = M j i) ->
  (forall v : nat -> R, (exists i, (i < n)%nat /\ v i <> 0) -> 0 < sumR (fun i => sumR (fun j => v i * M i j * v j) n) n) ->
  forall k, (k <= n)%nat -> exists L, good L M k /\ xchol (map (fun i => vec (M i) n) (seq 0 k)) = tri L k.
Proof.
  intros HS HP. induction k as [|k IH]; intros Hk.
  - exists (fun _ _ => 0). split; [|reflexivity]. split; [intros; lia|]. split; [reflexivity|intros; lia].
  - destruct (IH ltac:(lia)) as (L & G & E). pose proof G as (G1 & G2 & G3).
    destruct (row_acc L (M k) n k (vec (M k) n) ltac:(lia) eq_refl G1 k (le_n k)) as (y & EY & Hy).
    assert (HY : forall j, (j < k)%nat -> sumR (fun l => y l * L j l) k = M k j).
    { intros j Hj. rewrite (sumR_extend _ (S j) k); [apply Hy, Hj|lia|]. intros i Hi. rewrite G2 by lia. ring. }
    pose proof (pivot_pos L M n k y ltac:(lia) HS HP G HY) as PP. set (d := M k k - sumR (fun l => y l * y l) k) in *.
    set (L' := fun i j => if Nat.eqb i k then (if Nat.ltb j k then y j else if Nat.eqb j k then sqrt d else 0) else L i j).
    assert (A1 : forall i j, (i < k)%nat -> L' i j = L i j) by (intros i j Hi; unfold L'; replace (Nat.eqb i k) with false by (symmetry; apply Nat.eqb_neq; lia); reflexivity).
    assert (A2 : forall j, (j < k)%nat -> L' k j = y j) by (intros j Hj; unfold L'; rewrite Nat.eqb_refl; apply Nat.ltb_lt in Hj; rewrite Hj; reflexivity).
    assert (A3 : L' k k = sqrt d) by (unfold L'; rewrite !Nat.eqb_refl, Nat.ltb_irrefl; reflexivity).
    exists L'. split.
    + split; [|split].
      * intros i Hi. destruct (Nat.eq_dec i k) as [->|ne]; [rewrite A3; apply sqrt_lt_R0, PP|rewrite A1 by lia; apply G1; lia].
      * intros i j Hij. unfold L'. destruct (Nat.eqb_spec i k) as [->|ne]; [|apply G2, Hij].
        replace (Nat.ltb j k) with false by (symmetry; apply Nat.ltb_ge; lia). replace (Nat.eqb j k) with false by (symmetry; apply Nat.eqb_neq; lia). reflexivity.
      * assert (C1 : forall i j, (i < k)%nat -> (j < k)%nat -> sumR (fun l => L' i l * L' j l) (S k) = M i j).
        { intros i j Hi Hj. rewrite sumR_S, !A1 by lia. rewrite (G2 i k) by lia. rewrite (sumR_ext _ (fun l => L i l * L j l)) by (intros l Hl; rewrite !A1 by lia; reflexivity).
          rewrite G3 by lia. ring. }
        assert (C2 : forall j, (j < k)%nat -> sumR (fun l => L' k l * L' j l) (S k) = M k j).
        { intros j Hj. rewrite sumR_S, (A1 j k) by lia. rewrite (G2 j k) by lia. rewrite (sumR_ext _ (fun l => y l * L j l)) by (intros l Hl; rewrite A2, A1 by lia; reflexivity).
          rewrite HY by lia. ring. }
        assert (C3 : sumR (fun l => L' k l * L' k l) (S k) = M k k).
        { rewrite sumR_S, A3, sqrt_sqrt by lra. rewrite (sumR_ext _ (fun l => y l * y l)) by (intros l Hl; rewrite A2 by lia; reflexivity). unfold d. ring. }
        intros i j Hi Hj. destruct (Nat.eq_dec i k) as [->|ni]; destruct (Nat.eq_dec j k) as [->|nj].
        -- exact C3.
        -- apply C2. lia.
        -- rewrite HS, <- (C2 i) by lia. apply sumR_ext. intros; ring.
        -- apply C1; lia.
    + unfold cholesky in *. rewrite seq_S, map_app, fold_left_app, E. cbn [map fold_left plus]. unfold tri. rewrite (seq_S k 0), map_app. cbn [map plus].
      rewrite (map_ext_in (fun i => vec (L' i) (S i)) (fun i => vec (L i) (S i)) (seq 0 k)).
      2:{ intros i Hi. apply in_seq in Hi. apply vec_ext. intros j Hj. apply A1. lia. }
      f_equal. f_equal. unfold chol_row. fold (tri L k). cbv zeta. rewrite EY. rewrite (vec_S (L' k)), A3. rewrite (vec_ext (L' k) y k A2). f_equal. f_equal.
      assert (HLen : length (tri L k) = k) by (unfold tri; rewrite map_length, seq_length; reflexivity).
      rewrite HLen, vec_nth by lia. rewrite dotp_vec. change (Fin (M k k) - Fin (sumR (fun i => (y i * y i)%R) k))%X with (Fin d). apply xsqrt_fin. lra.
Qed.

Lemma chol_ok n A : positive_definite n A -> exists L M, A = real_matrix n M /\ good L M n /\ xchol A = tri L n.
Proof.
  intros (M & -> & HS & HP). destruct (chol_steps n M HS HP n (le_n n)) as (L & G & E). exists L, M. split; [reflexivity|]. split; [exact G|]. exact E.
Qed.

(** ** The draw *)
Lemma map_vec (l : list R) : map Fin l = vec (fun i => nth i l 0) (length l).
Proof.
  induction l as [|a l IH]; [reflexivity|]. unfold vec in *. cbn [length seq map nth]. f_equal. rewrite <- seq_shift, map_map. exact IH.
Qed.
Lemma dotp_short f g i n : (i <= n)%nat -> xdotp (vec f i) (vec g n) = Fin (sumR (fun l => f l * g l) i).
Proof.
  intros H. rewrite <- dotp_vec. unfold dotp. f_equal. rewrite <- (vec_firstn g n i H). generalize (vec_len f i). generalize (vec f i) (vec g n).
  clear. intros l m Hl. subst i. revert m. induction l as [|a l IH]; intros m; [reflexivity|]. destruct m as [|b m]; [reflexivity|]. cbn [length firstn map2]. rewrite IH. reflexivity.
Qed.
Lemma map2_map_same {A B C D} (h : B -> C -> D) (f : A -> B) (g : A -> C) l : map2 h (map f l) (map g l) = map (fun a => h (f a) (g a)) l.
Proof. induction l as [|a l IH]; [reflexivity|]. cbn. rewrite IH. reflexivity. Qed.
Lemma draw_value n mean A L M z : A = real_matrix n M -> good L M n -> xchol A = tri L n -> length mean = n -> length z = n ->
  xcholesky_draw (map Fin mean) A (map Fin z) = vec (fun i => nth i mean 0 + sumR (fun l => L i l * nth l z 0) n) n.
Proof.
  intros _ (_ & G2 & _) E Hm Hz. unfold xcholesky_draw, cholesky_draw. rewrite E. rewrite (map_vec mean), (map_vec z), Hm, Hz. unfold tri.
  etransitivity; [apply (map2_map_same _ (fun i => Fin (nth i mean 0)) (fun i => vec (L i) (S i)) (seq 0 n))|]. apply map_ext_in. intros i Hi. apply in_seq in Hi.
  rewrite dotp_short by lia. cbn [xadd]. f_equal. f_equal. symmetry. apply sumR_extend; [lia|]. intros l Hl. rewrite G2 by lia. ring.
Qed.
Lemma mvn_of_ok {key} (normal : key -> nat -> list xr) : normals_ok normal -> mvn_ok (mvn_of normal).
Proof.
  intros HN k mean cov HP. destruct (chol_ok _ _ HP) as (L & M & E & G & EC). destruct (HN k (length mean)) as (z & Ez & Lz).
  exists (map (fun i => nth i mean 0 + sumR (fun l => L i l * nth l z 0) (length mean)) (seq 0 (length mean))).
  split; [|rewrite map_length, seq_length; reflexivity]. unfold mvn_of. rewrite map_length, Ez.
  rewrite (draw_value _ mean cov L M z E G EC eq_refl Lz). unfold vec. rewrite map_map. reflexivity.
Qed.
