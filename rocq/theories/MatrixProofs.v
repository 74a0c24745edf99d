(** Proofs about covariance matrices (C33, C43). *)
From Coq Require Import Reals Lra Lia List Bool String QArith Qreals ZArith.
From Verif Require Import XReal ModelUtils ModelKernels ModelSfh ModelPopTables ModelPop SpecPop
  RealFacts XFacts SigmoidProofs PopProofs PopParamProofs PopKernelProofs.
Import ListNotations.
Open Scope R_scope.

Lemma mk_matrix_ext n f g : (forall i j, (i < n)%nat -> (j < n)%nat -> f i j = g i j) ->
  mk_matrix n f = mk_matrix n g.
Proof.
  intros H. unfold mk_matrix. apply map_ext_in. intros i Hi. apply map_ext_in. intros j Hj.
  apply in_seq in Hi, Hj. apply H; lia.
Qed.
Lemma real_matrix_mk n M : real_matrix n M = mk_matrix n (fun i j => Fin (M i j)).
Proof. reflexivity. Qed.
Lemma real_matrix_ext n f g : (forall i j, (i < n)%nat -> (j < n)%nat -> f i j = g i j) ->
  real_matrix n f = real_matrix n g.
Proof. intros H. rewrite !real_matrix_mk. apply mk_matrix_ext. intros. now rewrite H. Qed.
Lemma length_mk n f : List.length (mk_matrix n f) = n.
Proof. unfold mk_matrix. now rewrite map_length, seq_length. Qed.
Lemma ent_mk n f i j : (i < n)%nat -> (j < n)%nat -> ent (mk_matrix n f) i j = f i j.
Proof.
  intros Hi Hj. unfold ent, mk_matrix. rewrite nth_map_seq by auto. unfold at_. now rewrite nth_map_seq.
Qed.

Lemma xsum_seq (f : nat -> R) n : xsum (map (fun k => Fin (f k)) (seq 0 n)) = Fin (sumR f n).
Proof. rewrite <- map_map. rewrite xsum_fin. reflexivity. Qed.

Lemma mat_dot_fin n A B : mat_dot (real_matrix n A) (real_matrix n B)
  = real_matrix n (fun i j => sumR (fun k => A i k * B k j) n).
Proof.
  unfold mat_dot. rewrite !real_matrix_mk, length_mk. apply mk_matrix_ext. intros i j Hi Hj.
  rewrite <- xsum_seq. f_equal. apply map_ext_in. intros k Hk. apply in_seq in Hk.
  rewrite !ent_mk by lia. reflexivity.
Qed.

Lemma sumR_ext f g n : (forall k, (k < n)%nat -> f k = g k) -> sumR f n = sumR g n.
Proof. intros H. unfold sumR. f_equal. apply map_ext_in. intros k Hk. apply in_seq in Hk. apply H. lia. Qed.
Lemma sumR_S f n : sumR f (S n) = sumR f n + f n.
Proof.
  unfold sumR. rewrite seq_S, map_app, fold_right_app. simpl. rewrite Rplus_0_r.
  induction (map f (seq 0 n)); simpl; lra.
Qed.
Lemma sumR_0 f n : (forall k, (k < n)%nat -> f k = 0) -> sumR f n = 0.
Proof.
  induction n; intros H; [reflexivity|]. rewrite sumR_S, IHn, H; [lra|lia|]. intros. apply H. lia.
Qed.
Lemma sumR_delta f n i : (i < n)%nat -> (forall k, (k < n)%nat -> k <> i -> f k = 0) -> sumR f n = f i.
Proof.
  induction n; intros Hi H; [lia|]. rewrite sumR_S. destruct (Nat.eq_dec i n) as [->|].
  - rewrite sumR_0; [lra|]. intros. apply H; lia.
  - rewrite IHn; [|lia|]. + rewrite (H n); try lia. lra. + intros. apply H; lia.
Qed.
Lemma sumR_nonneg f n : (forall k, (k < n)%nat -> 0 <= f k) -> 0 <= sumR f n.
Proof.
  induction n; intros H; [unfold sumR; simpl; lra|]. rewrite sumR_S.
  assert (0 <= f n) by (apply H; lia). assert (0 <= sumR f n) by (apply IHn; intros; apply H; lia). lra.
Qed.
Lemma sumR_pos f n i : (i < n)%nat -> (forall k, (k < n)%nat -> 0 <= f k) -> 0 < f i -> 0 < sumR f n.
Proof.
  induction n; intros Hi H Hp; [lia|]. rewrite sumR_S. destruct (Nat.eq_dec i n) as [->|].
  - assert (0 <= sumR f n) by (apply sumR_nonneg; intros; apply H; lia). lra.
  - assert (0 < sumR f n) by (apply IHn; auto; try lia; intros; apply H; lia).
    assert (0 <= f n) by (apply H; lia). lra.
Qed.

Lemma diag_of_fin n (s : nat -> R) : diag_of (map (fun i => Fin (s i)) (seq 0 n))
  = real_matrix n (fun i j => if Nat.eqb i j then s i else 0).
Proof.
  unfold diag_of. rewrite map_length, seq_length, real_matrix_mk. apply mk_matrix_ext. intros i j Hi Hj.
  destruct (Nat.eqb i j); [|reflexivity]. unfold at_. now rewrite nth_map_seq.
Qed.

Lemma cov_from_corr_fin n C (s : nat -> R) :
  covariance_from_correlation (real_matrix n C) (map (fun i => Fin (s i)) (seq 0 n))
  = real_matrix n (fun i j => s i * C i j * s j).
Proof.
  unfold covariance_from_correlation. rewrite diag_of_fin, !mat_dot_fin. apply real_matrix_ext. intros i j Hi Hj.
  rewrite (sumR_delta _ n j); auto.
  2:{ intros k Hk Hne. destruct (Nat.eqb_spec k j); [lia|]. lra. }
  rewrite Nat.eqb_refl. f_equal. rewrite (sumR_delta _ n i); auto.
  2:{ intros k Hk Hne. destruct (Nat.eqb_spec i k); [lia|]. lra. }
  now rewrite Nat.eqb_refl.
Qed.

Lemma mat_map2_mk f n A B : mat_map2 f (mk_matrix n A) (mk_matrix n B) = mk_matrix n (fun i j => f (A i j) (B i j)).
Proof. unfold mat_map2, mk_matrix. rewrite map2_rows. apply map_ext. intros i. now rewrite map2_rows. Qed.

Lemma corr_from_cov_fin n S : (forall i, (i < n)%nat -> 0 < S i i) ->
  correlation_from_covariance (real_matrix n S)
  = real_matrix n (fun i j => S i j / (sqrt (S i i) * sqrt (S j j))).
Proof.
  intros Hp. unfold correlation_from_covariance. rewrite !real_matrix_mk.
  assert (Ev : map xsqrt (diag_part (mk_matrix n (fun i j => Fin (S i j)))) = map (fun i => Fin (sqrt (S i i))) (seq 0 n)).
  { unfold diag_part. rewrite length_mk, map_map. apply map_ext_in. intros i Hi. apply in_seq in Hi.
    rewrite ent_mk by lia. apply xsqrt_fin. left. apply Hp. lia. }
  rewrite Ev.
  assert (Eo : outer (map (fun i => Fin (sqrt (S i i))) (seq 0 n)) (map (fun i => Fin (sqrt (S i i))) (seq 0 n))
     = mk_matrix n (fun i j => Fin (sqrt (S i i) * sqrt (S j j)))).
  { unfold outer, mk_matrix. rewrite map_map. apply map_ext. intros i. rewrite map_map. reflexivity. }
  rewrite Eo, !mat_map2_mk. apply mk_matrix_ext. intros i j Hi Hj.
  assert (0 < sqrt (S i i)) by (apply sqrt_lt_R0; auto).
  assert (0 < sqrt (S j j)) by (apply sqrt_lt_R0; auto).
  assert (0 < sqrt (S i i) * sqrt (S j j)) by nra.
  rewrite xdiv_fin by lra. unfold xeq, Reqb. destruct (Req_EM_T (S i j) 0) as [->|]; [|reflexivity].
  f_equal. field. lra.
Qed.

(** C43 *)
Lemma cov_corr_roundtrip : forall n (S : nat -> nat -> R), (forall i, (i < n)%nat -> 0 < S i i) ->
  exists C : nat -> nat -> R,
    correlation_from_covariance (real_matrix n S) = real_matrix n C /\
    (forall i, (i < n)%nat -> C i i = 1) /\
    ((forall i j, S i j = S j i) -> forall i j, C i j = C j i) /\
    covariance_from_correlation (real_matrix n C) (map (fun i => Fin (sqrt (S i i))) (seq 0 n))
    = real_matrix n S.
Proof.
  intros n S Hp. exists (fun i j => S i j / (sqrt (S i i) * sqrt (S j j))).
  split; [now apply corr_from_cov_fin|]. split; [|split].
  - intros i Hi. rewrite sqrt_sqrt by (left; auto). specialize (Hp i Hi). field. lra.
  - intros Hs i j. rewrite (Hs i j). f_equal. ring.
  - rewrite cov_from_corr_fin. apply real_matrix_ext. intros i j Hi Hj.
    assert (0 < sqrt (S i i)) by (apply sqrt_lt_R0; auto).
    assert (0 < sqrt (S j j)) by (apply sqrt_lt_R0; auto). field. lra.
Qed.
Lemma corr_cov_roundtrip : forall n (C : nat -> nat -> R) (s : nat -> R),
  (forall i, (i < n)%nat -> C i i = 1 /\ 0 < s i) ->
  exists S, covariance_from_correlation (real_matrix n C) (map (fun i => Fin (s i)) (seq 0 n)) = real_matrix n S /\
    (forall i, (i < n)%nat -> S i i = s i ^ 2) /\
    correlation_from_covariance (real_matrix n S) = real_matrix n C.
Proof.
  intros n C s H. exists (fun i j => s i * C i j * s j). rewrite cov_from_corr_fin.
  assert (D : forall i, (i < n)%nat -> s i * C i i * s i = s i ^ 2).
  { intros i Hi. destruct (H i Hi) as [-> _]. ring. }
  split; [reflexivity|]. split; [exact D|].
  rewrite corr_from_cov_fin.
  - apply real_matrix_ext. intros i j Hi Hj. rewrite !D by auto.
    destruct (H i Hi) as [_ Si]. destruct (H j Hj) as [_ Sj].
    rewrite !sqrt_pow2 by lra. field. lra.
  - intros i Hi. rewrite D by auto. destruct (H i Hi) as [_ Si]. nra.
Qed.

(** ** The covariance of one block *)
Lemma nth_repeat_lt {A} (x d : A) n i : (i < n)%nat -> nth i (repeat x n) d = x.
Proof. revert i. induction n; intros i H; [lia|]. destruct i; simpl; auto. apply IHn. lia. Qed.
Lemma cholesky_zeros n (Hn : (0 < n)%nat) k : (k = n * (n - 1) / 2)%nat ->
  get_cholesky_from_params n (repeat (Fin 1) n ++ zeros k)
  = mk_matrix n (fun i j => if Nat.eqb i j then Fin 1 else Fin 0).
Proof.
  intros Hk. unfold get_cholesky_from_params. apply mk_matrix_ext. intros i j Hi Hj.
  destruct (Nat.eqb_spec i j) as [->|Hne].
  - unfold at_. rewrite app_nth1 by (rewrite repeat_length; lia). apply nth_repeat_lt. auto.
  - destruct (Nat.ltb_spec j i); [|reflexivity].
    unfold at_. rewrite app_nth2 by (rewrite repeat_length; lia). rewrite repeat_length.
    unfold zeros. rewrite nth_repeat_lt; [reflexivity|].
    assert (Ht : forall m, (2 * ((m * (m - 1)) / 2) = m * (m - 1))%nat).
    { intros m. rewrite <- Nat.divide_div_mul_exact; [|lia|].
      - rewrite Nat.mul_comm. apply Nat.div_mul. lia.
      - destruct (Nat.Even_or_Odd m) as [[a ->]|[a ->]].
        + exists (a * (2 * a - 1))%nat. lia.
        + exists ((2 * a + 1) * a)%nat. replace (2 * a + 1 - 1)%nat with (2 * a)%nat by lia. lia. }
    assert (T1 := Ht i). assert (T2 := Ht n). subst k.
    set (a := (i * (i - 1) / 2)%nat) in *. set (b := (n * (n - 1) / 2)%nat) in *.
    destruct i as [|i]; [lia|]. destruct n as [|n]; [lia|].
    replace (S i - 1)%nat with i in T1 by lia. replace (S n - 1)%nat with n in T2 by lia. nia.
Qed.

Lemma covariance_block_fin (s : nat -> R) :
  covariance_block (map (fun i => Fin (s i)) (seq 0 4), zeros 6)
  = real_matrix 4 (fun i j => if Nat.eqb i j then s i ^ 2 else 0).
Proof.
  unfold covariance_block. rewrite map_length, seq_length.
  rewrite (cholesky_zeros 4 ltac:(lia) 6 eq_refl).
  assert (Et : mat_T (mk_matrix 4 (fun i j => if Nat.eqb i j then Fin 1 else Fin 0))
             = mk_matrix 4 (fun i j => if Nat.eqb i j then Fin 1 else Fin 0)).
  { unfold mat_T. rewrite length_mk. apply mk_matrix_ext. intros i j Hi Hj. rewrite ent_mk by auto.
    now rewrite Nat.eqb_sym. }
  rewrite Et, mat_map2_mk.
  assert (Ec : mk_matrix 4 (fun i j => if xeq (if Nat.eqb i j then Fin 1 else Fin 0) (Fin 0)
      then (if Nat.eqb i j then Fin 1 else Fin 0) else (if Nat.eqb i j then Fin 1 else Fin 0))
      = real_matrix 4 (fun i j => if Nat.eqb i j then 1 else 0)).
  { rewrite real_matrix_mk. apply mk_matrix_ext. intros i j _ _. destruct (Nat.eqb i j), (xeq _ _); reflexivity. }
  rewrite Ec, cov_from_corr_fin. apply real_matrix_ext. intros i j _ _.
  destruct (Nat.eqb_spec i j) as [->|]; ring.
Qed.

Lemma diag_pd n (d : nat -> R) : (forall i, (i < n)%nat -> 0 < d i) ->
  positive_definite n (real_matrix n (fun i j => if Nat.eqb i j then d i else 0)).
Proof.
  intros Hd. exists (fun i j => if Nat.eqb i j then d i else 0). split; [reflexivity|]. split.
  - intros i j. rewrite Nat.eqb_sym. destruct (Nat.eqb_spec j i); congruence.
  - intros v (i & Hi & Hv).
    rewrite (sumR_ext _ (fun i => v i * d i * v i)).
    2:{ intros k Hk. rewrite (sumR_delta _ n k Hk).
        - now rewrite Nat.eqb_refl.
        - intros l Hl Hne. destruct (Nat.eqb_spec k l); [lia|]. ring. }
    apply (sumR_pos _ n i Hi).
    + intros k Hk. specialize (Hd k Hk). assert (0 <= v k * v k) by nra. nra.
    + specialize (Hd i Hi). assert (0 < v i * v i) by nra. nra.
Qed.

(** ** Lines of the population model *)
Lemma bounding_vals n b : getattr BOUNDING_VALS_PDICT n = Some b -> BOUNDING_VALS n = QQ2X b.
Proof. intros H. unfold BOUNDING_VALS. now rewrite H. Qed.

Lemma line_ok P x ni ns nb lo hi : pop_in_bounds P -> P ns <> 0 ->
  assoc ni POP_BOUNDS = Some (lo, hi) -> getattr BOUNDING_VALS_PDICT nb = Some (lo, hi) ->
  exists y, line_model (Fin x) (Fin (P ni)) (Fin (P ns)) (BOUNDING_VALS nb) = Fin y /\
    Q2R lo < y < Q2R hi + (Q2R hi - Q2R lo) / 6000.
Proof.
  intros Hb Hs H1 H2. rewrite (bounding_vals nb _ H2). unfold line_model, QQ2X, Q2X, LGM_X0. cbn [fst snd].
  assert (B := bound_of P ni lo hi Hb H1).
  destruct (clipped_line_bounds (125/10) (P ni) (P ns) (Q2R lo) (Q2R hi) Hs B) as (f & E & R & _).
  exists (f x). rewrite E. split; auto. specialize (R x). lra.
Qed.

Lemma slope_of P n : slopes_nonzero P -> existsb (String.eqb n) pop_slopes = true -> P n <> 0.
Proof.
  intros H E. unfold slopes_nonzero in H. rewrite Forall_forall in H. apply H.
  apply existsb_exists in E as (m & Hm & Em). apply String.eqb_eq in Em. now subst.
Qed.

Ltac line P Hb Hs x ni ns nb y E R :=
  destruct (line_ok P x ni ns nb _ _ Hb (slope_of P ns Hs eq_refl) eq_refl eq_refl) as (y & E & R);
  rewrite !q2r in R; cbn [Qnum Qden snd] in R.

Lemma Mcrit_fin x a b c d : exists y, Mcrit_model (Fin x) (Fin a) (Fin b) (Fin c) (Fin d) = Fin y.
Proof. unfold Mcrit_model, sig_slope. rewrite sigmoid_fin. eexists. reflexivity. Qed.

(** Standard deviations: above 0.01 and at most 1/6000 of the allowed range above the
    published upper bound. *)
Definition std_ok (hi s : R) : Prop := 1/100 < s < hi + hi / 6000.

Definition fseq4 (a b c d : R) (i : nat) : R :=
  match i with O => a | S O => b | S (S O) => c | _ => d end.
Lemma list4 a b c d : [Fin a; Fin b; Fin c; Fin d] = map (fun i => Fin (fseq4 a b c d i)) (seq 0 4).
Proof. reflexivity. Qed.

Lemma pd_block a b c d : 0 < a -> 0 < b -> 0 < c -> 0 < d ->
  positive_definite 4 (covariance_block ([Fin a; Fin b; Fin c; Fin d], zeros 6)).
Proof.
  intros. rewrite list4, covariance_block_fin. apply diag_pd. intros i Hi.
  apply pow_lt. destruct i as [|[|[|[|i]]]]; simpl; auto; lia.
Qed.

Section Cov.
Variable P : string -> R.
Hypothesis Hb : pop_in_bounds P.
Hypothesis Hs : slopes_nonzero P.

Lemma cov_params_mseq x : exists a b c d,
  get_cov_params_mseq_ms_block (QP P) (Fin x) = ([Fin a; Fin b; Fin c; Fin d], zeros 6) /\
  std_ok 1 a /\ std_ok 1 b /\ std_ok 3 c /\ std_ok 3 d.
Proof.
  unfold get_cov_params_mseq_ms_block. attrs.
  line P Hb Hs x "std_ulgm_mseq_int"%string "std_ulgm_mseq_slp"%string "std_ulgm"%string a Ea Ra.
  line P Hb Hs x "std_ulgy_mseq_int"%string "std_ulgy_mseq_slp"%string "std_ulgy"%string b Eb Rb.
  line P Hb Hs x "std_ul_mseq_int"%string "std_ul_mseq_slp"%string "std_ul"%string c Ec Rc.
  line P Hb Hs x "std_uh_mseq_int"%string "std_uh_mseq_slp"%string "std_uh"%string d Ed Rd.
  exists a, b, c, d. rewrite Ea, Eb, Ec, Ed. unfold std_ok. split; [reflexivity|]. repeat split; lra.
Qed.
Lemma cov_params_qseq_ms x : exists a b c d,
  get_cov_params_qseq_ms_block (QP P) (Fin x) = ([Fin a; Fin b; Fin c; Fin d], zeros 6) /\
  std_ok 1 a /\ std_ok 1 b /\ std_ok 3 c /\ std_ok 3 d.
Proof.
  unfold get_cov_params_qseq_ms_block. attrs.
  line P Hb Hs x "std_ulgm_qseq_int"%string "std_ulgm_qseq_slp"%string "std_ulgm"%string a Ea Ra.
  line P Hb Hs x "std_ulgy_qseq_int"%string "std_ulgy_qseq_slp"%string "std_ulgy"%string b Eb Rb.
  line P Hb Hs x "std_ul_qseq_int"%string "std_ul_qseq_slp"%string "std_ul"%string c Ec Rc.
  line P Hb Hs x "std_uh_qseq_int"%string "std_uh_qseq_slp"%string "std_uh"%string d Ed Rd.
  exists a, b, c, d. rewrite Ea, Eb, Ec, Ed. unfold std_ok. split; [reflexivity|]. repeat split; lra.
Qed.
Lemma cov_params_qseq_q x : exists a b c d,
  get_cov_params_qseq_q_block (QP P) (Fin x) = ([Fin a; Fin b; Fin c; Fin d], zeros 6) /\
  std_ok (1/2) a /\ std_ok 1 b /\ std_ok 2 c /\ std_ok 2 d.
Proof.
  unfold get_cov_params_qseq_q_block. attrs.
  line P Hb Hs x "std_uqt_int"%string "std_uqt_slp"%string "std_uqt"%string a Ea Ra.
  line P Hb Hs x "std_uqs_int"%string "std_uqs_slp"%string "std_uqs"%string b Eb Rb.
  line P Hb Hs x "std_udrop_int"%string "std_udrop_slp"%string "std_udrop"%string c Ec Rc.
  line P Hb Hs x "std_urej_int"%string "std_urej_slp"%string "std_urej"%string d Ed Rd.
  exists a, b, c, d. rewrite Ea, Eb, Ec, Ed. unfold std_ok. split; [reflexivity|]. repeat split; lra.
Qed.

Lemma mean_mseq x : exists a b c d,
  get_mean_u_params_mseq (QP P) (Fin x) = map Fin [a; b; c; d] /\
  -3 < c < 5 + 8/6000 /\ -5 < d < 3 + 8/6000.
Proof.
  unfold get_mean_u_params_mseq. attrs.
  line P Hb Hs x "mean_ul_mseq_int"%string "mean_ul_mseq_slp"%string "mean_ul"%string c Ec Rc.
  line P Hb Hs x "mean_uh_mseq_int"%string "mean_uh_mseq_slp"%string "mean_uh"%string d Ed Rd.
  destruct (Mcrit_fin x (P "mean_ulgm_mseq_xtp"%string) (P "mean_ulgm_mseq_ytp"%string)
             (P "mean_ulgm_mseq_lo"%string) (P "mean_ulgm_mseq_hi"%string)) as (a & Ea).
  destruct (Mcrit_fin x (P "mean_ulgy_mseq_xtp"%string) (P "mean_ulgy_mseq_ytp"%string)
             (P "mean_ulgy_mseq_lo"%string) (P "mean_ulgy_mseq_hi"%string)) as (b & Ebb).
  exists a, b, c, d. rewrite Ea, Ebb, Ec, Ed. split; [reflexivity|]. lra.
Qed.
Lemma mean_qseq x tp : exists a b c d e f g h,
  get_mean_u_params_qseq (QP P) (Fin x) (Fin tp) = map Fin [a; b; c; d; e; f; g; h] /\
  -3 < c < 5 + 8/6000 /\ -5 < d < 3 + 8/6000 /\
  -5 < f < 2 + 7/6000 /\ -3 < g < 2 + 5/6000 /\ -10 < h < 2 + 12/6000.
Proof.
  unfold get_mean_u_params_qseq, delta_uqt. attrs.
  line P Hb Hs x "mean_ul_qseq_int"%string "mean_ul_qseq_slp"%string "mean_ul"%string c Ec Rc.
  line P Hb Hs x "mean_uh_qseq_int"%string "mean_uh_qseq_slp"%string "mean_uh"%string d Ed Rd.
  line P Hb Hs x "mean_uqs_int"%string "mean_uqs_slp"%string "mean_uqs"%string f1 Ef Rf.
  line P Hb Hs x "mean_udrop_int"%string "mean_udrop_slp"%string "mean_udrop"%string g1 Eg Rg.
  line P Hb Hs x "mean_urej_int"%string "mean_urej_slp"%string "mean_urej"%string h1 Eh Rh.
  destruct (Mcrit_fin x (P "mean_ulgm_qseq_xtp"%string) (P "mean_ulgm_qseq_ytp"%string)
             (P "mean_ulgm_qseq_lo"%string) (P "mean_ulgm_qseq_hi"%string)) as (a & Ea).
  destruct (Mcrit_fin x (P "mean_ulgy_qseq_xtp"%string) (P "mean_ulgy_qseq_ytp"%string)
             (P "mean_ulgy_qseq_lo"%string) (P "mean_ulgy_qseq_hi"%string)) as (b & Ebb).
  destruct (Mcrit_fin x (P "mean_uqt_xtp"%string) (P "mean_uqt_ytp"%string)
             (P "mean_uqt_lo"%string) (P "mean_uqt_hi"%string)) as (e & Ee).
  rewrite Ea, Ebb, Ec, Ed, Ee, Ef, Eg, Eh, sigmoid_fin. unfold xsub. cbn [xopp xadd xmul].
  do 4 eexists. eexists. exists f1, g1, h1. split; [reflexivity|]. lra.
Qed.
End Cov.

(** C33 *)
Lemma covariances_pd : forall p P m tp mu mh gy, holds "" p P -> pop_in_bounds P -> slopes_nonzero P ->
  exists mc, diffstarpop_means_covs p (Fin m) (Fin tp) mu mh gy = Some mc /\
    positive_definite 4 (cov_mseq_ms mc) /\ positive_definite 4 (cov_qseq_ms mc) /\
    positive_definite 4 (cov_qseq_q mc) /\
    (exists a, mu_mseq mc = map Fin a /\ List.length a = 4%nat) /\
    (exists a, mu_qseq mc = map Fin a /\ List.length a = 8%nat).
Proof.
  intros p P m tp mu mh gy Hp Hb Hs. rewrite (means_covs_eq p P) by auto. eexists. split; [reflexivity|].
  cbn [cov_mseq_ms cov_qseq_ms cov_qseq_q mu_mseq mu_qseq sfh_pdf_scalar_kernel].
  destruct (cov_params_mseq P Hb Hs m) as (a & b & c & d & E1 & R1 & R2 & R3 & R4).
  destruct (cov_params_qseq_ms P Hb Hs m) as (a' & b' & c' & d' & E2 & R1' & R2' & R3' & R4').
  destruct (cov_params_qseq_q P Hb Hs m) as (a'' & b'' & c'' & d'' & E3 & S1 & S2 & S3 & S4).
  unfold std_ok in *.
  unfold get_covariance_mseq_ms_block, get_covariance_qseq_ms_block, get_covariance_qseq_q_block.
  rewrite E1, E2, E3. repeat split; try (apply pd_block; lra).
  - destruct (mean_mseq P Hb Hs m) as (x1 & x2 & x3 & x4 & E & _). eexists. split; [exact E|reflexivity].
  - destruct (mean_qseq P Hb Hs m tp) as (x1 & x2 & x3 & x4 & x5 & x6 & x7 & x8 & E & _).
    eexists. split; [exact E|reflexivity].
Qed.

Lemma covariances_diag : forall p P m tp mu mh gy, holds "" p P -> pop_in_bounds P -> slopes_nonzero P ->
  exists mc s1 s2 s3, diffstarpop_means_covs p (Fin m) (Fin tp) mu mh gy = Some mc /\
    cov_mseq_ms mc = real_matrix 4 (fun i j => if Nat.eqb i j then s1 i ^ 2 else 0) /\
    cov_qseq_ms mc = real_matrix 4 (fun i j => if Nat.eqb i j then s2 i ^ 2 else 0) /\
    cov_qseq_q mc = real_matrix 4 (fun i j => if Nat.eqb i j then s3 i ^ 2 else 0) /\
    forall i, (i < 4)%nat ->
      1/100 < s1 i < nth i [1; 1; 3; 3] 0 * (1 + 1/6000) /\
      1/100 < s2 i < nth i [1; 1; 3; 3] 0 * (1 + 1/6000) /\
      1/100 < s3 i < nth i [1/2; 1; 2; 2] 0 * (1 + 1/6000).
Proof.
  intros p P m tp mu mh gy Hp Hb Hs. rewrite (means_covs_eq p P) by auto. eexists.
  destruct (cov_params_mseq P Hb Hs m) as (a & b & c & d & E1 & R1 & R2 & R3 & R4).
  destruct (cov_params_qseq_ms P Hb Hs m) as (a' & b' & c' & d' & E2 & R1' & R2' & R3' & R4').
  destruct (cov_params_qseq_q P Hb Hs m) as (a'' & b'' & c'' & d'' & E3 & S1 & S2 & S3 & S4).
  exists (fseq4 a b c d), (fseq4 a' b' c' d'), (fseq4 a'' b'' c'' d''). split; [reflexivity|].
  cbn [cov_mseq_ms cov_qseq_ms cov_qseq_q mu_mseq mu_qseq sfh_pdf_scalar_kernel].
  unfold get_covariance_mseq_ms_block, get_covariance_qseq_ms_block, get_covariance_qseq_q_block.
  rewrite E1, E2, E3, !list4, !covariance_block_fin. do 3 (split; [reflexivity|]).
  unfold std_ok in *. intros i Hi. destruct i as [|[|[|[|i]]]]; cbn [fseq4 nth]; try lra; lia.
Qed.

(** C32 at the level of the population model: an unbounded slope of 0 *)
Lemma zero_u_slope : forall u U m tp mu mh gy, holds "u_" u U -> U "mean_ul_mseq_slp"%string = 0 ->
  exists p mc, get_bounded_diffstarpop_params u = Some p /\
    diffstarpop_means_covs p (Fin m) (Fin tp) (Fin mu) (Fin mh) (Fin gy) = Some mc /\
    nth 2 (mu_mseq mc) (Fin 0) = NaN.
Proof.
  intros u U m tp mu mh gy Hu H0.
  assert (E := bounded_rows u U Hu). rewrite rows_as_params in E.
  set (P := by_rows (fun r => pbR (snd r) (U (fst r)))) in *.
  exists (pop_params P). eexists. split; [exact E|].
  split; [rewrite (means_covs_eq _ P) by apply holds_params; reflexivity|].
  cbn [mu_mseq sfh_pdf_scalar_kernel]. unfold get_mean_u_params_mseq. cbn [nth]. attrs.
  assert (Z : P "mean_ul_mseq_slp"%string = 0).
  { unfold P, by_rows. change (assoc "mean_ul_mseq_slp" POP_BOUNDS) with (Some ((-20 # 1)%Q, (20 # 1)%Q)). cbv iota beta.
    cbn [fst snd]. rewrite H0. unfold pbR, mid. cbn [fst snd]. rewrite !q2r. cbn [Qnum Qden].
    replace (1 / 2 * (-20 / 1 + 20 / 1)) with 0 by field. rewrite sigR_mid. field. }
  rewrite Z.
  assert (B : Q2R (-3) < P "mean_ul_mseq_int"%string < Q2R 5).
  { destruct (pop_bounded_in_bounds u U Hu) as (P' & E' & B'). rewrite E in E'. apply Some_inj in E'.
    assert (X : P "mean_ul_mseq_int"%string = P' "mean_ul_mseq_int"%string).
    { assert (I : In "mean_ul_mseq_int"%string pop_names).
      { assert (T : existsb (String.eqb "mean_ul_mseq_int") pop_names = true) by (vm_compute; reflexivity).
        apply existsb_exists in T as (s & T1 & T2). apply String.eqb_eq in T2. now subst. }
      assert (G1 := holds_params P _ I). assert (G2 := holds_params P' _ I). rewrite E' in G1. congruence. }
    rewrite X. exact (bound_of P' "mean_ul_mseq_int"%string _ _ B' eq_refl). }
  rewrite (bounding_vals "mean_ul"%string ((-3 # 1)%Q, (5 # 1)%Q) eq_refl).
  unfold line_model, QQ2X, Q2X, LGM_X0. cbn [fst snd]. apply clipped_line_zero_slope. exact B.
Qed.
