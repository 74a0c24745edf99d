(** General real-analysis lemmas used by the proofs (no model content). *)
From Coq Require Import Reals Lra Lia List.
From Coquelicot Require Import Coquelicot.
From Verif Require Import XReal.
Open Scope R_scope.

Lemma ln10_pos : 0 < ln 10.
Proof. rewrite <- ln_1. apply ln_increasing; lra. Qed.

Lemma pow10_pos a : 0 < pow10R a.
Proof. apply exp_pos. Qed.

Lemma pow10_0 : pow10R 0 = 1.
Proof. unfold pow10R. rewrite Rmult_0_l. apply exp_0. Qed.

Lemma pow10_1 : pow10R 1 = 10.
Proof. unfold pow10R. rewrite Rmult_1_l. apply exp_ln. lra. Qed.

Lemma pow10_plus a b : pow10R (a + b) = pow10R a * pow10R b.
Proof. unfold pow10R. rewrite Rmult_plus_distr_r. apply exp_plus. Qed.

Lemma pow10_opp a : pow10R (- a) = / pow10R a.
Proof.
  unfold pow10R. replace (- a * ln 10) with (- (a * ln 10)) by ring. apply exp_Ropp.
Qed.

Lemma pow10_lt a b : a < b -> pow10R a < pow10R b.
Proof.
  intros H. apply exp_increasing. apply Rmult_lt_compat_r; [apply ln10_pos|exact H].
Qed.

Lemma pow10_le a b : a <= b -> pow10R a <= pow10R b.
Proof. intros [H| ->]; [left; apply pow10_lt, H|lra]. Qed.

Lemma pow10_lt_inv a b : pow10R a < pow10R b -> a < b.
Proof.
  intros H. destruct (Rlt_le_dec a b) as [h|h]; [exact h|].
  pose proof (pow10_le _ _ h). lra.
Qed.

Lemma pow10_inj a b : pow10R a = pow10R b -> a = b.
Proof.
  intros H. destruct (Rtotal_order a b) as [h|[h|h]]; [|exact h|].
  - apply pow10_lt in h. lra.
  - apply pow10_lt in h. lra.
Qed.

Lemma pow10_log10 a : 0 < a -> pow10R (log10R a) = a.
Proof.
  intros H. unfold pow10R, log10R.
  replace (ln a / ln 10 * ln 10) with (ln a).
  - apply exp_ln, H.
  - field. pose proof ln10_pos. lra.
Qed.

Lemma log10_pow10 a : log10R (pow10R a) = a.
Proof.
  unfold pow10R, log10R. rewrite ln_exp. field. pose proof ln10_pos. lra.
Qed.

Lemma log10_lt a b : 0 < a -> a < b -> log10R a < log10R b.
Proof.
  intros Ha Hb. apply pow10_lt_inv. rewrite !pow10_log10; lra.
Qed.

Lemma log10_le a b : 0 < a -> a <= b -> log10R a <= log10R b.
Proof. intros Ha [H| ->]; [left; apply log10_lt; assumption|lra]. Qed.

Lemma log10_le_iff a b : 0 < a -> (log10R a <= b <-> a <= pow10R b).
Proof.
  intros Ha. split; intros H.
  - rewrite <- (pow10_log10 a) by exact Ha. apply pow10_le, H.
  - rewrite <- (log10_pow10 b). apply log10_le; assumption.
Qed.

Lemma log10_mult a b : 0 < a -> 0 < b -> log10R (a * b) = log10R a + log10R b.
Proof.
  intros. unfold log10R. rewrite ln_mult by assumption. field. pose proof ln10_pos; lra.
Qed.

Lemma log10_1 : log10R 1 = 0.
Proof. unfold log10R. rewrite ln_1. unfold Rdiv. ring. Qed.

Lemma log10_10 : log10R 10 = 1.
Proof. unfold log10R. field. pose proof ln10_pos; lra. Qed.

(** ** Logistic function *)

Lemma logistic_range a : 0 < logisticR a < 1.
Proof.
  unfold logisticR. pose proof (exp_pos (- a)).
  split.
  - apply Rinv_0_lt_compat. lra.
  - rewrite <- Rinv_1. apply Rinv_lt_contravar; lra.
Qed.

Lemma logistic_lt a b : a < b -> logisticR a < logisticR b.
Proof.
  intros H. unfold logisticR.
  pose proof (exp_pos (- a)). pose proof (exp_pos (- b)).
  assert (exp (- b) < exp (- a)) by (apply exp_increasing; lra).
  apply Rinv_lt_contravar; [|lra].
  apply Rmult_lt_0_compat; lra.
Qed.

Lemma logistic_le a b : a <= b -> logisticR a <= logisticR b.
Proof. intros [H| ->]; [left; apply logistic_lt, H|lra]. Qed.

Lemma logistic_0 : logisticR 0 = 1 / 2.
Proof. unfold logisticR. rewrite Ropp_0, exp_0. field. Qed.

Lemma logistic_opp a : logisticR (- a) = 1 - logisticR a.
Proof.
  unfold logisticR. rewrite Ropp_involutive.
  rewrite (exp_Ropp a). pose proof (exp_pos a).
  field. split; lra.
Qed.

Lemma logistic_inj a b : logisticR a = logisticR b -> a = b.
Proof.
  intros H. destruct (Rtotal_order a b) as [h|[h|h]]; [|exact h|];
    apply logistic_lt in h; lra.
Qed.

(** The logit is a two-sided inverse of the logistic function. *)
Lemma logit_logistic a : - ln (/ logisticR a - 1) = a.
Proof.
  unfold logisticR. rewrite Rinv_inv.
  replace (1 + exp (- a) - 1) with (exp (- a)) by ring.
  rewrite ln_exp. ring.
Qed.

Lemma logistic_logit y : 0 < y < 1 -> logisticR (- ln (/ y - 1)) = y.
Proof.
  intros [H0 H1]. unfold logisticR. rewrite Ropp_involutive, exp_ln.
  - replace (1 + (/ y - 1)) with (/ y) by ring. apply Rinv_inv.
  - assert (1 < / y) by (rewrite <- Rinv_1; apply Rinv_lt_contravar; lra). lra.
Qed.

Lemma is_derive_logistic a :
  is_derive logisticR a (logisticR a * (1 - logisticR a)).
Proof.
  unfold logisticR. pose proof (exp_pos (- a)).
  auto_derive; [lra|]. field. lra.
Qed.

(** ** The bound t/(1+e^t) <= 1/3 *)
Lemma exp_ge_quadratic t : 0 <= t -> 1 + t + t * t / 2 <= exp t.
Proof.
  intros Ht.
  set (f := fun t => exp t - (1 + t + t * t / 2)).
  assert (Hd : forall x, is_derive f x (exp x - (1 + x))).
  { intros x. unfold f. auto_derive; [auto|]. field. }
  assert (f 0 <= f t).
  { destruct Ht as [Ht| <-]; [|lra].
    destruct (MVT_gen f 0 t (fun x => exp x - (1 + x))) as [c [Hc He]].
    - intros x _. apply Hd.
    - intros x _. apply ex_derive_continuous_pt || idtac.
      apply continuity_pt_filterlim. apply (ex_derive_continuous f x).
      eexists; apply Hd.
    - assert (0 <= exp c - (1 + c)).
      { pose proof (exp_ineq1_le c). lra. }
      assert (0 <= f t - f 0); [rewrite He; apply Rmult_le_pos; lra|lra]. }
  unfold f in H. rewrite exp_0 in H. lra.
Qed.

Lemma x_logistic_opp_le t : t * logisticR (- t) <= 1 / 3.
Proof.
  destruct (Rle_lt_dec t 0) as [H|H].
  - pose proof (logistic_range (- t)).
    assert (t * logisticR (- t) <= 0); [|lra].
    replace 0 with (0 * logisticR (- t)) by ring. apply Rmult_le_compat_r; lra.
  - unfold logisticR. rewrite Ropp_involutive.
    pose proof (exp_ge_quadratic t (Rlt_le _ _ H)).
    pose proof (exp_pos t).
    apply Rmult_le_reg_r with (1 + exp t); [lra|].
    rewrite Rmult_assoc, Rinv_l by lra.
    pose proof (pow2_ge_0 (t - 2)). simpl in H2. lra.
Qed.

Lemma x_logistic_ge t : - (1 / 3) <= t * logisticR t.
Proof.
  pose proof (x_logistic_opp_le (- t)). rewrite Ropp_involutive in H. lra.
Qed.

(** ** Derivatives *)

Lemma is_derive_nondecreasing (f df : R -> R) :
  (forall x, is_derive f x (df x)) -> (forall x, 0 <= df x) ->
  forall x y, x <= y -> f x <= f y.
Proof.
  intros Hd Hp x y [H| ->]; [|lra].
  destruct (MVT_gen f x y df) as [c [Hc He]].
  - intros z _. apply Hd.
  - intros z _. apply continuity_pt_filterlim. apply (ex_derive_continuous f z).
    eexists; apply Hd.
  - assert (0 <= f y - f x); [rewrite He; apply Rmult_le_pos; [apply Hp|lra]|lra].
Qed.

(** Gluing two differentiable pieces with matching value and slope. *)
Lemma is_derive_glue (f g h : R -> R) (a l : R) :
  (forall x, x <= a -> f x = g x) -> (forall x, a <= x -> f x = h x) ->
  is_derive g a l -> is_derive h a l -> is_derive f a l.
Proof.
  intros Hg Hh Dg Dh. apply is_derive_Reals.
  apply is_derive_Reals in Dg. apply is_derive_Reals in Dh.
  intros eps He. destruct (Dg eps He) as [d1 H1]. destruct (Dh eps He) as [d2 H2].
  assert (Hd : 0 < Rmin d1 d2) by (apply Rmin_pos; apply cond_pos).
  exists (mkposreal _ Hd). simpl. intros t Ht Hlt.
  destruct (Rle_lt_dec t 0) as [Hn|Hn].
  - rewrite (Hg (a + t)), (Hg a) by lra. apply H1; [exact Ht|].
    eapply Rlt_le_trans; [exact Hlt|apply Rmin_l].
  - rewrite (Hh (a + t)), (Hh a) by lra. apply H2; [exact Ht|].
    eapply Rlt_le_trans; [exact Hlt|apply Rmin_r].
Qed.

(** Local equality to the left / right of a point. *)
Lemma is_derive_local (f g : R -> R) (x l d : R) :
  0 < d -> (forall y, Rabs (y - x) < d -> f y = g y) -> is_derive g x l -> is_derive f x l.
Proof.
  intros Hd He Dg. eapply is_derive_ext_loc; [|exact Dg].
  exists (mkposreal d Hd). intros y Hy. symmetry. apply He. exact Hy.
Qed.

Lemma F2_length {A B} (P : A -> B -> Prop) l l' : List.Forall2 P l l' -> length l = length l'.
Proof. induction 1; simpl; congruence. Qed.
