(** Lemmas about the value domain. *)
From Coq Require Import Reals Lra Lia List Bool.
From Verif Require Import XReal ModelUtils.
Import ListNotations.
Open Scope R_scope.

Lemma xdiv_fin a b : b <> 0 -> xdiv (Fin a) (Fin b) = Fin (a / b).
Proof. intros H. simpl. destruct (Req_EM_T b 0); [contradiction|reflexivity]. Qed.

Lemma xdiv_zero_pos a b : b = 0 -> 0 < a -> xdiv (Fin a) (Fin b) = PInf.
Proof.
  intros -> H. simpl. destruct (Req_EM_T 0 0); [|lra]. unfold signed_inf.
  destruct (Rlt_dec 0 a); [reflexivity|lra].
Qed.
Lemma xdiv_zero_neg a b : b = 0 -> a < 0 -> xdiv (Fin a) (Fin b) = NInf.
Proof.
  intros -> H. simpl. destruct (Req_EM_T 0 0); [|lra]. unfold signed_inf.
  destruct (Rlt_dec 0 a); [lra|]. destruct (Rlt_dec a 0); [reflexivity|lra].
Qed.
Lemma xdiv_zero_zero a b : b = 0 -> a = 0 -> xdiv (Fin a) (Fin b) = NaN.
Proof.
  intros -> ->. simpl. destruct (Req_EM_T 0 0); [|lra]. unfold signed_inf.
  destruct (Rlt_dec 0 0); [lra|]. reflexivity.
Qed.

Lemma xpown_fin a n : xpown (Fin a) n = Fin (a ^ n).
Proof. induction n; simpl; [reflexivity|]. rewrite IHn. reflexivity. Qed.

Lemma xlog_fin a : 0 < a -> xlog (Fin a) = Fin (ln a).
Proof. intros H. simpl. destruct (Rlt_dec 0 a); [reflexivity|contradiction]. Qed.

Lemma xlog10_fin a : 0 < a -> xlog10 (Fin a) = Fin (log10R a).
Proof. intros H. simpl. destruct (Rlt_dec 0 a); [reflexivity|contradiction]. Qed.

Lemma xsqrt_fin a : 0 <= a -> xsqrt (Fin a) = Fin (sqrt a).
Proof. intros H. simpl. destruct (Rlt_dec a 0); [lra|reflexivity]. Qed.

Lemma xlt_fin a b : xlt (Fin a) (Fin b) = true <-> a < b.
Proof. simpl. unfold Rltb. destruct (Rlt_dec a b); split; intros; auto; discriminate. Qed.

Lemma xlt_fin_false a b : xlt (Fin a) (Fin b) = false <-> b <= a.
Proof.
  simpl. unfold Rltb. destruct (Rlt_dec a b); split; intros; auto; try discriminate; lra.
Qed.

Lemma Rltb_true a b : a < b -> Rltb a b = true.
Proof. intros. unfold Rltb. destruct (Rlt_dec a b); [reflexivity|contradiction]. Qed.
Lemma Rltb_false a b : b <= a -> Rltb a b = false.
Proof. intros. unfold Rltb. destruct (Rlt_dec a b); [lra|reflexivity]. Qed.

Lemma Reqb_true a b : a = b -> Reqb a b = true.
Proof. intros. unfold Reqb. destruct (Req_EM_T a b); [reflexivity|contradiction]. Qed.
Lemma Reqb_false a b : a <> b -> Reqb a b = false.
Proof. intros. unfold Reqb. destruct (Req_EM_T a b); [contradiction|reflexivity]. Qed.

Lemma xle_fin_true a b : a <= b -> xle (Fin a) (Fin b) = true.
Proof.
  intros [H|H]; unfold xle; simpl; [rewrite Rltb_true by exact H; reflexivity|].
  rewrite (Reqb_true a b H). apply orb_true_r.
Qed.
Lemma xle_fin_false a b : b < a -> xle (Fin a) (Fin b) = false.
Proof.
  intros H. unfold xle; simpl. rewrite Rltb_false, Reqb_false by lra. reflexivity.
Qed.

Lemma Fin_inj a b : Fin a = Fin b -> a = b.
Proof. congruence. Qed.

Lemma map_Fin_inj l m : map Fin l = map Fin m -> l = m.
Proof.
  revert m; induction l as [|a l IH]; intros [|b m] H; simpl in H; try discriminate; auto.
  injection H as -> H. f_equal. apply IH, H.
Qed.

Lemma xsum_fin l : xsum (map Fin l) = Fin (fold_right Rplus 0 l).
Proof. unfold xsum. induction l; simpl; [reflexivity|]. rewrite IHl. reflexivity. Qed.

Lemma at_map l i : (i < length l)%nat -> at_ (map Fin l) i = Fin (nth i l 0).
Proof.
  intros H. unfold at_. rewrite (nth_indep _ NaN (Fin 0)) by (rewrite map_length; exact H).
  apply map_nth.
Qed.

Lemma nth_map {A B} (f : A -> B) l i d d' : (i < length l)%nat ->
  nth i (map f l) d' = f (nth i l d).
Proof.
  intros H. rewrite (nth_indep _ d' (f d)) by (rewrite map_length; exact H). apply map_nth.
Qed.

Lemma map2_map_fin (f : xr -> xr -> xr) (g : R -> R -> R) :
  (forall a b, f (Fin a) (Fin b) = Fin (g a b)) ->
  forall l m, map2 f (map Fin l) (map Fin m) = map Fin (map2 g l m).
Proof.
  intros H. induction l as [|a l IH]; intros [|b m]; simpl; auto. rewrite H, IH. reflexivity.
Qed.

Lemma map2_length {A B C} (f : A -> B -> C) l m :
  length (map2 f l m) = Nat.min (length l) (length m).
Proof. revert m; induction l as [|a l IH]; intros [|b m]; simpl; auto. Qed.

Lemma map2_nth {A B C} (f : A -> B -> C) l m i da db dc :
  (i < length l)%nat -> (i < length m)%nat ->
  nth i (map2 f l m) dc = f (nth i l da) (nth i m db).
Proof.
  revert m i; induction l as [|a l IH]; intros [|b m] i Hl Hm; simpl in *; try lia.
  destruct i; [reflexivity|]. apply IH; lia.
Qed.

Lemma upd_length {A} (l : list A) i v : length (upd l i v) = length l.
Proof. revert i; induction l; intros [|i]; simpl; auto. Qed.

Lemma upd_slice_length {A} (vs : list A) : forall l i, length (upd_slice l i vs) = length l.
Proof. induction vs; intros; simpl; auto. rewrite IHvs, upd_length. reflexivity. Qed.

Lemma upd_cons_S {A} (a : A) l i v : upd (a :: l) (S i) v = a :: upd l i v.
Proof. reflexivity. Qed.

Lemma upd_slice_cons {A} (vs : list A) : forall a l i,
  upd_slice (a :: l) (S i) vs = a :: upd_slice l i vs.
Proof. induction vs; intros; simpl; auto. Qed.

Lemma upd_slice_prefix {A} (vs : list A) : forall pre l,
  length pre = length vs -> upd_slice (pre ++ l) 0 vs = vs ++ l.
Proof.
  induction vs as [|v vs IH]; intros [|p pre] l H; simpl in *; try discriminate; auto.
  rewrite upd_slice_cons. f_equal. apply IH. lia.
Qed.

Lemma upd_last {A} (l : list A) a v : upd (l ++ [a]) (length l) v = l ++ [v].
Proof. induction l; simpl; congruence. Qed.

Lemma sequence_map_Some {A B} (f : A -> B) l : sequence (map (fun x => Some (f x)) l) = Some (map f l).
Proof. induction l; simpl; auto. rewrite IHl. reflexivity. Qed.

Lemma vmap_spec {A B} (f : A -> option B) l r :
  vmap f l = Some r <-> Forall2 (fun a b => f a = Some b) l r.
Proof.
  unfold vmap. revert r. induction l as [|a l IH]; intros r; simpl.
  - split; intros H.
    + injection H as <-. constructor.
    + inversion H; reflexivity.
  - destruct (f a) as [b|] eqn:E.
    + destruct (sequence (map f l)) as [s|] eqn:Es.
      * split; intros H.
        -- injection H as <-. constructor; [exact E|]. apply IH. reflexivity.
        -- inversion H; subst. apply IH in H4. congruence.
      * split; intros H; [discriminate|]. inversion H; subst. apply IH in H4. discriminate.
    + split; intros H; [discriminate|]. inversion H; subst. congruence.
Qed.

(** Compute finite arithmetic (divisions and logarithms are rewritten explicitly). *)
Ltac xr_simp := cbv zeta; unfold xsub; cbn [xadd xopp xmul xlogistic xexp xpow10 xabs].
