(** Adam on finite gradients. *)
From Coq Require Import Reals Lra Lia List Psatz.
From Verif Require Import XReal XFacts RealFacts ModelAdam SpecHist SpecAdam HistProofs SmhmProofs.
Import ListNotations.
Open Scope R_scope.

(** ** One coordinate on real numbers *)
Definition coordR : Type := R * R * R.
Definition lift (c : coordR) : adam_coord := let '(x, m, v) := c in (Fin x, Fin m, Fin v).
Definition moveR (i : nat) (m v : R) : R := m / (1 - (9 / 10) ^ (i + 1)) / (sqrt (v / (1 - (999 / 1000) ^ (i + 1))) + 1 / 10 ^ 8).
Definition upR (s : R) (i : nat) (g : R) (c : coordR) : coordR :=
  let '(x, m, v) := c in
  let m := 1 / 10 * g + 9 / 10 * m in
  let v := 1 / 1000 * (g * g) + 999 / 1000 * v in
  (x - s * moveR i m v, m, v).
Definition xof (c : coordR) : R := fst (fst c).
Definition mof (c : coordR) : R := snd (fst c).
Definition vof (c : coordR) : R := snd c.

Lemma xpown_fin a n : xpown (Fin a) n = Fin (a ^ n).
Proof. induction n as [|n IH]; [reflexivity|]. cbn [xpown pow]. rewrite IH. reflexivity. Qed.
Lemma pow_lt_1 a n : 0 <= a < 1 -> 0 < 1 - a ^ (n + 1).
Proof.
  intros H. assert (a ^ (n + 1) <= a); [|lra]. rewrite Nat.add_1_r. cbn [pow]. assert (0 <= a ^ n <= 1); [|nra].
  split; [apply pow_le; lra|]. rewrite <- (pow1 n). apply pow_incr. lra.
Qed.
Lemma eps_pos : 0 < 1 / 10 ^ 8.
Proof. apply Rdiv_lt_0_compat; [lra|apply pow_lt; lra]. Qed.
Lemma xdiv_fin a b : b <> 0 -> (Fin a / Fin b)%X = Fin (a / b).
Proof. intros H. cbn. destruct (Req_EM_T b 0); [contradiction|reflexivity]. Qed.
Lemma update1_fin s i g c : 0 <= vof c -> adam_update1 (Fin s) i (Fin g) (lift c) = lift (upR s i g c).
Proof.
  destruct c as [[x m] v]. cbn [vof snd]. intros Hv. unfold adam_update1, lift, ADAM_B1, ADAM_B2, ADAM_EPS. rewrite !xpown_fin.
  pose proof (pow_lt_1 (9 / 10) i ltac:(lra)) as P1. pose proof (pow_lt_1 (999 / 1000) i ltac:(lra)) as P2.
  assert (Hv' : 0 <= 1 / 1000 * (g * g) + 999 / 1000 * v) by nra.
  cbn [xsub xopp xadd xmul]. change (1 + - (9 / 10) ^ (i + 1)) with (1 - (9 / 10) ^ (i + 1)). change (1 + - (999 / 1000) ^ (i + 1)) with (1 - (999 / 1000) ^ (i + 1)).
  replace (1 + - (9 / 10)) with (1 / 10) by lra. replace (1 + - (999 / 1000)) with (1 / 1000) by lra.
  rewrite !xdiv_fin by lra. unfold xsqrt. destruct (Rlt_dec _ 0) as [L|_].
  - exfalso. assert (0 <= (1 / 1000 * (g * g) + 999 / 1000 * v) / (1 - (999 / 1000) ^ (i + 1))); [|lra]. apply Rmult_le_pos; [exact Hv'|]. left. apply Rinv_0_lt_compat, P2.
  - cbn [xmul xadd]. rewrite xdiv_fin; [|pose proof eps_pos; pose proof (sqrt_pos ((1 / 1000 * (g * g) + 999 / 1000 * v) / (1 - (999 / 1000) ^ (i + 1)))); lra].
    cbn [xopp xadd]. unfold upR, moveR. do 3 f_equal. unfold Rdiv. ring.
Qed.

(** ** The bound: first moment against second *)
Definition KB : R := 370 / 7.
Definition inv (c : coordR) : Prop := 0 <= vof c /\ mof c * mof c <= KB * vof c.
Lemma inv_up s i g c : inv c -> inv (upR s i g c).
Proof.
  destruct c as [[x m] v]. unfold inv, upR, mof, vof, KB. cbn [fst snd]. intros [H1 H2]. pose proof (Rle_0_sqr g) as Hg. unfold Rsqr in Hg. split; [lra|].
  (* (a+b)^2 <= a^2/t + b^2/(1-t), t = 189/999 *)
  assert (S : (1 / 10 * g + 9 / 10 * m) * (1 / 10 * g + 9 / 10 * m) <= 999 / 18900 * (g * g) + 999 / 1000 * (m * m)).
  { assert (E : 999 / 18900 * (g * g) + 999 / 1000 * (m * m) - (1 / 10 * g + 9 / 10 * m) * (1 / 10 * g + 9 / 10 * m) = 189 / 1000 * Rsqr (m - 10 / 21 * g)) by (unfold Rsqr; field).
    pose proof (Rle_0_sqr (m - 10 / 21 * g)). lra. }
  lra.
Qed.
Lemma bias i : 1 - (999 / 1000) ^ (i + 1) <= (1 - (9 / 10) ^ (i + 1)) * (1 - (9 / 10) ^ (i + 1)).
Proof.
  set (n := (i + 1)%nat). assert (B : forall x n, -1 <= x -> 1 + INR n * x <= (1 + x) ^ n).
  { clear. intros x n Hx. induction n as [|n IH]; [cbn; lra|]. rewrite S_INR. cbn [pow]. assert (0 <= INR n) by apply pos_INR. nra. }
  pose proof (B (- (1 / 10)) n ltac:(lra)) as B1. pose proof (B (11 / 100) n ltac:(lra)) as B2. replace (1 + - (1 / 10)) with (9 / 10) in B1 by lra. replace (1 + 11 / 100) with (111 / 100) in B2 by lra.
  assert (E : (999 / 1000) ^ n = (9 / 10) ^ n * (111 / 100) ^ n) by (rewrite <- Rpow_mult_distr; f_equal; lra).
  assert (0 <= INR n) by apply pos_INR. assert (0 <= (9 / 10) ^ n) by (apply pow_le; lra). nra.
Qed.
Lemma move_bound i c : inv c -> Rabs (moveR i (mof c) (vof c)) < adam_reach.
Proof.
  destruct c as [[x m] v]. unfold inv, mof, vof, KB, moveR. cbn [fst snd]. intros [H1 H2].
  pose proof (pow_lt_1 (9 / 10) i ltac:(lra)) as P1. pose proof (pow_lt_1 (999 / 1000) i ltac:(lra)) as P2. pose proof (bias i) as B. pose proof eps_pos as E.
  set (a := 1 - (9 / 10) ^ (i + 1)) in *. set (b := 1 - (999 / 1000) ^ (i + 1)) in *. set (e := 1 / 10 ^ 8) in *.
  set (V := sqrt (v / b)). assert (HV : 0 <= V) by apply sqrt_pos.
  assert (HV2 : V * V = v / b) by (apply sqrt_sqrt, Rmult_le_pos; [exact H1|left; apply Rinv_0_lt_compat, P2]).
  assert (HM : (m / a) * (m / a) <= 370 / 7 * (V * V)).
  { replace ((m / a) * (m / a)) with (m * m / (a * a)) by (field; lra). rewrite HV2. apply (Rle_trans _ (370 / 7 * v / (a * a))).
    - apply Rmult_le_compat_r; [left; apply Rinv_0_lt_compat; nra|exact H2].
    - replace (370 / 7 * (v / b)) with (370 / 7 * v / b) by (field; lra). apply Rmult_le_compat_l; [lra|]. apply Rinv_le_contravar; assumption. }
  assert (HA : Rabs (m / a) <= 728 / 100 * V).
  { apply Rabs_le. assert (0 <= 728 / 100 * V) by lra. assert (Q : (m / a) * (m / a) <= (728 / 100 * V) * (728 / 100 * V)) by nra. split; nra. }
  unfold Rdiv at 1. rewrite Rabs_mult, (Rabs_right (/ (V + e))) by (left; apply Rinv_0_lt_compat; lra). unfold adam_reach.
  apply (Rmult_lt_reg_r (V + e)); [lra|]. rewrite Rmult_assoc, Rinv_l, Rmult_1_r by lra. nra.
Qed.

(** ** Vectors *)
Definition lifts (l : list coordR) : AdamState := map lift l.
Definition upsR (s : R) (i : nat) (g : list R) (l : list coordR) : list coordR := map (fun gc => upR s i (fst gc) (snd gc)) (combine g l).
Lemma update_fin s i g l : Forall inv l -> adam_update (Fin s) i (map Fin g) (lifts l) = lifts (upsR s i g l).
Proof.
  unfold adam_update, lifts, upsR. revert g. induction l as [|c l IH]; intros [|y g] H; try reflexivity. inversion H; subst.
  cbn [map combine fst snd]. rewrite update1_fin by apply H2. f_equal. apply IH. assumption.
Qed.
Lemma inv_ups s i g l : Forall inv l -> Forall inv (upsR s i g l).
Proof.
  unfold upsR. revert g. induction l as [|c l IH]; intros [|y g] H; try constructor. - cbn [fst snd]. apply inv_up. now inversion H. - inversion H; subst. apply IH. assumption.
Qed.
Lemma init_fin s p : adam_init s (map Fin p) = lifts (map (fun x => (x, 0, 0)) p).
Proof. unfold adam_init, lifts. rewrite !map_map. reflexivity. Qed.
Lemma inv_init p : Forall inv (map (fun x => (x, 0, 0)) p).
Proof. apply Forall_forall. intros c H. apply in_map_iff in H as (x & <- & _). unfold inv, mof, vof. cbn. lra. Qed.
Lemma params_fin l : adam_params (lifts l) = map Fin (map xof l).
Proof. unfold adam_params, lifts. rewrite !map_map. apply map_ext. intros [[x m] v]. reflexivity. Qed.
Lemma params_init s p : adam_params (adam_init s p) = p.
Proof. unfold adam_params, adam_init. rewrite map_map. apply map_id. Qed.
Lemma ups_len s i g l : length g = length l -> length (upsR s i g l) = length l.
Proof. intros H. unfold upsR. rewrite map_length, combine_length. lia. Qed.
Lemma ups_nth s i g l j : length g = length l -> (j < length l)%nat -> nth j (upsR s i g l) (0, 0, 0) = upR s i (nth j g 0) (nth j l (0, 0, 0)).
Proof.
  intros HL Hj. unfold upsR. rewrite (nth_indep _ _ (upR s i (fst (0, (0, 0, 0))) (snd (0, (0, 0, 0))))) by (rewrite map_length, combine_length; lia).
  rewrite (map_nth (fun gc => upR s i (fst gc) (snd gc))). rewrite combine_nth by exact HL. reflexivity.
Qed.

Lemma updates_app s l1 l2 st : adam_updates s (l1 ++ l2) st = adam_updates s l2 (adam_updates s l1 st).
Proof. apply fold_left_app. Qed.
Lemma updates_fin s l : forall st d, Forall inv st -> length st = d -> Forall (fun ig => length (snd ig) = d) l ->
  exists st', adam_updates s l (lifts st) = lifts st' /\ Forall inv st' /\ length st' = d.
Proof.
  induction l as [|[i g] l IH]; intros st d HI HL HF; [exists st; auto|]. inversion HF as [|? ? E HF']; subst. cbn [snd] in E.
  unfold adam_updates. cbn [fold_left fst snd]. rewrite update_fin by exact HI. apply (IH (upsR s i g st) (length st)); [apply inv_ups, HI|apply ups_len, E|exact HF'].
Qed.
Lemma reached_fin s p st : adam_reached s p st -> exists l, st = lifts l /\ Forall inv l /\ length l = length p.
Proof.
  intros (l & HF & ->). rewrite init_fin. apply updates_fin; [apply inv_init|apply map_length|exact HF].
Qed.
Lemma reached_init s p : adam_reached s p (adam_init (Fin s) (map Fin p)).
Proof. exists []. split; [constructor|reflexivity]. Qed.
Lemma reached_next s p st i g : adam_reached s p st -> length g = length p -> adam_reached s p (adam_update (Fin s) i (map Fin g) st).
Proof. intros (l & HF & ->) Hg. exists (l ++ [(i, g)]). split; [apply Forall_app; split; [exact HF|repeat constructor; exact Hg]|]. rewrite updates_app. reflexivity. Qed.

(** ** Statements *)
Lemma reached_params s p st : adam_reached s p st -> exists x, adam_params st = map Fin x /\ length x = length p.
Proof. intros H. destruct (reached_fin s p st H) as (l & -> & _ & HL). exists (map xof l). rewrite params_fin, map_length. auto. Qed.
Lemma nth_xof j l : nth j (map xof l) 0 = xof (nth j l (0, 0, 0)).
Proof. change 0 with (xof (0, 0, 0)) at 1. apply map_nth. Qed.
Lemma update_bounded s p st i g : 0 < s -> adam_reached s p st -> length g = length p -> exists x y,
  adam_params st = map Fin x /\ adam_params (adam_update (Fin s) i (map Fin g) st) = map Fin y /\ length x = length p /\ length y = length p /\
  forall j, (j < length p)%nat -> Rabs (nth j y 0 - nth j x 0) < adam_reach * s.
Proof.
  intros Hs H Hg. destruct (reached_fin s p st H) as (l & -> & HI & HL). exists (map xof l), (map xof (upsR s i g l)).
  rewrite update_fin, !params_fin, !map_length, ups_len by (assumption || congruence). repeat (split; [congruence|]). intros j Hj.
  rewrite !nth_xof, ups_nth by congruence. set (c := nth j l (0, 0, 0)). assert (Hc : inv c) by (rewrite Forall_forall in HI; apply HI, nth_In; lia).
  pose proof (inv_up s i (nth j g 0) c Hc) as Hc'. pose proof (move_bound i _ Hc') as B. destruct c as [[x m] v]. unfold xof, mof, vof, upR in *. cbn [fst snd] in *.
  match goal with |- Rabs (x - s * ?a - x) < _ => replace (x - s * a - x) with (- (s * a)) by ring; rewrite Rabs_Ropp, Rabs_mult, (Rabs_right s) by lra end. nra.
Qed.
Lemma zero_stays s p l j : Forall (fun ig => length (snd ig) = length p) l -> (j < length p)%nat -> Forall (fun ig => nth j (snd ig) 0 = 0) l ->
  exists x, adam_params (adam_updates s l (adam_init (Fin s) (map Fin p))) = map Fin x /\ nth j x 0 = nth j p 0.
Proof.
  intros HF Hj HZ. assert (G : exists st, adam_updates s l (adam_init (Fin s) (map Fin p)) = lifts st /\ Forall inv st /\ length st = length p /\ xof (nth j st (0, 0, 0)) = nth j p 0 /\ mof (nth j st (0, 0, 0)) = 0).
  { induction l as [|[i g] l IH] using rev_ind.
    - exists (map (fun x => (x, 0, 0)) p). split; [apply init_fin|]. split; [apply inv_init|]. split; [apply map_length|].
      change (0, 0, 0) with ((fun x : R => (x, 0, 0)) 0). rewrite map_nth. split; reflexivity.
    - apply Forall_app in HF as [F1 F2]. apply Forall_app in HZ as [Z1 Z2]. inversion F2; subst. inversion Z2; subst. cbn [snd] in *.
      destruct (IH F1 Z1) as (st & E & I & L & X & M). rewrite updates_app, E. exists (upsR s i g st). unfold adam_updates. cbn [fold_left fst snd].
      rewrite update_fin by exact I. split; [reflexivity|]. split; [apply inv_ups, I|]. split; [rewrite ups_len; congruence|].
      rewrite ups_nth by congruence. destruct (nth j st (0, 0, 0)) as [[x m] v]. unfold xof, mof, upR in *. cbn [fst snd] in *. subst m. rewrite H3.
      split; [|ring]. rewrite <- X. unfold moveR. replace (1 / 10 * 0 + 9 / 10 * 0) with 0 by ring. unfold Rdiv. ring. }
  destruct G as (st & -> & _ & _ & X & _). exists (map xof st). rewrite params_fin, nth_xof. auto.
Qed.

(** ** Closed form *)
Lemma decayed_snoc w l g : decayed w (l ++ [g]) = w * decayed w l + g.
Proof.
  unfold decayed. rewrite app_length. cbn [length]. rewrite Nat.add_1_r, seq_S, map_app, Rsum_app. cbn [map plus]. unfold Rsum at 2. cbn [fold_right].
  rewrite app_nth2, Nat.sub_diag by lia. replace (S (length l) - 1 - length l)%nat with 0%nat by lia. cbn [nth pow].
  rewrite <- (Rsum_scal w), map_map. f_equal; [|ring]. apply Rsum_ext. intros k Hk. apply in_seq in Hk. rewrite app_nth1 by lia.
  replace (S (length l) - 1 - k)%nat with (S (length l - 1 - k)) by lia. cbn [pow]. ring.
Qed.
Lemma decayed_ones w l : w <> 1 -> decayed w (map (fun _ : R => 1) l) = (1 - w ^ length l) / (1 - w).
Proof.
  intros Hw. induction l as [|g l IH] using rev_ind; [unfold decayed; cbn; unfold Rdiv; ring|].
  rewrite map_app. cbn [map]. rewrite decayed_snoc, IH, app_length. cbn [length]. rewrite Nat.add_1_r. cbn [pow]. field. lra.
Qed.
Lemma mean_eq w l m : w <> 1 -> m = (1 - w) * decayed w l -> recent_mean w l = m / (1 - w ^ length l).
Proof.
  intros Hw ->. unfold recent_mean. rewrite decayed_ones by exact Hw. destruct (Req_dec (1 - w ^ length l) 0) as [E|E]; [|field; split; [exact E|lra]].
  rewrite E. unfold Rdiv. rewrite !Rmult_0_l, !Rinv_0. ring.
Qed.
Lemma position_snoc s x gs g : adam_position s x (gs ++ [g]) = adam_position s x gs - adam_step s (gs ++ [g]).
Proof.
  unfold adam_position. rewrite app_length. cbn [length]. rewrite Nat.add_1_r, seq_S, map_app, Rsum_app. cbn [map plus]. unfold Rsum at 2. cbn [fold_right].
  rewrite (firstn_all2 (gs ++ [g]) (n := S (length gs))) by (rewrite app_length; cbn; lia). rewrite (Rsum_ext (fun k => adam_step s (firstn (S k) (gs ++ [g]))) (fun k => adam_step s (firstn (S k) gs))); [ring|].
  intros k Hk. apply in_seq in Hk. rewrite firstn_app. replace (S k - length gs)%nat with 0%nat by lia. rewrite firstn_O, app_nil_r. reflexivity.
Qed.
Lemma squares_snoc gs g : map (fun g : R => g * g) (gs ++ [g]) = map (fun g => g * g) gs ++ [g * g].
Proof. rewrite map_app. reflexivity. Qed.
Definition stateR (s x : R) (gs : list R) : coordR :=
  (adam_position s x gs, (1 - 9 / 10) * decayed (9 / 10) gs, (1 - 999 / 1000) * decayed (999 / 1000) (map (fun g => g * g) gs)).
Lemma state_snoc s x gs g : upR s (length gs) g (stateR s x gs) = stateR s x (gs ++ [g]).
Proof.
  unfold upR, stateR. rewrite position_snoc, squares_snoc, !decayed_snoc.
  assert (E1 : 1 / 10 * g + 9 / 10 * ((1 - 9 / 10) * decayed (9 / 10) gs) = (1 - 9 / 10) * (9 / 10 * decayed (9 / 10) gs + g)) by lra.
  assert (E2 : 1 / 1000 * (g * g) + 999 / 1000 * ((1 - 999 / 1000) * decayed (999 / 1000) (map (fun g => g * g) gs)) = (1 - 999 / 1000) * (999 / 1000 * decayed (999 / 1000) (map (fun g => g * g) gs) + g * g)) by lra.
  rewrite E1, E2. f_equal. f_equal. f_equal. unfold adam_step, moveR. rewrite (mean_eq (9 / 10) (gs ++ [g]) ((1 - 9 / 10) * (9 / 10 * decayed (9 / 10) gs + g))) by (rewrite ?decayed_snoc; lra).
  rewrite (mean_eq (999 / 1000) (map (fun g => g * g) (gs ++ [g])) ((1 - 999 / 1000) * (999 / 1000 * decayed (999 / 1000) (map (fun g => g * g) gs) + g * g))) by (rewrite ?squares_snoc, ?decayed_snoc; lra).
  rewrite map_length, app_length. cbn [length]. unfold Rdiv. ring.
Qed.
Lemma numbered_snoc {A} (l : list A) a : numbered (l ++ [a]) = numbered l ++ [(length l, a)].
Proof.
  unfold numbered. rewrite app_length. cbn [length]. rewrite Nat.add_1_r, seq_S. cbn [plus].
  assert (H : forall s (l2 l3 : list A) (x : nat) (y : A), length s = length l2 -> combine (s ++ [x]) (l2 ++ [y]) = combine s l2 ++ [(x, y)]).
  { clear. induction s as [|b s IH]; intros [|c l2] l3 x y H; try discriminate H; [reflexivity|]. cbn [app combine]. f_equal. apply (IH l2 l3). now injection H. }
  apply (H _ l []). apply seq_length.
Qed.
Lemma run_fin s p gs : Forall (fun g => length g = length p) gs ->
  adam_updates s (numbered gs) (adam_init (Fin s) (map Fin p)) = lifts (map (fun j => stateR s (nth j p 0) (column j gs)) (seq 0 (length p))).
Proof.
  assert (LI : forall gs, length (map (fun j => stateR s (nth j p 0) (column j gs)) (seq 0 (length p))) = length p) by (intros; rewrite map_length, seq_length; reflexivity).
  induction gs as [|g gs IH] using rev_ind; intros HF.
  - cbn [numbered combine seq length adam_updates fold_left]. rewrite init_fin. f_equal. unfold column, stateR, adam_position, decayed. cbn. clear.
    induction p as [|x p IH]; [reflexivity|]. cbn [map length seq nth]. rewrite <- seq_shift, map_map. cbn [nth]. rewrite <- IH. rewrite Rminus_0_r, !Rmult_0_r. reflexivity.
  - apply Forall_app in HF as [F1 F2]. inversion F2; subst. rewrite numbered_snoc, updates_app, (IH F1). unfold adam_updates. cbn [fold_left fst snd].
    assert (I : Forall inv (map (fun j => stateR s (nth j p 0) (column j gs)) (seq 0 (length p)))).
    { destruct (reached_fin s p (adam_updates s (numbered gs) (adam_init (Fin s) (map Fin p)))) as (l & E & HI & _).
      - exists (numbered gs). split; [|reflexivity]. apply Forall_forall. intros [i g'] I. apply in_combine_r in I. rewrite Forall_forall in F1. apply F1, I.
      - rewrite (IH F1) in E. unfold lifts in E. assert (Inj : forall a b, map lift a = map lift b -> a = b).
        { clear. induction a as [|[[x m] v] a IHa]; intros [|[[y n] w] b] H; try discriminate H; [reflexivity|]. cbn in H. injection H as -> -> -> H. f_equal. apply IHa, H. }
        apply Inj in E. rewrite E. exact HI. }
    rewrite update_fin by exact I. f_equal. apply (nth_ext _ _ (0, 0, 0) (0, 0, 0)); [rewrite ups_len by (rewrite LI; assumption); rewrite !LI; reflexivity|].
    intros j Hj. rewrite ups_len, LI in Hj by (rewrite LI; assumption). rewrite ups_nth by (rewrite LI; assumption).
    assert (NT : forall gs, nth j (map (fun j => stateR s (nth j p 0) (column j gs)) (seq 0 (length p))) (0, 0, 0) = stateR s (nth j p 0) (column j gs)).
    { intros gs'. rewrite (nth_indep _ _ (stateR s (nth 0 p 0) (column 0 gs'))) by (rewrite LI; exact Hj).
      rewrite (map_nth (fun j => stateR s (nth j p 0) (column j gs'))). rewrite seq_nth by exact Hj. reflexivity. }
    rewrite !NT. unfold column at 2. rewrite map_app. cbn [map]. fold (column j gs).
    replace (length gs) with (length (column j gs)) by apply map_length. apply state_snoc.
Qed.
Lemma run_positions s p gs : Forall (fun g => length g = length p) gs ->
  adam_params (adam_updates s (numbered gs) (adam_init (Fin s) (map Fin p))) = map Fin (map (fun j => adam_position s (nth j p 0) (column j gs)) (seq 0 (length p))).
Proof. intros H. rewrite (run_fin s p gs H), params_fin. f_equal. rewrite map_map. reflexivity. Qed.
Lemma first_position s x g : adam_position s x [g] = x - s * g / (Rabs g + 1 / 10 ^ 8).
Proof.
  unfold adam_position. cbn [length seq map firstn]. unfold Rsum, adam_step. cbn [fold_right map]. 
  unfold recent_mean, decayed, Rsum. cbn [map length seq nth fold_right Nat.sub pow].
  replace ((1 * (g * g) + 0) / (1 * 1 + 0)) with (Rsqr g) by (unfold Rsqr; field). rewrite sqrt_Rsqr_abs.
  replace ((1 * g + 0) / (1 * 1 + 0)) with g by field. ring.
Qed.
