(** Cumulative trapezoid integral and stellar mass. *)
From Coq Require Import Reals Lra Lia List Bool.
From Coquelicot Require Import Coquelicot.
From Verif Require Import XReal XFacts RealFacts ModelUtils ModelKernels ModelSfh SpecCore.
Import List ListNotations.
Open Scope R_scope.

Fixpoint cumR (a fa c : R) (l : list (R * R)) : list R :=
  match l with
  | [] => []
  | (b, fb) :: l' => let c' := c + (b - a) * (fb + fa) / 2 in c' :: cumR b fb c' l'
  end.

Lemma combine_map_Fin xs ys :
  combine (map Fin xs) (map Fin ys) = map (fun p => (Fin (fst p), Fin (snd p))) (combine xs ys).
Proof. revert ys; induction xs; intros [|y ys]; simpl; auto. f_equal. apply IHxs. Qed.

Lemma scan_cumR l : forall a fa c,
  scan_out cumtrapz_scan_func (Fin a, Fin fa, Fin c) (map (fun p => (Fin (fst p), Fin (snd p))) l)
  = map Fin (cumR a fa c l).
Proof.
  induction l as [|[b fb] l IH]; intros; [reflexivity|].
  cbn [map fst snd scan_out cumtrapz_scan_func]. xr_simp. rewrite xdiv_fin by lra. xr_simp.
  rewrite IH. reflexivity.
Qed.

Lemma cumR_length l : forall a fa c, length (cumR a fa c l) = length l.
Proof. induction l as [|[b fb] l IH]; intros; simpl; auto. Qed.

Lemma cumtrapz_fin x0 y0 xs ys : length xs = length ys ->
  cumtrapz (map Fin (x0 :: xs)) (map Fin (y0 :: ys))
  = Some (map Fin (0 :: cumR x0 y0 0 (combine xs ys))).
Proof.
  intros H. unfold cumtrapz. cbn [map length].
  rewrite !map_length, H, Nat.eqb_refl. cbn [negb combine scan_out cumtrapz_scan_func].
  xr_simp. rewrite xdiv_fin by lra. xr_simp.
  rewrite combine_map_Fin, scan_cumR.
  replace (0 + (x0 + - x0) * (y0 + y0) / 2) with 0 by field. reflexivity.
Qed.

Lemma padded_table (v : xr) (l : list xr) :
  upd_slice (upd (zeros (length l + 1)) 0 v) 1 l = v :: l.
Proof.
  rewrite Nat.add_1_r. cbn [zeros repeat upd]. rewrite upd_slice_cons. f_equal.
  rewrite <- (app_nil_r (repeat (Fin 0) (length l))).
  rewrite upd_slice_prefix; [apply app_nil_r|apply repeat_length].
Qed.

Lemma cumulative_unfold ts ss : length ts = length ss ->
  cumulative_mstar_formed ts ss =
  match cumtrapz (T_BIRTH_MIN :: ts) (SFR_MIN :: ss) with
  | Some c => Some (map (fun m => m * YEAR_PER_GYR)%X (tl c))
  | None => None
  end.
Proof.
  intros H. unfold cumulative_mstar_formed. rewrite H, Nat.eqb_refl. cbn [negb].
  rewrite padded_table. rewrite <- H. rewrite padded_table. reflexivity.
Qed.

Definition massR (ts ss : list R) : list R :=
  map (fun m => m * 10 ^ 9) (cumR T_BIRTH_MIN_R SFR_MIN_R 0 (combine ts ss)).

Lemma cumulative_fin ts ss : length ts = length ss ->
  cumulative_mstar_formed (map Fin ts) (map Fin ss) = Some (map Fin (massR ts ss)).
Proof.
  intros H. rewrite cumulative_unfold by (rewrite !map_length; exact H).
  pose proof (cumtrapz_fin T_BIRTH_MIN_R SFR_MIN_R ts ss H) as E.
  cbn [map] in E. unfold T_BIRTH_MIN, SFR_MIN. rewrite E. cbn [tl map]. f_equal.
  unfold massR. rewrite !map_map. apply map_ext. reflexivity.
Qed.

Lemma massR_length ts ss : length ts = length ss -> length (massR ts ss) = length ts.
Proof.
  intros H. unfold massR. rewrite map_length, cumR_length, combine_length. lia.
Qed.

(** *** Integral of the interpolant *)

Lemma is_RInt_line a fa b fb : a < b ->
  is_RInt (fun x => fa + (fb - fa) / (b - a) * (x - a)) a b ((b - a) * (fb + fa) / 2).
Proof.
  intros H.
  set (F := fun x => fa * x + (fb - fa) / (b - a) * (x - a) ^ 2 / 2).
  replace ((b - a) * (fb + fa) / 2) with (minus (F b) (F a)).
  - apply (is_RInt_derive F).
    + intros x _. unfold F. auto_derive; [lra|]. field. lra.
    + intros x _. apply (ex_derive_continuous (fun x => fa + (fb - fa) / (b - a) * (x - a))).
      auto_derive. lra.
  - unfold F, minus, plus, opp; simpl. field. lra.
Qed.

(** pieces of the interpolant *)
Lemma pwl_first x0 y0 x1 y1 l x : x <= x1 ->
  pwl ((x0, y0) :: (x1, y1) :: l) x = y0 + (y1 - y0) / (x1 - x0) * (x - x0).
Proof. intros H. simpl. destruct (Rle_dec x x1); [reflexivity|contradiction]. Qed.
Lemma pwl_rest x0 y0 x1 y1 l x : x1 < x ->
  pwl ((x0, y0) :: (x1, y1) :: l) x = pwl ((x1, y1) :: l) x.
Proof. intros H. cbn [pwl]. destruct (Rle_dec x x1); [lra|reflexivity]. Qed.

Lemma increasing_tail a l : increasing (a :: l) -> increasing l.
Proof. destruct l; simpl; tauto. Qed.

Lemma increasing_head_lt l : forall a i, increasing (a :: l) -> (i < length l)%nat -> a < nth i l 0.
Proof.
  induction l as [|b l IH]; intros a i H Hi; simpl in Hi; [lia|].
  destruct H as [Hab Hl]. destruct i; [exact Hab|]. simpl.
  eapply Rlt_trans; [exact Hab|]. apply IH; [exact Hl|lia].
Qed.

Lemma cumR_integral l : forall a fa c i, increasing (a :: map fst l) -> (i < length l)%nat ->
  is_RInt (pwl ((a, fa) :: l)) a (nth i (map fst l) 0) (nth i (cumR a fa c l) 0 - c).
Proof.
  induction l as [|[b fb] l IH]; intros a fa c i Hinc Hi; simpl in Hi; [lia|].
  destruct Hinc as [Hab Hinc]. simpl in Hab.
  assert (H1 : is_RInt (pwl ((a, fa) :: (b, fb) :: l)) a b ((b - a) * (fb + fa) / 2)).
  { eapply is_RInt_ext; [|apply is_RInt_line, Hab].
    intros x Hx. rewrite Rmin_left, Rmax_right in Hx by lra. symmetry. apply pwl_first. lra. }
  destruct i.
  - simpl. replace (c + (b - a) * (fb + fa) / 2 - c) with ((b - a) * (fb + fa) / 2) by ring.
    exact H1.
  - cbn [map fst nth cumR].
    set (c' := c + (b - a) * (fb + fa) / 2).
    replace (nth i (cumR b fb c' l) 0 - c) with
      (@plus (NormedModule.AbelianGroup R_AbsRing R_NormedModule)
         ((b - a) * (fb + fa) / 2) (nth i (cumR b fb c' l) 0 - c'))
      by (unfold plus, c'; simpl; ring).
    apply (is_RInt_Chasles (V := R_NormedModule) _ a b _ _ _ H1).
    eapply is_RInt_ext; [|apply IH; [exact Hinc|lia]].
    intros x Hx.
    assert (Hb : b < nth i (map fst l) 0).
    { apply increasing_head_lt; [exact Hinc|rewrite map_length; lia]. }
    rewrite Rmin_left, Rmax_right in Hx by lra. symmetry. apply pwl_rest. lra.
Qed.

Lemma map_fst_combine {A B} (l : list A) (m : list B) : length l = length m -> map fst (combine l m) = l.
Proof. revert m; induction l; intros [|b m] H; simpl in *; try discriminate; auto. f_equal. apply IHl. lia. Qed.

Lemma massR_integral ts ss i : length ts = length ss -> increasing (T_BIRTH_MIN_R :: ts) ->
  (i < length ts)%nat ->
  nth i (massR ts ss) 0
  = 10 ^ 9 * RInt (pwl ((T_BIRTH_MIN_R, SFR_MIN_R) :: combine ts ss)) T_BIRTH_MIN_R (nth i ts 0).
Proof.
  intros H Hinc Hi. unfold massR.
  rewrite (nth_map _ _ i 0) by (rewrite cumR_length, combine_length; lia).
  pose proof (cumR_integral (combine ts ss) T_BIRTH_MIN_R SFR_MIN_R 0 i) as E.
  rewrite map_fst_combine in E by exact H.
  specialize (E Hinc). rewrite combine_length in E. specialize (E ltac:(lia)).
  apply (is_RInt_unique (V := R_CompleteNormedModule)) in E. rewrite E. ring.
Qed.

(** *** Monotonicity *)

Lemma cumR_increasing (l : list (R * R)) : forall a fa c, increasing (a :: map fst l) -> 0 < fa ->
  Forall (fun p => 0 < snd p) l -> increasing (c :: cumR a fa c l).
Proof.
  induction l as [|[b fb] l IH]; intros a fa c Hinc Ha Hf; [simpl; auto|].
  inversion Hf; subst. destruct Hinc as [Hab Hinc]. simpl in Hab, H1.
  cbn [cumR]. split.
  - assert (0 < (b - a) * (fb + fa)) by (apply Rmult_lt_0_compat; lra). lra.
  - apply IH; auto.
Qed.

Lemma increasing_Forall_gt l : forall c, increasing (c :: l) -> Forall (fun x => c < x) l.
Proof.
  induction l as [|a l IH]; intros c H; [constructor|]. destruct H as [H1 H2].
  constructor; [exact H1|]. specialize (IH a H2). eapply Forall_impl; [|exact IH].
  simpl; intros; lra.
Qed.

Lemma increasing_map_scale k l : 0 < k -> increasing l -> increasing (map (fun x => x * k) l).
Proof.
  intros Hk. induction l as [|a l IH]; intros H; [exact I|].
  destruct l as [|b l]; [exact I|]. destruct H as [H1 H2]. split.
  - apply Rmult_lt_compat_r; assumption.
  - apply IH, H2.
Qed.

Lemma Forall_snd_combine {A B} (P : B -> Prop) (l : list A) m :
  Forall P m -> Forall (fun p => P (snd p)) (combine l m).
Proof.
  revert m; induction l as [|a l IH]; intros [|b m] H; simpl; constructor; inversion H; subst; auto.
Qed.

Lemma massR_increasing ts ss : length ts = length ss -> increasing (T_BIRTH_MIN_R :: ts) ->
  Forall (fun s => 0 < s) ss ->
  increasing (massR ts ss) /\ Forall (fun m => 0 < m) (massR ts ss).
Proof.
  intros H Hinc Hs.
  assert (E : increasing (0 :: cumR T_BIRTH_MIN_R SFR_MIN_R 0 (combine ts ss))).
  { apply cumR_increasing.
    - rewrite map_fst_combine by exact H. exact Hinc.
    - unfold SFR_MIN_R. lra.
    - apply Forall_snd_combine, Hs. }
  split.
  - apply increasing_map_scale; [lra|]. eapply increasing_tail, E.
  - apply increasing_Forall_gt in E. unfold massR. rewrite Forall_map.
    eapply Forall_impl; [|exact E]. cbv beta. intros. apply Rmult_lt_0_compat; lra.
Qed.

(** weak version for non-negative rates *)
Lemma cumR_nondecreasing (l : list (R * R)) : forall a fa c, increasing (a :: map fst l) -> 0 <= fa ->
  Forall (fun p => 0 <= snd p) l -> nondecreasing (c :: cumR a fa c l).
Proof.
  induction l as [|[b fb] l IH]; intros a fa c Hinc Ha Hf; [simpl; auto|].
  inversion Hf; subst. destruct Hinc as [Hab Hinc]. simpl in Hab, H1.
  cbn [cumR]. split.
  - assert (0 <= (b - a) * (fb + fa)) by (apply Rmult_le_pos; lra). lra.
  - apply IH; auto.
Qed.

(** *** Causality, at the level of arbitrary (possibly non-finite) values *)
Lemma scan_out_firstn {S E O} (f : S -> E -> S * O) k : forall s l,
  scan_out f s (firstn k l) = firstn k (scan_out f s l).
Proof.
  induction k; intros s [|e l]; simpl; auto. destruct (f s e). simpl. f_equal. apply IHk.
Qed.

Lemma combine_firstn' {A B} (l : list A) (m : list B) k :
  combine (firstn k l) (firstn k m) = firstn k (combine l m).
Proof. revert l m; induction k; intros [|a l] [|b m]; simpl; auto. f_equal. auto. Qed.

Lemma cumulative_causal k ts ss mass : cumulative_mstar_formed ts ss = Some mass ->
  cumulative_mstar_formed (firstn k ts) (firstn k ss) = Some (firstn k mass).
Proof.
  intros H. assert (Hl : length ts = length ss).
  { unfold cumulative_mstar_formed in H. destruct (length ts =? length ss)%nat eqn:E; [|discriminate].
    apply Nat.eqb_eq, E. }
  rewrite cumulative_unfold in H by exact Hl.
  rewrite cumulative_unfold by (rewrite !firstn_length; lia).
  unfold cumtrapz in *. cbn [length] in *. rewrite Hl, Nat.eqb_refl in H.
  rewrite !firstn_length, Hl, Nat.eqb_refl. cbn [negb combine] in *.
  cbn [scan_out] in *.
  destruct (cumtrapz_scan_func (T_BIRTH_MIN, SFR_MIN, Fin 0) (T_BIRTH_MIN, SFR_MIN)) as [s o].
  cbn [tl] in *. injection H as <-. f_equal.
  rewrite combine_firstn', scan_out_firstn, firstn_map. reflexivity.
Qed.

(** *** Algebra of cumtrapz *)
Lemma cumR_linear l1 : forall l2 a f1 f2 c1 c2 p q,
  map fst l1 = map fst l2 ->
  cumR a (p * f1 + q * f2) (p * c1 + q * c2)
    (map2 (fun u v : R * R => (fst u, p * snd u + q * snd v)) l1 l2)
  = map2 (fun u v => p * u + q * v) (cumR a f1 c1 l1) (cumR a f2 c2 l2).
Proof.
  induction l1 as [|[b g1] l1 IH]; intros [|[b2 g2] l2] a f1 f2 c1 c2 p q H; simpl in *; auto.
  injection H as <- H.
  replace (p * c1 + q * c2 + (b - a) * (p * g1 + q * g2 + (p * f1 + q * f2)) / 2)
    with (p * (c1 + (b - a) * (g1 + f1) / 2) + q * (c2 + (b - a) * (g2 + f2) / 2)) by field.
  f_equal. apply IH. exact H.
Qed.

Lemma combine_linear p q xs : forall ys zs, length xs = length ys -> length xs = length zs ->
  combine xs (map2 (fun u v => p * u + q * v) ys zs)
  = map2 (fun u v : R * R => (fst u, p * snd u + q * snd v)) (combine xs ys) (combine xs zs).
Proof.
  induction xs; intros [|y ys] [|z zs] H1 H2; simpl in *; try discriminate; auto.
  f_equal. apply IHxs; lia.
Qed.

Lemma cumtrapz_linear p q x0 xs y0 ys z0 zs r s :
  length xs = length ys -> length xs = length zs ->
  cumtrapz (map Fin (x0 :: xs)) (map Fin (y0 :: ys)) = Some (map Fin r) ->
  cumtrapz (map Fin (x0 :: xs)) (map Fin (z0 :: zs)) = Some (map Fin s) ->
  cumtrapz (map Fin (x0 :: xs)) (map Fin (map2 (fun u v => p * u + q * v) (y0 :: ys) (z0 :: zs)))
  = Some (map Fin (map2 (fun u v => p * u + q * v) r s)).
Proof.
  intros H1 H2 E1 E2. rewrite cumtrapz_fin in E1, E2 by assumption.
  injection E1 as E1. injection E2 as E2.
  assert (Er : r = 0 :: cumR x0 y0 0 (combine xs ys)) by (apply map_Fin_inj; symmetry; exact E1).
  assert (Es : s = 0 :: cumR x0 z0 0 (combine xs zs)) by (apply map_Fin_inj; symmetry; exact E2).
  subst. cbn [map2]. rewrite cumtrapz_fin by (rewrite map2_length; lia).
  do 2 f_equal. f_equal; [ring|].
  rewrite combine_linear by assumption.
  rewrite <- (cumR_linear (combine xs ys) (combine xs zs)).
  - f_equal. ring.
  - rewrite !map_fst_combine; auto.
Qed.

Lemma cumR_affine m b0 xs : forall a c,
  cumR a (m * a + b0) c (combine xs (map (fun x => m * x + b0) xs))
  = map (fun x => c + (m * x * x / 2 + b0 * x) - (m * a * a / 2 + b0 * a)) xs.
Proof.
  induction xs as [|x xs IH]; intros a c; [reflexivity|].
  cbn [combine map cumR]. rewrite IH. f_equal; [field|]. apply map_ext. intros. field.
Qed.

Lemma map_combine_id xs (f : R -> R) : map (fun x => (x, f x)) xs = combine xs (map f xs).
Proof. induction xs; simpl; congruence. Qed.

Lemma cumtrapz_affine m b0 x0 xs :
  cumtrapz (map Fin (x0 :: xs)) (map Fin (map (fun x => m * x + b0) (x0 :: xs)))
  = Some (map Fin (map (fun x => (m * x * x / 2 + b0 * x) - (m * x0 * x0 / 2 + b0 * x0)) (x0 :: xs))).
Proof.
  pose proof (cumtrapz_fin x0 (m * x0 + b0) xs (map (fun x => m * x + b0) xs)) as E.
  cbn [map] in *. rewrite E by (rewrite map_length; auto).
  do 2 f_equal; [f_equal; ring|]. f_equal. rewrite cumR_affine. apply map_ext. intros. ring.
Qed.

Lemma cumtrapz_shape x0 y0 xs ys : length xs = length ys ->
  exists r, cumtrapz (map Fin (x0 :: xs)) (map Fin (y0 :: ys)) = Some (map Fin (0 :: r)) /\
  length r = length xs /\
  (increasing (x0 :: xs) -> Forall (fun y => 0 <= y) (y0 :: ys) -> nondecreasing (0 :: r)).
Proof.
  intros H. eexists. split; [apply cumtrapz_fin, H|].
  split; [rewrite cumR_length, combine_length; lia|].
  intros Hinc Hy. inversion Hy; subst. apply cumR_nondecreasing; auto.
  - rewrite map_fst_combine by exact H. exact Hinc.
  - apply Forall_snd_combine. assumption.
Qed.

Lemma cumtrapz_mismatch xs ys : length xs <> length ys -> cumtrapz xs ys = None.
Proof. intros H. unfold cumtrapz. apply Nat.eqb_neq in H. rewrite H. reflexivity. Qed.
