(** Proofs about the optimiser wrappers. *)
From Coq Require Import Reals List Lra Lia Bool ZArith.
From Verif Require Import XReal ModelUtils ModelKernels ModelSfh ModelPop ModelHist ModelFit RealFacts XFacts SpecCore SpecHist SpecFit
  DtProofs PopProofs SigmoidProofs SmhmProofs PopLossProofs FitProofs.
Import List ListNotations.
Open Scope R_scope.

(** ** Order on extended reals *)
Lemma xlt_irrefl a : xlt a a = false.
Proof. destruct a; try reflexivity. apply xlt_fin_false. lra. Qed.
Ltac xr_cases := repeat match goal with
  | x : xr |- _ => destruct x
  end; simpl in *; unfold Rltb, Reqb in *;
  repeat match goal with
  | H : context [if ?c then _ else _] |- _ => destruct c; simpl in *
  | |- context [if ?c then _ else _] => destruct c; simpl in *
  end; try congruence; try (exfalso; lra); auto.
Lemma xlt_trans a b c : xlt a b = true -> xlt b c = true -> xlt a c = true.
Proof. intros H1 H2. xr_cases. Qed.
Lemma xlt_nlt_trans a v p : p <> NaN -> xlt a v = true -> xlt p v = false -> xlt a p = true.
Proof. intros Hp H1 H2. xr_cases. Qed.
Lemma nlt_lt_trans t m x : x <> NaN -> xlt t m = true -> xlt x m = false -> xlt t x = true.
Proof. intros Hp H1 H2. xr_cases. Qed.
Lemma xlt_not_le t x : xlt t x = true -> xle x t = false.
Proof. unfold xle. intros H. xr_cases. Qed.
Lemma not_lt_le t m : t <> NaN -> m <> NaN -> xlt t m = false -> xle m t = true.
Proof. unfold xle. intros. xr_cases. Qed.
Lemma xlt_neq_nan_r a b : xlt a b = true -> b <> NaN.
Proof. intros H ->. destruct a; discriminate. Qed.

Lemma isnan_true x : isnan x = true <-> x = NaN. Proof. destruct x; simpl; split; congruence. Qed.
Lemma isnan_false x : isnan x = false <-> x <> NaN. Proof. destruct x; simpl; split; congruence. Qed.
Lemma any_nan_In l : any_nan l = true <-> In NaN l.
Proof.
  unfold any_nan. rewrite existsb_exists. split.
  - intros (x & Hx & Hn). apply isnan_true in Hn. subst. exact Hx.
  - intros H. exists NaN. auto.
Qed.
Lemma all_nan_iff l : all_nan l = true <-> forall x, In x l -> x = NaN.
Proof.
  unfold all_nan. rewrite forallb_forall. split; intros H x Hx; specialize (H x Hx); apply isnan_true; exact H.
Qed.
Lemma not_all_nan l : all_nan l = false -> exists x, In x l /\ x <> NaN.
Proof.
  unfold all_nan. induction l as [|a l IH]; simpl; [discriminate|]. intros H. apply andb_false_iff in H. destruct H as [H|H].
  - exists a. split; [left; reflexivity|]. apply isnan_false, H.
  - destruct (IH H) as (x & Hx & Hn). exists x. auto.
Qed.

(** ** argmin *)
Definition first_min (l : list xr) (k : nat) : Prop :=
  (k < length l)%nat /\ (forall i, (i < length l)%nat -> xlt (nth i l NaN) (nth k l NaN) = false) /\
  (forall i, (i < k)%nat -> xlt (nth k l NaN) (nth i l NaN) = true).
Lemma argmin_loop l : forall pre best v, Forall (fun x => x <> NaN) (pre ++ l) -> (best < length pre)%nat -> nth best pre NaN = v ->
  (forall i, (i < length pre)%nat -> xlt (nth i pre NaN) v = false) -> (forall i, (i < best)%nat -> xlt v (nth i pre NaN) = true) ->
  first_min (pre ++ l) (argbest xlt best v (length pre) l).
Proof.
  induction l as [|a l IH]; intros pre best v HF Hb Hv Hle Hlt; cbn [argbest].
  - rewrite app_nil_r. split; [exact Hb|]. rewrite Hv. auto.
  - assert (Hvn : v <> NaN).
    { rewrite <- Hv, <- (app_nth1 pre (a :: l) NaN Hb). rewrite Forall_forall in HF. apply HF, nth_In. rewrite app_length. lia. }
    assert (Han : a <> NaN). { rewrite Forall_forall in HF. apply HF, in_or_app. right; left; reflexivity. }
    assert (Hpn : forall i, (i < length pre)%nat -> nth i pre NaN <> NaN).
    { intros i Hi. rewrite Forall_forall in HF. apply HF, in_or_app. left. apply nth_In, Hi. }
    assert (Hn : forall i, (i < length (pre ++ [a]))%nat -> nth i (pre ++ [a]) NaN = a /\ i = length pre \/ (i < length pre)%nat /\ nth i (pre ++ [a]) NaN = nth i pre NaN).
    { intros i Hi. rewrite app_length in Hi; simpl in Hi. destruct (Nat.eq_dec i (length pre)) as [->|Hne].
      - left. rewrite app_nth2, Nat.sub_diag by lia. auto.
      - right. split; [lia|]. apply app_nth1. lia. }
    replace (pre ++ a :: l) with ((pre ++ [a]) ++ l) in * by (rewrite <- app_assoc; reflexivity).
    replace (S (length pre)) with (length (pre ++ [a])) by (rewrite app_length; simpl; lia).
    rewrite (proj2 (isnan_false v) Hvn), (proj2 (isnan_false a) Han). cbn [negb andb orb].
    destruct (xlt a v) eqn:E.
    + apply IH; auto.
      * rewrite app_length; simpl; lia.
      * rewrite app_nth2, Nat.sub_diag by lia. reflexivity.
      * intros i Hi. destruct (Hn i Hi) as [[-> _]|[Hi' ->]]; [apply xlt_irrefl|].
        destruct (xlt (nth i pre NaN) a) eqn:E2; [|reflexivity].
        specialize (Hle i Hi'). rewrite (xlt_trans _ _ _ E2 E) in Hle. exact Hle.
      * intros i Hi. rewrite app_nth1 by lia. apply (xlt_nlt_trans a v); auto.
    + apply IH; auto.
      * rewrite app_length; simpl; lia.
      * rewrite app_nth1 by exact Hb. exact Hv.
      * intros i Hi. destruct (Hn i Hi) as [[-> _]|[Hi' ->]]; [exact E|]. apply Hle, Hi'.
      * intros i Hi. rewrite app_nth1 by lia. apply Hlt, Hi.
Qed.
Lemma argmin_nonan l : l <> [] -> Forall (fun x => x <> NaN) l -> exists k, np_argmin l = Some k /\ first_min l k.
Proof.
  destruct l as [|a l]; [congruence|]. intros _ HF. eexists. split; [reflexivity|].
  apply (argmin_loop l [a] 0%nat a); simpl; auto; try lia.
  intros [|i] H; [apply xlt_irrefl|lia].
Qed.

Definition fill (x : xr) : xr := if isnan x then PInf else x.
Lemma fill_nonan x : fill x <> NaN. Proof. destruct x; discriminate. Qed.
Lemma fill_id x : x <> NaN -> fill x = x. Proof. destruct x; intros; try reflexivity; congruence. Qed.
Lemma nanargmin_some l : all_nan l = false -> exists k, np_nanargmin l = Some k /\ first_min (map fill l) k.
Proof.
  intros H. unfold np_nanargmin. rewrite H. apply argmin_nonan.
  - intros E. destruct l; [discriminate H|discriminate E].
  - rewrite Forall_map. apply Forall_forall. intros x _. apply fill_nonan.
Qed.
Lemma nanargmin_best l x : In x l -> xlt x PInf = true -> exists k, np_nanargmin l = Some k /\ best_index l k.
Proof.
  intros Hx Hlt. assert (Ha : all_nan l = false).
  { destruct (all_nan l) eqn:E; [|reflexivity]. rewrite all_nan_iff in E. rewrite (E x Hx) in Hlt. discriminate. }
  destruct (nanargmin_some l Ha) as (k & Hk & Hl & Hmin & Hfirst). exists k. split; [exact Hk|]. rewrite map_length in Hl.
  assert (Hnth : forall i, (i < length l)%nat -> nth i (map fill l) NaN = fill (nth i l NaN)) by (intros; apply nth_map; assumption).
  rewrite map_length in Hmin.
  assert (Hfin : nth k l NaN <> NaN).
  { intros E. apply In_nth with (d := NaN) in Hx. destruct Hx as (i & Hi & Hxi). specialize (Hmin i Hi).
    rewrite !Hnth, E in Hmin by assumption. rewrite Hxi in Hmin. change (fill NaN) with PInf in Hmin.
    rewrite fill_id in Hmin by (destruct x; discriminate). congruence. }
  split; [exact Hl|]. split; [exact Hfin|]. split.
  - intros i Hi Hni. specialize (Hmin i Hi). rewrite !Hnth in Hmin by assumption. rewrite !fill_id in Hmin by assumption. exact Hmin.
  - intros i Hi. specialize (Hfirst i Hi). rewrite !Hnth in Hfirst by lia. rewrite (fill_id _ Hfin) in Hfirst.
    destruct (nth i l NaN); try (right; exact Hfirst). left; reflexivity.
Qed.

(** ** min, nanmin *)
Lemma fold_min_nan l : fold_left xmin l NaN = NaN.
Proof. induction l; simpl; auto. Qed.
Lemma fold_min l : forall a, a <> NaN -> Forall (fun x => x <> NaN) l -> let m := fold_left xmin l a in
  m <> NaN /\ In m (a :: l) /\ forall x, In x (a :: l) -> xlt x m = false.
Proof.
  induction l as [|b l IH]; intros a Ha HF; cbv zeta; cbn [fold_left].
  - split; [exact Ha|]. split; [left; reflexivity|]. intros x [->|[]]. apply xlt_irrefl.
  - inversion HF as [|? ? Hb HF']; subst.
    assert (Hm : xmin a b = a /\ xlt b a = false \/ xmin a b = b /\ xlt b a = true).
    { unfold xmin. rewrite (proj2 (isnan_false a) Ha), (proj2 (isnan_false b) Hb). cbn [orb]. destruct (xlt b a); auto. }
    assert (Hab : xmin a b <> NaN) by (destruct Hm as [[-> _]|[-> _]]; assumption).
    destruct (IH (xmin a b) Hab HF') as (H1 & H2 & H3). split; [exact H1|]. split.
    + destruct H2 as [H2|H2]; [|right; right; exact H2]. rewrite <- H2. destruct Hm as [[-> _]|[-> _]]; simpl; auto.
    + set (m := fold_left xmin l (xmin a b)) in *. intros x [->|[->|Hx]].
      * assert (Hmm : xlt (xmin x b) m = false) by (apply H3; left; reflexivity). destruct Hm as [[E _]|[E Eb]]; rewrite E in Hmm; auto.
        destruct (xlt x m) eqn:E2; [|reflexivity]. rewrite (xlt_trans _ _ _ Eb E2) in Hmm. discriminate.
      * assert (Hmm : xlt (xmin a x) m = false) by (apply H3; left; reflexivity). destruct Hm as [[E Eb]|[E _]]; rewrite E in Hmm; auto.
        destruct (xlt x m) eqn:E2; [|reflexivity]. exfalso. pose proof (xlt_nlt_trans _ _ _ Ha E2 Hmm). congruence.
      * apply H3. right; exact Hx.
Qed.
Lemma np_min_nan l : In NaN l -> np_min l = Some NaN.
Proof.
  destruct l as [|a l]; [contradiction|]. intros H. cbn. f_equal. revert a H. induction l as [|b l IH]; intros a H; simpl.
  - destruct H as [H|[]]. exact H.
  - apply IH. destruct H as [->|[->|H]]; [left; reflexivity|left; unfold xmin; rewrite orb_true_r; reflexivity|right; exact H].
Qed.
Lemma np_min_num l : l <> [] -> Forall (fun x => x <> NaN) l -> exists m, np_min l = Some m /\ m <> NaN /\ In m l /\ forall x, In x l -> xlt x m = false.
Proof.
  destruct l as [|a l]; [congruence|]. intros _ HF. inversion HF; subst. eexists. split; [reflexivity|]. apply fold_min; assumption.
Qed.
Lemma np_nanmin_some l : all_nan l = false -> exists m, np_nanmin l = Some m /\ m <> NaN /\ In m l /\ forall x, In x l -> x <> NaN -> xlt x m = false.
Proof.
  intros H. unfold np_nanmin. set (l' := filter (fun x => negb (isnan x)) l).
  assert (Hin : forall x, In x l' <-> In x l /\ x <> NaN).
  { intros x. unfold l'. rewrite filter_In, negb_true_iff, isnan_false. reflexivity. }
  destruct (np_min_num l') as (m & Hm & Hn & Hi & Hle).
  - destruct (not_all_nan l H) as (x & Hx & Hxn). intros E. assert (Hx' : In x l') by (apply Hin; auto). rewrite E in Hx'. contradiction.
  - apply Forall_forall. intros x Hx. apply Hin in Hx. apply Hx.
  - exists m. split; [exact Hm|]. split; [exact Hn|]. split; [apply Hin, Hi|]. intros x Hx Hxn. apply Hle, Hin. auto.
Qed.

(** ** Random starting points and restarts *)
Section Restart.
Variable rng : Type.
Variable normal : rng -> list xr -> list xr -> list xr * rng.
Variable grad : list xr -> list xr.
Variable minimize : list xr -> list xr * xr * bool.
Variable p_init : list xr * list xr.
Notation after := (rng_after rng normal p_init).
Notation drw := (draw rng normal p_init).
Notation started := (start_drawn rng normal grad p_init).
Notation atts := (attempts rng normal grad minimize p_init).
Notation stop_reason := (stop_reason p_init).

Lemma normal_draw s k : normal (after s k) (fst p_init) (snd p_init) = (drw s k, after s (S k)).
Proof. unfold draw. cbn [rng_after]. destruct (normal _ _ _); reflexivity. Qed.

Lemma redraw_loop fuel : forall s k p flag s', redraw rng normal grad fuel (after s k) p_init (drw s (k - 1)) (any_nan (grad (drw s (k - 1)))) = (p, flag, s') ->
  (1 <= k)%nat -> (forall j, (j < k - 1)%nat -> In NaN (grad (drw s j))) ->
  exists n, (k <= n <= k + fuel)%nat /\ p = drw s (n - 1) /\ s' = after s n /\ (forall j, (j < n - 1)%nat -> In NaN (grad (drw s j))) /\
    flag = any_nan (grad p) /\ (flag = true -> n = (k + fuel)%nat).
Proof.
  induction fuel as [|fuel IH]; intros s k p flag s' H Hk Hbad; cbn [redraw] in H.
  - injection H as <- <- <-. exists k. repeat split; auto; try lia.
  - destruct (any_nan (grad (drw s (k - 1)))) eqn:E.
    + rewrite normal_draw in H. replace k with (S k - 1)%nat in H at 2 3 by lia.
      apply (IH s (S k)) in H; [|lia|].
      * destruct H as (n & Hn & Hp & Hs & Hb & Hf & Hfl). exists n. repeat split; auto; try lia. intros Ht. specialize (Hfl Ht). lia.
      * intros j Hj. destruct (Nat.eq_dec j (k - 1)) as [->|Hne]; [apply any_nan_In, E|apply Hbad; lia].
    + injection H as <- <- <-. exists k. repeat split; auto; try lia.
Qed.

Lemma random_pinit s p flag s' : return_random_pinit rng normal grad s p_init = (p, flag, s') -> started s p flag s'.
Proof.
  unfold return_random_pinit. change s with (after s 0) at 1. rewrite normal_draw. intros H. unfold start_drawn.
  destruct (any_nan (grad (drw s 0))) eqn:E.
  - rewrite <- E in H at 1. apply (redraw_loop 1000 s 1) in H; [|lia|intros; lia].
    destruct H as (n & Hn & Hp & Hs & Hb & Hf & Hfl). exists n. split; [lia|]. split; [exact Hp|]. split; [exact Hs|]. split; [exact Hb|].
    split; [rewrite Hf; apply any_nan_In|]. exact Hfl.
  - injection H as <- <- <-. exists 1%nat. split; [lia|]. split; [reflexivity|]. split; [reflexivity|]. split; [intros; lia|].
    split; [rewrite <- E; apply any_nan_In|discriminate].
Qed.

Lemma atts_app s l s1 l' s2 : atts s l s1 -> atts s1 l' s2 -> atts s (l ++ l') s2.
Proof. intros H. revert l' s2. induction H; intros l' s3 H3; simpl; auto; econstructor; eauto. Qed.

Lemma losses_In l x : In x (losses l) <-> exists a, In a l /\ snd (fst a) = x.
Proof. unfold losses. rewrite in_map_iff. split; intros (a & H1 & H2); exists a; auto. Qed.
Lemma losses_app l m : losses (l ++ m) = losses l ++ losses m.
Proof. apply map_app. Qed.

(** [cur] describes the attempts made so far *)
Definition cur_ok (tol cur : xr) (acc : list attempt_result) : Prop :=
  (xgt cur tol = true -> over tol acc) /\ (xgt cur tol = false -> stop_reason tol acc).

Lemma restarts_spec tol : tol <> NaN -> tol <> PInf -> forall fuel s acc cur, cur_ok tol cur acc ->
  exists l s', restarts rng normal grad minimize fuel s p_init tol acc cur = Some (acc ++ l, s') /\ atts s l s' /\ (length l <= fuel)%nat /\
    ((length l < fuel)%nat -> stop_reason tol (acc ++ l)) /\
    (forall l1 a l2, l = l1 ++ a :: l2 -> over tol (acc ++ l1)).
Proof.
  intros Htol Htol2. induction fuel as [|fuel IH]; intros s acc cur (Hgo & Hstop); cbn [restarts].
  - exists [], s. rewrite app_nil_r. split; [reflexivity|]. split; [constructor|]. split; [simpl; lia|]. split; [simpl; lia|].
    intros l1 a l2 E. destruct l1; discriminate.
  - destruct (xgt cur tol) eqn:Ecur.
    2:{ exists [], s. rewrite app_nil_r. split; [reflexivity|]. split; [constructor|]. split; [simpl; lia|]. split; [intros _; apply Hstop; reflexivity|].
        intros l1 a l2 E. destruct l1; discriminate. }
    destruct (return_random_pinit rng normal grad s p_init) as [[p flag] s1] eqn:Er. apply random_pinit in Er.
    assert (Hover := Hgo eq_refl).
    assert (Hfin : forall a cur' , cur_ok tol cur' (acc ++ [a]) -> (forall l s2, atts s1 l s2 -> atts s (a :: l) s2) ->
       exists l s', restarts rng normal grad minimize fuel s1 p_init tol (acc ++ [a]) cur' = Some (acc ++ l, s') /\ atts s l s' /\ (length l <= S fuel)%nat /\
        ((length l < S fuel)%nat -> stop_reason tol (acc ++ l)) /\
        (forall l1 a l2, l = l1 ++ a :: l2 -> over tol (acc ++ l1))).
    { intros a cur' Hcur Hatt. destruct (IH s1 (acc ++ [a]) cur' Hcur) as (l & s' & H1 & H2 & H3 & H4 & H5).
      rewrite <- app_assoc in H1, H4. cbn [app] in H1, H4.
      exists (a :: l), s'. split; [exact H1|]. split; [apply Hatt, H2|]. split; [simpl; lia|]. split; [simpl; intros; apply H4; lia|].
      intros l1 b l2 E. destruct l1 as [|c l1]; [rewrite app_nil_r; exact Hover|]. injection E as <- E.
      specialize (H5 l1 b l2 E). rewrite <- app_assoc in H5. exact H5. }
    destruct flag.
    + set (a := (fst p_init, Fin (99999 / 100), (-1)%Z)).
      assert (Hne : losses (acc ++ [a]) <> []) by (rewrite losses_app; intros E; apply app_eq_nil in E; destruct E; discriminate).
      assert (Hatt : forall l s2, atts s1 l s2 -> atts s (a :: l) s2) by (intros; eapply invalid_attempt; eauto).
      destruct (Classical_Prop.classic (In NaN (losses (acc ++ [a])))) as [Hnan|Hnan].
      * rewrite np_min_nan by exact Hnan. apply Hfin; [|exact Hatt].
        split; [destruct tol; discriminate|]. intros _. right. split; [apply losses_In, Hnan|]. exists acc, a. auto.
      * destruct (np_min_num (losses (acc ++ [a])) Hne) as (m & Hm & Hmn & Hmi & Hmle).
        { apply Forall_forall. intros x Hx ->. contradiction. }
        rewrite Hm. apply Hfin; [|exact Hatt]. unfold xgt. split; intros Hc.
        { intros b Hb. apply xlt_not_le. assert (Hbl : In (snd (fst b)) (losses (acc ++ [a]))) by (apply losses_In; exists b; auto).
          apply (nlt_lt_trans _ m); auto. intros E. rewrite E in Hbl. contradiction. }
        { left. apply losses_In in Hmi. destruct Hmi as (b & Hb & Ebm). exists b. split; [exact Hb|]. rewrite Ebm. apply not_lt_le; auto. }
    + destruct (minimize p) as [[x f] ok] eqn:Em. set (a := (x, f, 1%Z)).
      assert (Hatt : forall l s2, atts s1 l s2 -> atts s (a :: l) s2) by (intros; eapply valid_attempt; eauto).
      destruct (all_nan (losses (acc ++ [a]))) eqn:Ea.
      * apply Hfin; [|exact Hatt]. rewrite all_nan_iff in Ea. unfold xgt. split.
        { intros _ b Hb. rewrite (Ea (snd (fst b))) by (apply losses_In; exists b; auto). destruct tol; reflexivity. }
        { intros Hc. exfalso. destruct tol; try discriminate; congruence. }
      * destruct (np_nanmin_some _ Ea) as (m & Hm & Hmn & Hmi & Hmle). rewrite Hm. apply Hfin; [|exact Hatt]. unfold xgt. split; intros Hc.
        { intros b Hb. destruct (Classical_Prop.classic (snd (fst b) = NaN)) as [E|E]; [rewrite E; destruct tol; reflexivity|].
          apply xlt_not_le, (nlt_lt_trans _ m); auto. apply Hmle; [|exact E]. apply losses_In; exists b; auto. }
        { left. apply losses_In in Hmi. destruct Hmi as (b & Hb & Ebm). exists b. split; [exact Hb|]. rewrite Ebm. apply not_lt_le; auto. }
Qed.

Lemma wrapper_spec s tol max_iter : exists l s' res,
  minimizer_wrapper rng normal grad minimize s p_init (Fin tol) max_iter = Some (res, s') /\
  atts s l s' /\ (length l <= max_iter)%nat /\
  ((length l < max_iter)%nat -> stop_reason (Fin tol) l) /\
  (forall l1 a l2, l = l1 ++ a :: l2 -> over (Fin tol) l1) /\
  ((forall a, In a l -> snd (fst a) = NaN) -> res = (fst p_init, Fin (99999 / 100), (-1)%Z)) /\
  ((exists a, In a l /\ xlt (snd (fst a)) PInf = true) ->
     exists k, best_index (losses l) k /\ nth_error l k = Some res) /\
  (l <> [] -> (exists a, In a l /\ snd (fst a) <> NaN) -> In res l).
Proof.
  destruct (restarts_spec (Fin tol) ltac:(discriminate) ltac:(discriminate) max_iter s [] PInf) as (l & s' & H1 & H2 & H3 & H4 & H5).
  { split; [intros _ a []|discriminate]. }
  cbn [app] in *. unfold minimizer_wrapper. rewrite H1. destruct (all_nan (losses l)) eqn:Ea.
  - exists l, s', (fst p_init, Fin (99999 / 100), (-1)%Z). rewrite all_nan_iff in Ea.
    do 5 (split; [assumption || reflexivity|]). split; [reflexivity|]. split.
    + intros (a & Ha & Hlt). exfalso. rewrite (Ea (snd (fst a))) in Hlt by (apply losses_In; exists a; auto). discriminate.
    + intros _ (a & Ha & Hn). exfalso. apply Hn, Ea, losses_In. exists a; auto.
  - destruct (nanargmin_some _ Ea) as (k & Hk & Hfm). rewrite Hk.
    assert (Hkl : (k < length l)%nat). { destruct Hfm as (Hkl & _). unfold losses in Hkl. rewrite !map_length in Hkl. exact Hkl. }
    destruct (nth_error l k) as [res|] eqn:En; [|apply nth_error_None in En; lia].
    exists l, s', res. repeat (split; [assumption || reflexivity|]). split; [|split].
    + intros Hall. exfalso. destruct (not_all_nan _ Ea) as (x & Hx & Hxn). apply losses_In in Hx. destruct Hx as (a & Ha & <-). apply Hxn, Hall, Ha.
    + intros (a & Ha & Hlt). destruct (nanargmin_best (losses l) (snd (fst a))) as (k' & Hk' & Hb); auto.
      { apply losses_In. exists a; auto. }
      rewrite Hk in Hk'. injection Hk' as <-. exists k. auto.
    + intros _ _. eapply nth_error_In, En.
Qed.
End Restart.

(** ** Adam *)
Section AdamProofs.
Variable loss : list xr -> xr.
Variable grad : list xr -> list xr.
Variable opt_state : Type.
Variable opt_init : xr -> list xr -> opt_state.
Variable opt_update : xr -> nat -> list xr -> opt_state -> opt_state.
Variable get_params : opt_state -> list xr.

Lemma all_finite_iff l : all_finite l = true <-> finite_list l.
Proof. unfold all_finite, finite_list. rewrite forallb_forall, Forall_forall. reflexivity. Qed.
Lemma good_dec p : (negb (all_finite p) || negb (isfinite (loss p)) || negb (all_finite (grad p))) = false <-> good loss grad p.
Proof.
  unfold good. rewrite !orb_false_iff, !negb_false_iff, !all_finite_iff. tauto.
Qed.

Section Run.
Variable step : xr.
Variable p0 : list xr.
Notation state := (adam_state grad opt_state opt_init opt_update get_params step p0).
Notation vis := (visited grad opt_state opt_init opt_update get_params step p0).
Notation run := (adam_loop loss grad opt_state opt_update get_params).

Notation adam_outcome := (adam_outcome loss grad opt_state opt_init opt_update get_params step p0).
Lemma upd_app {A} (l : list A) a m v i : length l = i -> upd (l ++ a :: m) i v = (l ++ [v]) ++ m.
Proof. intros <-. induction l as [|b l IH]; simpl; [reflexivity|]. f_equal. exact IH. Qed.
Lemma firstn_app_len {A} (l m : list A) n : length l = n -> firstn n (l ++ m) = l.
Proof. intros <-. rewrite firstn_app, Nat.sub_diag, firstn_all. simpl. apply app_nil_r. Qed.

Lemma best_of_good n : (0 < n)%nat -> (forall k, (k < n)%nat -> good loss grad (vis k)) ->
  exists b, np_nanargmin (map (fun k => loss (vis k)) (seq 0 n)) = Some b /\ best_index (map (fun k => loss (vis k)) (seq 0 n)) b /\ (b < n)%nat.
Proof.
  intros Hn Hg. destruct (nanargmin_best (map (fun k => loss (vis k)) (seq 0 n)) (loss (vis 0%nat))) as (b & Hb & Hbi).
  - apply in_map_iff. exists 0%nat. split; [reflexivity|]. apply in_seq. lia.
  - destruct (Hg 0%nat Hn) as (_ & Hf & _). destruct (loss (vis 0%nat)); try discriminate. reflexivity.
  - exists b. split; [exact Hb|]. split; [exact Hbi|]. destruct Hbi as (Hl & _). rewrite map_length, seq_length in Hl. exact Hl.
Qed.

Lemma adam_loop_spec k : forall i la pa, length la = k -> length pa = k -> (forall j, (j < i)%nat -> good loss grad (vis j)) -> (0 < i + k)%nat ->
  exists n r, run k i step (state i) (map (fun j => loss (vis j)) (seq 0 i) ++ la) (map vis (seq 0 i) ++ pa) = Some r /\
    (i <= n <= i + k)%nat /\ (forall j, (j < n)%nat -> good loss grad (vis j)) /\ ((n < i + k)%nat -> ~ good loss grad (vis n)) /\ adam_outcome n r.
Proof.
  induction k as [|k IH]; intros i la pa Hla Hpa Hg Hpos; cbn [adam_loop].
  - destruct la; [|discriminate]. destruct pa; [|discriminate]. rewrite !app_nil_r.
    destruct (best_of_good i ltac:(lia) Hg) as (b & Hb & Hbi & Hbl). rewrite Hb. exists i. eexists. split; [reflexivity|].
    split; [lia|]. split; [exact Hg|]. split; [lia|]. split; [lia|]. intros _. exists b. split; [exact Hbi|].
    rewrite nth_map_seq by exact Hbl. unfold at_. rewrite nth_map_seq by exact Hbl. reflexivity.
  - fold (vis i). destruct (negb (all_finite (vis i)) || negb (isfinite (loss (vis i))) || negb (all_finite (grad (vis i)))) eqn:Eg.
    + assert (Hng : ~ good loss grad (vis i)) by (rewrite <- good_dec; congruence).
      rewrite !firstn_app_len by (rewrite map_length, seq_length; reflexivity).
      destruct i as [|i].
      * cbn [Nat.ltb Nat.leb]. exists 0%nat. eexists. split; [reflexivity|]. split; [lia|]. split; [intros; lia|]. split; [auto|].
        split; [reflexivity|congruence].
      * cbn [Nat.ltb Nat.leb]. destruct (best_of_good (S i) ltac:(lia) Hg) as (b & Hb & Hbi & Hbl). rewrite Hb.
        exists (S i). eexists. split; [reflexivity|]. split; [lia|]. split; [exact Hg|]. split; [auto|]. split; [lia|]. intros _.
        exists b. split; [exact Hbi|]. unfold at_. rewrite !app_nth1 by (rewrite map_length, seq_length; exact Hbl).
        rewrite !nth_map_seq by exact Hbl. reflexivity.
    + apply good_dec in Eg. destruct la as [|a la]; [discriminate|]. destruct pa as [|p pa]; [discriminate|].
      replace (upd (map (fun j => loss (vis j)) (seq 0 i) ++ a :: la) i (loss (vis i)))
        with (map (fun j => loss (vis j)) (seq 0 (S i)) ++ la).
      2:{ rewrite upd_app by (rewrite map_length, seq_length; reflexivity). rewrite seq_S, map_app. reflexivity. }
      replace (upd (map vis (seq 0 i) ++ p :: pa) i (vis i)) with (map vis (seq 0 (S i)) ++ pa).
      2:{ rewrite upd_app by (rewrite map_length, seq_length; reflexivity). rewrite seq_S, map_app. reflexivity. }
      change (opt_update step i (grad (vis i)) (state i)) with (state (S i)).
      destruct (IH (S i) la pa) as (n & r & H1 & H2 & H3 & H4 & H5); try (simpl in *; lia).
      { intros j Hj. destruct (Nat.eq_dec j i) as [->|Hne]; [exact Eg|apply Hg; lia]. }
      exists n, r. split; [exact H1|]. split; [lia|]. split; [exact H3|]. split; [intros; apply H4; lia|exact H5].
Qed.

Lemma adam_spec nmax : (0 < nmax)%nat -> exists n r,
  jax_adam_wrapper loss grad opt_state opt_init opt_update get_params p0 nmax step = Some r /\
  steps_run loss grad opt_state opt_init opt_update get_params step p0 nmax n /\ adam_outcome n r.
Proof.
  intros Hn. unfold jax_adam_wrapper.
  destruct (adam_loop_spec nmax 0%nat (map (fun z => (z - Fin 1)%X) (zeros nmax)) (repeat (zeros (len p0)) nmax)) as (n & r & H1 & H2 & H3 & H4 & H5).
  - unfold zeros. rewrite map_length, repeat_length. reflexivity.
  - apply repeat_length.
  - intros; lia.
  - lia.
  - exists n, r. split; [exact H1|]. split; [|exact H5]. split; [lia|]. split; [exact H3|exact H4].
Qed.
Lemma adam_zero : jax_adam_wrapper loss grad opt_state opt_init opt_update get_params p0 0 step = None.
Proof. reflexivity. Qed.
End Run.

Hypothesis opt_ok : forall step p, get_params (opt_init step p) = p.
Notation adam := (jax_adam_wrapper loss grad opt_state opt_init opt_update get_params).

Lemma adam_improves step p nmax : (0 < nmax)%nat -> good loss grad p ->
  exists pb ls ps, adam p nmax step = Some (pb, loss pb, ls, ps) /\ good loss grad pb /\ xlt (loss p) (loss pb) = false.
Proof.
  intros Hn Hg. destruct (adam_spec step p nmax Hn) as (n & r & H1 & (Hle & Hgood & Hbad) & (Hz & Hnz)).
  assert (Hv0 : visited grad opt_state opt_init opt_update get_params step p 0 = p) by (apply opt_ok).
  destruct n as [|n]; [exfalso; apply Hbad; [exact Hn|rewrite Hv0; exact Hg]|].
  destruct (Hnz ltac:(discriminate)) as (b & Hbi & Hr). destruct Hbi as (Hbl & Hbn & Hmin & _).
  rewrite map_length, seq_length in Hbl. set (vis := visited grad opt_state opt_init opt_update get_params step p) in *.
  rewrite map_length, seq_length in Hmin. subst r. eexists; eexists; eexists. split; [exact H1|]. split; [apply Hgood, Hbl|].
  specialize (Hmin 0%nat ltac:(lia)). rewrite !nth_map_seq in Hmin by lia. rewrite Hv0 in Hmin. apply Hmin.
  destruct Hg as (_ & Hf & _). destruct (loss p); discriminate.
Qed.

Lemma xnlt_trans a b c : a <> NaN -> b <> NaN -> c <> NaN -> xlt a b = false -> xlt b c = false -> xlt a c = false.
Proof. intros. xr_cases. Qed.
Lemma good_nan p : good loss grad p -> loss p <> NaN.
Proof. intros (_ & H & _) E. rewrite E in H. discriminate. Qed.

Lemma warmup_improves step wn : (0 < wn)%nat -> forall n p, good loss grad p ->
  exists q, warmup loss grad opt_state opt_init opt_update get_params n p wn step = Some q /\ good loss grad q /\ xlt (loss p) (loss q) = false.
Proof.
  intros Hw. induction n as [|n IH]; intros p Hg; cbn [warmup].
  - exists p. split; [reflexivity|]. split; [exact Hg|]. apply xlt_irrefl.
  - destruct (adam_improves step p wn Hw Hg) as (pb & ls & ps & -> & Hgb & Hlt). destruct (IH pb Hgb) as (q & Hq & Hgq & Hlt2).
    exists q. split; [exact Hq|]. split; [exact Hgq|]. apply (xnlt_trans _ (loss pb)); auto using good_nan.
Qed.

Lemma v2_improves p nstep nw step wn ws : (0 < nstep)%nat -> (0 < wn)%nat -> good loss grad p ->
  exists pb ls ps ft, jax_adam_wrapper_v2 loss grad opt_state opt_init opt_update get_params p nstep nw step wn ws
    = Some ((pb, loss pb, ls, ps), ft) /\ good loss grad pb /\ xlt (loss p) (loss pb) = false.
Proof.
  intros Hn Hw Hg. unfold jax_adam_wrapper_v2.
  destruct (warmup_improves (match ws with Some w => w | None => (Fin 5 * step)%X end) wn Hw nw p Hg) as (q & -> & Hgq & Hlt).
  destruct Hgq as (Hqf & Hgq'). pose proof Hqf as Hqf'. apply all_finite_iff in Hqf'. rewrite Hqf'.
  destruct (adam_improves step q nstep Hn (conj Hqf Hgq')) as (pb & ls & ps & -> & Hgb & Hlt2).
  eexists; eexists; eexists; eexists. split; [reflexivity|]. split; [exact Hgb|].
  apply (xnlt_trans _ (loss q)); auto using good_nan. apply good_nan. split; auto.
Qed.
End AdamProofs.

(** Success flag of the second wrapper, and [minimizer]. *)
Section MinProofs.
Variable loss : list xr -> xr.
Variable grad : list xr -> list xr.
Variable opt_state : Type.
Variable opt_init : xr -> list xr -> opt_state.
Variable opt_update : xr -> nat -> list xr -> opt_state -> opt_state.
Variable get_params : opt_state -> list xr.
Notation v2 := (jax_adam_wrapper_v2 loss grad opt_state opt_init opt_update get_params).
Notation out := (adam_outcome loss grad opt_state opt_init opt_update get_params).
Notation ran := (steps_run loss grad opt_state opt_init opt_update get_params).

Lemma adam_lengths step p n r : out step p n r -> length (snd (fst r)) = n.
Proof.
  intros (Hz & Hnz). destruct n as [|n]; [rewrite Hz by reflexivity; reflexivity|].
  destruct (Hnz ltac:(discriminate)) as (b & _ & ->). cbn [fst snd]. rewrite map_length, seq_length. reflexivity.
Qed.

Notation warm := (warmed loss grad opt_state opt_init opt_update get_params).
Notation fstart := (final_start loss grad opt_state opt_init opt_update get_params).

Lemma warmup_spec wn ws : forall nw p, nw = 0%nat \/ (0 < wn)%nat ->
  exists q, warmup loss grad opt_state opt_init opt_update get_params nw p wn ws = Some q /\ warm wn ws nw p q.
Proof.
  induction nw as [|nw IH]; intros p Hw; cbn [warmup].
  - exists p. split; [reflexivity|constructor].
  - destruct Hw as [Hw|Hw]; [discriminate|].
    destruct (adam_spec loss grad opt_state opt_init opt_update get_params ws p wn Hw) as (n & [[[pb lb] ls] ps] & Hr & Hrun & Hout).
    rewrite Hr. destruct (IH pb (or_intror Hw)) as (q & Hq & Hqw). exists q. split; [exact Hq|]. econstructor; eassumption.
Qed.

Lemma v2_spec p nstep nw step wn ws : (0 < nstep)%nat -> nw = 0%nat \/ (0 < wn)%nat ->
  exists r ft q n, v2 p nstep nw step wn ws = Some (r, ft) /\
    fstart wn (match ws with Some w => w | None => (Fin 5 * step)%X end) nw p q /\ ran step q nstep n /\ out step q n r /\
    ((ft = 1%Z /\ n = nstep) \/ (ft = 0%Z /\ (n < nstep)%nat)).
Proof.
  intros Hn Hw. unfold jax_adam_wrapper_v2.
  destruct (warmup_spec wn (match ws with Some w => w | None => (Fin 5 * step)%X end) nw p Hw) as (q0 & -> & Hq0).
  set (q := if all_finite q0 then q0 else p).
  destruct (adam_spec loss grad opt_state opt_init opt_update get_params step q nstep Hn) as (n & r & Hr & Hrun & Hout).
  rewrite Hr. pose proof (adam_lengths _ _ _ _ Hout) as Hl. destruct r as [[[pb lb] ls] ps]. cbn [fst snd] in Hl. unfold len. rewrite Hl.
  eexists; eexists; exists q, n. split; [reflexivity|]. split.
  { exists q0. split; [exact Hq0|]. unfold q. destruct (all_finite q0) eqn:E; [left; split; [apply all_finite_iff, E|reflexivity]|].
    right. split; [|reflexivity]. intros H. apply all_finite_iff in H. congruence. }
  split; [exact Hrun|]. split; [exact Hout|]. destruct Hrun as (Hle & _).
  destruct (Nat.ltb n nstep) eqn:E.
  - apply Nat.ltb_lt in E. right. auto.
  - apply Nat.ltb_ge in E. left. split; [auto|lia].
Qed.

Variable minimize : list xr -> list xr * xr * bool.
Notation mnz := (minimizer loss grad minimize opt_state opt_init opt_update get_params).

Lemma minimizer_scipy p nstep args x f : minimize p = (x, f, true) -> mnz p nstep args = Some (x, f, 1%Z).
Proof. intros H. unfold minimizer. rewrite H. reflexivity. Qed.
Lemma minimizer_args p nstep a args x f : minimize p = (x, f, false) -> mnz p nstep (a :: args) = None.
Proof. intros H. unfold minimizer. rewrite H. reflexivity. Qed.
Lemma minimizer_adam p nstep x f : (0 < nstep)%nat -> minimize p = (x, f, false) ->
  exists pb lb c q n ls ps, mnz p nstep [] = Some (pb, lb, c) /\
    fstart 50%nat (Fin (5 / 100)) 2%nat p q /\ ran (Fin (1 / 100)) q nstep n /\ out (Fin (1 / 100)) q n (pb, lb, ls, ps) /\
    ((c = 0%Z /\ n = nstep) \/ (c = (-1)%Z /\ (n < nstep)%nat)).
Proof.
  intros Hn H. unfold minimizer. rewrite H. cbn [negb].
  destruct (v2_spec p nstep 2 (Fin (1 / 100)) 50 None Hn ltac:(right; lia)) as ([[[pb lb] ls] ps] & ft & q & n & -> & Hq & Hrun & Hout & Hft).
  exists pb, lb. eexists. exists q, n, ls, ps. split; [reflexivity|]. split; [|split; [exact Hrun|split; [exact Hout|]]].
  - change (Fin 5 * Fin (1 / 100))%X with (Fin (5 * (1 / 100))) in Hq. replace (5 * (1 / 100)) with (5 / 100) in Hq by lra. exact Hq.
  - destruct Hft as [[-> ->]|[-> Hlt]]; [left|right]; auto.
Qed.
End MinProofs.
