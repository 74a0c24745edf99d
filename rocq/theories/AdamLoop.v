(** The population fit's loop with Adam: where the returned parameters can be. *)
From Coq Require Import Reals Lra Lia List Bool.
From Verif Require Import XReal XFacts ModelUtils ModelFit ModelPop ModelLoad ModelPopFit ModelAdam SpecHist SpecAdam FitLoopProofs AdamProofs AdamFit.
Import List ListNotations.
Open Scope R_scope.

Section Loop.
Variable K : list xr -> xr * list xr.
Variable D : nat.
Variable s : R.
Hypothesis Hs : 0 < s.
Variable p : list R.
Hypothesis Hp : length p = D.
Variable Z : nat -> Prop.
(** Every gradient used has the right length and vanishes on [Z], at points that have not moved there. *)
Definition same_on (x : list R) : Prop := length x = D /\ forall j, (j < D)%nat -> Z j -> nth j x 0 = nth j p 0.
Hypothesis HK : forall x, same_on x -> isfinite (fst (K (map Fin x))) = true -> all_finite (snd (K (map Fin x))) = true ->
  exists g, snd (K (map Fin x)) = map Fin g /\ length g = D /\ forall j, (j < D)%nat -> Z j -> nth j g 0 = 0.

Notation start := (adam_init (Fin s) (map Fin p)).
Definition usable_grad (g : list R) : Prop := length g = D /\ forall j, (j < D)%nat -> Z j -> nth j g 0 = 0.
Definition moves (k : nat) (l : list (nat * list R)) : Prop := Forall (fun ig => usable_grad (snd ig)) l /\ (length l <= k)%nat.
Definition near (k : nat) (b : list xr) : Prop := exists l, moves k l /\ b = adam_params (adam_updates s l start).

Lemma moves_reached k l : moves k l -> adam_reached s p (adam_updates s l start).
Proof. intros [F _]. exists l. split; [|reflexivity]. eapply Forall_impl; [|exact F]. intros a [H _]. congruence. Qed.
Lemma near_fin k b : near k b -> exists x, b = map Fin x /\ same_on x /\ forall j, (j < D)%nat -> Rabs (nth j x 0 - nth j p 0) <= adam_reach * s * INR k.
Proof.
  intros (l & M & ->). destruct (reached_params s p _ (moves_reached k l M)) as (x & E & L). exists x. split; [exact E|]. destruct M as [F B]. split; [split; [congruence|]|].
  - intros j Hj Zj. destruct (zero_stays s p l j) as (x' & E' & N).
    + eapply Forall_impl; [|exact F]. intros a [H _]. congruence.
    + lia.
    + eapply Forall_impl; [|exact F]. intros a [_ H]. apply H; assumption.
    + rewrite E in E'. apply map_fin_inj in E'. subst x'. exact N.
  - intros j Hj. apply Rle_trans with (adam_reach * s * INR (length l)); [|apply Rmult_le_compat_l; [unfold adam_reach; lra|apply le_INR, B]].
    clear B. revert x E L. induction l as [|[i g] l IH] using rev_ind; intros x E L.
    + cbn [adam_updates fold_left] in E. unfold adam_updates in E. cbn [fold_left] in E. rewrite params_init in E. apply map_fin_inj in E. subst x.
      rewrite Rminus_eq_0, Rabs_R0. cbn [length INR]. lra.
    + apply Forall_app in F as [F1 F2]. inversion F2 as [|? ? [G1 G2] _]; subst. cbn [snd] in G1, G2.
      assert (RC : adam_reached s p (adam_updates s l start)) by (apply (moves_reached (length l)); split; [exact F1|lia]).
      destruct (update_bounded s p _ i g Hs RC ltac:(congruence)) as (a & b & Ea & Eb & La & Lb & B).
      rewrite updates_app in E. unfold adam_updates at 1 in E. cbn [fold_left fst snd] in E. rewrite Eb in E. apply map_fin_inj in E. subst b.
      specialize (IH F1 a Ea La). specialize (B j ltac:(lia)). rewrite app_length. cbn [length]. rewrite Nat.add_1_r, S_INR.
      replace (nth j x 0 - nth j p 0) with ((nth j x 0 - nth j a 0) + (nth j a 0 - nth j p 0)) by ring. eapply Rle_trans; [apply Rabs_triang|]. lra.
Qed.
Lemma near_le k k' b : (k <= k')%nat -> near k b -> near k' b.
Proof. intros H (l & [F L] & E). exists l. split; [split; [exact F|lia]|exact E]. Qed.
Lemma near_next k l i g : moves k l -> usable_grad g -> moves (S k) (l ++ [(i, g)]) /\ adam_update (Fin s) i (map Fin g) (adam_updates s l start) = adam_updates s (l ++ [(i, g)]) start.
Proof.
  intros [F L] G. split; [split; [apply Forall_app; split; [exact F|repeat constructor; apply G]|rewrite app_length; cbn; lia]|]. rewrite updates_app. reflexivity.
Qed.

Notation step := (fit_step AdamState (adam_update (Fin s)) adam_params K).
Notation steps := (fit_steps AdamState (adam_update (Fin s)) adam_params K).
Notation mk := (mkLoop AdamState).
Variable N : nat.
Definition kept (x : xr) (b : list xr) : Prop := x = PInf \/ near N b.
Notation none := (zeros D).
Definition old_grad (g : option (list xr)) : Prop := match g with None => True | Some c => exists g, c = map Fin g /\ usable_grad g end.
Lemma all_fin x : all_finite (map Fin x) = true.
Proof. induction x; [reflexivity|assumption]. Qed.

Lemma front L P m l g r : length L = length P -> moves (length L) l -> old_grad g -> (length L < N)%nat ->
  step (length L) (mk (L ++ repeat PInf (S m)) (P ++ repeat none (S m)) (adam_updates s l start) g) = r ->
  match r with
  | Next o => exists x b l' g', o = mk (L ++ x :: repeat PInf m) (P ++ b :: repeat none m) (adam_updates s l' start) g' /\ kept x b /\ moves (S (length L)) l' /\ old_grad g'
  | Stop o => exists x b st g', o = mk (L ++ x :: repeat PInf m) (P ++ b :: repeat none m) st g' /\ kept x b
  | NameError => True
  end.
Proof.
  intros HL M G LN <-. unfold fit_step. cbn [lp_state lp_losses lp_params lp_grads].
  assert (FIN : forall b loss grads, K b = (loss, grads) -> isfinite loss = true -> near N b -> 
    match (let l' := if all_finite b && isfinite loss && all_finite grads
        then mk (upd (L ++ repeat PInf (S m)) (length L) loss) (upd (P ++ repeat none (S m)) (length L) b)
               (adam_update (Fin s) (length L) grads (adam_updates s l start)) (Some grads)
        else mk (L ++ repeat PInf (S m)) (P ++ repeat none (S m)) (adam_updates s l start) (Some grads) in if all_finite grads then Next _ l' else Stop _ l') with
    | Next o => exists x b l' g', o = mk (L ++ x :: repeat PInf m) (P ++ b :: repeat none m) (adam_updates s l' start) g' /\ kept x b /\ moves (S (length L)) l' /\ old_grad g'
    | Stop o => exists x b st g', o = mk (L ++ x :: repeat PInf m) (P ++ b :: repeat none m) st g' /\ kept x b
    | NameError => True
    end).
  { intros b loss grads E IL NB. destruct (near_fin N b NB) as (x & -> & SX & _). rewrite all_fin, IL. cbn [andb repeat]. cbv zeta. destruct (all_finite grads) eqn:AG.
    - destruct (HK x SX) as (g' & Eg & U1 & U2); [rewrite E; exact IL|rewrite E; exact AG|]. rewrite E in Eg. cbn [snd] in Eg. subst grads.
      destruct (near_next (length L) l (length L) g' M (conj U1 U2)) as (M' & E').
      exists loss, (map Fin x), (l ++ [(length L, g')]), (Some (map Fin g')). rewrite E'. rewrite !upd_app' by (try reflexivity; exact HL).
      split; [reflexivity|]. split; [right; exact NB|]. split; [exact M'|]. exists g'. split; [reflexivity|split; assumption].
    - exists PInf, none, (adam_updates s l start), (Some grads). split; [reflexivity|left; reflexivity]. }
  assert (N0 : near N (adam_params (adam_updates s l start))) by (exists l; split; [destruct M; split; [assumption|lia]|reflexivity]).
  destruct (K (adam_params (adam_updates s l start))) as [ls gr] eqn:E. destruct (isfinite ls) eqn:IL.
  - specialize (FIN _ _ _ E IL N0). cbv zeta in FIN |- *. rewrite IL in FIN. exact FIN.
  - destruct g as [cg|]; [|exact I]. destruct G as (c & -> & UC). destruct (near_next (length L) l (length L) c M UC) as (M' & E'). rewrite E'.
    destruct (K (adam_params (adam_updates s (l ++ [(length L, c)]) start))) as [l2 g2] eqn:E2.
    destruct (all_finite (adam_params (adam_updates s (l ++ [(length L, c)]) start)) && isfinite l2 && all_finite g2) eqn:AF.
    + assert (I2 : isfinite l2 = true) by (apply andb_prop in AF as [AF _]; apply andb_prop in AF as [_ AF]; exact AF).
      assert (N2 : near N (adam_params (adam_updates s (l ++ [(length L, c)]) start))) by (eexists; split; [destruct M' as [A B]; split; [exact A|lia]|reflexivity]).
      specialize (FIN _ _ _ E2 I2 N2). cbv zeta in FIN |- *. rewrite AF in FIN. exact FIN.
    + exists PInf, none, l, (Some (map Fin c)). split; [reflexivity|]. split; [left; reflexivity|]. split; [destruct M; split; [assumption|lia]|]. exists c. split; [reflexivity|exact UC].
Qed.

Lemma loop m : forall L P l g o, length L = length P -> moves (length L) l -> old_grad g -> (length L + m <= N)%nat ->
  steps (seq (length L) m) (mk (L ++ repeat PInf m) (P ++ repeat none m) (adam_updates s l start) g) = Some o ->
  exists L' P', lp_losses _ o = L ++ L' /\ lp_params _ o = P ++ P' /\ Forall2 kept L' P'.
Proof.
  induction m as [|m IH]; intros L P l g o HL M G LN H.
  - cbn [seq fit_steps repeat] in H. injection H as <-. exists [], []. cbn. repeat split; constructor.
  - cbn [seq fit_steps] in H.
    remember (step (length L) (mk (L ++ repeat PInf (S m)) (P ++ repeat none (S m)) (adam_updates s l start) g)) as r eqn:R. symmetry in R.
    pose proof (front L P m l g r HL M G ltac:(lia) R) as F. clear R. destruct r as [q|q|]; [| |discriminate H].
    + destruct F as (x & b & l' & g' & -> & KB & M' & G'). specialize (IH (L ++ [x]) (P ++ [b]) l' g' o). rewrite !app_length in IH. cbn [length] in IH.
      rewrite Nat.add_1_r in IH. rewrite <- !app_assoc in IH. cbn [app] in IH.
      destruct (IH ltac:(lia) M' G' ltac:(lia) H) as (L' & P' & E1 & E2 & E3).
      exists (x :: L'), (b :: P'). rewrite E1, E2, <- !app_assoc. cbn [app]. repeat split. now constructor.
    + injection H as <-. destruct F as (x & b & st & g' & -> & KB). cbn [lp_losses lp_params]. exists (x :: repeat PInf m), (b :: repeat none m).
      repeat split. constructor; [exact KB|]. clear. induction m; cbn [repeat]; constructor; [left; reflexivity|assumption].
Qed.
End Loop.

(** The result of a fit that begins well. *)
Lemma fit_near K D s p Z n b r0 g0 : 0 < s -> length p = D ->
  (forall x, same_on D p Z x -> isfinite (fst (K (map Fin x))) = true -> all_finite (snd (K (map Fin x))) = true ->
    exists g, snd (K (map Fin x)) = map Fin g /\ length g = D /\ forall j, (j < D)%nat -> Z j -> nth j g 0 = 0) ->
  fit_population AdamState (adam_init (Fin s)) (adam_update (Fin s)) adam_params K n (map Fin p) = Some b ->
  K (map Fin p) = (Fin r0, g0) -> all_finite g0 = true ->
  exists x, b = map Fin x /\ length x = D /\ (forall j, (j < D)%nat -> Rabs (nth j x 0 - nth j p 0) <= adam_reach * s * INR n) /\
    forall j, (j < D)%nat -> Z j -> nth j x 0 = nth j p 0.
Proof.
  intros Hs Hp HK H E0 F0. assert (PI : adam_params (adam_init (Fin s) (map Fin p)) = map Fin p) by apply params_init.
  apply fit_eq in H. destruct H as (o & k & R & AM & NE). rewrite map_length, Hp in R.
  destruct n as [|n]; [cbn in R; injection R as <-; cbn in AM; discriminate AM|].
  destruct (loop K D s Hs p Hp Z HK (S n) (S n) [] [] [] None o eq_refl ltac:(split; [constructor|cbn; lia]) I ltac:(cbn; lia) R) as (L & P & E1 & E2 & F). cbn [app] in E1, E2.
  assert (R' : fit_steps AdamState (adam_update (Fin s)) adam_params K (seq 0 (S n)) (mkLoop AdamState (repeat PInf (S n)) (repeat (zeros (length (map Fin p))) (S n)) (adam_init (Fin s) (map Fin p)) None) = Some o)
    by (rewrite map_length, Hp; exact R).
  destruct (run_inv AdamState (adam_init (Fin s)) (adam_update (Fin s)) adam_params K (map Fin p) (S n) o R') as (LL & FE).
  destruct (run_start AdamState (adam_init (Fin s)) (adam_update (Fin s)) adam_params K (map Fin p) PI n o R') as (L0 & EL); [unfold good; rewrite E0, all_fin; cbn [fst snd]; rewrite F0; reflexivity|].
  assert (BB : Forall bar (lp_losses AdamState o)).
  { clear -FE. induction FE as [|x b L P HE HF IH]; constructor; [eapply entry_bar; eassumption|exact IH]. }
  destruct (argmin_spec _ k BB AM) as (Lk & MM & _). specialize (MM 0%nat ltac:(rewrite EL; cbn; lia)). rewrite EL, E0 in MM at 1. cbn [nth fst] in MM.
  rewrite E1 in *. rewrite E2 in NE.
  assert (KB : kept D s p Z (S n) (nth k L NaN) b).
  { clear -F NE. revert k NE. induction F as [|x c L P HE HF IH]; intros [|k] NE; try discriminate NE; [injection NE as <-; exact HE|]. apply IH, NE. }
  destruct KB as [KB|KB]; [rewrite KB in MM; discriminate MM|].
  destruct (near_fin D s Hs p Hp Z (S n) b KB) as (x & -> & (LX & SX) & B). exists x. auto.
Qed.
