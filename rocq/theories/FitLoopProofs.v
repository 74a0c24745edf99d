(** The population fit's descent loop. *)
From Coq Require Import Reals List Bool ZArith Lia Lra.
From Verif Require Import XReal ModelUtils ModelKernels ModelSfh ModelPop ModelHist ModelTargets ModelPopFit
  RealFacts XFacts SpecCore SpecPopFit DtProofs.
Import List ListNotations.
Open Scope R_scope.

Lemma upd_app {A} (L : list A) x y R : upd (L ++ y :: R) (length L) x = L ++ x :: R.
Proof. induction L as [|a L IH]; [reflexivity|]. cbn [app length upd]. now rewrite IH. Qed.

Lemma upd_app' {A} (L : list A) n x y R : n = length L -> upd (L ++ y :: R) n x = L ++ x :: R.
Proof. intros ->. apply upd_app. Qed.

Lemma F2_length {A B} (R : A -> B -> Prop) l m : Forall2 R l m -> length l = length m.
Proof. induction 1; cbn; congruence. Qed.

(** ** argmin on values that are finite or infinite *)
Definition bar (x : xr) : Prop := x = PInf \/ exists r, x = Fin r.
Lemma bar_lt_false a b c : bar a -> bar b -> bar c -> (b <? a)%X = false -> (c <? b)%X = false -> (c <? a)%X = false.
Proof.
  intros [->|(x & ->)] [->|(y & ->)] [->|(z & ->)]; try reflexivity; try discriminate.
  cbn. unfold Rltb. destruct (Rlt_dec y x), (Rlt_dec z y), (Rlt_dec z x); try reflexivity; try discriminate; lra.
Qed.
Lemma bar_lt_irrefl a : (a <? a)%X = false.
Proof. destruct a; cbn; try reflexivity. unfold Rltb. destruct (Rlt_dec r r); [lra|reflexivity]. Qed.
Lemma bar_lt_le a b : bar a -> bar b -> (a <? b)%X = true -> (b <? a)%X = false.
Proof.
  intros [->|(x & ->)] [->|(y & ->)]; try reflexivity; try discriminate.
  cbn. unfold Rltb. destruct (Rlt_dec x y), (Rlt_dec y x); try reflexivity; try discriminate; lra.
Qed.
Lemma argmin_some l : l <> [] -> exists k, argmin l = Some k.
Proof. destruct l as [|x r]; [congruence|]. intros _. cbn. destruct (argmin r); [destruct (_ <? x)%X|]; eauto. Qed.
Lemma argmin_spec l k : Forall bar l -> argmin l = Some k -> (k < length l)%nat /\
  (forall q, (q < length l)%nat -> (nth q l NaN <? nth k l NaN)%X = false) /\
  (forall q, (q < k)%nat -> (nth k l NaN <? nth q l NaN)%X = true).
Proof.
  revert k. induction l as [|x r IH]; intros k HB H; [discriminate|]. inversion HB as [|? ? Hx Hr]; subst. cbn [argmin] in H.
  destruct (argmin r) as [m|] eqn:E.
  - destruct (IH m Hr eq_refl) as (L & A & B).
    assert (Bm : bar (nth m r NaN)) by (rewrite Forall_forall in Hr; apply Hr; now apply nth_In).
    destruct (nth m r NaN <? x)%X eqn:C; injection H as <-; cbn [length].
    + split; [lia|]. split.
      * intros [|q] Hq; cbn [nth]; [now apply bar_lt_le|]. apply A. lia.
      * intros [|q] Hq; cbn [nth]; [exact C|]. apply B. lia.
    + split; [lia|]. split; [|intros q Hq; lia].
      intros [|q] Hq; cbn [nth]; [apply bar_lt_irrefl|].
      apply (bar_lt_false x (nth m r NaN)); try assumption; [|apply A; lia].
      rewrite Forall_forall in Hr. apply Hr. apply nth_In. lia.
  - destruct r as [|y r]; [|cbn in E; destruct (argmin r); [destruct (_ <? y)%X|]; discriminate].
    injection H as <-. cbn [length]. split; [lia|]. split; [|intros q Hq; lia].
    intros q Hq. replace q with 0%nat by lia. apply bar_lt_irrefl.
Qed.

Section Loop.
Variable St : Type.
Variable opt_init : list xr -> St.
Variable opt_update : nat -> list xr -> St -> St.
Variable get_params : St -> list xr.
Variable loss_kernel : list xr -> xr * list xr.
Notation step := (fit_step St opt_update get_params loss_kernel).
Notation steps := (fit_steps St opt_update get_params loss_kernel).
Notation fit := (fit_population St opt_init opt_update get_params loss_kernel).
Notation mk := (mkLoop St).

Definition good (p : list xr) : bool := all_finite p && isfinite (fst (loss_kernel p)) && all_finite (snd (loss_kernel p)).
Variable dim : nat.
Notation none := (zeros dim).
(** A recorded step, or one that was not. *)
Definition entry (x : xr) (p : list xr) : Prop := (x = PInf /\ p = none) \/ (x = fst (loss_kernel p) /\ good p = true).
Lemma entry_bar x p : entry x p -> bar x.
Proof.
  intros [[-> _]|[-> G]]; [now left|]. right. unfold good in G. destruct (fst (loss_kernel p)) as [r| | |].
  - now exists r.
  - cbn in G. rewrite andb_false_r in G. discriminate.
  - cbn in G. rewrite andb_false_r in G. discriminate.
  - cbn in G. rewrite andb_false_r in G. discriminate.
Qed.

(** One step at the front of the unfilled part *)
Lemma step_front L P m st g r : length L = length P ->
  step (length L) (mk (L ++ repeat PInf (S m)) (P ++ repeat none (S m)) st g) = r ->
  (exists x p st' g', entry x p /\ (r = Next St (mk (L ++ x :: repeat PInf m) (P ++ p :: repeat none m) st' (Some g')) \/
                                    r = Stop St (mk (L ++ x :: repeat PInf m) (P ++ p :: repeat none m) st' (Some g')))) \/
  (r = NameError St /\ g = None /\ isfinite (fst (loss_kernel (get_params st))) = false).
Proof.
  intros HL <-. unfold fit_step. cbn [lp_state lp_losses lp_params lp_grads].
  destruct (loss_kernel (get_params st)) as [ls gr] eqn:E. cbn [fst].
  assert (FIN : forall p loss grads, loss_kernel p = (loss, grads) ->
    exists x q st' g', entry x q /\
     ((if all_finite grads then Next St else Stop St)
       (if all_finite p && isfinite loss && all_finite grads
        then mk (upd (L ++ repeat PInf (S m)) (length L) loss) (upd (P ++ repeat none (S m)) (length L) p)
               (opt_update (length L) grads st) (Some grads)
        else mk (L ++ repeat PInf (S m)) (P ++ repeat none (S m)) st (Some grads)) =
      Next St (mk (L ++ x :: repeat PInf m) (P ++ q :: repeat none m) st' (Some g')) \/
      (if all_finite grads then Next St else Stop St)
       (if all_finite p && isfinite loss && all_finite grads
        then mk (upd (L ++ repeat PInf (S m)) (length L) loss) (upd (P ++ repeat none (S m)) (length L) p)
               (opt_update (length L) grads st) (Some grads)
        else mk (L ++ repeat PInf (S m)) (P ++ repeat none (S m)) st (Some grads)) =
      Stop St (mk (L ++ x :: repeat PInf m) (P ++ q :: repeat none m) st' (Some g')))).
  { intros p loss grads Ep. cbn [repeat]. destruct (all_finite p && isfinite loss && all_finite grads) eqn:G.
    - exists loss, p, (opt_update (length L) grads st), grads. split; [right; unfold good; rewrite Ep; auto|].
      rewrite !upd_app' by (try reflexivity; exact HL). destruct (all_finite grads); [left|right]; reflexivity.
    - exists PInf, none, st, grads. split; [left; auto|]. destruct (all_finite grads); [left|right]; reflexivity. }
  destruct (isfinite ls) eqn:IL.
  - left. destruct (FIN _ _ _ E) as (x & q & st' & g' & A & B). exists x, q, st', g'. split; [exact A|]. rewrite IL in B.
    destruct (all_finite gr); exact B.
  - destruct g as [cg|]; [|right; auto]. left.
    destruct (loss_kernel (get_params (opt_update (length L) cg st))) as [l2 g2] eqn:E2.
    destruct (all_finite (get_params (opt_update (length L) cg st)) && isfinite l2 && all_finite g2) eqn:G.
    + destruct (FIN _ _ _ E2) as (x & q & st' & g' & A & B). exists x, q, st', g'. split; [exact A|].
      rewrite G in B. destruct (all_finite g2); exact B.
    + exists PInf, none, st, cg. split; [left; auto|]. left. reflexivity.
Qed.

(** The arrays after the loop extend those before *)
Lemma steps_inv m : forall L P st g l, length L = length P ->
  steps (seq (length L) m) (mk (L ++ repeat PInf m) (P ++ repeat none m) st g) = Some l ->
  exists L' P', lp_losses St l = L ++ L' /\ lp_params St l = P ++ P' /\ length L' = m /\ Forall2 entry L' P'.
Proof.
  induction m as [|m IH]; intros L P st g l HL H.
  - cbn [seq fit_steps repeat] in H. injection H as <-. exists [], []. cbn. repeat split; constructor.
  - cbn [seq fit_steps] in H.
    remember (step (length L) (mk (L ++ repeat PInf (S m)) (P ++ repeat none (S m)) st g)) as r eqn:R. symmetry in R.
    destruct (step_front L P m st g r HL R) as [(x & p & st' & g' & A & B)|(B & _)]; [|rewrite B in H; discriminate].
    clear R. destruct B as [-> | ->].
    + specialize (IH (L ++ [x]) (P ++ [p]) st' (Some g') l). rewrite !app_length in IH. cbn [length] in IH.
      rewrite Nat.add_1_r in IH. rewrite <- !app_assoc in IH. cbn [app] in IH.
      destruct (IH ltac:(lia) H) as (L' & P' & E1 & E2 & E3 & E4).
      exists (x :: L'), (p :: P'). rewrite E1, E2, <- !app_assoc. cbn [length app]. repeat split; try lia. now constructor.
    + injection H as <-. cbn [lp_losses lp_params]. exists (x :: repeat PInf m), (p :: repeat none m).
      cbn [length]. rewrite repeat_length. repeat split. constructor; [exact A|].
      clear. induction m; cbn [repeat]; constructor; [left; auto|assumption].
Qed.

(** No exception once a step has been made *)
Lemma steps_total m : forall L P st g, length L = length P ->
  exists l, steps (seq (length L) m) (mk (L ++ repeat PInf m) (P ++ repeat none m) st (Some g)) = Some l.
Proof.
  induction m as [|m IH]; intros L P st g HL; [eexists; reflexivity|].
  cbn [seq fit_steps].
  remember (step (length L) (mk (L ++ repeat PInf (S m)) (P ++ repeat none (S m)) st (Some g))) as r eqn:R. symmetry in R.
  destruct (step_front L P m st (Some g) r HL R) as [(x & p & st' & g' & A & B)|(_ & B & _)]; [|discriminate].
  destruct B as [-> | ->]; [|eexists; reflexivity].
  specialize (IH (L ++ [x]) (P ++ [p]) st' g'). rewrite !app_length in IH. cbn [length] in IH.
  rewrite Nat.add_1_r in IH. rewrite <- !app_assoc in IH. cbn [app] in IH. apply IH. lia.
Qed.

(** One more step leaves the earlier entries *)
Lemma steps_more m : forall L P st g l l1, length L = length P ->
  steps (seq (length L) m) (mk (L ++ repeat PInf m) (P ++ repeat none m) st g) = Some l ->
  steps (seq (length L) (S m)) (mk (L ++ repeat PInf (S m)) (P ++ repeat none (S m)) st g) = Some l1 ->
  exists x p, lp_losses St l1 = lp_losses St l ++ [x] /\ lp_params St l1 = lp_params St l ++ [p] /\ entry x p.
Proof.
  induction m as [|m IH]; intros L P st g l l1 HL H H1.
  - destruct (steps_inv 1 L P st g l1 HL H1) as (L' & P' & E1 & E2 & E3 & E4).
    cbn [seq fit_steps repeat] in H. injection H as <-. cbn [lp_losses lp_params]. rewrite !app_nil_r.
    inversion E4 as [|x p L1 P1 HE HR]; subst; [discriminate|]. destruct L1; [|discriminate]. inversion HR; subst. eauto.
  - cbn [seq fit_steps] in H.
    change (seq (length L) (S (S m))) with (length L :: seq (S (length L)) (S m)) in H1. cbn [fit_steps] in H1.
    assert (EQ : forall n, step (length L) (mk (L ++ repeat PInf (S n)) (P ++ repeat none (S n)) st g) =
      match step (length L) (mk (L ++ [PInf]) (P ++ [none]) st g) with
      | Next q => Next St (mk (lp_losses St q ++ repeat PInf n) (lp_params St q ++ repeat none n) (lp_state St q) (lp_grads St q))
      | Stop q => Stop St (mk (lp_losses St q ++ repeat PInf n) (lp_params St q ++ repeat none n) (lp_state St q) (lp_grads St q))
      | NameError => NameError St end).
    { intros n. unfold fit_step. cbn [lp_state lp_losses lp_params lp_grads repeat].
      destruct (loss_kernel (get_params st)) as [ls gr]. destruct (isfinite ls).
      - rewrite !upd_app' by (try reflexivity; exact HL).
        destruct (all_finite gr), (all_finite (get_params st)); cbn [andb lp_losses lp_params lp_state lp_grads]; rewrite <- ?app_assoc; reflexivity.
      - destruct g as [cg|]; [|reflexivity].
        destruct (loss_kernel (get_params (opt_update (length L) cg st))) as [l2 g2].
        destruct (all_finite (get_params (opt_update (length L) cg st)) && isfinite l2 && all_finite g2).
        + rewrite !upd_app' by (try reflexivity; exact HL).
          destruct (all_finite g2); cbn [lp_losses lp_params lp_state lp_grads]; rewrite <- ?app_assoc; reflexivity.
        + cbn [lp_losses lp_params lp_state lp_grads]. rewrite <- ?app_assoc. reflexivity. }
    rewrite EQ in H, H1.
    remember (step (length L) (mk (L ++ [PInf]) (P ++ [none]) st g)) as r eqn:R. symmetry in R.
    destruct (step_front L P 0 st g r HL R) as [(x & p & st' & g' & A & B)|(B & _)]; [|rewrite B in H; discriminate].
    destruct B as [-> | ->]; cbn [lp_losses lp_params lp_state lp_grads repeat] in H, H1.
    + specialize (IH (L ++ [x]) (P ++ [p]) st' (Some g') l l1). rewrite !app_length in IH. cbn [length] in IH.
      rewrite Nat.add_1_r in IH. apply IH; [lia|exact H|exact H1].
    + injection H as <-. injection H1 as <-. cbn [lp_losses lp_params]. exists PInf, none.
      rewrite (repeat_cons m PInf), (repeat_cons m none), !app_assoc. repeat split. left. auto.
Qed.
End Loop.

(** ** The fit *)
Section Fit.
Variable St : Type.
Variable opt_init : list xr -> St.
Variable opt_update : nat -> list xr -> St -> St.
Variable get_params : St -> list xr.
Variable loss_kernel : list xr -> xr * list xr.
Notation fit := (fit_population St opt_init opt_update get_params loss_kernel).
Variable p0 : list xr.
Hypothesis H0 : get_params (opt_init p0) = p0.
Notation n0 := (length p0).
Notation run n := (fit_steps St opt_update get_params loss_kernel (seq 0 n)
  (mkLoop St (repeat PInf n) (repeat (zeros n0) n) (opt_init p0) None)).

Lemma run_inv n l : run n = Some l -> length (lp_losses St l) = n /\ Forall2 (entry loss_kernel n0) (lp_losses St l) (lp_params St l).
Proof.
  intros H. destruct (steps_inv St opt_update get_params loss_kernel n0 n [] [] (opt_init p0) None l eq_refl H) as (L & P & E1 & E2 & E3 & E4).
  rewrite E1, E2. auto.
Qed.
(** The first step *)
Lemma run_start n l : run (S n) = Some l -> good loss_kernel p0 = true ->
  exists L, lp_losses St l = fst (loss_kernel p0) :: L.
Proof.
  intros H G. change (seq 0 (S n)) with (0%nat :: seq 1 n) in H. cbn [fit_steps] in H.
  revert H. unfold fit_step at 1. cbn [lp_state lp_losses lp_params lp_grads repeat].
  rewrite H0. destruct (loss_kernel p0) as [ls gr] eqn:E. unfold good in G. rewrite E in G. cbn [fst snd] in *.
  apply andb_prop in G. destruct G as [G G3]. apply andb_prop in G. destruct G as [G1 G2]. rewrite G1, G2, G3. cbn [andb upd].
  intros H.
  destruct (steps_inv St opt_update get_params loss_kernel n0 n [ls] [p0] _ _ l eq_refl H) as (L & P & E1 & _).
  exists L. exact E1.
Qed.
Lemma run_total n : isfinite (fst (loss_kernel p0)) = true -> exists l, run n = Some l.
Proof.
  intros F. destruct n as [|n]; [eexists; reflexivity|]. cbn [seq fit_steps].
  remember (fit_step St opt_update get_params loss_kernel 0 (mkLoop St (repeat PInf (S n)) (repeat (zeros n0) (S n)) (opt_init p0) None)) as r eqn:R. symmetry in R.
  destruct (step_front St opt_update get_params loss_kernel n0 [] [] n (opt_init p0) None r eq_refl R) as [(x & p & st' & g' & A & B)|(B & _ & C)].
  - destruct B as [-> | ->]; [|eexists; reflexivity].
    exact (steps_total St opt_update get_params loss_kernel n0 n [x] [p] st' g' eq_refl).
  - rewrite H0, F in C. discriminate.
Qed.

Lemma fit_eq n b : fit n p0 = Some b <-> exists l k, run n = Some l /\ argmin (lp_losses St l) = Some k /\ nth_error (lp_params St l) k = Some b.
Proof.
  unfold fit_population. split.
  - destruct (run n) as [l|]; [|discriminate]. destruct (argmin (lp_losses St l)) as [k|] eqn:E; [|discriminate]. intros H. eauto.
  - intros (l & k & -> & -> & E). exact E.
Qed.

Theorem fit_raises n : fit n p0 = None <-> n = 0%nat \/ isfinite (fst (loss_kernel p0)) = false.
Proof.
  split.
  - intros H. destruct n as [|n]; [now left|]. right.
    destruct (isfinite (fst (loss_kernel p0))) eqn:F; [|reflexivity]. exfalso.
    destruct (run_total (S n) F) as (l & E). unfold fit_population in H. rewrite E in H.
    destruct (run_inv (S n) l E) as (A & B).
    destruct (argmin_some (lp_losses St l)) as (k & K); [intro Z; rewrite Z in A; discriminate|]. rewrite K in H.
    assert (BB : Forall bar (lp_losses St l)).
    { clear -B. induction B as [|x p L P HE HF IH]; constructor; [eapply entry_bar; eassumption|exact IH]. }
    destruct (argmin_spec _ k BB K) as (L & _). apply F2_length in B. rewrite B in L. apply nth_error_None in H. lia.
  - intros [->|F]; [reflexivity|]. destruct n as [|n]; [reflexivity|].
    unfold fit_population. change (seq 0 (S n)) with (0%nat :: seq 1 n). cbn [fit_steps]. unfold fit_step at 1.
    cbn [lp_state lp_losses lp_params lp_grads repeat]. rewrite H0. destruct (loss_kernel p0) as [ls gr]. cbn [fst] in F. rewrite F. reflexivity.
Qed.

Lemma fit_entry n b : fit n p0 = Some b -> exists l x, run n = Some l /\ entry loss_kernel n0 x b /\
  (forall q, (q < n)%nat -> (nth q (lp_losses St l) NaN <? x)%X = false) /\ In x (lp_losses St l).
Proof.
  rewrite fit_eq. intros (l & k & E & K & N). destruct (run_inv n l E) as (A & B). exists l, (nth k (lp_losses St l) NaN). split; [exact E|].
  assert (BB : Forall bar (lp_losses St l)).
  { clear -B. induction B as [|x p L P HE HF IH]; constructor; [eapply entry_bar; eassumption|exact IH]. }
  destruct (argmin_spec _ k BB K) as (L & M & _). split; [|split; [intros q Hq; apply M; lia|now apply nth_In]].
  clear -B N L. revert k N L. induction B as [|x p Ls Ps HE HF IH]; intros [|k] N L; cbn in *; try discriminate; try lia.
  - injection N as <-. exact HE.
  - apply IH; [exact N|lia].
Qed.

(** What a fit that begins well returns *)
Theorem fit_improves n b r0 g0 : fit n p0 = Some b -> loss_kernel p0 = (Fin r0, g0) -> all_finite p0 = true -> all_finite g0 = true ->
  exists r g, loss_kernel b = (Fin r, g) /\ r <= r0 /\ all_finite b = true /\ all_finite g = true.
Proof.
  intros H E0 F0 F1. destruct (fit_entry n b H) as (l & x & E & X & M & _).
  destruct n as [|n]; [discriminate|].
  destruct (run_start n l E) as (L & EL); [unfold good; rewrite E0; cbn [fst snd isfinite]; rewrite F0, F1; reflexivity|].
  specialize (M 0%nat ltac:(lia)). rewrite EL, E0 in M. cbn [nth fst] in M.
  destruct X as [[-> ->]|[-> G]]; [discriminate|]. unfold good in G. destruct (loss_kernel b) as [y g] eqn:Eb. cbn [fst snd] in *.
  apply andb_prop in G. destruct G as [G G3]. apply andb_prop in G. destruct G as [G1 G2].
  destruct y as [r| | |]; try discriminate. exists r, g. repeat split; try assumption.
  cbn in M. unfold Rltb in M. destruct (Rlt_dec r0 r); [discriminate|lra].
Qed.

(** More steps *)
Theorem fit_longer n b c r0 g0 : fit n p0 = Some b -> fit (S n) p0 = Some c ->
  loss_kernel p0 = (Fin r0, g0) -> all_finite p0 = true -> all_finite g0 = true ->
  exists r g s h, loss_kernel b = (Fin r, g) /\ loss_kernel c = (Fin s, h) /\ s <= r.
Proof.
  intros Hb Hc E0 F0 F1.
  destruct (fit_improves n b r0 g0 Hb E0 F0 F1) as (r & g & Eb & _ & _ & _).
  destruct (fit_improves (S n) c r0 g0 Hc E0 F0 F1) as (s & h & Ec & _ & _ & _).
  exists r, g, s, h. split; [exact Eb|]. split; [exact Ec|].
  destruct (fit_entry n b Hb) as (l & x & E & X & Mx & I). destruct (fit_entry (S n) c Hc) as (l1 & y & E1 & Y & M & _).
  destruct (steps_more St opt_update get_params loss_kernel n0 n [] [] (opt_init p0) None l l1 eq_refl E E1) as (z & p & EL & _).
  assert (RN : forall n l x, (0 < n)%nat -> run n = Some l -> (forall q, (q < n)%nat -> (nth q (lp_losses St l) NaN <? x)%X = false) -> x <> PInf).
  { clear - H0 E0 F0 F1. intros n l x Hn E M ->. destruct n as [|n]; [lia|].
    destruct (run_start n l E) as (L & EL); [unfold good; rewrite E0; cbn [fst snd isfinite]; rewrite F0, F1; reflexivity|].
    specialize (M 0%nat ltac:(lia)). rewrite EL, E0 in M. discriminate. }
  assert (Hn : (0 < n)%nat) by (destruct n; [discriminate|lia]).
  assert (Qx : x = Fin r).
  { destruct X as [[-> _]|[-> _]]; [|now rewrite Eb]. exfalso. exact (RN n l PInf Hn E Mx eq_refl). }
  assert (Qy : y = Fin s).
  { destruct Y as [[-> _]|[-> _]]; [|now rewrite Ec]. exfalso. exact (RN (S n) l1 PInf ltac:(lia) E1 M eq_refl). }
  subst x y. destruct (In_nth _ _ NaN I) as (q & Hq & Eq). destruct (run_inv n l E) as (A & _).
  specialize (M q ltac:(lia)). rewrite EL, app_nth1, Eq in M by exact Hq.
  cbn in M. unfold Rltb in M. destruct (Rlt_dec r s); [discriminate|lra].
Qed.

(** A first step that is not recorded *)
Theorem fit_zeros n r0 g0 : loss_kernel p0 = (Fin r0, g0) -> (all_finite p0 = false \/ all_finite g0 = false) ->
  fit (S n) p0 = Some (zeros n0).
Proof.
  intros E0 F. 
  assert (R : exists g, run (S n) = Some (mkLoop St (repeat PInf (S n)) (repeat (zeros n0) (S n)) (opt_init p0) g)).
  { assert (C : all_finite p0 && true && all_finite g0 = false) by (destruct F as [-> | ->]; rewrite ?andb_false_r; reflexivity).
    assert (ST : forall i L P g, fit_step St opt_update get_params loss_kernel i (mkLoop St L P (opt_init p0) g) =
      (if all_finite g0 then Next St else Stop St) (mkLoop St L P (opt_init p0) (Some g0))).
    { intros i L P g. unfold fit_step. cbn [lp_state lp_losses lp_params lp_grads]. rewrite H0, E0. cbn [isfinite]. rewrite C.
      destruct (all_finite g0); reflexivity. }
    change (seq 0 (S n)) with (0%nat :: seq 1 n). cbn [fit_steps]. rewrite ST. destruct (all_finite g0); [|eauto].
    exists (Some g0). generalize (repeat PInf (S n)), (repeat (zeros n0) (S n)). intros L P. generalize 1%nat. 
    induction n as [|m IH]; intros i; [reflexivity|]. cbn [seq fit_steps]. rewrite ST. apply IH. }
  destruct R as (g & R). apply fit_eq. exists (mkLoop St (repeat PInf (S n)) (repeat (zeros n0) (S n)) (opt_init p0) g), 0%nat.
  split; [exact R|]. cbn [lp_losses lp_params]. split; [|reflexivity].
  clear. cbn [repeat]. induction n as [|n IH]; [reflexivity|]. cbn [repeat]. 
  change (argmin (PInf :: PInf :: repeat PInf n)) with (match argmin (PInf :: repeat PInf n) with
     | Some k => if (nth k (PInf :: repeat PInf n) NaN <? PInf)%X then Some (S k) else Some 0%nat | None => Some 0%nat end).
  rewrite IH. reflexivity.
Qed.

(** The plain case *)
Section Plain.
Variable n : nat.
Variable s : nat -> St.
Hypothesis S0 : s 0%nat = opt_init p0.
Variable loss : nat -> R.
Variable grad : nat -> list xr.
Hypothesis SK : forall i, (i < n)%nat -> loss_kernel (get_params (s i)) = (Fin (loss i), grad i) /\
  all_finite (get_params (s i)) = true /\ all_finite (grad i) = true /\ s (S i) = opt_update i (grad i) (s i).
Lemma plain_steps m : forall L P g, length L = length P -> (length L + m = n)%nat ->
  exists g', fit_steps St opt_update get_params loss_kernel (seq (length L) m)
    (mkLoop St (L ++ repeat PInf m) (P ++ repeat (zeros n0) m) (s (length L)) g) =
  Some (mkLoop St (L ++ map (fun i => Fin (loss i)) (seq (length L) m)) (P ++ map (fun i => get_params (s i)) (seq (length L) m)) (s n) g').
Proof.
  induction m as [|m IH]; intros L P g HL HN.
  - exists g. cbn [seq fit_steps map repeat]. replace (length L) with n by lia. reflexivity.
  - destruct (SK (length L) ltac:(lia)) as (A & B & C & D). cbn [seq fit_steps]. unfold fit_step at 1.
    cbn [lp_state lp_losses lp_params lp_grads repeat map]. rewrite A. cbn [isfinite]. rewrite B, C. cbn [andb].
    rewrite !upd_app' by (try reflexivity; exact HL). rewrite <- D.
    specialize (IH (L ++ [Fin (loss (length L))]) (P ++ [get_params (s (length L))]) (Some (grad (length L)))).
    rewrite !app_length in IH. cbn [length] in IH. rewrite Nat.add_1_r, <- !app_assoc in IH. cbn [app] in IH.
    destruct IH as (g' & IH); [lia|lia|]. exists g'. exact IH.
Qed.
Theorem fit_plain : (0 < n)%nat -> exists k, (k < n)%nat /\ fit n p0 = Some (get_params (s k)) /\
  (forall i, (i < n)%nat -> loss k <= loss i) /\ (forall i, (i < k)%nat -> loss k < loss i).
Proof.
  intros Hn. destruct (plain_steps n [] [] None eq_refl eq_refl) as (g' & E). cbn [length app] in E. rewrite S0 in E.
  set (Ls := map (fun i => Fin (loss i)) (seq 0 n)) in *.
  assert (LL : length Ls = n) by (unfold Ls; rewrite map_length, seq_length; reflexivity).
  destruct (argmin_some Ls) as (k & K); [intro Z; rewrite Z in LL; cbn in LL; lia|].
  assert (BB : Forall bar Ls) by (apply Forall_forall; intros x Hx; apply in_map_iff in Hx; destruct Hx as (i & <- & _); right; eauto).
  destruct (argmin_spec Ls k BB K) as (A & B & C). rewrite LL in A, B.
  assert (NT : forall i, (i < n)%nat -> nth i Ls NaN = Fin (loss i)).
  { intros i Hi. unfold Ls. rewrite (nth_indep _ NaN (Fin (loss 0%nat))) by (rewrite map_length, seq_length; exact Hi).
    change (Fin (loss 0%nat)) with ((fun i => Fin (loss i)) 0%nat). rewrite map_nth, seq_nth by exact Hi. reflexivity. }
  exists k. split; [exact A|]. split; [|split].
  - apply fit_eq. eexists _, k. split; [exact E|]. cbn [lp_losses lp_params]. split; [exact K|].
    rewrite nth_error_map. rewrite (nth_error_nth' _ 0%nat) by (rewrite seq_length; exact A). rewrite seq_nth by exact A. reflexivity.
  - intros i Hi. specialize (B i Hi). rewrite !NT in B by assumption. cbn in B. unfold Rltb in B. destruct (Rlt_dec (loss i) (loss k)); [discriminate|lra].
  - intros i Hi. specialize (C i Hi). rewrite !NT in C by lia. cbn in C. unfold Rltb in C. destruct (Rlt_dec (loss k) (loss i)); [assumption|discriminate].
Qed.
End Plain.
End Fit.

(** ** Worked examples *)
Definition ex_init (p : list xr) : list xr := p.
Definition ex_update (i : nat) (g s : list xr) : list xr := map2 (fun x d => x - Fin (1 / 4) * d)%X s g.
Definition ex_params (s : list xr) : list xr := s.
Definition ex_loss (p : list xr) : xr * list xr := match p with [x] => ((x * x)%X, [(Fin 2 * x)%X]) | _ => (NaN, []) end.
Lemma ex_plain : forall i, (i < 3)%nat ->
  ex_loss (ex_params [Fin (/ 2 ^ i)]) = (Fin (/ 2 ^ i * / 2 ^ i), [Fin (2 * / 2 ^ i)]) /\
  all_finite (ex_params [Fin (/ 2 ^ i)]) = true /\ all_finite [Fin (2 * / 2 ^ i)] = true /\
  [Fin (/ 2 ^ S i)] = ex_update i [Fin (2 * / 2 ^ i)] [Fin (/ 2 ^ i)].
Proof.
  intros i Hi. split; [reflexivity|]. split; [reflexivity|]. split; [reflexivity|].
  unfold ex_update. cbn [map2 xsub xopp xadd xmul]. f_equal. f_equal. cbn [pow]. assert (H : 2 ^ i <> 0) by (apply pow_nonzero; lra). field. exact H.
Qed.
(** A gradient that is not finite at the start *)
Definition bad_loss (p : list xr) : xr * list xr :=
  match p with [Fin x] => if Req_EM_T x 1 then (Fin 1, [NaN]) else (Fin 5, [Fin 0]) | _ => (NaN, []) end.
Lemma zeros_worse : exists p0 b r0 r g0 g,
  fit_population _ ex_init ex_update ex_params bad_loss 10 p0 = Some b /\ all_finite p0 = true /\
  bad_loss p0 = (Fin r0, g0) /\ bad_loss b = (Fin r, g) /\ r0 < r.
Proof.
  exists [Fin 1], (zeros 1), 1, 5, [NaN], [Fin 0].
  assert (E : bad_loss [Fin 1] = (Fin 1, [NaN])) by (cbn; destruct (Req_EM_T 1 1); [reflexivity|lra]).
  split; [apply (fit_zeros _ ex_init ex_update ex_params bad_loss [Fin 1] eq_refl 9 1 [NaN] E); right; reflexivity|].
  split; [reflexivity|]. split; [exact E|]. split; [cbn; destruct (Req_EM_T 0 1); [lra|reflexivity]|lra].
Qed.
