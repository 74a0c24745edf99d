(** A population loss and its wrapper agree, and the loss is never infinite.
    The forward derivatives of the model are NaN wherever the loss is; those of reverse mode need not be, so this is
    used in the proofs but not claimed. *)
From Coq Require Import Reals Lra Lia.
From Coquelicot Require Import Coquelicot.
From Coq Require Import List Bool ZArith QArith String.
From Verif Require Import XReal XFacts RealFacts ModelUtils ModelKernels ModelSfh ModelPop ModelHist ModelFit ModelGrad ModelPopTables ModelPopGrad
  SpecCore SpecPop SpecHist SpecGrad SpecPopProgram SpecPopGrad SpecPopNaN SigmoidProofs HistProofs SmhmProofs LossProofs PopLossProofs PopParamProofs CholeskyProofs
  PopGradProofs PopGradTables PopGradGal PopGradHist PopGradLoss PopGradTop PopGradClaims.
Import List ListNotations.
Open Scope R_scope.

Definition fin_d (x : dual) : Prop := exists a g, fst x = Fin a /\ forall i, snd x i = Fin (g i).
Definition nan_d (x : dual) : Prop := fst x = NaN /\ forall i, snd x i = NaN.
Definition ok (x : dual) : Prop := fin_d x \/ nan_d x.
Definition nn (x : dual) : Prop := (exists a g, 0 <= a /\ fst x = Fin a /\ forall i, snd x i = Fin (g i)) \/ nan_d x.
Definition wk (x : dual) : Prop := nn x \/ fst x = NaN.
Lemma nn_ok x : nn x -> ok x.
Proof. intros [(a & g & _ & A)|N]; [left; exists a, g; exact A|right; exact N]. Qed.
Lemma xadd_nan x : (x + NaN)%X = NaN. Proof. destruct x; reflexivity. Qed.
Lemma xmul_nan x : (x * NaN)%X = NaN. Proof. destruct x; reflexivity. Qed.
Lemma xdiv_nan x : (x / NaN)%X = NaN. Proof. destruct x; reflexivity. Qed.
Lemma xsub_nan x : (x - NaN)%X = NaN. Proof. destruct x; reflexivity. Qed.

Lemma add_fin x y : fin_d x -> fin_d y -> fin_d (dadd x y).
Proof. intros (a & g & A & G) (b & h & B & H). exists (a + b), (fun i => g i + h i). unfold dadd. cbn [fst snd]. rewrite A, B. split; [reflexivity|]. intros i. rewrite G, H. reflexivity. Qed.
Lemma add_nan_l x y : nan_d x -> nan_d (dadd x y).
Proof. intros (A & G). unfold dadd. split; cbn [fst snd]; [rewrite A; reflexivity|intros i; rewrite G; reflexivity]. Qed.
Lemma add_nan_r x y : nan_d y -> nan_d (dadd x y).
Proof. intros (A & G). unfold dadd. split; cbn [fst snd]; [rewrite A; apply xadd_nan|intros i; rewrite G; apply xadd_nan]. Qed.
Lemma add_ok x y : ok x -> ok y -> ok (dadd x y).
Proof. intros [A|A] [B|B]; [left; apply add_fin; assumption|right; apply add_nan_r, B|right; apply add_nan_l, A|right; apply add_nan_l, A]. Qed.
Lemma add_nn x y : nn x -> nn y -> nn (dadd x y).
Proof.
  intros [(a & g & Pa & A & G)|A] [(b & h & Pb & B & H)|B]; [left|right; apply add_nan_r, B|right; apply add_nan_l, A|right; apply add_nan_l, A].
  exists (a + b), (fun i => g i + h i). split; [lra|]. unfold dadd. cbn [fst snd]. rewrite A, B. split; [reflexivity|]. intros i. rewrite G, H. reflexivity.
Qed.
Lemma dsum_ok l : Forall ok l -> ok (dsum l).
Proof. induction 1 as [|x l H _ IH]; [left; exists 0, (fun _ => 0); split; reflexivity|]. apply add_ok; assumption. Qed.
Lemma dsum_nn l : Forall nn l -> nn (dsum l).
Proof. induction 1 as [|x l H _ IH]; [left; exists 0, (fun _ => 0); split; [lra|]; split; reflexivity|]. apply add_nn; assumption. Qed.
Lemma mul_c x w : wk x -> 0 <= w -> nn (dmul x (dc (Fin w))).
Proof.
  intros H Hw. unfold dmul, dc. assert (N : fst x = NaN -> nn (fst x * Fin w, fun i => snd x i * Fin w + fst x * Fin 0)%X).
  { intros E. right. rewrite E. split; cbn [fst snd]; [reflexivity|]. intros i. cbn. apply xadd_nan. }
  destruct H as [[(a & g & Pa & A & G)|[A _]]|A]; [left|apply N, A|apply N, A]. exists (a * w), (fun i => g i * w + a * 0). split; [nra|]. cbn [fst snd]. rewrite A. split; [reflexivity|]. intros i. rewrite G. reflexivity.
Qed.
Lemma mul_1000 x : ok x -> ok (dmul x (dF 1000)).
Proof.
  intros [(a & g & A & G)|(A & G)]; [left|right]; unfold dmul, dF, dc.
  - exists (a * 1000), (fun i => g i * 1000 + a * 0). cbn [fst snd]. rewrite A. split; [reflexivity|]. intros i. rewrite G. reflexivity.
  - split; cbn [fst snd]; [rewrite A; reflexivity|]. intros i. rewrite G. reflexivity.
Qed.
Lemma div_nan_r x y : fst y = NaN -> nan_d (ddiv x y).
Proof. intros E. unfold ddiv. rewrite E. split; cbn [fst snd]; [apply xdiv_nan|]. intros i. rewrite xdiv_nan. reflexivity. Qed.
Lemma div_00 x y : fst x = Fin 0 -> fst y = Fin 0 -> (exists b, forall i, snd y i = Fin (b i)) -> nan_d (ddiv x y).
Proof.
  intros A B (b & C). unfold ddiv. rewrite A, B.
  assert (Z : forall r, r = 0 -> signed_inf r = NaN) by (intros r ->; unfold signed_inf; destruct (Rlt_dec 0 0); [lra|]; destruct (Rlt_dec 0 0); [lra|reflexivity]).
  split; cbn [fst snd].
  - cbn [xdiv]. destruct (Req_EM_T 0 0) as [_|N]; [|now elim N]. apply Z. reflexivity.
  - intros i. rewrite C. cbn [xopp xmul]. replace (- b i * 0) with 0 by ring.
    replace (Fin 1 / Fin (0 * 0))%X with PInf.
    + cbn [xmul]. rewrite Z by reflexivity. apply xadd_nan.
    + cbn [xdiv]. destruct (Req_EM_T (0 * 0) 0) as [_|N]; [|exfalso; apply N; ring]. unfold signed_inf. destruct (Rlt_dec 0 1); [reflexivity|lra].
Qed.
Lemma div_fin x y a b g h : b <> 0 -> fst x = Fin a -> (forall i, snd x i = Fin (g i)) -> fst y = Fin b -> (forall i, snd y i = Fin (h i)) ->
  exists k, fst (ddiv x y) = Fin (a / b) /\ forall i, snd (ddiv x y) i = Fin (k i).
Proof.
  intros N A G B H. unfold ddiv. cbn [fst snd]. rewrite A, B. exists (fun i => g i / b + (- h i * a) * (1 / (b * b))). split; [apply xdiv_fin, N|].
  intros i. rewrite G, H. cbn [xopp xmul]. rewrite !xdiv_fin by (try apply Rmult_integral_contrapositive_currified; assumption). reflexivity.
Qed.
Lemma fst_dsum l : fst (dsum l) = xsum (map fst l).
Proof. induction l as [|x l IH]; [reflexivity|]. change (fst x + fst (dsum l) = fst x + xsum (map fst l))%X. rewrite IH. reflexivity. Qed.
Lemma fst_dnormalise l : map fst (dnormalise l) = map (fun w => w / xsum (map fst l))%X (map fst l).
Proof. unfold dnormalise. rewrite !map_map. apply map_ext. intros x. unfold ddiv. cbn [fst]. rewrite fst_dsum. reflexivity. Qed.
Lemma xsum_has_nan l : In NaN l -> xsum l = NaN.
Proof. induction l as [|x l IH]; intros []; [subst; reflexivity|]. change (x + xsum l = NaN)%X. rewrite IH by assumption. apply xadd_nan. Qed.
Lemma sum_zero l : Forall nn l -> fst (dsum l) = Fin 0 -> Forall (fun x => fst x = Fin 0) l.
Proof.
  induction 1 as [|x l H HF IH]; intros E; [constructor|]. change (dsum (x :: l)) with (dadd x (dsum l)) in E. unfold dadd in E. cbn [fst] in E.
  destruct (dsum_nn l HF) as [(b & h & Pb & B & _)|(B & _)]; [|rewrite B, xadd_nan in E; discriminate].
  destruct H as [(a & g & Pa & A & _)|(A & _)]; [|rewrite A in E; discriminate]. rewrite A, B in E. change (Fin (a + b) = Fin 0) in E. apply Fin_inj in E.
  assert (a = 0) by lra. assert (b = 0) by lra. subst. constructor; [exact A|apply IH, B].
Qed.
Lemma nan_in_dec l : In NaN (map fst l) \/ ~ In NaN (map (@fst xr (nat -> xr)) l).
Proof. induction l as [|x l IH]; [right; intros []|]. destruct IH as [H|H]; [left; right; exact H|]. destruct (fst x) eqn:E; [right; intros [Q|Q]; [congruence|exact (H Q)]..|left; left; exact E]. Qed.
Lemma map_repeat' {A B} (f : A -> B) x n : map f (repeat x n) = repeat (f x) n.
Proof. induction n as [|n IH]; [reflexivity|]. cbn [repeat map]. rewrite IH. reflexivity. Qed.
Lemma norm_nn l : Forall wk l -> Forall nn (dnormalise l).
Proof.
  intros H. unfold dnormalise. apply Forall_map. destruct (nan_in_dec l) as [N|N].
  - apply Forall_forall. intros x _. right. apply div_nan_r. rewrite fst_dsum. apply xsum_has_nan, N.
  - assert (HN : Forall nn l).
    { rewrite Forall_forall in *. intros x Hx. destruct (H x Hx) as [Q|Q]; [exact Q|]. elim N. rewrite <- Q. apply in_map, Hx. }
    destruct (dsum_nn l HN) as [(b & h & Pb & B & Hh)|(B & _)]; [|apply Forall_forall; intros x _; right; apply div_nan_r, B].
    destruct (Req_dec b 0) as [->|Nb].
    + pose proof (sum_zero l HN B) as Z. eapply Forall_impl; [|exact Z]. cbv beta. intros x Q. right. apply div_00; [exact Q|exact B|exists h; exact Hh].
    + eapply Forall_impl; [|exact HN]. intros x [(a & g & Pa & A & G)|(A & G)].
      * left. destruct (div_fin x (dsum l) a b g h Nb A G B Hh) as (k & K1 & K2). exists (a / b), k. split; [|split; assumption].
        apply Rmult_le_pos; [exact Pa|]. left. apply Rinv_0_lt_compat. lra.
      * right. unfold ddiv. rewrite A, B. split; cbn [fst snd]; [reflexivity|]. intros i. rewrite G. reflexivity.
Qed.

(** ** Projections on values *)
Definition pi2 (m : list (list dual)) := map (map fst) m.
Definition pi3 (m : list (list (list dual))) := map (map (map fst)) m.
Lemma vmap_proj {A B C} (f : A -> option B) (df : A -> option C) (pi : C -> B) (Q : C -> Prop) l :
  (forall a, In a l -> f a = option_map pi (df a) /\ forall c, df a = Some c -> Q c) ->
  vmap f l = option_map (map pi) (vmap df l) /\ forall cs, vmap df l = Some cs -> Forall Q cs.
Proof.
  unfold vmap. induction l as [|a l IH]; intros H; [split; [reflexivity|intros cs E; injection E as <-; constructor]|].
  destruct (H a (or_introl eq_refl)) as [E1 E2]. destruct IH as [I1 I2]; [intros b Hb; apply H; right; exact Hb|]. cbn [map sequence]. rewrite E1, I1.
  destruct (df a) as [c|]; cbn [option_map]; [|split; [reflexivity|discriminate]]. destruct (sequence (map df l)) as [cs|]; cbn [option_map]; [|split; [reflexivity|discriminate]].
  split; [reflexivity|]. intros cs' E. injection E as <-. constructor; [apply E2; reflexivity|apply I2; reflexivity].
Qed.
Lemma chunks_map {A B} (f : A -> B) k : forall n l, map (map f) (chunks n k l) = chunks n k (map f l).
Proof. induction n as [|n IH]; intros l; [reflexivity|]. cbn [chunks map]. rewrite IH, firstn_map, skipn_map. reflexivity. Qed.
Lemma chunks_forall {A} (Q : A -> Prop) k : forall n l, Forall Q l -> Forall (Forall Q) (chunks n k l).
Proof.
  assert (F1 : forall k l, Forall Q l -> Forall Q (firstn k l) /\ Forall Q (skipn k l)).
  { intros k' l H. rewrite <- (firstn_skipn k' l) in H. apply Forall_app in H. exact H. }
  induction n as [|n IH]; intros l H; [constructor|]. cbn [chunks]. destruct (F1 k l H). constructor; [assumption|]. apply IH. assumption.
Qed.
Lemma fst_dent m a b : fst (dent m a b) = ent (pi2 m) a b.
Proof. unfold dent, ent, dat, at_, pi2. change (@nil xr) with (map (@fst xr (nat -> xr)) []). rewrite map_nth. change NaN with (fst (dc NaN)) at 2. rewrite map_nth. reflexivity. Qed.
Lemma take_proj nms nsf ps i : pi2 (dtake_matrix nms nsf ps i) = take_matrix nms nsf (pi3 ps) i.
Proof.
  unfold dtake_matrix, take_matrix, pi3, pi2, nan_matrix. replace (repeat (repeat NaN nsf) nms) with (map (map (@fst xr (nat -> xr))) (repeat (repeat (dc NaN) nsf) nms)); [symmetry; apply (map_nth (map (map fst)))|].
  rewrite map_repeat', map_repeat'. reflexivity.
Qed.
Lemma dent_wk m a b : Forall (Forall nn) m -> wk (dent m a b).
Proof.
  intros H. unfold dent, dat. destruct (Nat.lt_ge_cases b (List.length (nth a m []))) as [Hb|Hb]; [|right; rewrite nth_overflow by exact Hb; reflexivity].
  left. destruct (Nat.lt_ge_cases a (List.length m)) as [Ha|Ha]; [|rewrite (nth_overflow m) in Hb by exact Ha; cbn in Hb; lia].
  apply (Forall_nth' nn); [|exact Hb]. apply (Forall_nth' (Forall nn)); assumption.
Qed.
Lemma take_wk nms nsf ps i a b : Forall (Forall (Forall nn)) ps -> wk (dent (dtake_matrix nms nsf ps i) a b).
Proof.
  intros H. unfold dtake_matrix. destruct (Nat.lt_ge_cases i (List.length ps)) as [Hi|Hi]; [apply dent_wk, (Forall_nth' (Forall (Forall nn))); assumption|].
  rewrite nth_overflow by exact Hi. right. rewrite fst_dent. unfold pi2. rewrite map_repeat', map_repeat'. cbn [fst dc]. unfold ent, at_.
  destruct (Nat.lt_ge_cases a nms) as [Ha|Ha]; [rewrite nth_repeat_lt' by exact Ha|rewrite (nth_overflow (repeat (repeat NaN nsf) nms)) by (rewrite repeat_length; exact Ha); destruct b; reflexivity].
  destruct (Nat.lt_ge_cases b nsf) as [Hb|Hb]; [rewrite nth_repeat_lt' by exact Hb; reflexivity|apply nth_overflow; rewrite repeat_length; exact Hb].
Qed.
Lemma conditional_proj nms nsf ps (W : list (list R)) I ids : Forall (Forall (Forall nn)) ps -> Forall (Forall (fun w => 0 <= w)) W ->
  conditional_pdfs nms nsf (pi3 ps) (map (map Fin) W) I ids = option_map pi3 (dconditional_pdfs nms nsf ps (map (map Fin) W) I ids) /\
  forall c, dconditional_pdfs nms nsf ps (map (map Fin) W) I ids = Some c -> Forall (Forall (Forall nn)) c.
Proof.
  intros Hp HW. unfold conditional_pdfs, dconditional_pdfs. destruct (same_len (map (map Fin) W) I); [|split; [reflexivity|discriminate]].
  apply vmap_proj. intros [w ix] Hin. apply in_combine_l in Hin. apply in_map_iff in Hin as (w' & <- & Hw). rewrite Forall_forall in HW. specialize (HW _ Hw).
  destruct (same_len (map Fin w') ix); [|split; [reflexivity|discriminate]].
  assert (PR : pi2 (dweighted_sum_matrices nms nsf (map (dtake_matrix nms nsf ps) ix) (map Fin w')) = weighted_sum_matrices nms nsf (map (take_matrix nms nsf (pi3 ps)) ix) (map Fin w')).
  { unfold dweighted_sum_matrices, weighted_sum_matrices, pi2. rewrite map_map. apply map_ext. intros a. rewrite map_map. apply map_ext. intros b. rewrite fst_dsum. f_equal.
    clear. revert ix. induction w' as [|r w IH]; intros [|k ix]; try reflexivity. cbn [map map2]. f_equal; [|apply IH]. unfold dmul. cbn [fst dc]. rewrite fst_dent, take_proj. reflexivity. }
  split.
  - cbn [option_map]. f_equal. cbv zeta. rewrite <- PR. rewrite !map_map. apply map_ext. intros i. rewrite fst_dnormalise. unfold take_row, pi2.
    replace (repeat NaN nsf) with (map (@fst xr (nat -> xr)) (repeat (dc NaN) nsf)) by (rewrite map_repeat'; reflexivity). rewrite (map_nth (map fst)). reflexivity.
  - intros c E. injection E as <-. apply Forall_map, Forall_map, Forall_forall. intros i _. apply norm_nn.
    set (M := dweighted_sum_matrices _ _ _ _). assert (HM : Forall (Forall nn) M).
    { unfold M, dweighted_sum_matrices. apply Forall_map, Forall_forall. intros a _. apply Forall_map, Forall_forall. intros b _. apply dsum_nn.
      clear - Hp HW. revert ix. induction HW as [|r w Hr _ IH]; intros [|k ix]; [constructor..|]. cbn [map map2]. apply Forall_cons; [|apply IH]. apply mul_c; [|exact Hr]. apply take_wk, Hp. }
    destruct (Nat.lt_ge_cases i (List.length M)) as [Hi|Hi]; [eapply Forall_impl; [|exact (Forall_nth' (Forall nn) M i _ HM Hi)]; intros x Q; left; exact Q|].
    rewrite nth_overflow by exact Hi. apply Forall_forall. intros x Hx. apply repeat_spec in Hx. subst x. right. reflexivity.
Qed.

Lemma mse_proj l t : mse (map fst l) t = option_map fst (dmse l t).
Proof.
  unfold mse, dmse, same_len, len. rewrite map_length. destruct (Nat.eqb _ _); [|reflexivity]. cbn [option_map]. f_equal. unfold xmean, dmean, ddiv, len. cbn [fst dc].
  rewrite !map_length. assert (E : map (fun d => d ^ 2)%X (map2 xsub (map fst l) t) = map fst (map (fun d => dpown d 2) (map2 (fun a b => dsub a (dc b)) l t))).
  { revert t. induction l as [|x l IH]; intros [|y t]; try reflexivity. cbn [map map2]. rewrite IH. reflexivity. }
  rewrite E, fst_dsum, !map2_length, map_length. reflexivity.
Qed.
Lemma mse_ok l T d : Forall nn l -> dmse l (map Fin T) = Some d -> ok d.
Proof.
  unfold dmse. destruct (same_len _ _); [|discriminate]. intros H E. injection E as <-.
  assert (Q : Forall ok (map (fun d => dpown d 2) (map2 (fun a b => dsub a (dc b)) l (map Fin T)))).
  { revert T. induction H as [|x l Hx _ IH]; intros [|y T]; [constructor..|]. cbn [map map2]. apply Forall_cons; [|apply IH].
    destruct Hx as [(a & g & _ & A & G)|(A & G)]; [left|right]; unfold dpown, dsub, dc; cbn [fst snd].
    - exists ((a - y) * ((a - y) * 1)), (fun i => (g i - 0) * (INR 2 * ((a - y) * 1))). cbn [fst snd]. rewrite A. split; [reflexivity|]. intros i. rewrite G. reflexivity.
    - split; cbn [fst snd]; [rewrite A; reflexivity|]. intros i. rewrite G. reflexivity. }
  pose proof (dsum_ok _ Q) as S. unfold dmean. set (L := map _ _) in *. destruct S as [(a & g & A & G)|(A & G)].
  - destruct (Nat.eq_dec (List.length L) 0) as [Z|Z].
    + right. rewrite Z. apply length_zero_iff_nil in Z. rewrite Z. apply div_00; [reflexivity|reflexivity|exists (fun _ => 0); reflexivity].
    + left. destruct (div_fin (dsum L) (dc (Fin (INR (List.length L)))) a (INR (List.length L)) g (fun _ => 0)) as (k & K1 & K2); [apply not_0_INR, Z|exact A|exact G|reflexivity|reflexivity|].
      exists (a / INR (List.length L)), k. split; assumption.
  - right. unfold ddiv. rewrite A. split; cbn [fst snd]; [reflexivity|]. intros i. rewrite G. reflexivity.
Qed.
Lemma shape_pi {A B} (f : A -> B) m : shape2 (map (map f) m) = shape2 m.
Proof. unfold shape2, len. rewrite map_map. apply map_ext. intros l. apply map_length. Qed.
Lemma concat_pi {A B} (f : A -> B) m : List.concat (map (map f) m) = map f (List.concat m).
Proof. symmetry. apply concat_map. Qed.
Lemma mse2_proj m t : mse2 (pi2 m) t = option_map fst (dmse2 m t).
Proof. unfold mse2, dmse2, pi2. rewrite shape_pi. unfold same_len, len. rewrite map_length. destruct (_ && _); [|reflexivity]. rewrite concat_pi. apply mse_proj. Qed.
Lemma mse2_ok m T d : Forall (Forall nn) m -> dmse2 m (map (map Fin) T) = Some d -> ok d.
Proof. unfold dmse2. destruct (_ && _); [|discriminate]. intros H. rewrite concat_pi. apply mse_ok. apply Forall_concat, H. Qed.
Lemma mse3_proj m t : mse3 (pi3 m) t = option_map fst (dmse3 m t).
Proof.
  unfold mse3, dmse3, pi3. change (map (map (map fst)) m) with (map (map (map (@fst xr (nat -> xr)))) m). rewrite shape_pi. unfold same_len, len. rewrite map_length. destruct (_ && _); [|reflexivity].
  rewrite concat_pi. apply mse2_proj.
Qed.
Lemma mse3_ok m T d : Forall (Forall (Forall nn)) m -> dmse3 m (map (map (map Fin)) T) = Some d -> ok d.
Proof. unfold dmse3. destruct (_ && _); [|discriminate]. intros H. rewrite concat_pi. apply mse2_ok. apply Forall_concat, H. Qed.

(** ** A histogram whose normalised values are numbers or NaN *)
Lemma raw_norm L K n H dH : trl L K n H dH ->
  map fst dH = H 0 /\ Forall fin_d dH.
Proof.
  intros (A & B & C). assert (Q : forall i, (i < n)%nat -> fst (nth i dH (dc NaN)) = nth i (H 0) NaN /\ fin_d (nth i dH (dc NaN))).
  { intros i Hi. destruct (C i Hi) as (g & g' & C1 & _ & C2 & C3 & _). split; [|exists (g 0), g'; split; assumption]. rewrite C2. symmetry. exact (locally_singleton _ _ C1). }
  split.
  - apply (nth_ext _ _ NaN NaN); [exact (eq_trans (map_length _ _) (eq_trans A (eq_sym (B 0))))|]. intros i Hi. assert (Hn : (i < n)%nat) by exact (eq_ind _ (fun k => (i < k)%nat) Hi _ (eq_trans (map_length _ _) A)).
    rewrite (nth_map fst dH i (dc NaN) NaN (eq_ind_r (fun k => (i < k)%nat) Hn A)). apply Q, Hn.
  - apply Forall_forall. intros x Hx. destruct (In_nth _ _ (dc NaN) Hx) as (i & Hi & <-). apply Q. lia.
Qed.
Definition numbers (row : list xr) : Prop := Forall (fun x => x = NaN \/ exists r, 0 <= r /\ x = Fin r) row.
Lemma raw_nn dH : Forall fin_d dH -> numbers (map fst (dnormalise dH)) -> Forall nn (dnormalise dH).
Proof.
  intros HF HN. assert (HS : fin_d (dsum dH)).
  { clear HN. induction HF as [|x l Hx _ IH]; [exists 0, (fun _ => 0); split; reflexivity|]. apply add_fin; assumption. }
  destruct HS as (b & h & B & Hh). unfold dnormalise in *. apply Forall_map. unfold numbers in HN. rewrite map_map in HN. apply Forall_map in HN.
  rewrite Forall_forall in *. intros x Hx. specialize (HN x Hx). destruct (HF x Hx) as (a & g & A & G).
  destruct (Req_dec b 0) as [->|Nb].
  - right. apply div_00; [|exact B|exists h; exact Hh]. assert (E : fst (ddiv x (dsum dH)) = signed_inf a).
    { unfold ddiv. cbn [fst]. rewrite A, B. cbn [xdiv]. destruct (Req_EM_T 0 0) as [_|N]; [reflexivity|now elim N]. }
    rewrite E in HN. unfold signed_inf in HN. rewrite A. destruct (Rlt_dec 0 a); [destruct HN as [Q|(r' & _ & Q)]; discriminate Q|].
    destruct (Rlt_dec a 0); [destruct HN as [Q|(r' & _ & Q)]; discriminate Q|]. f_equal. lra.
  - destruct (div_fin x (dsum dH) a b g h Nb A G B Hh) as (k & K1 & K2). left. exists (a / b), k. rewrite K1 in HN. destruct HN as [Q|(r & Hr & Q)]; [discriminate Q|]. apply Fin_inj in Q.
    split; [lra|]. split; assumption.
Qed.

(** ** The losses *)
Section NaN.
Context {key : Type}.
Variable split : key -> nat -> list key.
Variable uniform : key -> xr.
Variable normal : key -> nat -> list xr.
Variable lmk : MahParams xr -> xr -> xr -> xr.
Hypothesis Hsplit : splits_ok split.
Hypothesis Hn : normals_ok normal.
Notation mvn := (mvn_of normal).
Variables U P : string -> R.
Hypothesis HP : get_bounded_diffstarpop_params (pop_u_params U) = Some (pop_params P).
Hypothesis HS : slopes_nonzero P.
Notation V := (fun _ : string => 0).
Notation tbl := (tobs_tables key split uniform mvn lmk (pop_params P)).
Notation dtbl := (dtobs_tables key split normal lmk (dpb U)).

Lemma tables_0 z n tobs fb lgt0 : sim_ok lmk lgt0 n tobs z -> exists (X Y W : R -> list xr) dX dY dW xs ys ws,
  tbl z lgt0 (Fin fb) = Some (X 0, Y 0, W 0) /\ dtbl z lgt0 (Fin fb) = Some (dX, dY, dW) /\
  X 0 = map Fin xs /\ Y 0 = map Fin ys /\ W 0 = map Fin ws /\ length ys = length xs /\ length ws = length xs /\ Forall (fun w => 0 <= w) ws /\
  PopGradProofs.trl (LV V) False (n + n) X dX /\ PopGradProofs.trl (LV V) False (n + n) Y dY /\ PopGradProofs.trl (LV V) False (n + n) W dW.
Proof.
  intros Hsim.
  destruct (tr_tables (LV V) (LV_lin V) False split uniform normal lmk Hsplit Hn (fun s => pop_params (Pm U V s)) (Pm U V) (dpb U) (fun s => holds_params _) (pok_bounded U V False)
    (pm_bounds U V 0) (pm_slopes U V P HP HS) z n tobs fb lgt0 Hsim (fun k => False_ind _ k)) as (X & Y & W & dX & dY & dW & T1 & T2 & T3 & T4 & T5).
  specialize (T5 (fun k => False_ind _ k)). specialize (T1 0). cbn beta in T1. rewrite (pm_params U V P HP) in T1.
  destruct (tables_sample key split uniform mvn lmk Hsplit (mvn_of_ok normal Hn) (pop_params (Pm U V 0)) (Pm U V 0) n tobs z lgt0 fb (holds_params _) (pm_bounds U V 0) (pm_slopes U V P HP HS) Hsim)
    as (xs & ys & ws & _ & S1 & S2 & S3 & S4 & S5). rewrite (pm_params U V P HP) in S1. rewrite T1 in S1. apply Some_inj in S1. injection S1 as E1 E2 E3.
  exists X, Y, W, dX, dY, dW, xs, ys, ws. split; [exact T1|]. split; [exact T2|]. split; [exact E1|]. split; [exact E2|]. split; [exact E3|]. split; [congruence|]. split; [congruence|].
  split; [eapply Forall_impl; [|exact S5]; cbv beta; intros; lra|]. split; [exact T3|]. split; [exact T5|exact T4].
Qed.

Lemma mstar_row z n tobs fb lgt0 E : sim_ok lmk lgt0 n tobs z -> (2 <= length E)%nat -> increasing E ->
  match tbl z lgt0 (Fin fb) with Some (x, _, w) => compute_diff_histograms_mstar_atmobs_z (map Fin E) x w | None => None end =
  option_map (map fst) (match dtbl z lgt0 (Fin fb) with Some (x, _, w) => dcompute_diff_histograms_mstar_atmobs_z (map Fin E) x w | None => None end) /\
  forall c, match dtbl z lgt0 (Fin fb) with Some (x, _, w) => dcompute_diff_histograms_mstar_atmobs_z (map Fin E) x w | None => None end = Some c -> Forall nn c.
Proof.
  intros Hsim HE HI. destruct (tables_0 z n tobs fb lgt0 Hsim) as (X & Y & W & dX & dY & dW & xs & ys & ws & T1 & T2 & EX & EY & EW & LY & LW & PW & TX & TY & TW).
  rewrite T1, T2. destruct (tr_mstar_raw (LV V) (LV_lin V) False E (n + n) X dX W dW HE HI TX TW) as (H & dH & H1 & H2 & H3). rewrite H2.
  destruct (raw_norm _ _ _ _ _ H3) as [R1 R2]. specialize (H1 0).
  assert (EQ : compute_diff_histograms_mstar_atmobs_z (map Fin E) (X 0) (W 0) = Some (map fst (dnormalise dH))) by (rewrite H1, fst_dnormalise, R1; reflexivity).
  split; [exact EQ|]. intros c Ec. apply Some_inj in Ec. subst c. apply (raw_nn _ R2). rewrite EX, EW in EQ.
  destruct (Classical_Prop.classic (exists i, (i < length xs)%nat /\ 0 < nth i ws 0 /\ hd 0 E - 3 * ((last E 0 - hd 0 E) / INR (length E - 1)) < nth i xs 0
     < last E 0 + 3 * ((last E 0 - hd 0 E) / INR (length E - 1)))) as [Hit|Hit].
  - destruct (mstar_pdf xs ws E LW HI HE PW Hit) as (h & E1 & _ & E2 & _). rewrite E1 in EQ. apply Some_inj in EQ. rewrite <- EQ. apply Forall_map. eapply Forall_impl; [|exact E2].
    intros r Hr. right. exists r. split; [exact Hr|reflexivity].
  - rewrite mstar_pdf_nan in EQ; [|exact LW|exact HI|exact HE|].
    + apply Some_inj in EQ. rewrite <- EQ. apply Forall_forall. intros x Hx. left. exact (repeat_spec _ _ _ Hx).
    + intros i Hi. rewrite Forall_forall in PW. assert (Q : 0 <= nth i ws 0) by (apply PW, nth_In; rewrite LW; exact Hi).
      destruct (Rle_lt_dec (nth i ws 0) 0); [left; lra|]. right. destruct (Rle_lt_dec (nth i xs 0) (hd 0 E - 3 * ((last E 0 - hd 0 E) / INR (length E - 1)))); [left; assumption|].
      right. destruct (Rle_lt_dec (last E 0 + 3 * ((last E 0 - hd 0 E) / INR (length E - 1))) (nth i xs 0)); [assumption|]. elim Hit. exists i. tauto.
Qed.
Lemma ssfr_row z n tobs fb lgt0 LO HI Em Es nms nsf : sim_ok lmk lgt0 n tobs z -> (2 <= length Em)%nat -> increasing Em -> (2 <= length Es)%nat -> increasing Es -> cells LO HI ->
  let dr := match dtbl z lgt0 (Fin fb) with Some (x, y, w) =>
      match dcompute_diff_histograms_mstar_ssfr_atz x y w (map (map Fin) LO) (map (map Fin) HI) (map Fin Em) (map Fin Es) with Some h => dreshape2 nms nsf h | None => None end | None => None end in
  match tbl z lgt0 (Fin fb) with Some (x, y, w) =>
      match compute_diff_histograms_mstar_ssfr_atz x y w (map (map Fin) LO) (map (map Fin) HI) (map Fin Em) (map Fin Es) with Some h => reshape2 nms nsf h | None => None end | None => None end =
  option_map pi2 dr /\ forall c, dr = Some c -> Forall (Forall nn) c.
Proof.
  intros Hsim HE1 HI1 HE2 HI2 HC. cbv zeta. destruct (tables_0 z n tobs fb lgt0 Hsim) as (X & Y & W & dX & dY & dW & xs & ys & ws & T1 & T2 & EX & EY & EW & LY & LW & PW & TX & TY & TW).
  rewrite T1, T2. destruct (tr_ssfr_raw (LV V) (LV_lin V) False LO HI Em Es (n + n) X dX Y dY W dW HE1 HI1 HE2 HI2 HC TX TY TW) as (H & dH & H1 & H2 & H3). rewrite H2.
  destruct (raw_norm _ _ _ _ _ H3) as [R1 R2]. specialize (H1 0).
  assert (EQ : compute_diff_histograms_mstar_ssfr_atz (X 0) (Y 0) (W 0) (map (map Fin) LO) (map (map Fin) HI) (map Fin Em) (map Fin Es) = Some (map fst (dnormalise dH))) by (rewrite H1, fst_dnormalise, R1; reflexivity).
  assert (NN : Forall nn (dnormalise dH)).
  { apply (raw_nn _ R2). rewrite EX, EY, EW in EQ. destruct (ssfr_pdf xs ys ws LO HI Em Es (eq_sym LY) LW HI1 HE1 HI2 HE2 HC PW) as (r & E1 & _ & [(_ & h & -> & (E2 & _))|(_ & ->)]);
      rewrite E1 in EQ; apply Some_inj in EQ; rewrite <- EQ.
    - apply Forall_map. eapply Forall_impl; [|exact E2]. intros r Hr. right. exists r. split; [exact Hr|reflexivity].
    - apply Forall_forall. intros x Hx. left. exact (repeat_spec _ _ _ Hx). }
  rewrite EQ. unfold reshape2, dreshape2, len. rewrite (map_length fst (dnormalise dH)). destruct (Nat.eqb _ _); [|split; [reflexivity|discriminate]]. split.
  - cbn [option_map]. f_equal. symmetry. apply chunks_map.
  - intros c Ec. apply Some_inj in Ec. subst c. apply chunks_forall, NN.
Qed.

Definition agree (l : option xr) (dl : option dual) : Prop := l = option_map fst dl /\ forall d, dl = Some d -> ok d.
Lemma mstar_agree d fb : mstar_data_ok key lmk d fb -> agree (loss_mstar key split uniform mvn lmk (pop_u_params U) d) (dloss_mstar key split normal lmk (du U) d).
Proof.
  intros (E & T & Ed & Hz & HE & HI). rewrite Ed. unfold agree, loss_mstar, dloss_mstar, loss_mstar_kern_tobs, mstar_kern_tobs. cbn [ml_zs ml_lgt0 ml_fb ml_bins ml_target]. rewrite HP, dbounded.
  match goal with |- context [vmap ?f (ml_zs key d)] => match goal with |- context [@vmap _ (list dual) ?df (ml_zs key d)] =>
    destruct (vmap_proj f df (map fst) (Forall nn) (ml_zs key d)) as [V1 V2] end end.
  { intros z Hin. destruct (proj1 (Forall_forall _ _) Hz _ Hin) as (n & tobs & Hsim). apply (mstar_row z n tobs); assumption. }
  rewrite V1. clear V1. destruct (vmap _ _) as [pd|]; cbn [option_map]; [|split; [reflexivity|discriminate]]. specialize (V2 _ eq_refl).
  change (map (map fst) pd) with (pi2 pd). rewrite mse2_proj. destruct (dmse2 pd _) as [q|] eqn:Eq; cbn [option_map]; [|split; [reflexivity|discriminate]].
  split; [reflexivity|]. intros d' Ed'. apply Some_inj in Ed'. subst d'. apply mul_1000. exact (mse2_ok _ _ _ V2 Eq).
Qed.
Lemma ssfr_agree d fb : ssfr_data_ok key lmk d fb -> counts_ok key d ->
  agree (loss_ssfr key split uniform mvn lmk (pop_u_params U) d) (dloss_ssfr key split normal lmk (du U) d).
Proof.
  intros (LO & HI & Em & Es & Wt & I & ids & T & Ed & Hz & H1 & H2 & H3 & H4 & HC) HW. unfold counts_ok in HW. rewrite Ed in HW |- *. unfold agree, loss_ssfr, dloss_ssfr, loss_mstar_ssfr_kern_tobs, mstar_ssfr_kern_tobs.
  cbn [sl_zs sl_lgt0 sl_fb sl_data sl_target s_lo s_hi s_mbins s_sbins s_nmhalo s_indx s_ids] in *. cbv zeta. rewrite HP, dbounded.
  assert (PW : Forall (Forall (fun w => 0 <= w)) Wt).
  { rewrite Forall_map in HW. eapply Forall_impl; [|exact HW]. intros w Hw. rewrite Forall_map in Hw. eapply Forall_impl; [|exact Hw]. cbv beta. intros r (r' & Q & Pr). apply Fin_inj in Q. lra. }
  set (nms := (len (map Fin Em) - 1)%nat). set (nsf := (len (map Fin Es) - 1)%nat).
  match goal with |- context [vmap ?f (sl_zs key d)] => match goal with |- context [@vmap _ (list (list dual)) ?df (sl_zs key d)] =>
    destruct (vmap_proj f df pi2 (Forall (Forall nn)) (sl_zs key d)) as [V1 V2] end end.
  { intros z Hin. destruct (proj1 (Forall_forall _ _) Hz _ Hin) as (n & tobs & Hsim). apply (ssfr_row z n tobs); assumption. }
  rewrite V1. clear V1. destruct (vmap _ _) as [ps|]; cbn [option_map]; [|split; [reflexivity|discriminate]]. specialize (V2 _ eq_refl).
  change (map pi2 ps) with (pi3 ps). destruct (conditional_proj nms nsf ps Wt I ids V2 PW) as [C1 C2]. rewrite C1. clear C1.
  destruct (dconditional_pdfs _ _ _ _ _ _) as [pd|]; cbn [option_map]; [|split; [reflexivity|discriminate]]. specialize (C2 _ eq_refl).
  rewrite mse3_proj. destruct (dmse3 pd _) as [q|] eqn:Eq; cbn [option_map]; [|split; [reflexivity|discriminate]].
  split; [reflexivity|]. intros d' Ed'. apply Some_inj in Ed'. subst d'. apply mul_1000. exact (mse3_ok _ _ _ C2 Eq).
Qed.
Lemma add_agree a da b db : agree a da -> agree b db ->
  agree (match a, b with Some x, Some y => Some (x + y)%X | _, _ => None end) (match da, db with Some x, Some y => Some (dadd x y) | _, _ => None end).
Proof.
  intros [-> A] [-> B]. destruct da as [x|], db as [y|]; cbn [option_map]; (split; [reflexivity|]); intros d E; try (exfalso; discriminate E). apply Some_inj in E. subst d. apply add_ok; [exact (A _ eq_refl)|exact (B _ eq_refl)].
Qed.
Lemma add3_agree a da b db c dc' : agree a da -> agree b db -> agree c dc' ->
  agree (match a, b, c with Some x, Some y, Some z => Some (x + z + y)%X | _, _, _ => None end) (match da, db, dc' with Some x, Some y, Some z => Some (dadd (dadd x z) y) | _, _, _ => None end).
Proof.
  intros [-> A] [-> B] [-> C]. destruct da as [x|], db as [y|], dc' as [z|]; cbn [option_map]; (split; [reflexivity|]); intros d E; try (exfalso; discriminate E).
  apply Some_inj in E. subst d. apply add_ok; [apply add_ok|]; [exact (A _ eq_refl)|exact (C _ eq_refl)|exact (B _ eq_refl)].
Qed.
Lemma agree_wrap l dl : agree l (dl (du U)) -> together l (value_and_grad dl (flat U)).
Proof.
  intros [-> A]. unfold value_and_grad. rewrite du_made. destruct (dl (du U)) as [d|]; cbn [option_map]; [|left; split; reflexivity].
  assert (EL : length (flat U) = 88%nat) by (unfold flat; rewrite map_length; reflexivity). rewrite EL. destruct (A d eq_refl) as [(a & g & B & G)|(B & G)]; [right; left|right; right].
  - exists a, (map g (seq 0 88)). split; [rewrite B; reflexivity|]. split; [rewrite map_length, seq_length; reflexivity|]. rewrite B, map_map. do 2 f_equal. apply map_ext. exact G.
  - split; [rewrite B; reflexivity|]. exists (map (snd d) (seq 0 88)). split; [rewrite map_length, seq_length; reflexivity|]. rewrite B. reflexivity.
Qed.

Lemma mstar_together d fb : mstar_data_ok key lmk d fb ->
  together (loss_mstar key split uniform mvn lmk (pop_u_params U) d) (loss_mstar_kern_tobs_grad_wrapper key split normal lmk (flat U) d).
Proof. intros H. exact (agree_wrap _ (fun u => dloss_mstar key split normal lmk u d) (mstar_agree d fb H)). Qed.
Lemma ssfr_together d fb : ssfr_data_ok key lmk d fb -> counts_ok key d ->
  together (loss_ssfr key split uniform mvn lmk (pop_u_params U) d) (loss_mstar_ssfr_kern_tobs_grad_wrapper key split normal lmk (flat U) d).
Proof. intros H C. exact (agree_wrap _ (fun u => dloss_ssfr key split normal lmk u d) (ssfr_agree d fb H C)). Qed.
Lemma combined_together dm dc fb fb' : mstar_data_ok key lmk dm fb -> ssfr_data_ok key lmk dc fb' -> counts_ok key dc ->
  together (loss_combined_kern key split uniform mvn lmk (pop_u_params U) dm dc) (loss_combined_wrapper key split normal lmk (flat U) dm dc).
Proof.
  intros Hm Hc C. exact (agree_wrap _ (fun u => match dloss_ssfr key split normal lmk u dc, dloss_mstar key split normal lmk u dm with Some a, Some b => Some (dadd a b) | _, _ => None end)
    (add_agree _ _ _ _ (ssfr_agree dc fb' Hc C) (mstar_agree dm fb Hm))).
Qed.
Lemma combined3_together dm dc ds fb fb' fb'' : mstar_data_ok key lmk dm fb -> ssfr_data_ok key lmk dc fb' -> ssfr_data_ok key lmk ds fb'' -> counts_ok key dc -> counts_ok key ds ->
  together (loss_combined_3loss_kern key split uniform mvn lmk (pop_u_params U) dm dc ds) (loss_combined_3loss_wrapper key split normal lmk (flat U) dm dc ds).
Proof.
  intros Hm Hc Hs C C'. exact (agree_wrap _ (fun u => match dloss_ssfr key split normal lmk u dc, dloss_ssfr key split normal lmk u ds, dloss_mstar key split normal lmk u dm with
      | Some cen, Some sat, Some m => Some (dadd (dadd cen m) sat) | _, _, _ => None end)
    (add3_agree _ _ _ _ _ _ (ssfr_agree dc fb' Hc C) (ssfr_agree ds fb'' Hs C') (mstar_agree dm fb Hm))).
Qed.
Lemma mstar_empty d fb E z : mstar_data_ok key lmk d fb -> ml_bins key d = map Fin E -> In z (ml_zs key d) ->
  out_of_bins key split uniform mvn lmk (pop_params P) (ml_lgt0 key d) fb E z -> loss_mstar key split uniform mvn lmk (pop_u_params U) d <> None ->
  loss_mstar key split uniform mvn lmk (pop_u_params U) d = Some NaN /\ exists g, length g = 88%nat /\ loss_mstar_kern_tobs_grad_wrapper key split normal lmk (flat U) d = Some (NaN, g).
Proof.
  intros Hd EB Hin HO NN. destruct (mstar_together d fb Hd) as [[Q _]|[(v & g & Q & _)|Q]]; [elim NN; exact Q| |exact Q]. exfalso.
  destruct Hd as (E' & T & Ed & Hz & HE & HI). assert (E' = E). { rewrite Ed in EB. cbn [ml_bins] in EB. clear - EB. revert E EB. induction E' as [|x l IH]; intros [|y m] EB; try discriminate EB; [reflexivity|].
    cbn [map] in EB. injection EB as -> EB. f_equal. apply IH, EB. } subst E'.
  assert (HPb : pop_in_bounds (Pm U V 0)) by apply pm_bounds.
  destruct (mstar_prediction key split uniform mvn lmk Hsplit (mvn_of_ok normal Hn) (pop_u_params U) (pop_params (Pm U V 0)) (Pm U V 0) (ml_zs key d) (ml_lgt0 key d) fb E) as (pred & M1 & M2);
    [rewrite (pm_params U V P HP); exact HP|apply holds_params|exact HPb|exact (pm_slopes U V P HP HS)|exact Hz|exact HI|exact HE|].
  rewrite Ed in Q. unfold loss_mstar, loss_mstar_kern_tobs in Q. cbn [ml_zs ml_lgt0 ml_fb ml_bins ml_target] in Q. rewrite M1 in Q.
  apply scaled_fin in Q as (w & Q). destruct (mse2_all_fin _ _ _ Q) as [_ HF]. clear Q M1 EB NN Ed.
  rewrite (pm_params U V P HP) in M2. induction M2 as [|z' row zs pred HR _ IH]; [destruct Hin|]. inversion HF as [|? ? F1 F2]; subst. inversion Hz as [|? ? Z1 Z2]; subst.
  destruct Hin as [->|Hin]; [|exact (IH Z2 Hin F2)]. destruct HR as (n & tobs & X & Y & W & Hsim & Sm & _ & HN).
  rewrite HN in F1.
  - destruct (length E - 1)%nat eqn:EL; [lia|]. inversion F1 as [|? ? [y Fy] _]; subst. discriminate Fy.
  - intros (i & Hi & Lo & Hi'). assert (TZ : z_tobs key z = Fin tobs) by (destruct Hsim as (m & tp & mu & mh & gy & _ & _ & _ & _ & _ & E6 & _); exact E6).
    pose proof (HO n tobs X Y W TZ Sm) as FX. rewrite Forall_forall in FX. destruct (FX (nth i X 0) (nth_In _ _ Hi)); lra.
Qed.
End NaN.
