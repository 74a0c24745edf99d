(** Derivatives of the losses of a simulated population. *)
From Coq Require Import Reals Lra Lia.
From Coquelicot Require Import Coquelicot.
From Coq Require Import List Bool ZArith String.
From Verif Require Import XReal XFacts RealFacts ModelUtils ModelKernels ModelSfh ModelPop ModelHist ModelFit ModelGrad ModelPopTables ModelPopGrad
  SpecCore SpecPop SpecHist SfhProofs PopProofs HistProofs SmhmProofs LossProofs PopMcProofs PopLossProofs PopParamProofs MatrixProofs CholeskyProofs
  PopGradProofs PopGradTables PopGradGal PopGradHist.
Import List ListNotations.
Open Scope R_scope.

Definition fin (x : xr) : Prop := exists u, x = Fin u.
Lemma mse_all_fin p t v : mse p (map Fin t) = Some (Fin v) -> p <> [] /\ Forall fin p.
Proof.
  intros H. destruct (mse_fin_inv _ _ _ H) as (_ & N & F). split; [exact N|]. apply Forall_forall. intros x Hx.
  destruct (In_nth _ _ NaN Hx) as (i & Hi & <-). apply F, Hi.
Qed.
Lemma mse2_all_fin p t v : mse2 p (map (map Fin) t) = Some (Fin v) -> List.concat p <> [] /\ Forall (Forall fin) p.
Proof.
  unfold mse2. destruct (_ && _); [|discriminate]. rewrite concat_fin. intros H. destruct (mse_all_fin _ _ _ H) as [N F].
  split; [exact N|apply concat_nonneg, F].
Qed.
Lemma mse3_all_fin p t v : mse3 p (map (map (map Fin)) t) = Some (Fin v) -> List.concat (List.concat p) <> [] /\ Forall (Forall (Forall fin)) p.
Proof.
  unfold mse3. destruct (_ && _); [|discriminate]. rewrite concat_fin3. intros H. destruct (mse2_all_fin _ _ _ H) as [N F].
  split; [exact N|apply concat_nonneg, F].
Qed.
Lemma scaled_fin o v : option_map (fun l => l * Fin 1000)%X o = Some (Fin v) -> exists w, o = Some (Fin w).
Proof. destruct o as [x|]; [|discriminate]. cbn. intros H. apply Some_inj in H. apply xmul_fin_inv in H as (u & _ & -> & _). eauto. Qed.
Lemma fin_nth l i : Forall fin l -> (i < List.length l)%nat -> exists y, nth i l NaN = Fin y.
Proof. intros H Hi. apply (Forall_nth' fin l i NaN H Hi). Qed.

Section Loss.
Variable L : (nat -> R) -> R.
Hypothesis L_lin : forall a b f g h, (forall i, h i = a * f i + b * g i) -> L h = a * L f + b * L g.
Variable K : Prop.
Notation trx := (PopGradProofs.trx L K).
Notation trl := (PopGradProofs.trl L K).
Notation trm := (PopGradProofs.trm L K).
Notation cond := (PopGradHist.cond L K).
Notation condm := (PopGradHist.condm L K).
Notation dn := (dc NaN).

(** ** Conditional distributions *)
Section Cond.
Variables nms nsf : nat.
Hypothesis Hsf : (0 < nsf)%nat.
Variable ps : R -> list (list (list xr)).
Variable dps : list (list (list dual)).
Variable nz : nat.
Hypothesis Hps : trg (condm nms nsf) [] [] nz ps dps.
Definition conda (a b : nat) (M : R -> list (list xr)) (dM : list (list dual)) : Prop :=
  Forall (Forall fin) (M 0) -> trm a b M dM.
Lemma conda_ext a b : ext_ok (conda a b).
Proof. intros F G p H C Q. apply (trm_ext_ L K a b F G p H). apply C. rewrite H. exact Q. Qed.

Definition mixed (M : list (list (list xr))) (w : list R) (ix : list nat) := weighted_sum_matrices nms nsf (map (take_matrix nms nsf M) ix) (map Fin w).
Lemma mixed_ent M w ix r j : (r < nms)%nat -> (j < nsf)%nat ->
  nth j (nth r (mixed M w ix) (repeat NaN nsf)) NaN = xsum (map2 (fun m w => ent m r j * w)%X (map (take_matrix nms nsf M) ix) (map Fin w)).
Proof. intros Hr Hj. unfold mixed, weighted_sum_matrices. rewrite nth_map_seq by exact Hr. rewrite nth_map_seq by exact Hj. reflexivity. Qed.
Lemma mixed_len M w ix r : List.length (nth r (mixed M w ix) (repeat NaN nsf)) = nsf.
Proof.
  unfold mixed, weighted_sum_matrices. destruct (Nat.lt_ge_cases r nms) as [H|H].
  - rewrite nth_map_seq by exact H. rewrite map_length, seq_length. reflexivity.
  - rewrite nth_overflow by (rewrite map_length, seq_length; exact H). apply repeat_length.
Qed.

Lemma tr_mixed_row w ix r : List.length w = List.length ix ->
  Forall fin (map (fun x => x / xsum (nth r (mixed (ps 0) w ix) (repeat NaN nsf)))%X (nth r (mixed (ps 0) w ix) (repeat NaN nsf))) ->
  trl nsf (fun s => map (fun x => x / xsum (nth r (mixed (ps s) w ix) (repeat NaN nsf)))%X (nth r (mixed (ps s) w ix) (repeat NaN nsf)))
    (dnormalise (nth r (dweighted_sum_matrices nms nsf (map (dtake_matrix nms nsf dps) ix) (map Fin w)) (repeat dn nsf))).
Proof.
  intros Lw HF. set (row := fun s => nth r (mixed (ps s) w ix) (repeat NaN nsf)) in *. change (nth r (mixed (ps 0) w ix) (repeat NaN nsf)) with (row 0) in HF.
  assert (RL : forall s, List.length (row s) = nsf) by (intros s; apply mixed_len).
  assert (RF : Forall fin (row 0)).
  { apply Forall_forall. intros x Hx. rewrite Forall_forall in HF. destruct (HF _ (in_map _ _ _ Hx)) as (y & E). apply xdiv_fin_inv in E. exact E. }
  assert (Hr : (r < nms)%nat).
  { destruct (Nat.lt_ge_cases r nms) as [H|H]; [exact H|]. exfalso. destruct (fin_nth _ 0 RF) as (y & E); [rewrite RL; exact Hsf|].
    unfold row, mixed, weighted_sum_matrices in E. rewrite (nth_overflow (map _ (seq 0 nms))) in E by (rewrite map_length, seq_length; exact H). rewrite nth_repeat_lt' in E by exact Hsf. discriminate. }
  assert (T : trl nsf row (nth r (dweighted_sum_matrices nms nsf (map (dtake_matrix nms nsf dps) ix) (map Fin w)) (repeat dn nsf))).
  { unfold dweighted_sum_matrices. rewrite nth_map_seq by exact Hr.
    apply (trl_ext L K nsf (fun s => map (fun j => xsum (map2 (fun m w => ent m r j * w)%X (map (take_matrix nms nsf (ps s)) ix) (map Fin w))) (seq 0 nsf))).
    { intros s. unfold row, mixed, weighted_sum_matrices. rewrite nth_map_seq by exact Hr. reflexivity. }
    apply (trl_map_seq L K nsf 0 (fun s j => xsum (map2 (fun m w => ent m r j * w)%X (map (take_matrix nms nsf (ps s)) ix) (map Fin w)))).
    intros j Hj. destruct (fin_nth _ j RF) as (y & E); [rewrite RL; lia|]. unfold row in E. rewrite mixed_ent in E by lia.
    apply (trl_sum L L_lin K (List.length ix)). split; [rewrite map2_length, !map_length; lia|]. split; [intros s; rewrite map2_length, !map_length; lia|].
    intros k Hk. rewrite (map2_nth _ _ _ k [] NaN), (nth_map _ ix k 0%nat), nth_fin' by (rewrite ?map_length; lia).
    apply (trx_ext L K (fun s => ent (take_matrix nms nsf (ps s) (nth k ix 0%nat)) r j * Fin (nth k w 0))%X).
    { intros s. rewrite (map2_nth _ _ _ k ([] : matrix) NaN), (nth_map _ ix k 0%nat), nth_fin' by (rewrite ?map_length; lia). reflexivity. }
    destruct (xsum_fin_inv _ _ k E) as (u & Eu); [rewrite map2_length, !map_length; lia|].
    rewrite (map2_nth _ _ _ k ([] : matrix) NaN), (nth_map _ ix k 0%nat), nth_fin' in Eu by (rewrite ?map_length; lia). apply xmul_fin_inv in Eu as (e & _ & Ee & _).
    destruct Hps as (A & B & C). set (q := nth k ix 0%nat) in *.
    assert (Hq : (q < nz)%nat).
    { destruct (Nat.lt_ge_cases q nz) as [H|H]; [exact H|]. exfalso. unfold take_matrix in Ee. rewrite nth_overflow in Ee by (rewrite B; exact H).
      unfold ent, nan_matrix in Ee. rewrite nth_repeat_lt' in Ee by exact Hr. unfold at_ in Ee. rewrite nth_repeat_lt' in Ee by lia. discriminate. }
    apply (trx_mul L L_lin K); [|apply (trx_c L L_lin K)]. unfold take_matrix, dtake_matrix in *.
    apply (trx_ext L K (fun s => ent (nth q (ps s) []) r j)).
    { intros s. f_equal. apply nth_indep. rewrite B. exact Hq. }
    rewrite (nth_indep dps _ []) by (rewrite A; exact Hq). rewrite (nth_indep (ps 0) _ []) in Ee by (rewrite B; exact Hq).
    destruct (C q Hq) as (_ & _ & _ & _ & CC). apply (trm_ent L K nms nsf); [|exact Hr|lia]. apply CC. exists r, j, e. split; [exact Hr|]. split; [lia|exact Ee]. }
  destruct (cond_normalise L L_lin K nsf row _ T) as (_ & _ & C). apply C. destruct (fin_nth _ 0 HF) as (y & E); [rewrite map_length, RL; exact Hsf|].
  exists 0%nat, y. split; [exact Hsf|exact E].
Qed.

Lemma tr_conditional (W : list (list R)) (I : list (list nat)) ids : conditional_pdfs nms nsf (ps 0) (map (map Fin) W) I ids <> None ->
  exists C dC, (forall s, conditional_pdfs nms nsf (ps s) (map (map Fin) W) I ids = Some (C s)) /\
    dconditional_pdfs nms nsf dps (map (map Fin) W) I ids = Some dC /\ trg (conda (List.length ids) nsf) [] [] (List.length W) C dC.
Proof.
  intros H. unfold conditional_pdfs, dconditional_pdfs in *. destruct (same_len (map (map Fin) W) I) eqn:EL; [|now elim H].
  unfold same_len, len in EL. rewrite map_length in EL. apply Nat.eqb_eq in EL.
  match type of H with vmap ?f ?l <> None => assert (HV : forall a, In a l -> f a <> None) end.
  { intros a Ha E. apply H. clear H. revert Ha. induction (combine (map (map Fin) W) I) as [|b l IH]; intros []; [subst b|].
    - unfold vmap. cbn [map]. cbn [sequence]. rewrite E. reflexivity.
    - unfold vmap in *. cbn [map]. cbn [sequence]. rewrite IH by assumption. destruct (let '(w, idx) := b in _); reflexivity. }
  apply (trg_vmap (conda (List.length ids) nsf) [] [] (fun s zi => let '(w, idx) := zi in
      if same_len w idx then Some (map (fun row => map (fun x => x / xsum row)%X row) (map (take_row nsf (weighted_sum_matrices nms nsf (map (take_matrix nms nsf (ps s)) idx) w)) ids)) else None)
    _ (fun _ => combine (map (map Fin) W) I) _ ([], []) ([], [])); [apply conda_ext|rewrite combine_length, map_length; lia|intros _; rewrite combine_length, map_length; lia|].
  intros i Hi. assert (IN : In (nth i (combine (map (map Fin) W) I) ([], [])) (combine (map (map Fin) W) I)) by (apply nth_In; rewrite combine_length, map_length; lia).
  pose proof (HV _ IN) as HS. rewrite combine_nth in * by (rewrite map_length; lia). rewrite (nth_map (map Fin) W i []) in * by exact Hi.
  set (w := nth i W []) in *. set (ix := nth i I []) in *. destruct (same_len (map Fin w) ix) eqn:ES; [|now elim HS]. clear HS HV IN.
  unfold same_len, len in ES. rewrite map_length in ES. apply Nat.eqb_eq in ES.
  do 2 eexists. split; [intros s; reflexivity|]. split; [reflexivity|].
  intros HF. split; [rewrite !map_length; reflexivity|]. split; [intros s; rewrite !map_length; reflexivity|].
  intros k Hk. rewrite map_map, (nth_map _ ids k 0%nat) by exact Hk.
  apply (trl_ext L K nsf (fun s => map (fun x => x / xsum (nth (nth k ids 0%nat) (mixed (ps s) w ix) (repeat NaN nsf)))%X (nth (nth k ids 0%nat) (mixed (ps s) w ix) (repeat NaN nsf)))).
  { intros s. rewrite map_map, (nth_map _ ids k 0%nat) by exact Hk. reflexivity. }
  apply tr_mixed_row; [exact ES|]. rewrite map_map in HF. apply (proj1 (Forall_forall _ _) HF). apply in_map_iff. exists (nth k ids 0%nat). split; [reflexivity|apply nth_In, Hk].
Qed.
End Cond.

Lemma trm3_concat a b : forall n F ps, trg (trm a b) [] [] n F ps -> trm (n * a) b (fun s => List.concat (F s)) (List.concat ps).
Proof.
  assert (App : forall x y M dM N dN, trm x b M dM -> trm y b N dN -> trm (x + y) b (fun s => M s ++ N s) (dM ++ dN)).
  { intros x y M dM N dN (A & B & C) (A' & B' & C'). split; [rewrite app_length; lia|]. split; [intros s; rewrite app_length, B, B'; lia|].
    intros i Hi. destruct (Nat.lt_ge_cases i x) as [Hx|Hx].
    - rewrite app_nth1 by lia. apply (trl_ext L K b (fun s => nth i (M s) [])); [|apply C, Hx]. intros s. rewrite app_nth1 by (rewrite B; lia). reflexivity.
    - rewrite app_nth2, A by lia. apply (trl_ext L K b (fun s => nth (i - x) (N s) [])); [|apply C'; lia]. intros s. rewrite app_nth2, B by (rewrite B; lia). reflexivity. }
  induction n as [|n IH]; intros F ps (A & B & C).
  - destruct ps; [|discriminate]. split; [reflexivity|]. split; [intros s; specialize (B s); destruct (F s); [reflexivity|discriminate]|]. intros i Hi. lia.
  - destruct ps as [|r ps]; [discriminate|]. cbn [List.concat]. apply (trm_ext_ L K _ b (fun s => nth 0 (F s) [] ++ List.concat (tl (F s)))).
    + intros s. specialize (B s). destruct (F s); [discriminate|reflexivity].
    + change (S n * a)%nat with (a + n * a)%nat. apply App; [apply (C 0%nat); lia|]. apply IH. split; [cbn in A; lia|]. split; [intros s; specialize (B s); destruct (F s); cbn in *; lia|].
      intros i Hi. specialize (C (S i) ltac:(lia)). cbn [nth] in C. refine (trm_ext_ L K _ _ _ _ _ _ C). intros s. cbn beta. specialize (B s). destruct (F s); [discriminate|reflexivity].
Qed.

Lemma tr_mse3 n a b F ps T v : trg (trm a b) [] [] n F ps -> mse3 (F 0) (map (map (map Fin)) T) = Some (Fin v) ->
  exists l dl, (forall s, mse3 (F s) (map (map (map Fin)) T) = Some (l s)) /\ dmse3 ps (map (map (map Fin)) T) = Some dl /\ trx l dl.
Proof.
  intros HF H. pose proof (trm3_concat _ _ _ _ _ HF) as HC. pose proof HF as (A & B & C).
  assert (FA : Forall (fun r => List.length r = a) ps).
  { apply Forall_forall. intros r Hr. destruct (In_nth _ _ [] Hr) as (i & Hi & <-). apply (C i). lia. }
  assert (FB : forall s, Forall (fun r => List.length r = a) (F s)).
  { intros s. apply Forall_forall. intros r Hr. destruct (In_nth _ _ [] Hr) as (i & Hi & <-). rewrite B in Hi. apply (C i Hi). }
  destruct (mse3_all_fin _ _ _ H) as (N & _). unfold mse3 in H.
  destruct (forallb _ _ && same_len (F 0) (map (map (map Fin)) T)) eqn:ES; [|discriminate]. rewrite (shape_rep (F 0) n a (B 0) (FB 0)) in ES. unfold same_len, len in ES. rewrite (B 0) in ES.
  rewrite concat_fin3 in H.
  assert (NN : (n * a * b <> 0)%nat).
  { intros E. apply N. apply length_zero_iff_nil. rewrite (proj1 (proj2 (trm_concat L K _ _ _ _ HC)) 0). exact E. }
  destruct (tr_mse2 L L_lin K _ _ _ _ (List.concat T) NN HC) as (l & dl & E1 & E2 & E3); [rewrite H; discriminate|]. exists l, dl. split; [|split; [|exact E3]].
  - intros s. unfold mse3, same_len, len. rewrite (shape_rep (F s) n a (B s) (FB s)), (B s), ES, concat_fin3. apply E1.
  - unfold dmse3, same_len, len. rewrite (shape_rep ps n a A FA), A, ES, concat_fin3. exact E2.
Qed.
End Loss.
