(** The single-galaxy fallback optimiser with Adam and the project's own loss and gradient. *)
From Coq Require Import Reals Lra Lia List Psatz ZArith.
From Coquelicot Require Import Coquelicot.
From Verif Require Import XReal XFacts RealFacts ModelUtils ModelKernels ModelSfh ModelFit ModelGrad ModelAdam SpecCore SpecHist SpecFit SpecGrad SpecAdam
  HistProofs SigmoidProofs SfhProofs LossProofs FitProofs OptProofs GradTop AdamProofs.
Import List ListNotations.
Open Scope R_scope.

(** ** Any everywhere finite loss *)
Section Run.
Variable loss : list xr -> xr.
Variable grad : list xr -> list xr.
Variable D : nat.
Hypothesis HG : forall x, length x = D -> exists v g, loss (map Fin x) = Fin v /\ grad (map Fin x) = map Fin g /\ length g = D.
Variable s : R.
Hypothesis Hs : 0 < s.
Variable p : list R.
Hypothesis Hp : length p = D.
Notation state k := (SpecFit.adam_state grad AdamState adam_init adam_update adam_params (Fin s) (map Fin p) k).
Notation V k := (visited grad AdamState adam_init adam_update adam_params (Fin s) (map Fin p) k).

Lemma run_states k : exists gs, length gs = k /\ Forall (fun g => length g = D) gs /\
  state k = adam_updates s (numbered gs) (adam_init (Fin s) (map Fin p)) /\ forall i, (i < k)%nat -> grad (V i) = map Fin (nth i gs []).
Proof.
  induction k as [|k (gs & L & F & E & G)]; [exists []; split; [reflexivity|]; split; [constructor|]; split; [reflexivity|intros; lia]|].
  assert (RC : adam_reached s p (state k)).
  { exists (numbered gs). split; [|exact E]. apply Forall_forall. intros [i g] I. apply in_combine_r in I. rewrite Hp. rewrite Forall_forall in F. apply F, I. }
  destruct (reached_params s p _ RC) as (x & Ex & Lx). destruct (HG x ltac:(congruence)) as (v & g & _ & Eg & Lg).
  exists (gs ++ [g]). split; [rewrite app_length; cbn; lia|]. split; [apply Forall_app; split; [exact F|repeat constructor; exact Lg]|]. split.
  - cbn [SpecFit.adam_state]. rewrite Ex, Eg, numbered_snoc, updates_app, <- E, L. reflexivity.
  - intros i Hi. destruct (Nat.eq_dec i k) as [->|N].
    + unfold visited. rewrite Ex, Eg, app_nth2, L, Nat.sub_diag by lia. reflexivity.
    + rewrite app_nth1 by lia. apply G. lia.
Qed.
Lemma state_reached k : adam_reached s p (state k).
Proof.
  destruct (run_states k) as (gs & L & F & E & G). exists (numbered gs). split; [|exact E]. apply Forall_forall. intros [i g] I. apply in_combine_r in I. rewrite Hp.
  rewrite Forall_forall in F. apply F, I.
Qed.
Lemma V_fin k : exists x, V k = map Fin x /\ length x = D.
Proof. destruct (reached_params s p _ (state_reached k)) as (x & E & L). exists x. split; [exact E|congruence]. Qed.
Lemma map_fin_inj (a b : list R) : map Fin a = map Fin b -> a = b.
Proof. revert b. induction a as [|x a IH]; intros [|y b] H; try discriminate H; [reflexivity|]. injection H as -> H. f_equal. apply IH, H. Qed.
Lemma V_near k : forall x, V k = map Fin x -> forall j, (j < D)%nat -> Rabs (nth j x 0 - nth j p 0) <= adam_reach * s * INR k.
Proof.
  induction k as [|k IH]; intros x E j Hj.
  - unfold visited in E. cbn [SpecFit.adam_state] in E. rewrite params_init in E. apply map_fin_inj in E. subst x. rewrite Rminus_eq_0, Rabs_R0. cbn [INR]. lra.
  - destruct (V_fin k) as (y & Ey & Ly). specialize (IH y Ey j Hj). destruct (HG y Ly) as (v & g & _ & Eg & Lg).
    destruct (update_bounded s p (state k) k g Hs (state_reached k) ltac:(congruence)) as (a & b & Ea & Eb & La & Lb & B).
    unfold visited in E, Ey. cbn [SpecFit.adam_state] in E. rewrite Ey, Eg, Eb in E. rewrite Ey in Ea. apply map_fin_inj in E, Ea. subst a b.
    specialize (B j ltac:(lia)). rewrite S_INR. replace (nth j x 0 - nth j p 0) with ((nth j x 0 - nth j y 0) + (nth j y 0 - nth j p 0)) by ring.
    eapply Rle_trans; [apply Rabs_triang|]. lra.
Qed.
Lemma V_good k : good loss grad (V k).
Proof.
  destruct (V_fin k) as (x & -> & L). destruct (HG x L) as (v & g & E1 & E2 & _). split; [|split].
  - apply Forall_forall. intros y I. apply in_map_iff in I as (z & <- & _). reflexivity.
  - rewrite E1. reflexivity.
  - rewrite E2. apply Forall_forall. intros y I. apply in_map_iff in I as (z & <- & _). reflexivity.
Qed.
(** Every step is taken; the best one is returned. *)
Lemma one_run nmax n pb lb ls ps : (0 < nmax)%nat -> steps_run loss grad AdamState adam_init adam_update adam_params (Fin s) (map Fin p) nmax n ->
  adam_outcome loss grad AdamState adam_init adam_update adam_params (Fin s) (map Fin p) n (pb, lb, ls, ps) ->
  n = nmax /\ exists x b, pb = map Fin x /\ length x = D /\ pb = V b /\ (b < nmax)%nat /\ lb = loss pb /\
    xlt (loss (map Fin p)) lb = false /\ forall j, (j < D)%nat -> Rabs (nth j x 0 - nth j p 0) <= adam_reach * s * INR (nmax - 1).
Proof.
  intros Hn (R1 & R2 & R3) (_ & O2). assert (n = nmax) as ->.
  { destruct (le_lt_dec nmax n) as [?|L]; [lia|]. exfalso. apply (R3 L), V_good. }
  split; [reflexivity|]. destruct (O2 ltac:(lia)) as (b & (B1 & B2 & B3 & _) & E). injection E as -> -> _ _. rewrite map_length, seq_length in B1.
  destruct (V_fin b) as (x & Ex & Lx). exists x, b. split; [exact Ex|]. split; [exact Lx|]. split; [reflexivity|]. split; [exact B1|]. split; [reflexivity|]. split.
  - assert (NT : forall k, (k < nmax)%nat -> nth k (map (fun k => loss (V k)) (seq 0 nmax)) NaN = loss (V k)).
    { intros k Hk. rewrite (nth_indep _ _ (loss (V 0))) by (rewrite map_length, seq_length; exact Hk). rewrite (map_nth (fun k => loss (V k))). rewrite seq_nth by exact Hk. reflexivity. }
    specialize (B3 0%nat ltac:(rewrite map_length, seq_length; lia)). rewrite !NT in B3 by lia.
    assert (V0 : V 0 = map Fin p) by (unfold visited; cbn [SpecFit.adam_state]; apply params_init). rewrite V0 in B3. apply B3.
    destruct (HG p Hp) as (v & _ & -> & _). discriminate.
  - intros j Hj. eapply Rle_trans; [apply (V_near b x Ex j Hj)|]. apply Rmult_le_compat_l; [unfold adam_reach; lra|]. apply le_INR. lia.
Qed.
(** A gradient never positive in coordinate [c] and zero in those of [Z], as long as the latter keep and the former does not fall. *)
Variable c : nat.
Variable Z : nat -> Prop.
Hypothesis HC : (c < D)%nat.
Definition only_c (x : list R) : Prop := length x = D /\ (forall j, Z j -> nth j x 0 = nth j p 0) /\ nth c p 0 <= nth c x 0.
Hypothesis HZ : forall x, only_c x -> exists g, grad (map Fin x) = map Fin g /\ (forall j, Z j -> nth j g 0 = 0) /\ nth c g 0 <= 0.
Lemma decayed_sign w l : 0 < w -> Forall (fun g => g <= 0) l -> decayed w l <= 0.
Proof.
  intros Hw. induction l as [|g l IH] using rev_ind; intros H; [unfold decayed; cbn; lra|]. apply Forall_app in H as [H1 H2]. inversion H2; subst.
  rewrite decayed_snoc. specialize (IH H1). nra.
Qed.
Lemma step_sign gs : gs <> [] -> Forall (fun g => g <= 0) gs -> adam_step s gs <= 0.
Proof.
  intros N H. unfold adam_step. pose proof eps_pos as E. pose proof (sqrt_pos (recent_mean (999 / 1000) (map (fun g => g * g) gs))) as Q.
  assert (M : recent_mean (9 / 10) gs <= 0).
  { rewrite (mean_eq (9 / 10) gs _ ltac:(lra) eq_refl). pose proof (decayed_sign (9 / 10) gs ltac:(lra) H). assert (P : 0 < 1 - (9 / 10) ^ length gs).
    { destruct gs as [|g gs]; [contradiction|]. cbn [length]. rewrite <- Nat.add_1_r. apply pow_lt_1. lra. }
    apply Rinv_0_lt_compat in P. unfold Rdiv. nra. }
  assert (I : 0 < / (sqrt (recent_mean (999 / 1000) (map (fun g => g * g) gs)) + 1 / 10 ^ 8)) by (apply Rinv_0_lt_compat; lra).
  unfold Rdiv. assert (s * recent_mean (9 / 10) gs <= 0) by nra. nra.
Qed.
Lemma sum_le0 l : Forall (fun x => x <= 0) l -> Rsum l <= 0.
Proof. unfold Rsum. induction 1; cbn [fold_right]; lra. Qed.
Lemma V_starved k : forall x, V k = map Fin x -> only_c x.
Proof.
  induction k as [k IH] using (well_founded_induction lt_wf). intros x E. destruct (run_states k) as (gs & L & F & ES & G).
  assert (CZ : forall g, In g gs -> (forall j, Z j -> nth j g 0 = 0) /\ nth c g 0 <= 0).
  { intros g I. destruct (In_nth gs g [] I) as (i & Hi & <-). rewrite L in Hi. destruct (V_fin i) as (y & Ey & _).
    destruct (HZ y (IH i Hi y Ey)) as (g' & Eg & Z0). specialize (G i Hi). rewrite Ey, Eg in G. apply map_fin_inj in G. subst g'. exact Z0. }
  unfold visited in E. rewrite ES, run_positions in E by (rewrite Hp; exact F). apply map_fin_inj in E. subst x.
  assert (NT : forall j, (j < D)%nat -> nth j (map (fun j => adam_position s (nth j p 0) (column j gs)) (seq 0 (length p))) 0 = adam_position s (nth j p 0) (column j gs)).
  { intros j Hj. rewrite (nth_indep _ _ (adam_position s (nth 0 p 0) (column 0 gs))) by (rewrite map_length, seq_length; lia).
    rewrite (map_nth (fun j => adam_position s (nth j p 0) (column j gs))). rewrite seq_nth by lia. reflexivity. }
  assert (SG : forall h, Forall (fun g => g <= 0) h -> forall i, In i (seq 0 (length h)) -> adam_step s (firstn (S i) h) <= 0).
  { intros h Hh i Hi. apply in_seq in Hi. apply step_sign; [destruct h; [cbn in Hi; lia|discriminate]|]. rewrite Forall_forall in *. intros g I. apply Hh. rewrite <- (firstn_skipn (S i) h). apply in_or_app. left. exact I. }
  split; [rewrite map_length, seq_length; exact Hp|]. split.
  - intros j Hj. destruct (le_lt_dec D j) as [LE|LT]; [rewrite !nth_overflow by (rewrite ?map_length, ?seq_length; lia); reflexivity|]. rewrite NT by exact LT.
    assert (Z0 : column j gs = map (fun _ => 0) gs) by (unfold column; apply map_ext_in; intros g I; apply (CZ g I), Hj). rewrite Z0. clear.
    unfold adam_position. rewrite (Rsum_ext _ (fun _ => 0)); [rewrite Rsum_zero; ring|]. intros i _. unfold adam_step. rewrite firstn_map.
    assert (Q : recent_mean (9 / 10) (map (fun _ : list R => 0) (firstn (S i) gs)) = 0); [|rewrite Q; unfold Rdiv; ring].
    unfold recent_mean. assert (Q : decayed (9 / 10) (map (fun _ : list R => 0) (firstn (S i) gs)) = 0); [|rewrite Q; unfold Rdiv; ring].
    generalize (firstn (S i) gs). clear. intros l. induction l as [|g l IH] using rev_ind; [reflexivity|]. rewrite map_app. cbn [map]. rewrite decayed_snoc, IH. ring.
  - rewrite NT by exact HC. unfold adam_position. enough (Rsum (map (fun k0 => adam_step s (firstn (S k0) (column c gs))) (seq 0 (length (column c gs)))) <= 0) by lra.
    apply sum_le0. rewrite Forall_map. apply Forall_forall. apply SG. unfold column. rewrite Forall_map. apply Forall_forall. intros g I. apply (CZ g I).
Qed.
End Run.

(** ** The single-galaxy fit *)
Lemma eight (x : list R) : length x = 8%nat -> exists u, x = params_list u.
Proof.
  intros H. destruct x as [|a [|b [|c [|d [|e [|f [|g [|i [|]]]]]]]]]; try discriminate H. exists (mkDiffstar a b c d e f g i). reflexivity.
Qed.
Lemma fit_ok lmk d h : fit_data lmk d h -> forall x, length x = 8%nat ->
  exists v g, fit_loss_fn lmk d (map Fin x) = Fin v /\ fit_grad_fn lmk d (map Fin x) = map Fin g /\ length g = 8%nat.
Proof.
  intros (ts & mah & M & LM & S & LF & tau & floor & W & WF & lq & lgt0 & fb & -> & H1 & H2 & H3 & H4 & H5 & H6 & H7 & H8 & H9 & H10 & H11 & H12 & H13 & H14) x Lx.
  destruct (eight x Lx) as (u & ->).
  destruct (loss_value lmk u ts mah M LM S LF tau floor W WF lq lgt0 fb h H1 H2 H3 H4 H5 H6 H7 H8 H9 H10 H11 H12 H13 H14) as (p & s & m & f & _ & _ & _ & _ & _ & _ & _ & _ & E).
  destruct (loss_gradient lmk u ts mah M LM S LF tau floor W WF lq lgt0 fb h H1 H2 H3 H4 H5 H6 H7 H8 H9 H10 H11 H12 H13 H14) as (g & Lg & Eg & _).
  unfold fit_loss_fn, fit_grad_fn. rewrite E, Eg. eexists _, g. auto.
Qed.
Lemma loss_some lmk d x v : fit_loss_fn lmk d x = Fin v -> loss_default_clipssfrh lmk x d = Some (Fin v).
Proof. unfold fit_loss_fn. destruct (loss_default_clipssfrh lmk x d) as [w|]; [intros ->; reflexivity|discriminate]. Qed.
Lemma fin_list (x : list R) : finite_list (map Fin x).
Proof. apply Forall_forall. intros y I. apply in_map_iff in I as (z & <- & _). reflexivity. Qed.

Lemma le_of_xlt a b : xlt (Fin a) (Fin b) = false -> b <= a.
Proof. apply xlt_fin_false. Qed.

Section Fit.
Variable lmk : MahParams xr -> xr -> xr -> xr.
Variable d : LossData.
Variable h : R -> R.
Hypothesis HD : fit_data lmk d h.
Notation loss := (fit_loss_fn lmk d).
Notation grad := (fit_grad_fn lmk d).
Notation HG := (fit_ok lmk d h HD).

Lemma fallback minimize u nstep x f : (0 < nstep)%nat -> minimize (map Fin (params_list u)) = (x, f, false) ->
  exists u' l l', minimizer loss grad minimize AdamState adam_init adam_update adam_params (map Fin (params_list u)) nstep [] = Some (map Fin (params_list u'), Fin l', 0%Z) /\
    loss_default_clipssfrh lmk (map Fin (params_list u)) d = Some (Fin l) /\ loss_default_clipssfrh lmk (map Fin (params_list u')) d = Some (Fin l') /\ l' <= l /\
    (forall j, (j < 8)%nat -> Rabs (nth j (params_list u') 0 - nth j (params_list u) 0) <= adam_reach * (49 / 10 + INR (nstep - 1) / 100)) /\
    (forall Z : nat -> Prop,
      (forall w, (forall j, Z j -> nth j (params_list w) 0 = nth j (params_list u) 0) -> d_lg_qt u <= d_lg_qt w ->
        exists g, grad (map Fin (params_list w)) = map Fin g /\ (forall j, Z j -> nth j g 0 = 0) /\ nth 4 g 0 <= 0) ->
      (forall j, Z j -> nth j (params_list u') 0 = nth j (params_list u) 0) /\ d_lg_qt u <= d_lg_qt u').
Proof.
  intros Hn Hm.
  destruct (minimizer_adam loss grad AdamState adam_init adam_update adam_params minimize (map Fin (params_list u)) nstep x f Hn Hm)
    as (pb & lb & c & q & n & ls & ps & EM & (q0 & Wq & Fq) & SR & AO & C).
  assert (P5 : 0 < 5 / 100) by lra. assert (P1 : 0 < 1 / 100) by lra.
  inversion Wq as [|nw p1 n1 x1 l1 ls1 ps1 q1 SR1 AO1 W1]; subst. inversion W1 as [|nw p1 n2 x2 l2 ls2 ps2 q1 SR2 AO2 W2]; subst. inversion W2; subst. clear Wq W1 W2.
  destruct (one_run loss grad 8 HG _ P5 (params_list u) eq_refl 50%nat _ _ _ _ _ (Nat.lt_0_succ 49) SR1 AO1) as (_ & y1 & b1 & -> & L1 & V1 & _ & E1 & X1 & B1).
  destruct (one_run loss grad 8 HG _ P5 y1 L1 50%nat _ _ _ _ _ (Nat.lt_0_succ 49) SR2 AO2) as (_ & y2 & b2 & -> & L2 & V2 & _ & E2 & X2 & B2).
  destruct Fq as [[_ ->]|[N _]]; [|exfalso; apply N, fin_list].
  destruct (one_run loss grad 8 HG _ P1 y2 L2 _ _ _ _ _ _ Hn SR AO) as (-> & y3 & b3 & -> & L3 & V3 & _ & E3 & X3 & B3).
  destruct C as [[-> _]|[_ C]]; [|lia].
  destruct (HG (params_list u) eq_refl) as (v0 & _ & F0 & _). destruct (HG y1 L1) as (v1 & _ & F1 & _). destruct (HG y2 L2) as (v2 & _ & F2 & _). destruct (HG y3 L3) as (v3 & _ & F3 & _).
  subst l1 l2 lb. rewrite F0, F1 in X1. rewrite F1, F2 in X2. rewrite F2, F3 in X3. apply le_of_xlt in X1, X2, X3.
  destruct (eight y3 L3) as (u' & ->). exists u', v0, v3. split; [rewrite EM, F3; reflexivity|]. split; [apply loss_some, F0|]. split; [apply loss_some, F3|]. split; [lra|]. split.
  - intros j Hj. specialize (B1 j Hj). specialize (B2 j Hj). specialize (B3 j Hj).
    replace (nth j (params_list u') 0 - nth j (params_list u) 0) with ((nth j (params_list u') 0 - nth j y2 0) + ((nth j y2 0 - nth j y1 0) + (nth j y1 0 - nth j (params_list u) 0))) by ring.
    eapply Rle_trans; [apply Rabs_triang|]. pose proof (Rabs_triang (nth j y2 0 - nth j y1 0) (nth j y1 0 - nth j (params_list u) 0)).
    replace (INR (50 - 1)) with 49 in * by (cbn; lra). unfold adam_reach in *. lra.
  - intros Z HG4.
    assert (HZ : forall s0, length s0 = 8%nat -> (forall j, Z j -> nth j s0 0 = nth j (params_list u) 0) -> nth 4 (params_list u) 0 <= nth 4 s0 0 ->
      forall x0, only_c 8 s0 4 Z x0 -> exists g, grad (map Fin x0) = map Fin g /\ (forall j, Z j -> nth j g 0 = 0) /\ nth 4 g 0 <= 0).
    { intros s0 Ls Hs Qs x0 (L0 & J0 & Q0). destruct (eight x0 L0) as (w & ->). apply HG4; [intros j Hj; rewrite J0 by exact Hj; apply Hs, Hj|].
      change (nth 4 (params_list u) 0 <= nth 4 (params_list w) 0). lra. }
    assert (HC : (4 < 8)%nat) by lia.
    destruct (V_starved loss grad 8 HG _ P5 (params_list u) eq_refl 4 Z HC (HZ (params_list u) eq_refl (fun j _ => eq_refl) (Rle_refl _)) b1 y1 ltac:(congruence)) as (_ & A1 & Q1).
    destruct (V_starved loss grad 8 HG _ P5 y1 L1 4 Z HC (HZ _ L1 A1 Q1) b2 y2 ltac:(congruence)) as (_ & A2 & Q2).
    assert (A2' : forall j, Z j -> nth j y2 0 = nth j (params_list u) 0) by (intros j Hj; rewrite A2 by exact Hj; apply A1, Hj).
    destruct (V_starved loss grad 8 HG _ P1 y2 L2 4 Z HC (HZ _ L2 A2' ltac:(lra)) b3 (params_list u') ltac:(congruence)) as (_ & A3 & Q3).
    split; [intros j Hj; rewrite A3 by exact Hj; apply A2', Hj|]. change (nth 4 (params_list u) 0 <= nth 4 (params_list u') 0). lra.
Qed.
End Fit.

(** ** Statements *)
Lemma fallback_reach lmk d h : fit_data lmk d h -> forall minimize u nstep x f, (0 < nstep)%nat ->
  minimize (map Fin (params_list u)) = (x, f, false) ->
  exists u' l l', minimizer (fit_loss_fn lmk d) (fit_grad_fn lmk d) minimize AdamState adam_init adam_update adam_params (map Fin (params_list u)) nstep [] = Some (map Fin (params_list u'), Fin l', 0%Z) /\
    loss_default_clipssfrh lmk (map Fin (params_list u)) d = Some (Fin l) /\ loss_default_clipssfrh lmk (map Fin (params_list u')) d = Some (Fin l') /\ l' <= l /\
    forall j, (j < 8)%nat -> Rabs (nth j (params_list u') 0 - nth j (params_list u) 0) <= adam_reach * (49 / 10 + INR (nstep - 1) / 100).
Proof.
  intros HD minimize u nstep x f Hn Hm. destruct (fallback lmk d h HD minimize u nstep x f Hn Hm) as (u' & l & l' & A & B & C & D & E & _).
  exists u', l, l'. auto.
Qed.
Lemma fallback_starved lmk d h p u : fit_data lmk d h -> get_bounded_diffstar_params (map_d Fin u) = map_d Fin p -> starving d h p ->
  forall minimize nstep x f, (0 < nstep)%nat -> minimize (map Fin (params_list u)) = (x, f, false) ->
  exists q l, minimizer (fit_loss_fn lmk d) (fit_grad_fn lmk d) minimize AdamState adam_init adam_update adam_params (map Fin (params_list u)) nstep [] =
      Some (map Fin (params_list (set_lg_qt u q)), Fin l, 0%Z) /\ d_lg_qt u <= q.
Proof.
  intros HD Ep St minimize nstep x f Hn Hm. destruct (fallback lmk d h HD minimize u nstep x f Hn Hm) as (u' & l & l' & A & _ & _ & _ & _ & S).
  assert (HZ : forall w, (forall j, j <> 4%nat -> nth j (params_list w) 0 = nth j (params_list u) 0) -> d_lg_qt u <= d_lg_qt w ->
      exists g, fit_grad_fn lmk d (map Fin (params_list w)) = map Fin g /\ (forall j, j <> 4%nat -> nth j g 0 = 0) /\ nth 4 g 0 <= 0).
  { clear -HD Ep St. intros w K _.
      destruct HD as (ts & mah & M & LM & S & LF & tau & floor & W & WF & lq & lgt0 & fb & Ed & H1 & H2 & H3 & H4 & H5 & H6 & H7 & H8 & H9 & H10 & H11 & H12 & H13 & H14).
      specialize (St ts fb). rewrite Ed in St. specialize (St eq_refl eq_refl).
      destruct (starved_gradient lmk w ts mah M LM S LF tau floor W WF lq lgt0 fb h _ H1 H2 H3 H4 H5 H6 H7 H8 H9 H10 H11 H12 H13 H14 (bounded_diffstar_fin w)) as (g & Gn & Eg).
      - pose proof (bounded_diffstar_fin u) as B. rewrite Ep in B.
        assert (Ep' : p = bounded_of u). { unfold bounded_of. set (qq := join_params _ _) in *. clearbody qq. destruct p, qq. unfold map_d in B. cbn in B. injection B as -> -> -> -> -> -> -> ->. reflexivity. }
        subst p. apply Forall_forall. intros t It. rewrite Forall_forall in St. specialize (St t It). unfold sfr_unfloored.
        assert (MS : ms_spec (bounded_of w) fb (h t) = ms_spec (bounded_of u) fb (h t)).
        { destruct w, u. pose proof (K 0%nat ltac:(discriminate)) as K0. pose proof (K 1%nat ltac:(discriminate)) as K1. pose proof (K 2%nat ltac:(discriminate)) as K2. pose proof (K 3%nat ltac:(discriminate)) as K3.
          cbn in K0, K1, K2, K3. subst. reflexivity. }
        fold (bounded_of w). rewrite MS. pose proof (bounded_in_bounds w) as IB. fold (bounded_of w) in IB.
        assert (Q : 0 < quench_spec (d_lg_qt (bounded_of w)) (pow10R (d_qlglgdt (bounded_of w))) (d_lg_drop (bounded_of w)) (d_lg_rejuv (bounded_of w)) (log10R t) <= 1).
        { unfold in_bounds in IB. destruct (quench_spec_range (d_lg_qt (bounded_of w)) (pow10R (d_qlglgdt (bounded_of w))) (d_lg_drop (bounded_of w)) (d_lg_rejuv (bounded_of w)) (log10R t)); [apply pow10_pos|lra|lra|].
          split; [|assumption]. eapply Rlt_le_trans; [apply pow10_pos|eassumption]. }
        revert Q St. generalize (quench_spec (d_lg_qt (bounded_of w)) (pow10R (d_qlglgdt (bounded_of w))) (d_lg_drop (bounded_of w)) (d_lg_rejuv (bounded_of w)) (log10R t)). intros r Q St.
        assert (0 < 1 / 10 ^ 14) by (apply Rdiv_lt_0_compat; [lra|apply pow_lt; lra]). destruct (Rle_lt_dec (ms_spec (bounded_of u) fb (h t)) 0); nra.
      - exists [0; 0; 0; 0; g; 0; 0; 0]. split; [unfold fit_grad_fn; rewrite Ed, Eg; reflexivity|]. split; [|cbn; lra].
        intros j Hj. do 8 (destruct j as [|j]; [try reflexivity; exfalso; apply Hj; reflexivity|]). destruct j; reflexivity. }
  destruct (S _ HZ) as [J Q]. exists (d_lg_qt u'), l'. split; [|exact Q]. rewrite A. f_equal. f_equal. f_equal. f_equal.
  destruct u, u'. pose proof (J 0%nat ltac:(lia)) as J0. pose proof (J 1%nat ltac:(lia)) as J1. pose proof (J 2%nat ltac:(lia)) as J2. pose proof (J 3%nat ltac:(lia)) as J3.
  pose proof (J 5%nat ltac:(lia)) as J5. pose proof (J 6%nat ltac:(lia)) as J6. pose proof (J 7%nat ltac:(lia)) as J7. cbn in *. subst. reflexivity.
Qed.

(** ** Examples *)
Definition ex_fit (fb : R) : LossData :=
  mkLD (map Fin [1]) ex_mah (map Fin [10 ^ 12]) (map Fin [12]) (map Fin [0]) (map Fin [0]) (Fin 1) (Fin (1 / 10 ^ 12)) (map Fin [1]) (map Fin [1]) (Fin 0) (Fin 0) (Fin fb).
Lemma ex_fit_data fb : fit_data ex_lmk (ex_fit fb) (fun _ => 45 / 4).
Proof.
  exists [1], ex_mah, [10 ^ 12], [12], [0], [0], 1, (1 / 10 ^ 12), [1], [1], 0, (Fin 0), fb. split; [reflexivity|]. split; [discriminate|]. split; [simpl; lra|]. split; [repeat constructor; lra|].
  repeat (split; [reflexivity|]). split; [repeat constructor; apply pow_lt; lra|]. split; [repeat constructor; lra|]. split; [repeat constructor; lra|]. split; [lra|].
  apply Rdiv_lt_0_compat; [lra|apply pow_lt; lra].
Qed.
Lemma ex_starving : starving (ex_fit 0) (fun _ => 45 / 4) (bounded_of ex_u).
Proof.
  intros ts fb _ E. cbn in E. injection E as <-. apply Forall_forall. intros t _. unfold ms_spec. rewrite !Rmult_0_l. apply Rdiv_lt_0_compat; [lra|apply pow_lt; lra].
Qed.
