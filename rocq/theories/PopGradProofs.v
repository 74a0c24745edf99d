(** Derivatives carried by the model of the population gradient are derivatives of the model's values. *)
From Coq Require Import Reals Lra Lia.
From Coquelicot Require Import Coquelicot.
From Coq Require Import List Bool ZArith String.
From Verif Require Import XReal XFacts RealFacts ModelUtils ModelKernels ModelSfh ModelPop ModelHist ModelFit ModelGrad ModelPopTables ModelPopGrad
  SpecCore SigmoidProofs TriweightProofs QuenchProofs IntegralProofs SfhProofs GradProofs SpecPop CholeskyProofs PopParamProofs PopKernelProofs MatrixProofs.
Import List ListNotations.
Open Scope R_scope.

Lemma cont_locally (g : R -> R) (P : R -> Prop) x : continuity_pt g x -> locally (g x) P -> locally x (fun s => P (g s)).
Proof. intros C H. apply continuity_pt_filterlim in C. exact (C P H). Qed.
Lemma cont_derive (g : R -> R) x d : is_derive g x d -> continuity_pt g x.
Proof.
  intros H. apply continuity_pt_filterlim. apply (ex_derive_continuous (V := R_NormedModule)). exists d. exact H.
Qed.
Lemma locally_pos (y : R) : 0 < y -> locally y (fun z => 0 < z).
Proof. intros H. apply (open_gt 0 y H). Qed.
Lemma locally_lt (y c : R) : y < c -> locally y (fun z => z < c).
Proof. intros H. apply (open_lt c y H). Qed.
Lemma locally_gt (y c : R) : c < y -> locally y (fun z => c < z).
Proof. intros H. apply (open_gt c y H). Qed.
Lemma locally_neq (y c : R) : y <> c -> locally y (fun z => z <> c).
Proof. intros H. apply (open_neq c y H). Qed.

(** Constant near 0. *)
Definition steady {A} (F : R -> A) : Prop := locally 0 (fun s => F s = F 0).
Lemma steady_map {A B} (f : A -> B) F : steady F -> steady (fun s => f (F s)).
Proof. unfold steady. apply filter_imp. intros s ->. reflexivity. Qed.

Section Trx.
Variable L : (nat -> R) -> R.
Hypothesis L_lin : forall a b f g h, (forall i, h i = a * f i + b * g i) -> L h = a * L f + b * L g.
Variable K : Prop.

Lemma L_0 h : (forall i, h i = 0) -> L h = 0.
Proof. intros H. rewrite (L_lin 0 0 h h h); [ring|]. intros i. rewrite H. ring. Qed.
Lemma L_scal a f h : (forall i, h i = a * f i) -> L h = a * L f.
Proof. intros H. rewrite (L_lin a 0 f f h); [ring|]. intros i. rewrite H. ring. Qed.

(** Near 0 the function [F] is finite, and [p] carries its value at 0 and, where [K] holds, its derivative. *)
Definition trx (F : R -> xr) (p : dual) : Prop :=
  exists g g', locally 0 (fun s => F s = Fin (g s)) /\ continuity_pt g 0 /\ fst p = Fin (g 0) /\
    (forall i, snd p i = Fin (g' i)) /\ (K -> is_derive g 0 (L g')).

Lemma trx_loc F G p : locally 0 (fun s => F s = G s) -> trx F p -> trx G p.
Proof.
  intros H (g & g' & A & R). exists g, g'. split; [|exact R].
  generalize (filter_and _ _ H A). apply filter_imp. intros s [<- E]. exact E.
Qed.
Lemma trx_ext F G p : (forall s, F s = G s) -> trx F p -> trx G p.
Proof. intros H. apply trx_loc. apply filter_forall. exact H. Qed.
Lemma trx_val F p : trx F p -> exists y, F 0 = Fin y /\ fst p = Fin y.
Proof. intros (g & g' & A & _ & B & _). exists (g 0). split; [exact (locally_singleton _ _ A)|exact B]. Qed.
Lemma trx_fst F p : trx F p -> fst p = F 0.
Proof. intros H. destruct (trx_val _ _ H) as (y & A & B). congruence. Qed.
Lemma trx_fin F p i : trx F p -> exists d, snd p i = Fin d.
Proof. intros (g & g' & _ & _ & _ & B & _). eauto. Qed.

Lemma trx_c c : trx (fun _ => Fin c) (dc (Fin c)).
Proof.
  exists (fun _ => c), (fun _ => 0). split; [apply filter_forall; reflexivity|]. split; [apply continuity_pt_const; intros ? ?; reflexivity|].
  split; [reflexivity|]. split; [reflexivity|]. intros _. rewrite L_0 by reflexivity. apply (is_derive_const (V := R_NormedModule)).
Qed.
Lemma trx_var k u : trx (fun s => Fin (u + s * L (fun i => if Nat.eqb i k then 1 else 0))) (dvar k (Fin u)).
Proof.
  set (d := L _). exists (fun s => u + s * d), (fun i => if Nat.eqb i k then 1 else 0).
  assert (D : is_derive (fun s => u + s * d) 0 d) by (auto_derive; [exact I|ring]).
  split; [apply filter_forall; reflexivity|]. split; [apply (cont_derive _ _ _ D)|].
  split; [cbn; f_equal; ring|]. split; [intros i; cbn; destruct (Nat.eqb i k); reflexivity|]. intros _. exact D.
Qed.
Lemma trx_add F G p q : trx F p -> trx G q -> trx (fun s => F s + G s)%X (dadd p q).
Proof.
  intros (f & f' & A1 & A2 & A3 & A4 & A5) (g & g' & B1 & B2 & B3 & B4 & B5).
  exists (fun s => f s + g s), (fun i => f' i + g' i).
  split; [generalize (filter_and _ _ A1 B1); apply filter_imp; intros s [-> ->]; reflexivity|].
  split; [apply (continuity_pt_plus f g); assumption|]. split; [cbn; rewrite A3, B3; reflexivity|].
  split; [intros i; cbn; rewrite A4, B4; reflexivity|]. intros k.
  eapply d_eq; [apply (is_derive_plus (V := R_NormedModule) f g 0 _ _ (A5 k) (B5 k))|].
  symmetry; etransitivity; [apply (L_lin 1 1 f' g'); intros; ring|]. unfold plus; cbn; ring.
Qed.
Lemma trx_sub F G p q : trx F p -> trx G q -> trx (fun s => F s - G s)%X (dsub p q).
Proof.
  intros (f & f' & A1 & A2 & A3 & A4 & A5) (g & g' & B1 & B2 & B3 & B4 & B5).
  exists (fun s => f s - g s), (fun i => f' i - g' i).
  split; [generalize (filter_and _ _ A1 B1); apply filter_imp; intros s [-> ->]; reflexivity|].
  split; [apply (continuity_pt_minus f g); assumption|]. split; [cbn; rewrite A3, B3; reflexivity|].
  split; [intros i; cbn; rewrite A4, B4; reflexivity|]. intros k.
  eapply d_eq; [apply (is_derive_minus (V := R_NormedModule) f g 0 _ _ (A5 k) (B5 k))|].
  symmetry; etransitivity; [apply (L_lin 1 (-1) f' g'); intros; ring|]. unfold minus, plus, opp; cbn; ring.
Qed.
Lemma trx_mul F G p q : trx F p -> trx G q -> trx (fun s => F s * G s)%X (dmul p q).
Proof.
  intros (f & f' & A1 & A2 & A3 & A4 & A5) (g & g' & B1 & B2 & B3 & B4 & B5).
  exists (fun s => f s * g s), (fun i => f' i * g 0 + f 0 * g' i).
  split; [generalize (filter_and _ _ A1 B1); apply filter_imp; intros s [-> ->]; reflexivity|].
  split; [apply (continuity_pt_mult f g); assumption|]. split; [cbn; rewrite A3, B3; reflexivity|].
  split; [intros i; cbn; rewrite A4, B4, A3, B3; reflexivity|]. intros k.
  eapply d_eq; [apply (is_derive_mult (K := R_AbsRing) f g 0 _ _ (A5 k) (B5 k)); intros; apply Rmult_comm|].
  symmetry; etransitivity; [apply (L_lin (g 0) (f 0) f' g'); intros; ring|]. unfold plus, mult; cbn; ring.
Qed.
Lemma trx_div F G p q : fst q <> Fin 0 -> trx F p -> trx G q -> trx (fun s => F s / G s)%X (ddiv p q).
Proof.
  intros H (f & f' & A1 & A2 & A3 & A4 & A5) (g & g' & B1 & B2 & B3 & B4 & B5).
  assert (H0 : g 0 <> 0) by (intros e; apply H; rewrite B3, e; reflexivity).
  assert (H1 : g 0 * g 0 <> 0) by (intros e; apply Rmult_integral in e; tauto).
  exists (fun s => f s / g s), (fun i => f' i / g 0 + - g' i * f 0 * (1 / (g 0 * g 0))).
  split.
  { generalize (filter_and _ _ (cont_locally g _ 0 B2 (locally_neq _ _ H0)) (filter_and _ _ A1 B1)). apply filter_imp.
    intros s [N [-> ->]]. apply xdiv_fin, N. }
  split; [apply (continuity_pt_div f g); assumption|].
  split; [unfold ddiv; cbn [fst]; rewrite A3, B3; apply xdiv_fin, H0|].
  split; [intros i; unfold ddiv; cbn [snd]; rewrite A4, B4, A3, B3; cbn [xmul xopp]; rewrite !xdiv_fin by assumption; reflexivity|].
  intros k. eapply d_eq; [apply (is_derive_div f g 0 _ _ (A5 k) (B5 k) H0)|].
  symmetry; etransitivity; [apply (L_lin (/ g 0) (- f 0 / (g 0 * g 0)) f' g'); intros; field; exact H0|]. field. exact H0.
Qed.
(** composition with a real function *)
Lemma steady_derive (F : R -> xr) g d : locally 0 (fun s => F s = Fin (g s)) -> steady F -> is_derive g 0 d -> d = 0.
Proof.
  intros H S D. assert (C : locally 0 (fun s => g 0 = g s)).
  { pose proof (locally_singleton _ _ H) as H0. cbn beta in H0. generalize (filter_and _ _ H S). apply filter_imp. intros s [E1 E2].
    rewrite E1, H0 in E2. injection E2 as E2. symmetry. exact E2. }
  pose proof (is_derive_ext_loc _ _ _ _ C (is_derive_const (V := R_NormedModule) (g 0) 0)) as D0.
  apply is_derive_unique in D. apply is_derive_unique in D0. rewrite D in D0. exact D0.
Qed.
(** A function with a derivative, or any function of something constant. *)
Lemma trx_comp_or (op : xr -> xr) (phi : R -> R) F p q d : trx F p ->
  (forall y, fst p = Fin y -> locally y (fun z => op (Fin z) = Fin (phi z)) /\ continuity_pt phi y /\ fst q = Fin (phi y) /\
     (forall i a, snd p i = Fin a -> snd q i = Fin (d * a)) /\ (K -> is_derive phi y d \/ steady F)) ->
  trx (fun s => op (F s)) q.
Proof.
  intros (f & f' & A1 & A2 & A3 & A4 & A5) H. destruct (H _ A3) as (H1 & H2 & H3 & H4 & H5).
  exists (fun s => phi (f s)), (fun i => d * f' i).
  split; [generalize (filter_and _ _ (cont_locally f _ 0 A2 H1) A1); apply filter_imp; intros s [E ->]; exact E|].
  split; [apply (continuity_pt_comp f phi); assumption|]. split; [exact H3|].
  split; [intros i; apply H4, A4|]. intros k.
  assert (EL : L (fun i => d * f' i) = d * L f') by (apply (L_scal d f'); reflexivity). rewrite EL. destruct (H5 k) as [D|S].
  - eapply d_eq; [apply (is_derive_comp (V := R_NormedModule) phi f 0 _ _ D (A5 k))|]. unfold scal; cbn. unfold mult; cbn. ring.
  - rewrite (steady_derive F f _ A1 S (A5 k)), Rmult_0_r.
    apply (is_derive_ext_loc (fun _ => phi (f 0))); [|apply (is_derive_const (V := R_NormedModule))].
    pose proof (locally_singleton _ _ A1) as A0. cbn beta in A0. generalize (filter_and _ _ A1 S). apply filter_imp. intros s [E1 E2].
    rewrite E1, A0 in E2. injection E2 as ->. reflexivity.
Qed.
Lemma trx_comp (op : xr -> xr) (phi : R -> R) F p q d : trx F p ->
  (forall y, fst p = Fin y -> locally y (fun z => op (Fin z) = Fin (phi z)) /\ continuity_pt phi y /\ fst q = Fin (phi y) /\
     (forall i a, snd p i = Fin a -> snd q i = Fin (d * a)) /\ (K -> is_derive phi y d)) ->
  trx (fun s => op (F s)) q.
Proof.
  intros HF H. apply (trx_comp_or op phi F p q d HF). intros y E. destruct (H y E) as (H1 & H2 & H3 & H4 & H5).
  split; [exact H1|]. split; [exact H2|]. split; [exact H3|]. split; [exact H4|]. intros k. left. apply H5, k.
Qed.
Lemma trx_pown F p n : trx F p -> trx (fun s => F s ^ n)%X (dpown p n).
Proof.
  intros H. destruct (trx_val _ _ H) as (y & _ & Y).
  apply (trx_comp (fun x => (x ^ n)%X) (fun z => z ^ n) F p _ (INR n * y ^ (n - 1)) H). intros y' E. assert (y' = y) by congruence. subst y'.
  assert (D : is_derive (fun z => z ^ n) y (INR n * y ^ (n - 1))).
  { auto_derive; [exact I|]. replace (pred n) with (n - 1)%nat by lia. ring. }
  split; [apply filter_forall; intros; apply xpown_fin|]. split; [apply (cont_derive _ _ _ D)|].
  split; [cbn; rewrite Y; apply xpown_fin|]. split; [|intros; exact D].
  intros i a Ha. unfold dpown. cbn [snd]. rewrite Ha, Y, xpown_fin. cbn. f_equal. ring.
Qed.
Lemma trx_pow10 F p : trx F p -> trx (fun s => xpow10 (F s)) (dpow10 p).
Proof.
  intros H. destruct (trx_val _ _ H) as (y & _ & Y).
  apply (trx_comp xpow10 pow10R F p _ (ln 10 * pow10R y) H). intros y' E. assert (y' = y) by congruence. subst y'.
  pose proof (GradProofs.is_derive_pow10 y) as D.
  split; [apply filter_forall; reflexivity|]. split; [apply (cont_derive _ _ _ D)|].
  split; [cbn; rewrite Y; reflexivity|]. split; [|intros; exact D].
  intros i a Ha. unfold dpow10. cbn [snd]. rewrite Ha, Y, xlog_fin by lra. cbn. f_equal. ring.
Qed.
Lemma trx_log10 F p y : fst p = Fin y -> 0 < y -> trx F p -> trx (fun s => xlog10 (F s)) (dlog10 p).
Proof.
  intros Y P H. pose proof ln10_pos. 
  apply (trx_comp xlog10 log10R F p _ (/ y / ln 10) H). intros y' E. assert (y' = y) by congruence. subst y'.
  assert (D : is_derive log10R y (/ y / ln 10)) by (unfold log10R; auto_derive; [exact P|field; lra]).
  split; [generalize (locally_pos _ P); apply filter_imp; intros z Hz; apply xlog10_fin, Hz|]. split; [apply (cont_derive _ _ _ D)|].
  split; [unfold dlog10; cbn [fst]; rewrite Y; apply xlog10_fin, P|]. split; [|intros; exact D].
  intros i a Ha. unfold dlog10. cbn [snd]. rewrite Ha, Y, xlog_fin by lra. rewrite !xdiv_fin by lra. f_equal. field. lra.
Qed.
Lemma trx_sqrt F p y : fst p = Fin y -> 0 < y -> trx F p -> trx (fun s => xsqrt (F s)) (dsqrt p).
Proof.
  intros Y P H. pose proof (sqrt_lt_R0 y P) as S.
  apply (trx_comp xsqrt sqrt F p _ (/ (2 * sqrt y)) H). intros y' E. assert (y' = y) by congruence. subst y'.
  assert (D : is_derive sqrt y (/ (2 * sqrt y))) by (auto_derive; [exact P|field; lra]).
  assert (V : forall z, 0 < z -> xsqrt (Fin z) = Fin (sqrt z)) by (intros z Hz; cbn; destruct (Rlt_dec z 0); [lra|reflexivity]).
  split; [generalize (locally_pos _ P); apply filter_imp; intros z Hz; apply V, Hz|]. split; [apply (cont_derive _ _ _ D)|].
  split; [unfold dsqrt; cbn [fst]; rewrite Y; apply V, P|]. split; [|intros; exact D].
  intros i a Ha. unfold dsqrt. cbn [snd]. rewrite Ha, Y, V by exact P. rewrite xdiv_fin by lra. cbn. f_equal. field. lra.
Qed.
Lemma trx_logistic F p : trx F p -> trx (fun s => xlogistic (F s)) (dlogistic p).
Proof.
  intros H. destruct (trx_val _ _ H) as (y & _ & Y).
  apply (trx_comp xlogistic logisticR F p _ (logisticR y * (1 - logisticR y)) H). intros y' E. assert (y' = y) by congruence. subst y'.
  pose proof (is_derive_logistic y) as D.
  split; [apply filter_forall; reflexivity|]. split; [apply (cont_derive _ _ _ D)|].
  split; [cbn; rewrite Y; reflexivity|]. split; [|intros; exact D].
  intros i a Ha. unfold dlogistic. cbn [snd]. rewrite Ha, Y. cbn. f_equal. ring.
Qed.
Lemma trx_sigmoid F X0 k lo hi p px0 pk plo phi : trx F p -> trx X0 px0 -> trx k pk -> trx lo plo -> trx hi phi ->
  trx (fun s => sigmoid (F s) (X0 s) (k s) (lo s) (hi s)) (dsigmoid p px0 pk plo phi).
Proof.
  intros. unfold dsigmoid, sigmoid. apply trx_add; [assumption|]. apply trx_mul; [apply trx_sub; assumption|].
  apply trx_logistic, trx_mul; [assumption|]. apply trx_sub; assumption.
Qed.
Lemma trx_bnd F p lo hi : lo < hi -> trx F p ->
  trx (fun s => sigmoid_b (F s) (sigmoid_bounds (Fin lo, Fin hi))) (dsigmoid_b p (sigmoid_bounds (Fin lo, Fin hi))).
Proof.
  intros H Hf. rewrite sigmoid_bounds_fin by exact H. cbn [dsigmoid_b sigmoid_b].
  apply (trx_sigmoid F (fun _ => _) (fun _ => _) (fun _ => _) (fun _ => _)); auto using trx_c.
Qed.
Lemma trx_tw F p : trx F p -> trx (fun s => jax_tw (F s)) (djax_tw p).
Proof.
  intros H. destruct (trx_val _ _ H) as (y & _ & Y).
  apply (trx_comp jax_tw twR F p _ (tw_pdf y) H). intros y' E. assert (y' = y) by congruence. subst y'.
  pose proof (is_derive_tw y) as D. destruct p as [x dx]. cbn [fst] in Y. subst x.
  assert (V : forall z, jax_tw (Fin z) = Fin (twR z)) by (intros; apply jax_tw_fin).
  split; [apply filter_forall; exact V|]. split; [apply (cont_derive _ _ _ D)|]. split; [|split; [|intros; exact D]].
  - unfold djax_tw, dwhere, dadd, dsub, ddiv, dmul, dpown, dc. cbn [fst]. rewrite !xpown_fin. cbn [xmul].
    rewrite !xdiv_fin by lra. cbn [xadd xsub xopp xlt]. unfold Rltb. unfold twR.
    destruct (Rlt_dec 3 y), (Rlt_dec y (-3)); try reflexivity; try lra.
  - intros i d Ed. cbn [snd] in Ed.
    unfold djax_tw, dwhere, dadd, dsub, ddiv, dmul, dpown, dc. cbn [fst snd]. rewrite Ed. rewrite !xpown_fin. cbn [xmul xopp xadd xsub].
    rewrite !xdiv_fin by lra. cbn [xmul xopp xadd xsub xlt]. unfold Rltb.
    destruct (Rlt_dec 3 y) as [h|h].
    + rewrite tw_pdf_out by lra. destruct (Rlt_dec y (-3)); cbn [xmul xadd]; f_equal; ring.
    + destruct (Rlt_dec y (-3)) as [h'|h'].
      * rewrite tw_pdf_out by lra. cbn [xmul xadd]. f_equal. ring.
      * rewrite tw_pdf_poly by lra. cbn [xmul xadd Nat.sub]. f_equal. cbn [INR]. field.
Qed.

Lemma trx_dual F p q : fst p = fst q -> (forall i, snd p i = snd q i) -> trx F p -> trx F q.
Proof.
  intros E1 E2 (f & f' & A1 & A2 & A3 & A4 & A5). exists f, f'. split; [exact A1|]. split; [exact A2|].
  split; [congruence|]. split; [intros i; rewrite <- E2; apply A4|exact A5].
Qed.
Lemma trx_where (c : bool) F G p q : trx F p -> trx G q -> trx (fun s => if c then F s else G s) (dwhere c p q).
Proof.
  intros HF HG. destruct c.
  - apply (trx_dual F p); [reflexivity| |exact HF]. intros i. destruct (trx_fin _ _ i HF) as [a A]. destruct (trx_fin _ _ i HG) as [b B].
    cbn. rewrite A, B. cbn. f_equal. ring.
  - apply (trx_dual G q); [reflexivity| |exact HG]. intros i. destruct (trx_fin _ _ i HF) as [a A]. destruct (trx_fin _ _ i HG) as [b B].
    cbn. rewrite A, B. cbn. f_equal. ring.
Qed.

Lemma max_abs z c : Rmax z c = (z + c + Rabs (z - c)) / 2.
Proof. unfold Rmax, Rabs. destruct (Rle_dec z c), (Rcase_abs (z - c)); lra. Qed.
Lemma cont_max c y : continuity_pt (fun z => Rmax z c) y.
Proof.
  apply (continuity_pt_ext (fun z => (z + c + Rabs (z - c)) / 2)); [intros; symmetry; apply max_abs|].
  apply (continuity_pt_div (fun z => z + c + Rabs (z - c)) (fun _ => 2)); [|apply continuity_pt_const; intros ? ?; reflexivity|lra].
  apply (continuity_pt_plus (fun z => z + c) (fun z => Rabs (z - c))).
  - apply (cont_derive _ _ 1). auto_derive; [exact I|ring].
  - apply (continuity_pt_comp (fun z => z - c) Rabs); [|apply Rcontinuity_abs].
    apply (cont_derive _ _ 1). auto_derive; [exact I|ring].
Qed.
Lemma derive_max c y : y <> c -> is_derive (fun z => Rmax z c) y (if Rlt_dec c y then 1 else 0).
Proof.
  intros N. destruct (Rlt_dec c y) as [h|h].
  - apply (is_derive_ext_loc (fun z => z)); [|apply (is_derive_id (K := R_AbsRing))].
    generalize (locally_gt _ _ h). apply filter_imp. intros z Hz. rewrite Rmax_left; lra.
  - apply (is_derive_ext_loc (fun z => c)); [|apply (is_derive_const (V := R_NormedModule))].
    assert (h' : y < c) by lra. generalize (locally_lt _ _ h'). apply filter_imp. intros z Hz. rewrite Rmax_right; lra.
Qed.
(** jnp.clip(x, c, None) *)
Lemma trx_clip F p c : (K -> fst p <> Fin c \/ steady F) -> trx F p -> trx (fun s => clip_lo (Fin c) (F s)) (dmax p (dF c)).
Proof.
  intros HK H. destruct (trx_val _ _ H) as (y & _ & Y).
  apply (trx_comp_or (clip_lo (Fin c)) (fun z => Rmax z c) F p _ (if Rlt_dec c y then 1 else if Rlt_dec y c then 0 else 1 / 2) H).
  intros y' E. assert (y' = y) by congruence. subst y'.
  assert (V : forall z, xmax (Fin z) (Fin c) = Fin (Rmax z c)).
  { intros z. unfold xmax. cbn [isnan orb xlt]. unfold Rltb. destruct (Rlt_dec z c); [rewrite Rmax_right by lra|rewrite Rmax_left by lra]; reflexivity. }
  split; [apply filter_forall; exact V|]. split; [apply cont_max|]. split; [|split].
  - unfold dmax. cbn [fst dF dc]. rewrite Y. apply V.
  - intros i a Ha. unfold dmax. cbn [snd dF dc fst]. rewrite Ha, Y. cbn [xlt]. unfold Rltb.
    destruct (Rlt_dec c y); [cbn; f_equal; ring|]. destruct (Rlt_dec y c); cbn; f_equal; ring.
  - intros k. destruct (HK k) as [HN|S]; [left|right; exact S]. rewrite Y in HN. assert (N : y <> c) by congruence.
    pose proof (derive_max c y N) as D. destruct (Rlt_dec c y); [exact D|]. destruct (Rlt_dec y c); [exact D|]. lra.
Qed.
(** the floor on the SFR: where(x < c, c, x) *)
Lemma trx_floor F p c : (K -> fst p <> Fin c \/ steady F) -> trx F p ->
  trx (fun s => if (F s <? Fin c)%X then Fin c else F s) (dwhere (fst p <? Fin c)%X (dc (Fin c)) p).
Proof.
  intros HK H. destruct (trx_val _ _ H) as (y & _ & Y).
  apply (trx_comp_or (fun x => if (x <? Fin c)%X then Fin c else x) (fun z => Rmax z c) F p _ (if Rlt_dec y c then 0 else 1) H).
  intros y' E. assert (y' = y) by congruence. subst y'.
  assert (V : forall z, (if (Fin z <? Fin c)%X then Fin c else Fin z) = Fin (Rmax z c)).
  { intros z. cbn [xlt]. unfold Rltb. destruct (Rlt_dec z c); [rewrite Rmax_right by lra|rewrite Rmax_left by lra]; reflexivity. }
  split; [apply filter_forall; exact V|]. split; [apply cont_max|]. split; [|split].
  - unfold dwhere. cbn [fst dc]. rewrite Y. apply V.
  - intros i a Ha. unfold dwhere. cbn [snd dc fst]. rewrite Ha, Y. cbn [xlt]. unfold Rltb.
    destruct (Rlt_dec y c); cbn; f_equal; ring.
  - intros k. destruct (HK k) as [HN|S]; [left|right; exact S]. rewrite Y in HN. assert (N : y <> c) by congruence.
    pose proof (derive_max c y N) as D. destruct (Rlt_dec c y), (Rlt_dec y c); try exact D; lra.
Qed.

(** ** kernels *)
Lemma trx_partial x M H F1 F2 pm ph p1 p2 : fst ph <> Fin 0 -> trx M pm -> trx H ph -> trx F1 p1 -> trx F2 p2 ->
  trx (fun s => jax_partial_u_tw_kern (Fin x) (M s) (H s) (F1 s) (F2 s)) (djax_partial_u_tw_kern (Fin x) pm ph p1 p2).
Proof.
  intros Hh Hm Hhh H1 H2. unfold djax_partial_u_tw_kern. cbv zeta.
  set (y := ddiv (dsub (dc (Fin x)) pm) ph).
  assert (Hy : trx (fun s => (Fin x - M s) / H s)%X y).
  { apply trx_div; [exact Hh| |exact Hhh]. apply trx_sub; [apply trx_c|exact Hm]. }
  pose proof (trx_tw _ _ (trx_add _ _ _ _ Hy (trx_c 3))) as T1.
  pose proof (trx_tw _ _ (trx_sub _ _ _ _ Hy (trx_c 3))) as T2.
  pose proof (trx_mul _ _ _ _ H1 T1) as Z. pose proof (trx_mul _ _ _ _ H2 T2) as W2.
  pose proof (trx_sub _ _ _ _ Z W2) as D.
  destruct (trx_val _ _ Hy) as (y0 & _ & Vy).
  set (q1 := djax_tw (dadd y (dc (Fin 3)))) in *. set (q2 := djax_tw (dsub y (dc (Fin 3)))) in *.
  assert (B : forall i, exists b, snd y i = Fin b) by (intros i; apply (trx_fin _ _ i Hy)).
  assert (VT1 : fst q1 = Fin (twR (y0 + 3))).
  { rewrite (trx_fst _ _ T1). destruct (trx_val _ _ Hy) as (y1 & E1 & E2). rewrite E1. assert (y1 = y0) by congruence. subst y1. apply jax_tw_fin. }
  assert (VT2 : fst q2 = Fin (twR (y0 - 3))).
  { rewrite (trx_fst _ _ T2). destruct (trx_val _ _ Hy) as (y1 & E1 & E2). rewrite E1. assert (y1 = y0) by congruence. subst y1. apply jax_tw_fin. }
  assert (Q1 : y0 < 0 -> fst q2 = Fin 0 /\ forall i, snd q2 i = Fin 0).
  { intros h0. split; [rewrite VT2; f_equal; apply twR_lo; lra|].
    intros i. destruct (B i) as [b B1]. unfold q2, djax_tw, dwhere, dadd, dsub, ddiv, dmul, dpown, dc. cbn [fst snd].
    rewrite Vy, B1. cbn [xsub xadd xopp]. rewrite !xpown_fin. cbn [xmul xopp xadd xsub].
    rewrite !xdiv_fin by lra. cbn [xmul xopp xadd xsub xlt]. rewrite Rltb_false, Rltb_true by lra.
    cbn [xmul xadd]. f_equal. ring. }
  assert (Q2 : 0 <= y0 -> fst q1 = Fin 1 /\ forall i, snd q1 i = Fin 0).
  { intros h0. split; [rewrite VT1; f_equal; apply twR_hi; lra|].
    intros i. destruct (B i) as [b B1]. unfold q1, djax_tw, dwhere, dadd, dsub, ddiv, dmul, dpown, dc. cbn [fst snd].
    rewrite Vy, B1. cbn [xsub xadd xopp]. rewrite !xpown_fin. cbn [xmul xopp xadd xsub].
    rewrite !xdiv_fin by lra. cbn [xmul xopp xadd xsub xlt]. unfold Rltb.
    destruct (Rlt_dec 3 (y0 + 3)) as [e|e]; [destruct (Rlt_dec (y0 + 3) (-3)); cbn [xmul xadd]; f_equal; ring|].
    destruct (Rlt_dec (y0 + 3) (-3)); [lra|]. cbn [xmul xadd Nat.sub]. f_equal. replace (y0 + 3) with 3 by lra. cbn [INR]. field. }
  destruct (trx_val _ _ H1) as (v1 & _ & V1). destruct (trx_val _ _ H2) as (v2 & _ & V2).
  apply (trx_dual _ (dsub (dmul p1 q1) (dmul p2 q2))).
  - unfold dwhere. rewrite Vy. cbn [xlt fst]. unfold Rltb. destruct (Rlt_dec y0 0) as [h0|h0].
    + destruct (Q1 h0) as [Q _]. unfold dsub, dmul. cbn [fst]. rewrite Q, V1, V2, VT1. cbn. f_equal. ring.
    + destruct (Q2 (Rnot_lt_le _ _ h0)) as [Q _]. unfold dsub, dmul. cbn [fst]. rewrite Q, V1, V2, VT2. cbn. f_equal. ring.
  - intros i. destruct (trx_fin _ _ i H1) as [b1 B1]. destruct (trx_fin _ _ i H2) as [b2 B2].
    destruct (trx_fin _ _ i T1) as [c1 C1]. destruct (trx_fin _ _ i T2) as [c2 C2].
    unfold dwhere. rewrite Vy. cbn [xlt snd]. unfold Rltb.
    destruct (Rlt_dec y0 0) as [h0|h0].
    + destruct (Q1 h0) as [Qa Qb]. unfold dsub, dmul. cbn [fst snd]. rewrite Qa, Qb, V1, V2, VT1, B1, B2, C1. cbn. f_equal. ring.
    + destruct (Q2 (Rnot_lt_le _ _ h0)) as [Qa Qb]. unfold dsub, dmul. cbn [fst snd]. rewrite Qa, Qb, V1, V2, VT2, B1, B2, C2. cbn. f_equal. ring.
  - revert D. apply trx_loc.
    destruct Hm as (m & m' & M1 & _). destruct Hhh as (h & h' & N1 & N2 & N3 & _). destruct H1 as (f1 & f1' & O1 & _). destruct H2 as (f2 & f2' & P1 & _).
    assert (H0 : h 0 <> 0) by (intros e; apply Hh; rewrite N3, e; reflexivity).
    generalize (filter_and _ _ (cont_locally h _ 0 N2 (locally_neq _ _ H0)) (filter_and _ _ M1 (filter_and _ _ N1 (filter_and _ _ O1 P1)))).
    apply filter_imp. intros s (Nz & -> & -> & -> & ->). unfold jax_partial_u_tw_kern. cbn [xsub xadd xopp]. rewrite !xdiv_fin by exact Nz.
    cbn [xsub xadd xopp]. rewrite !jax_tw_fin. cbn [xmul xsub xadd xopp xlt]. unfold Rltb.
    set (z := (x + - m s) / h s). pose proof (qexp_sum z (f1 s) (f2 s)) as Q. unfold Rminus in Q.
    destruct (Rlt_dec z 0); f_equal; symmetry; exact Q.
Qed.
Lemma trx_quench x M H F1 F2 pm ph p1 p2 : fst ph <> Fin 0 -> trx M pm -> trx H ph -> trx F1 p1 -> trx F2 p2 ->
  trx (fun s => quenching_kern (Fin x) (M s) (H s) (F1 s) (F2 s)) (dquenching_kern (Fin x) pm ph p1 p2).
Proof.
  intros Hh Hm Hhh H1 H2. unfold dquenching_kern, quenching_kern. cbv zeta.
  apply trx_pow10, trx_partial; [|assumption| |assumption|apply trx_sub; assumption].
  - destruct (trx_val _ _ Hhh) as (y & _ & Y). unfold ddiv. cbn [fst dc]. rewrite Y, xdiv_fin by lra. intros E. injection E as E.
    apply Hh. rewrite Y. f_equal. lra.
  - apply trx_div; [cbn; injection; lra|assumption|apply trx_c].
Qed.
Lemma trx_plaw m A B C D pa pb pc pd : trx A pa -> trx B pb -> trx C pc -> trx D pd ->
  trx (fun s => sfr_eff_plaw (Fin m) (mkMS (A s) (B s) (C s) (D s))) (dsfr_eff_plaw (Fin m) (mkMS pa pb pc pd)).
Proof.
  intros. unfold sfr_eff_plaw, dsfr_eff_plaw. cbn [lgmcrit lgy_at_mcrit indx_lo indx_hi].
  apply trx_add; [assumption|]. apply trx_mul; [|apply trx_sub; [apply trx_c|assumption]].
  apply trx_sigmoid; try assumption; apply trx_c.
Qed.
(** Records *)
Definition trd (F : R -> DiffstarParams xr) (p : DiffstarParams dual) : Prop :=
  trx (fun s => d_lgmcrit (F s)) (d_lgmcrit p) /\ trx (fun s => d_lgy_at_mcrit (F s)) (d_lgy_at_mcrit p) /\
  trx (fun s => d_indx_lo (F s)) (d_indx_lo p) /\ trx (fun s => d_indx_hi (F s)) (d_indx_hi p) /\
  trx (fun s => d_lg_qt (F s)) (d_lg_qt p) /\ trx (fun s => d_qlglgdt (F s)) (d_qlglgdt p) /\
  trx (fun s => d_lg_drop (F s)) (d_lg_drop p) /\ trx (fun s => d_lg_rejuv (F s)) (d_lg_rejuv p).
Lemma trd_bounded F p : trd F p -> trd (fun s => get_bounded_diffstar_params (F s)) (dget_bounded_diffstar_params p).
Proof.
  intros (T0 & T1 & T2 & T3 & T4 & T5 & T6 & T7). unfold trd.
  assert (Hd : trx (fun s => d_lg_drop (get_bounded_diffstar_params (F s))) (d_lg_drop (dget_bounded_diffstar_params p))) by (apply trx_bnd; [lra|exact T6]).
  split; [apply trx_bnd; [lra|exact T0]|]. split; [apply trx_bnd; [lra|exact T1]|]. split; [apply trx_bnd; [lra|exact T2]|].
  split; [apply trx_bnd; [lra|exact T3]|]. split; [apply trx_bnd; [lra|exact T4]|]. split; [apply trx_bnd; [lra|exact T5]|].
  split; [exact Hd|].
  unfold get_bounded_diffstar_params, dget_bounded_diffstar_params, get_bounded_q_params, dget_bounded_q_params, get_bounded_lg_rejuv in *.
  cbn [join_params d_lg_rejuv d_lg_drop slice_q lg_qt qlglgdt lg_drop lg_rejuv Q_SIG Q_BOUNDS] in *. rewrite sigmoid_bounds_fin in * by lra.
  cbn [d_lg_rejuv d_lg_drop lg_drop lg_rejuv join_params] in *.
  apply trx_sigmoid; try apply trx_c; [exact T7|exact Hd].
Qed.

(** ** Lists *)
Notation dn := (dc NaN).
Definition trl (n : nat) (F : R -> list xr) (ps : list dual) : Prop :=
  length ps = n /\ (forall s, length (F s) = n) /\ forall i, (i < n)%nat -> trx (fun s => nth i (F s) NaN) (nth i ps dn).

Lemma trl_ext n F G ps : (forall s, F s = G s) -> trl n F ps -> trl n G ps.
Proof.
  intros E (A & B & C). split; [exact A|]. split; [intros s; rewrite <- E; apply B|].
  intros i Hi. apply (trx_ext (fun s => nth i (F s) NaN)); [intros s; rewrite E; reflexivity|apply C, Hi].
Qed.
Lemma trl_at0 n F ps i : trl n F ps -> (i < n)%nat -> fst (nth i ps dn) = nth i (F 0) NaN.
Proof. intros (A & B & C) Hi. apply (trx_fst _ _ (C i Hi)). Qed.
Lemma trl_nil : trl 0 (fun _ => []) [].
Proof. split; [reflexivity|]. split; [reflexivity|]. intros; lia. Qed.
Lemma trl_cons n f F p ps : trx f p -> trl n F ps -> trl (S n) (fun s => f s :: F s) (p :: ps).
Proof.
  intros H (A & B & C). split; [cbn; lia|]. split; [intros s; cbn; rewrite B; reflexivity|].
  intros [|i] Hi; [exact H|]. apply C. lia.
Qed.
Lemma trl_app n m F G ps qs : trl n F ps -> trl m G qs -> trl (n + m) (fun s => F s ++ G s) (ps ++ qs).
Proof.
  intros (A & B & C) (A' & B' & C'). split; [rewrite app_length; lia|]. split; [intros s; rewrite app_length, B, B'; reflexivity|].
  intros i Hi. destruct (Nat.lt_ge_cases i n) as [h|h].
  - rewrite app_nth1 by lia. eapply trx_ext; [|apply C, h]. intros s. cbn beta. rewrite app_nth1 by (rewrite B; lia). reflexivity.
  - rewrite app_nth2 by lia. rewrite A. eapply trx_ext; [|apply (C' (i - n)%nat); lia]. intros s. cbn beta. rewrite app_nth2 by (rewrite B; lia). rewrite B. reflexivity.
Qed.
Lemma nth_skipn' {A} k : forall (l : list A) i d, nth i (skipn k l) d = nth (k + i) l d.
Proof. induction k as [|k IH]; intros l i d; [reflexivity|]. destruct l; [destruct i; reflexivity|]. cbn [skipn]. apply IH. Qed.
Lemma nth_firstn' {A} k : forall (l : list A) i d, (i < k)%nat -> nth i (firstn k l) d = nth i l d.
Proof. induction k as [|k IH]; intros l i d Hi; [lia|]. destruct l; [reflexivity|]. destruct i; [reflexivity|]. cbn. apply IH. lia. Qed.
Lemma trl_firstn k n F ps : (k <= n)%nat -> trl n F ps -> trl k (fun s => firstn k (F s)) (firstn k ps).
Proof.
  intros Hk (A & B & C). split; [rewrite firstn_length; lia|]. split; [intros s; rewrite firstn_length, B; lia|].
  intros i Hi. rewrite nth_firstn' by lia. eapply trx_ext; [|apply (C i); lia]. intros s. cbn beta. rewrite nth_firstn' by lia. reflexivity.
Qed.
Lemma trl_skipn k n F ps : trl n F ps -> trl (n - k) (fun s => skipn k (F s)) (skipn k ps).
Proof.
  intros (A & B & C). split; [rewrite skipn_length; lia|]. split; [intros s; rewrite skipn_length, B; lia|].
  intros i Hi. rewrite nth_skipn'. eapply trx_ext; [|apply (C (k + i)%nat); lia]. intros s. cbn beta. rewrite nth_skipn'. reflexivity.
Qed.
Lemma trl_consts (l : list R) : trl (length l) (fun _ => map Fin l) (map dc (map Fin l)).
Proof.
  split; [rewrite !map_length; reflexivity|]. split; [intros; rewrite map_length; reflexivity|].
  intros i Hi. rewrite (nth_map dc (map Fin l) i NaN) by (rewrite map_length; exact Hi). rewrite (nth_map Fin l i 0) by exact Hi. apply trx_c.
Qed.
Lemma trl_map n F ps (H : xr -> xr) (D : dual -> dual) : trl n F ps ->
  (forall i, (i < n)%nat -> trx (fun s => nth i (F s) NaN) (nth i ps dn) -> trx (fun s => H (nth i (F s) NaN)) (D (nth i ps dn))) ->
  trl n (fun s => map H (F s)) (map D ps).
Proof.
  intros (A & B & C) HD. split; [rewrite map_length; exact A|]. split; [intros s; rewrite map_length; apply B|].
  intros i Hi. rewrite (nth_map D ps i dn) by lia. eapply trx_ext; [|apply HD; [exact Hi|apply C, Hi]].
  intros s. cbn beta. rewrite (nth_map H _ i NaN) by (rewrite B; lia). reflexivity.
Qed.
Lemma trl_map2 n m F G ps qs (H : xr -> xr -> xr) (D : dual -> dual -> dual) : trl n F ps -> trl m G qs ->
  (forall i, (i < n)%nat -> (i < m)%nat -> trx (fun s => nth i (F s) NaN) (nth i ps dn) -> trx (fun s => nth i (G s) NaN) (nth i qs dn) ->
     trx (fun s => H (nth i (F s) NaN) (nth i (G s) NaN)) (D (nth i ps dn) (nth i qs dn))) ->
  trl (Nat.min n m) (fun s => map2 H (F s) (G s)) (map2 D ps qs).
Proof.
  intros (A & B & C) (A' & B' & C') HD. split; [rewrite map2_length; lia|]. split; [intros s; rewrite map2_length, B, B'; lia|].
  intros i Hi. rewrite (map2_nth D ps qs i dn dn) by lia. eapply trx_ext; [|apply HD; [lia|lia|apply C; lia|apply C'; lia]].
  intros s. cbn beta. rewrite (map2_nth H _ _ i NaN NaN) by (rewrite ?B, ?B'; lia). reflexivity.
Qed.
Lemma trl_map2c n F ps (W : list xr) (H : xr -> xr -> xr) (D : dual -> xr -> dual) : trl n F ps -> length W = n ->
  (forall i, (i < n)%nat -> trx (fun s => nth i (F s) NaN) (nth i ps dn) ->
     trx (fun s => H (nth i (F s) NaN) (nth i W NaN)) (D (nth i ps dn) (nth i W NaN))) ->
  trl n (fun s => map2 H (F s) W) (map2 D ps W).
Proof.
  intros (A & B & C) HW HD. split; [rewrite map2_length; lia|]. split; [intros s; rewrite map2_length, B; lia|].
  intros i Hi. rewrite (map2_nth D ps W i dn NaN) by lia. eapply trx_ext; [|apply HD; [exact Hi|apply C, Hi]].
  intros s. cbn beta. rewrite (map2_nth H _ W i NaN NaN) by (rewrite ?B; lia). reflexivity.
Qed.
Lemma trl_tl n F p ps : trl (S n) F (p :: ps) -> trl n (fun s => tl (F s)) ps.
Proof.
  intros (A & B & C). split; [cbn in A; lia|]. split; [intros s; specialize (B s); destruct (F s); cbn in *; lia|].
  intros i Hi. specialize (C (S i) ltac:(lia)). cbn [nth] in C. eapply trx_ext; [|exact C]. intros s. cbn beta. specialize (B s). destruct (F s); [cbn in B; lia|reflexivity].
Qed.
Lemma trl_fold n (op : xr -> xr -> xr) (D : dual -> dual -> dual) (z : R) :
  (forall F G p q, trx F p -> trx G q -> trx (fun s => op (F s) (G s)) (D p q)) ->
  forall F ps, trl n F ps -> trx (fun s => fold_right op (Fin z) (F s)) (fold_right D (dc (Fin z)) ps).
Proof.
  intros HO. induction n as [|n IH]; intros F ps H.
  - destruct H as (A & B & _). destruct ps; [|discriminate]. eapply trx_ext; [|apply trx_c]. intros s. cbn beta. specialize (B s). destruct (F s); [reflexivity|discriminate].
  - destruct ps as [|p ps]; [destruct H as [A _]; discriminate|]. pose proof (IH _ _ (trl_tl _ _ _ _ H)) as T.
    destruct H as (A & B & C). specialize (C 0%nat ltac:(lia)). cbn [nth] in C. cbn [fold_right].
    eapply trx_ext; [|apply (HO _ _ _ _ C T)]. intros s. cbn beta. specialize (B s). destruct (F s); [discriminate|reflexivity].
Qed.
Lemma trl_sum n F ps : trl n F ps -> trx (fun s => xsum (F s)) (dsum ps).
Proof. apply (trl_fold n xadd dadd 0). intros; apply trx_add; assumption. Qed.
Lemma trl_prod n F ps : trl n F ps -> trx (fun s => xprod (F s)) (dprod ps).
Proof. apply (trl_fold n xmul dmul 1). intros; apply trx_mul; assumption. Qed.
Lemma trl_mean n F ps : n <> 0%nat -> trl n F ps -> trx (fun s => xmean (F s)) (dmean ps).
Proof.
  intros Hn H. pose proof (trl_sum _ _ _ H) as T. destruct H as (A & B & _). unfold dmean, xmean, len. rewrite A.
  apply (trx_ext (fun s => xsum (F s) / Fin (INR n))%X); [intros s; rewrite B; reflexivity|].
  apply trx_div; [|exact T|apply trx_c]. cbn. injection. apply not_0_INR, Hn.
Qed.
Lemma last_nth_ {A} (l : list A) d : last l d = nth (length l - 1) l d.
Proof. induction l as [|a [|b l] IH]; [reflexivity|reflexivity|]. change (last (a :: b :: l) d) with (last (b :: l) d). rewrite IH. cbn [length]. replace (S (S (length l)) - 1)%nat with (S (S (length l) - 1)) by lia. reflexivity. Qed.
Lemma trl_last n F ps : n <> 0%nat -> trl n F ps -> trx (fun s => last_ (F s)) (last ps dn).
Proof.
  intros Hn (A & B & C). rewrite last_nth_, A. eapply trx_ext; [|apply (C (n - 1)%nat); lia].
  intros s. cbn beta. unfold last_. rewrite last_nth_, B. reflexivity.
Qed.
Lemma trl_normalise n F ps y : fst (dsum ps) = Fin y -> y <> 0 -> trl n F ps ->
  trl n (fun s => map (fun w => w / xsum (F s))%X (F s)) (dnormalise ps).
Proof.
  intros Y Hy H. pose proof (trl_sum _ _ _ H) as T. destruct H as (A & B & C). unfold dnormalise.
  split; [rewrite map_length; exact A|]. split; [intros s; rewrite map_length; apply B|].
  intros i Hi. rewrite (nth_map _ ps i dn) by lia.
  apply (trx_ext (fun s => nth i (F s) NaN / xsum (F s))%X).
  - intros s. rewrite (nth_map (fun w => w / xsum (F s))%X (F s) i NaN) by (rewrite B; lia). reflexivity.
  - apply trx_div; [rewrite Y; congruence|apply (C i Hi)|exact T].
Qed.

(** ** Cumulative mass *)
Lemma trl_scan n : forall ts a (fa c : R -> xr) pfa pc F ps, length ts = n -> trl n F ps -> trx fa pfa -> trx c pc ->
  trl n (fun s => scan_out cumtrapz_scan_func (Fin a, fa s, c s) (combine (map Fin ts) (F s)))
        (scan_out dcumtrapz_step (Fin a, pfa, pc) (combine (map Fin ts) ps)).
Proof.
  induction n as [|n IH]; intros ts a fa c pfa pc F ps Ht H Hfa Hc.
  - destruct ts; [|discriminate]. apply trl_nil.
  - destruct ts as [|t ts]; [discriminate|]. injection Ht as Ht. destruct ps as [|p ps]; [destruct H; discriminate|].
    pose proof (trl_tl _ _ _ _ H) as HT. destruct H as (A & B & C). specialize (C 0%nat ltac:(lia)). cbn [nth] in C.
    set (hd0 := fun s => nth 0 (F s) NaN) in *.
    assert (Hc' : trx (fun s => c s + (Fin t - Fin a) * (hd0 s + fa s) / Fin 2)%X (dadd pc (ddiv (dmul (dc (Fin t - Fin a)%X) (dadd p pfa)) (dc (Fin 2))))).
    { apply trx_add; [exact Hc|]. apply trx_div; [cbn; injection; lra| |apply trx_c]. apply trx_mul; [apply trx_c|]. apply trx_add; assumption. }
    eapply trl_ext; [|cbn [map combine scan_out dcumtrapz_step]; apply (trl_cons n _ _ _ _ Hc' (IH ts t hd0 _ p _ _ ps Ht HT C Hc'))].
    intros s. cbn beta. specialize (B s). unfold hd0. destruct (F s) as [|x xs]; [discriminate|]. reflexivity.
Qed.
Lemma trl_mass n ts F ps : length ts = n -> trl n F ps -> exists G ms,
  (forall s, cumulative_mstar_formed (map Fin ts) (F s) = Some (G s)) /\ dcumulative_mstar_formed (map Fin ts) ps = Some ms /\ trl n G ms.
Proof.
  intros Ht H. set (c0 := dadd (dc (Fin 0)) (ddiv (dmul (dc (T_BIRTH_MIN - T_BIRTH_MIN)%X) (dadd (dc SFR_MIN) (dc SFR_MIN))) (dc (Fin 2)))).
  set (k0 := (Fin 0 + (T_BIRTH_MIN - T_BIRTH_MIN) * (SFR_MIN + SFR_MIN) / Fin 2)%X).
  assert (Hc : trx (fun _ => k0) c0).
  { unfold k0, c0, T_BIRTH_MIN, SFR_MIN. apply trx_add; [apply trx_c|]. apply trx_div; [cbn; injection; lra| |apply trx_c].
    apply trx_mul; [apply trx_c|]. apply trx_add; apply trx_c. }
  exists (fun s => map (fun m => m * YEAR_PER_GYR)%X (scan_out cumtrapz_scan_func (T_BIRTH_MIN, SFR_MIN, k0) (combine (map Fin ts) (F s)))).
  exists (map (fun m => dmul m (dc YEAR_PER_GYR)) (scan_out dcumtrapz_step (T_BIRTH_MIN, dc SFR_MIN, c0) (combine (map Fin ts) ps))).
  destruct H as (A & B & C). split; [|split].
  - intros s. rewrite cumulative_unfold by (rewrite map_length, B; exact Ht). unfold cumtrapz. cbn [length]. rewrite map_length, B, Ht, Nat.eqb_refl. reflexivity.
  - unfold dcumulative_mstar_formed. rewrite map_length, A, Ht, Nat.eqb_refl. reflexivity.
  - apply trl_map; [|intros i _ T; apply trx_mul; [exact T|apply trx_c]].
    apply (trl_scan n ts T_BIRTH_MIN_R (fun _ => SFR_MIN) (fun _ => k0)); [exact Ht|split; auto|apply trx_c|exact Hc].
Qed.

(** ** Star formation rate *)
Definition unfloored (lmk : MahParams xr -> xr -> xr -> xr) (t : xr) (mah : MahParams xr) (p : DiffstarParams xr) (lgt0 fb : xr) : xr :=
  (quenching_kern (xlog10 t) (d_lg_qt p) (xpow10 (d_qlglgdt p)) (d_lg_drop p) (d_lg_rejuv p) * sfh_ms_kernel lmk t mah (slice_ms p) lgt0 fb)%X.
Lemma trx_sfr lmk t mah lgt0 fb m F p : 0 < t -> lmk mah (Fin t) lgt0 = Fin m -> trd F p ->
  (K -> unfloored lmk (Fin t) mah (F 0) lgt0 (Fin fb) <> SFR_MIN \/ steady F) ->
  trx (fun s => sfh_singlegal_scalar lmk (Fin t) mah (slice_ms (F s)) (slice_q (F s)) lgt0 (Fin fb))
      (dsfh_singlegal_scalar lmk (Fin t) mah (slice_ms p) (slice_q p) lgt0 (Fin fb)).
Proof.
  intros Ht Hm (T0 & T1 & T2 & T3 & T4 & T5 & T6 & T7) HK.
  set (d := dmul (dquenching_kern (Fin (log10R t)) (d_lg_qt p) (dpow10 (d_qlglgdt p)) (d_lg_drop p) (d_lg_rejuv p))
              (dmul (dc (Fin (fb * pow10R m))) (dpow10 (dsfr_eff_plaw (Fin m) (slice_ms p))))).
  assert (T : trx (fun s => unfloored lmk (Fin t) mah (F s) lgt0 (Fin fb)) d).
  { unfold unfloored, sfh_ms_kernel. rewrite Hm, xlog10_fin by exact Ht. cbv zeta. apply trx_mul.
    - apply trx_quench; try assumption; [|apply trx_pow10; exact T5].
      destruct (trx_val _ _ T5) as (y & _ & Y). cbn. rewrite Y. cbn. intros E. injection E as E. pose proof (pow10_pos y). lra.
    - apply trx_mul; [apply trx_c|]. apply trx_pow10. apply trx_plaw; assumption. }
  unfold dsfh_singlegal_scalar. rewrite Hm, xlog10_fin by exact Ht. cbv zeta. unfold SFR_MIN.
  cbn [slice_q lg_qt qlglgdt lg_drop lg_rejuv]. change (Fin fb * xpow10 (Fin m))%X with (Fin (fb * pow10R m)).
  apply (trx_ext (fun s => if (unfloored lmk (Fin t) mah (F s) lgt0 (Fin fb) <? Fin SFR_MIN_R)%X then Fin SFR_MIN_R else unfloored lmk (Fin t) mah (F s) lgt0 (Fin fb))).
  - intros s. unfold sfh_singlegal_scalar, unfloored, SFR_MIN. reflexivity.
  - apply (trx_floor _ d SFR_MIN_R); [|exact T]. intros k. rewrite (trx_fst _ _ T).
    destruct (HK k) as [H|S]; [left; exact H|right]. exact (steady_map (fun x => unfloored lmk (Fin t) mah x lgt0 (Fin fb)) F S).
Qed.
Lemma trl_sfr lmk ts mah lgt0 fb h F p : halo_history lmk mah lgt0 h ts -> trd F p ->
  (K -> (forall t, In t ts -> unfloored lmk (Fin t) mah (F 0) lgt0 (Fin fb) <> SFR_MIN) \/ steady F) ->
  trl (length ts) (fun s => calc_sfh_singlegal lmk (F s) mah (map Fin ts) lgt0 (Fin fb))
    (map (fun t => dsfh_singlegal_scalar lmk t mah (slice_ms p) (slice_q p) lgt0 (Fin fb)) (map Fin ts)).
Proof.
  intros Hh HF HK. split; [rewrite !map_length; reflexivity|]. split; [intros s; unfold calc_sfh_singlegal, sfh_singlegal_kern; rewrite !map_length; reflexivity|].
  intros i Hi. rewrite map_map. rewrite (nth_map _ ts i 0) by exact Hi. assert (I : In (nth i ts 0) ts) by (apply nth_In, Hi).
  destruct (proj1 (Forall_forall _ _) Hh _ I) as [Ht Hm]. eapply trx_ext; [|apply (trx_sfr lmk (nth i ts 0) mah lgt0 fb _ F p Ht Hm HF); intros k; destruct (HK k) as [H|S]; [left; apply H; assumption|right; exact S]].
  intros s. cbn beta. unfold calc_sfh_singlegal, sfh_singlegal_kern. rewrite map_map, (nth_map _ ts i 0) by exact Hi. reflexivity.
Qed.

(** ** Cholesky *)
Notation ddotp := (dotp dual (dF 0) dadd dmul).
Notation drow := (chol_row dual (dF 0) dadd dsub dmul ddiv dsqrt).
Notation dchol := (cholesky dual (dF 0) dadd dsub dmul ddiv dsqrt).
Lemma trl_dotp n m F G ps qs : trl n F ps -> trl m G qs -> trx (fun s => xdotp (F s) (G s)) (ddotp ps qs).
Proof.
  intros HF HG. apply (trl_fold (Nat.min n m) xadd dadd 0); [intros; apply trx_add; assumption|].
  apply trl_map2; [exact HF|exact HG|]. intros; apply trx_mul; assumption.
Qed.
Lemma trl_nth n F ps i d d' : trl n F ps -> (i < n)%nat -> trx (fun s => nth i (F s) d) (nth i ps d').
Proof.
  intros (A & B & C) Hi. rewrite (nth_indep ps d' dn) by lia. apply (trx_ext (fun s => nth i (F s) NaN)); [|apply C, Hi].
  intros s. apply nth_indep. rewrite B. exact Hi.
Qed.
Lemma firstn_last {A} (l : list A) k d : length l = S k -> l = firstn k l ++ [nth k l d].
Proof. revert k. induction l as [|a l IH]; intros k H; [discriminate|]. destruct k; [destruct l; [reflexivity|discriminate]|]. cbn. f_equal. apply IH. cbn in H. lia. Qed.
Notation xstep row := (fun acc Lj => let j := length acc in acc ++ [((nth j row (Fin 0) - xdotp acc (firstn j Lj)) / nth j Lj (Fin 0))%X]).
Notation dstep row := (fun acc Lj => let j := length acc in acc ++ [((nth j row (dF 0) - ddotp acc (firstn j Lj)) / nth j Lj (dF 0))%D]).
Definition rows_ok_ (k : nat) (Ls : R -> list (list xr)) (pLs : list (list dual)) : Prop :=
  length pLs = k /\ (forall s, length (Ls s) = k) /\ (forall j, (j < k)%nat -> trl (S j) (fun s => nth j (Ls s) []) (nth j pLs [])).
Lemma rows_ok_prev k Ls pLs : rows_ok_ (S k) Ls pLs -> rows_ok_ k (fun s => firstn k (Ls s)) (firstn k pLs).
Proof.
  intros (A & B & C). split; [rewrite firstn_length; lia|]. split; [intros s; rewrite firstn_length, B; lia|].
  intros j Hj. rewrite nth_firstn' by exact Hj. apply (trl_ext _ (fun s => nth j (Ls s) [])); [|apply C; lia].
  intros s. rewrite nth_firstn' by exact Hj. reflexivity.
Qed.
Lemma trl_acc n Row pr : trl n Row pr -> forall k Ls pLs, (k <= n)%nat -> rows_ok_ k Ls pLs ->
  (forall j, (j < k)%nat -> nth j (nth j (Ls 0) []) (Fin 0) <> Fin 0) ->
  trl k (fun s => fold_left (xstep (Row s)) (Ls s) []) (fold_left (dstep pr) pLs []).
Proof.
  intros HR. induction k as [|k IH]; intros Ls pLs Hk Hr Hp.
  - destruct Hr as (A & B & _). destruct pLs; [|discriminate]. apply (trl_ext _ (fun _ => [])); [|apply trl_nil].
    intros s. specialize (B s). destruct (Ls s); [reflexivity|discriminate].
  - assert (IH' := IH _ _ ltac:(lia) (rows_ok_prev _ _ _ Hr)).
    assert (T : trl k (fun s => fold_left (xstep (Row s)) (firstn k (Ls s)) []) (fold_left (dstep pr) (firstn k pLs) [])).
    { apply IH'. intros j Hj. rewrite nth_firstn' by exact Hj. apply Hp. lia. }
    clear IH IH'. destruct Hr as (A & B & C). specialize (C k ltac:(lia)).
    rewrite (firstn_last pLs k [] A), fold_left_app. cbn [fold_left].
    set (acc := fold_left (dstep pr) (firstn k pLs) []) in *. set (xacc := fun s => fold_left (xstep (Row s)) (firstn k (Ls s)) []) in *.
    apply (trl_ext _ (fun s => xacc s ++ [((nth k (Row s) (Fin 0) - xdotp (xacc s) (firstn k (nth k (Ls s) []))) / nth k (nth k (Ls s) []) (Fin 0))%X])).
    { intros s. symmetry. rewrite (firstn_last (Ls s) k [] (B s)) at 1. rewrite fold_left_app. cbn [fold_left]. fold (xacc s).
      destruct T as (_ & T & _). rewrite (T s). reflexivity. }
    pose proof T as (Ta & _ & _). cbv zeta. rewrite Ta. replace (S k) with (k + 1)%nat by lia. apply trl_app; [exact T|].
    apply (trl_cons 0 _ (fun _ => [])); [|apply trl_nil]. apply trx_div.
    + pose proof (trl_nth _ _ _ k (Fin 0) (dF 0) C ltac:(lia)) as TT. rewrite (trx_fst _ _ TT). apply Hp. lia.
    + apply trx_sub; [apply (trl_nth n); [exact HR|lia]|]. apply (trl_dotp k k); [exact T|]. apply (trl_firstn k (S k)); [lia|exact C].
    + apply (trl_nth (S k)); [exact C|lia].
Qed.
Lemma trl_row n Row pr k Ls pLs y : trl n Row pr -> (k < n)%nat -> rows_ok_ k Ls pLs ->
  (forall j, (j < k)%nat -> nth j (nth j (Ls 0) []) (Fin 0) <> Fin 0) ->
  nth k (xrow (Row 0) (Ls 0)) (Fin 0) = Fin y -> 0 < y ->
  trl (S k) (fun s => xrow (Row s) (Ls s)) (drow pr pLs).
Proof.
  intros HR Hk Hr Hp Hy H0. pose proof (trl_acc n Row pr HR k Ls pLs ltac:(lia) Hr Hp) as T. destruct Hr as (A & B & C).
  unfold chol_row. cbv zeta. rewrite A. set (acc := fold_left (dstep pr) pLs []) in *. set (xacc := fun s => fold_left (xstep (Row s)) (Ls s) []) in *.
  assert (TA : trx (fun s => nth k (Row s) (Fin 0) - xdotp (xacc s) (xacc s))%X (nth k pr (dF 0) - ddotp acc acc)%D).
  { apply trx_sub; [apply (trl_nth n); [exact HR|lia]|]. apply (trl_dotp k k); exact T. }
  apply (trl_ext _ (fun s => xacc s ++ [xsqrt (nth k (Row s) (Fin 0) - xdotp (xacc s) (xacc s))%X])).
  { intros s. rewrite B. reflexivity. }
  replace (S k) with (k + 1)%nat by lia. apply trl_app; [exact T|]. apply (trl_cons 0 _ (fun _ => [])); [|apply trl_nil].
  destruct (trx_val _ _ TA) as (a & Ea & Ea'). unfold chol_row in Hy. cbv zeta in Hy. rewrite B in Hy. fold (xacc 0) in Hy.
  rewrite app_nth2 in Hy by (destruct T as (_ & T & _); rewrite T; lia). destruct T as (_ & T & _). rewrite T, Nat.sub_diag in Hy. cbn [nth] in Hy. rewrite Ea in Hy.
  apply (trx_sqrt _ _ a); [exact Ea'| |exact TA]. cbn in Hy. destruct (Rlt_dec a 0); [discriminate|]. injection Hy as Hy.
  destruct (Req_dec a 0) as [->|]; [rewrite sqrt_0 in Hy; lra|lra].
Qed.
Definition trm (n m : nat) (M : R -> list (list xr)) (dM : list (list dual)) : Prop :=
  length dM = n /\ (forall s, length (M s) = n) /\ (forall i, (i < n)%nat -> trl m (fun s => nth i (M s) []) (nth i dM [])).
Lemma chol_prefix A zero add sub mul div sq (M : list (list A)) row :
  cholesky A zero add sub mul div sq (M ++ [row]) = cholesky A zero add sub mul div sq M ++ [chol_row A zero add sub mul div sq row (cholesky A zero add sub mul div sq M)].
Proof. unfold cholesky. rewrite fold_left_app. reflexivity. Qed.
Lemma firstn_S_nth {A} (l : list A) k d : (k < length l)%nat -> firstn (S k) l = firstn k l ++ [nth k l d].
Proof. revert k. induction l as [|a l IH]; intros k H; [cbn in H; lia|]. destruct k; [reflexivity|]. cbn [firstn nth app]. f_equal. apply IH. cbn in H. lia. Qed.
Lemma tri_nth W k j d : (j < k)%nat -> nth j (tri W k) d = vec (W j) (S j).
Proof. intros H. unfold tri. rewrite (nth_indep _ d (vec (W 0%nat) 1)) by (rewrite map_length, seq_length; exact H). rewrite (map_nth (fun i => vec (W i) (S i))), seq_nth by exact H. reflexivity. Qed.
Lemma firstn_seq' k n a : (k <= n)%nat -> firstn k (seq a n) = seq a k.
Proof. revert n a. induction k as [|k IH]; intros n a H; [reflexivity|]. destruct n; [lia|]. cbn. f_equal. apply IH. lia. Qed.
Lemma trm_chol n M dM : trm n n M dM -> positive_definite n (M 0) -> forall k, (k <= n)%nat ->
  rows_ok_ k (fun s => xchol (firstn k (M s))) (dchol (firstn k dM)).
Proof.
  intros (A & B & C) HP. destruct HP as (M0 & E0 & HS & HQ).
  assert (H0 : forall k, (k <= n)%nat -> exists W, good W M0 k /\ xchol (firstn k (M 0)) = tri W k).
  { intros k Hk. destruct (chol_steps n M0 HS HQ k Hk) as (W & G & E). exists W. split; [exact G|]. rewrite <- E. f_equal. rewrite E0. unfold real_matrix.
    rewrite firstn_map, firstn_seq' by exact Hk. reflexivity. }
  induction k as [|k IH]; intros Hk.
  - split; [reflexivity|]. split; [reflexivity|]. intros; lia.
  - pose proof (IH ltac:(lia)) as T. clear IH. destruct (H0 k ltac:(lia)) as (W & G & EL). destruct (H0 (S k) Hk) as (W' & G' & EL').
    assert (P : trl (S k) (fun s => xrow (nth k (M s) []) (xchol (firstn k (M s)))) (drow (nth k dM []) (dchol (firstn k dM)))).
    { apply (trl_row n _ _ k _ _ (W' k k)); [apply C; lia|lia|exact T| | |].
      - intros j Hj. cbn beta. rewrite EL, tri_nth by exact Hj. rewrite vec_nth by lia. destruct G as (G & _). specialize (G j Hj). intros E. injection E as E. lra.
      - rewrite (firstn_S_nth (M 0) k []) in EL' by (rewrite B; lia). rewrite chol_prefix in EL'.
        pose proof (f_equal (fun l => nth k l []) EL') as X. cbv beta in X. rewrite tri_nth in X by lia.
        rewrite app_nth2 in X by (destruct T as (_ & T & _); rewrite T; lia). destruct T as (_ & T & _). rewrite T, Nat.sub_diag in X. cbn [nth] in X. rewrite X. apply vec_nth. lia.
      - destruct G' as (G' & _). apply G'. lia. }
    destruct T as (T1 & T2 & T3). rewrite (firstn_S_nth dM k []) by lia. rewrite chol_prefix.
    assert (EX : forall s, xchol (firstn (S k) (M s)) = xchol (firstn k (M s)) ++ [xrow (nth k (M s) []) (xchol (firstn k (M s)))]).
    { intros s. rewrite (firstn_S_nth (M s) k []) by (rewrite B; lia). apply chol_prefix. }
    split; [rewrite app_length, T1; cbn; lia|]. split; [intros s; rewrite EX, app_length, T2; cbn; lia|].
    intros j Hj. destruct (Nat.eq_dec j k) as [->|ne].
    + rewrite app_nth2 by lia. rewrite T1, Nat.sub_diag. cbn [nth]. apply (trl_ext _ _ _ _ ltac:(intros s; reflexivity)) in P.
      refine (trl_ext _ _ _ _ _ P). intros s. rewrite EX, app_nth2 by (rewrite T2; lia). rewrite T2, Nat.sub_diag. reflexivity.
    + rewrite app_nth1 by lia. refine (trl_ext _ _ _ _ _ (T3 j ltac:(lia))). intros s. rewrite EX, app_nth1 by (rewrite T2; lia). reflexivity.
Qed.
Lemma trl_draw n mu dmu M dM (z : list R) : trl n mu dmu -> trm n n M dM -> positive_definite n (M 0) -> length z = n ->
  trl n (fun s => xcholesky_draw (mu s) (M s) (map Fin z)) (dcholesky_draw dmu dM (map dc (map Fin z))).
Proof.
  intros Hm HM HP Hz. pose proof (trm_chol n M dM HM HP n (le_n n)) as T. destruct HM as (A & B & C).
  rewrite firstn_all2 in T by lia. destruct T as (T1 & T2 & T3).
  assert (EX : forall s, xchol (firstn n (M s)) = xchol (M s)) by (intros s; rewrite firstn_all2 by (rewrite B; lia); reflexivity).
  unfold xcholesky_draw, dcholesky_draw, cholesky_draw. destruct Hm as (M1 & M2 & M3).
  split; [rewrite map2_length; lia|]. split; [intros s; rewrite map2_length, M2, <- EX, T2; lia|].
  intros i Hi. rewrite (map2_nth _ dmu (dchol dM) i dn []) by lia.
  apply (trx_ext (fun s => nth i (mu s) NaN + xdotp (nth i (xchol (firstn n (M s))) []) (map Fin z))%X).
  { intros s. rewrite (map2_nth _ (mu s) (xchol (M s)) i NaN []) by (rewrite ?M2, <- ?EX, ?T2; lia). rewrite EX. reflexivity. }
  apply trx_add; [apply M3, Hi|]. apply (trl_dotp (S i) (length z)); [apply T3, Hi|]. apply trl_consts.
Qed.

(** ** Population kernels *)
Lemma trx_mcrit x XT YT LO HI p1 p2 p3 p4 : trx XT p1 -> trx YT p2 -> trx LO p3 -> trx HI p4 ->
  trx (fun s => Mcrit_model (Fin x) (XT s) (YT s) (LO s) (HI s)) (dMcrit_model (Fin x) p1 p2 p3 p4).
Proof.
  intros. unfold Mcrit_model, sig_slope, dMcrit_model. cbv zeta. apply trx_add; [assumption|]. apply trx_mul; [|apply trx_sub; [apply trx_c|assumption]].
  apply trx_sigmoid; try assumption; apply trx_c.
Qed.
Lemma trx_clipped x x0 Y M py pm y m ylo yhi : trx Y py -> trx M pm -> fst py = Fin y -> fst pm = Fin m -> m <> 0 -> y <> ylo ->
  trx (fun s => smoothly_clipped_line (Fin x) (Fin x0) (Y s) (M s) (Fin ylo) (Fin yhi))
      (dsmoothly_clipped_line (Fin x) (Fin x0) py pm (Fin ylo) (Fin yhi)).
Proof.
  intros HY HM EY EM Hm Hy. assert (Hm0 : fst pm <> Fin 0) by (rewrite EM; congruence).
  unfold smoothly_clipped_line, dsmoothly_clipped_line. cbv zeta.
  set (x_lo := fun s => ((Fin ylo - Y s) / M s + Fin x0)%X). set (dx_lo := ((dc (Fin ylo) - py) / pm + dc (Fin x0))%D).
  assert (T1 : trx x_lo dx_lo) by (apply trx_add; [apply trx_div; [exact Hm0|apply trx_sub; [apply trx_c|exact HY]|exact HM]|apply trx_c]).
  set (x_hi := fun s => ((Fin yhi - Y s) / M s + Fin x0)%X). set (dx_hi := ((dc (Fin yhi) - py) / pm + dc (Fin x0))%D).
  assert (T2 : trx x_hi dx_hi) by (apply trx_add; [apply trx_div; [exact Hm0|apply trx_sub; [apply trx_c|exact HY]|exact HM]|apply trx_c]).
  assert (H100 : fst (dF 100) <> Fin 0) by (cbn; injection; lra).
  assert (T3 : trx (fun s => (Fin x0 - x_lo s) / Fin 100)%X ((dc (Fin x0) - dx_lo) / dF 100)%D) by (apply trx_div; [exact H100|apply trx_sub; [apply trx_c|exact T1]|apply trx_c]).
  assert (T4 : trx (fun s => (x_hi s - Fin x0) / Fin 100)%X ((dx_hi - dc (Fin x0)) / dF 100)%D) by (apply trx_div; [exact H100|apply trx_sub; [exact T2|apply trx_c]|apply trx_c]).
  assert (E3 : fst ((dc (Fin x0) - dx_lo) / dF 100)%D <> Fin 0).
  { rewrite (trx_fst _ _ T3). unfold x_lo. rewrite <- (trx_fst _ _ HY), <- (trx_fst _ _ HM), EY, EM. unfold xsub. cbn [xopp xadd].
    rewrite (xdiv_fin (ylo + - y) m) by exact Hm. cbn [xadd xopp]. rewrite xdiv_fin by lra. intros E. injection E as E.
    apply Hy. assert (Z : (ylo + - y) / m = 0) by lra. apply Rmult_integral in Z. destruct Z as [Z|Z]; [lra|]. exfalso. apply (Rinv_neq_0_compat m Hm Z). }
  assert (T5 : trx (fun s => x_lo s + (Fin x0 - x_lo s) / Fin 100)%X (dx_lo + (dc (Fin x0) - dx_lo) / dF 100)%D) by (apply trx_add; assumption).
  assert (T6 : trx (fun s => x_hi s - (x_hi s - Fin x0) / Fin 100)%X (dx_hi - (dx_hi - dc (Fin x0)) / dF 100)%D) by (apply trx_sub; assumption).
  assert (TK : trx (fun s => Fin 20 / ((Fin x0 - x_lo s) / Fin 100))%X (dF 20 / ((dc (Fin x0) - dx_lo) / dF 100))%D) by (apply trx_div; [exact E3|apply trx_c|exact T3]).
  apply (trx_sigmoid (fun _ => Fin x)); [apply trx_c|exact T6|exact TK| |apply trx_add; [exact HY|apply trx_mul; [exact HM|apply trx_sub; [exact T6|apply trx_c]]]].
  apply (trx_sigmoid (fun _ => Fin x)); [apply trx_c|exact T5|exact TK| |].
  - apply trx_add; [exact HY|apply trx_mul; [exact HM|apply trx_sub; [exact T5|apply trx_c]]].
  - apply trx_add; [exact HY|apply trx_mul; [exact HM|apply trx_sub; apply trx_c]].
Qed.

(** Matrices. *)
Lemma trm_ext_ n m F G ps : (forall s, F s = G s) -> trm n m F ps -> trm n m G ps.
Proof.
  intros E (A & B & C). split; [exact A|]. split; [intros s; rewrite <- E; apply B|]. intros i Hi.
  apply (trl_ext _ (fun s => nth i (F s) [])); [intros s; rewrite E; reflexivity|apply C, Hi].
Qed.
Lemma trm_row n m M dM i : trm n m M dM -> (i < n)%nat -> trl m (fun s => nth i (M s) []) (nth i dM []).
Proof. intros (A & B & C). apply C. Qed.
Lemma trm_ent n m M dM i j : trm n m M dM -> (i < n)%nat -> (j < m)%nat -> trx (fun s => ent (M s) i j) (dent dM i j).
Proof. intros H Hi Hj. destruct (trm_row _ _ _ _ i H Hi) as (_ & _ & C). apply (C j Hj). Qed.
Lemma trl_map_seq n a f df : (forall i, (a <= i < a + n)%nat -> trx (fun s => f s i) (df i)) ->
  trl n (fun s => map (f s) (seq a n)) (map df (seq a n)).
Proof.
  intros H. split; [rewrite map_length, seq_length; reflexivity|]. split; [intros; rewrite map_length, seq_length; reflexivity|].
  intros i Hi. rewrite (nth_map df (seq a n) i 0%nat), seq_nth by (rewrite ?seq_length; exact Hi).
  apply (trx_ext (fun s => f s (a + i)%nat)); [|apply H; lia]. intros s. rewrite (nth_map (f s) (seq a n) i 0%nat), seq_nth by (rewrite ?seq_length; exact Hi). reflexivity.
Qed.
Lemma trm_mk n f df : (forall i j, (i < n)%nat -> (j < n)%nat -> trx (fun s => f s i j) (df i j)) ->
  trm n n (fun s => mk_matrix n (f s)) (dmk_matrix n df).
Proof.
  intros H. unfold mk_matrix, dmk_matrix. split; [rewrite map_length, seq_length; reflexivity|]. split; [intros; rewrite map_length, seq_length; reflexivity|].
  intros i Hi. rewrite (nth_map _ (seq 0 n) i 0%nat), seq_nth by (rewrite ?seq_length; exact Hi).
  apply (trl_ext _ (fun s => map (fun j => f s i j) (seq 0 n))).
  - intros s. rewrite (nth_map _ (seq 0 n) i 0%nat), seq_nth by (rewrite ?seq_length; exact Hi). reflexivity.
  - apply (trl_map_seq n 0 (fun s j => f s i j)). intros j Hj. apply H; lia.
Qed.
Lemma trm_dot n A dA B dB : trm n n A dA -> trm n n B dB -> trm n n (fun s => mat_dot (A s) (B s)) (dmat_dot dA dB).
Proof.
  intros HA HB. pose proof HA as (LA & LA' & _). unfold mat_dot, dmat_dot. cbv zeta. rewrite LA.
  apply (trm_ext_ n n (fun s => mk_matrix n (fun i j => xsum (map (fun k => ent (A s) i k * ent (B s) k j)%X (seq 0 n))))).
  - intros s. rewrite LA'. reflexivity.
  - apply (trm_mk n (fun s i j => xsum (map (fun k => ent (A s) i k * ent (B s) k j)%X (seq 0 n)))). intros i j Hi Hj.
    apply (trl_sum n (fun s => map (fun k => ent (A s) i k * ent (B s) k j)%X (seq 0 n))).
    apply (trl_map_seq n 0 (fun s k => ent (A s) i k * ent (B s) k j)%X). intros k Hk. apply trx_mul; apply (trm_ent n n); (assumption || lia).
Qed.
Definition corr4 : nat -> nat -> R := fun i j => if Nat.eqb i j then 1 else 0.
Lemma corr_const : let M := get_cholesky_from_params 4 (repeat (Fin 1) 4 ++ zeros 6) in
  mat_map2 (fun a b => if xeq a (Fin 0) then b else a) M (mat_T M) = real_matrix 4 corr4.
Proof.
  cbv zeta. unfold corr4, zeros, get_cholesky_from_params, mat_T, mk_matrix, mat_map2, real_matrix, ent, at_. cbn.
  unfold Reqb. repeat match goal with |- context[Req_EM_T ?a ?b] => destruct (Req_EM_T a b); try lra end; reflexivity.
Qed.
Lemma trm_cov S dS : trl 4 S dS -> trm 4 4 (fun s => covariance_block (S s, zeros 6)) (dcovariance_block dS).
Proof.
  intros (A & B & C). unfold dcovariance_block. rewrite A. cbv zeta. rewrite corr_const.
  assert (TD : trm 4 4 (fun s => diag_of (S s)) (dmk_matrix 4 (fun i j => if Nat.eqb i j then dat dS i else dF 0))).
  { apply (trm_ext_ 4 4 (fun s => mk_matrix 4 (fun i j => if Nat.eqb i j then at_ (S s) i else Fin 0))).
    - intros s. unfold diag_of. rewrite B. reflexivity.
    - apply (trm_mk 4 (fun s i j => if Nat.eqb i j then at_ (S s) i else Fin 0)). intros i j Hi Hj. destruct (Nat.eqb i j); [apply (C i Hi)|apply trx_c]. }
  apply (trm_ext_ 4 4 (fun s => mat_dot (mat_dot (diag_of (S s)) (real_matrix 4 corr4)) (diag_of (S s)))).
  - intros s. unfold covariance_block. rewrite B, corr_const. reflexivity.
  - apply (trm_dot 4 (fun s => mat_dot (diag_of (S s)) (real_matrix 4 corr4))); [|exact TD]. apply trm_dot; [exact TD|].
    unfold real_matrix. rewrite map_map. split; [reflexivity|]. split; [reflexivity|]. intros i Hi.
    rewrite (nth_map _ (seq 0 4) i 0%nat) by (rewrite seq_length; exact Hi). rewrite (nth_map _ (seq 0 4) i 0%nat) by (rewrite seq_length; exact Hi).
    rewrite map_map. apply (trl_map_seq 4 0 (fun s j => Fin (corr4 (nth i (seq 0 4) 0%nat) j))). intros j Hj. apply trx_c.
Qed.

(** The 88 parameters. *)
Definition pok (Pr : R -> string -> R) (dp : nt dual) : Prop :=
  forall n, existsb (String.eqb n) pop_names = true -> trx (fun s => Fin (Pr s n)) (dattr dp n).
Section Pop.
Variable Pr : R -> string -> R.
Variable dp : nt dual.
Hypothesis Hp : pok Pr dp.
Hypothesis Hb : pop_in_bounds (Pr 0).
Hypothesis Hs : slopes_nonzero (Pr 0).
Lemma pok_fst n : existsb (String.eqb n) pop_names = true -> fst (dattr dp n) = Fin (Pr 0 n).
Proof. intros H. apply (trx_fst _ _ (Hp n H)). Qed.
Lemma trx_line x ni ns nb lo hi : existsb (String.eqb ni) pop_names = true -> existsb (String.eqb ns) pop_names = true ->
  existsb (String.eqb ns) pop_slopes = true ->
  assoc ni POP_BOUNDS = Some (lo, hi) -> getattr BOUNDING_VALS_PDICT nb = Some (lo, hi) ->
  trx (fun s => line_model (Fin x) (Fin (Pr s ni)) (Fin (Pr s ns)) (BOUNDING_VALS nb)) (dline_model (Fin x) (dattr dp ni) (dattr dp ns) (BOUNDING_VALS nb)).
Proof.
  intros I1 I2 I3 H1 H2. rewrite (bounding_vals nb _ H2). unfold line_model, dline_model, QQ2X, Q2X, LGM_X0. cbn [fst snd].
  apply (trx_clipped x _ _ _ _ _ (Pr 0 ni) (Pr 0 ns)); [exact (Hp ni I1)|exact (Hp ns I2)|exact (pok_fst ni I1)|exact (pok_fst ns I2)|exact (slope_of (Pr 0) ns Hs I3)|].
  pose proof (bound_of (Pr 0) ni lo hi Hb H1). lra.
Qed.
Ltac line_ := eapply trx_line; vm_compute; reflexivity.
Ltac par_ := apply Hp; vm_compute; reflexivity.
Ltac item := first [par_ | apply trx_mcrit; par_ | line_ ].
Ltac list_ := repeat (apply trl_cons; [item|]); apply trl_nil.
Lemma trl_mean_mseq x : trl 4 (fun s => get_mean_u_params_mseq (QP (Pr s)) (Fin x)) (dget_mean_u_params_mseq dp (Fin x)).
Proof.
  unfold dget_mean_u_params_mseq. eapply trl_ext; [intros s; unfold get_mean_u_params_mseq; attrs; reflexivity|]. list_.
Qed.
Lemma trl_std_mseq x : trl 4 (fun s => fst (get_cov_params_mseq_ms_block (QP (Pr s)) (Fin x))) (dstds_mseq_ms dp (Fin x)).
Proof.
  unfold dstds_mseq_ms. eapply trl_ext; [intros s; unfold get_cov_params_mseq_ms_block; attrs; reflexivity|]. cbn [fst]. list_.
Qed.
Lemma trl_std_qseq x : trl 4 (fun s => fst (get_cov_params_qseq_ms_block (QP (Pr s)) (Fin x))) (dstds_qseq_ms dp (Fin x)).
Proof.
  unfold dstds_qseq_ms. eapply trl_ext; [intros s; unfold get_cov_params_qseq_ms_block; attrs; reflexivity|]. cbn [fst]. list_.
Qed.
Lemma trl_std_q x : trl 4 (fun s => fst (get_cov_params_qseq_q_block (QP (Pr s)) (Fin x))) (dstds_qseq_q dp (Fin x)).
Proof.
  unfold dstds_qseq_q. eapply trl_ext; [intros s; unfold get_cov_params_qseq_q_block; attrs; reflexivity|]. cbn [fst]. list_.
Qed.
Lemma trl_mean_qseq x tp : trl 8 (fun s => get_mean_u_params_qseq (QP (Pr s)) (Fin x) (Fin tp)) (dget_mean_u_params_qseq dp (Fin x) (Fin tp)).
Proof.
  unfold dget_mean_u_params_qseq. eapply trl_ext; [intros s; unfold get_mean_u_params_qseq, delta_uqt; attrs; reflexivity|].
  do 4 (apply trl_cons; [item|]). apply trl_cons; [|list_].
  apply trx_add; [item|]. unfold ddelta_uqt. apply trx_add; [apply (trx_sigmoid (fun _ => Fin tp)); [apply trx_c|par_|par_|par_|par_]|].
  apply trx_mul; [apply trx_sub; apply trx_c|par_].
Qed.
Lemma trx_cen x tp : trx (fun s => frac_quench_cen (QP (Pr s)) (Fin x) (Fin tp)) (dfrac_quench_cen dp (Fin x) (Fin tp)).
Proof.
  unfold dfrac_quench_cen. cbv zeta. eapply trx_ext; [intros s; unfold frac_quench_cen; attrs; reflexivity|]. cbv zeta.
  apply (trx_sigmoid (fun _ => Fin x)); [apply trx_c| |par_| |par_]; (apply (trx_sigmoid (fun _ => Fin tp)); [apply trx_c|par_|par_|par_|par_]).
Qed.
Lemma trx_sat x tp : trx (fun s => frac_quench_sat (QP (Pr s)) (Fin x) (Fin tp)) (dfrac_quench_sat dp (Fin x) (Fin tp)).
Proof.
  unfold dfrac_quench_sat. cbv zeta. eapply trx_ext; [intros s; unfold frac_quench_sat; attrs; reflexivity|]. cbv zeta.
  apply (trx_sigmoid (fun _ => Fin x)); [apply trx_c| |par_| |par_]; (apply (trx_sigmoid (fun _ => Fin tp)); [apply trx_c|par_|par_|par_|par_]).
Qed.
Lemma trx_qprob_sat mu mh gy F pF : trx F pF ->
  trx (fun s => get_qprob_sat (SP (Pr s)) (Fin mu) (Fin mh) (Fin gy) (F s)) (dget_qprob_sat dp (Fin mu) (Fin mh) (Fin gy) pF).
Proof.
  intros HF. unfold dget_qprob_sat. cbv zeta.
  eapply trx_ext; [intros s; unfold get_qprob_sat, predict_sat_frac_delta_qprob, satquench_kernel, qprob_hi_vs_sub_host_mass, t_delay_vs_logmhost; attrs; reflexivity|]. cbv zeta.
  unfold DEFAULT_LGMH_K, LGMU_SPEED, DEFAULT_Q_SPEED.
  apply trx_add; [exact HF|]. apply trx_mul; [|apply trx_sub; [apply trx_c|exact HF]].
  apply (trx_sigmoid (fun _ => Fin gy)); [apply trx_c| |apply trx_c|apply trx_c|].
  - apply (trx_sigmoid (fun _ => Fin mh)); [apply trx_c|par_|apply trx_c|par_|par_].
  - apply (trx_sigmoid (fun _ => Fin mh)); [apply trx_c|par_|apply trx_c| |]; (apply (trx_sigmoid (fun _ => Fin mu)); [apply trx_c|par_|apply trx_c|par_|par_]).
Qed.
End Pop.
End Trx.
