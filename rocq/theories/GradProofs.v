(** Derivatives carried by the model of the gradient are derivatives of the values. *)
From Coq Require Import Reals Lra Lia List Bool.
From Coquelicot Require Import Coquelicot.
From Verif Require Import XReal XFacts RealFacts ModelUtils ModelKernels ModelSfh ModelHist ModelFit ModelGrad SpecCore
  SigmoidProofs TriweightProofs QuenchProofs IntegralProofs SfhProofs.
Import List ListNotations.
Open Scope R_scope.

Definition dot (v g : nat -> R) : R :=
  v 0%nat * g 0%nat + v 1%nat * g 1%nat + v 2%nat * g 2%nat + v 3%nat * g 3%nat +
  v 4%nat * g 4%nat + v 5%nat * g 5%nat + v 6%nat * g 6%nat + v 7%nat * g 7%nat.

Section Tr.
Variable v : nat -> R.
Variable K : Prop.

(** [p] carries the value at 0 of [g] and, where [K] holds, its derivative in direction [v]. *)
Definition tr (g : R -> R) (p : dual) : Prop :=
  fst p = Fin (g 0) /\ exists g', (forall i, snd p i = Fin (g' i)) /\ (K -> is_derive g 0 (dot v g')).

Lemma tr_ext g h p : (forall s, g s = h s) -> tr g p -> tr h p.
Proof.
  intros E [A (g' & B & C)]. split; [rewrite A, E; reflexivity|]. exists g'. split; [exact B|].
  intros k. apply (is_derive_ext g); auto.
Qed.
Lemma tr_val g p : tr g p -> fst p = Fin (g 0). Proof. intros H; apply H. Qed.

Lemma d_eq (f : R -> R) (a b : R) : is_derive f 0 a -> a = b -> is_derive f 0 b.
Proof. intros H <-; exact H. Qed.

Lemma tr_c c : tr (fun _ => c) (dc (Fin c)).
Proof.
  split; [reflexivity|]. exists (fun _ => 0). split; [reflexivity|]. intros _.
  eapply d_eq; [apply (is_derive_const (V := R_NormedModule) c)|]. unfold dot. change (@zero R_NormedModule) with 0. ring.
Qed.
Lemma tr_var k u : (k < 8)%nat -> tr (fun s => u + s * v k) (dvar k (Fin u)).
Proof.
  intros Hk. split; [cbn; f_equal; ring|]. exists (fun i => if Nat.eqb i k then 1 else 0).
  split; [intros i; cbn; destruct (Nat.eqb i k); reflexivity|]. intros _.
  eapply d_eq; [auto_derive; [exact I|reflexivity]|].
  unfold dot. do 8 (destruct k as [|k]; [cbn; ring|]). lia.
Qed.
Lemma tr_add f g p q : tr f p -> tr g q -> tr (fun s => f s + g s) (dadd p q).
Proof.
  intros [A (a & A1 & A2)] [B (b & B1 & B2)]. split; [cbn; rewrite A, B; reflexivity|].
  exists (fun i => a i + b i). split; [intros i; cbn; rewrite A1, B1; reflexivity|]. intros k.
  eapply d_eq; [apply (is_derive_plus (V := R_NormedModule) f g 0 _ _ (A2 k) (B2 k))|]. unfold dot, plus; cbn. ring.
Qed.
Lemma tr_sub f g p q : tr f p -> tr g q -> tr (fun s => f s - g s) (dsub p q).
Proof.
  intros [A (a & A1 & A2)] [B (b & B1 & B2)]. split; [cbn; rewrite A, B; reflexivity|].
  exists (fun i => a i - b i). split; [intros i; cbn; rewrite A1, B1; reflexivity|]. intros k.
  eapply d_eq; [apply (is_derive_minus (V := R_NormedModule) f g 0 _ _ (A2 k) (B2 k))|]. unfold dot, minus, plus, opp; cbn. ring.
Qed.
Lemma tr_mul f g p q : tr f p -> tr g q -> tr (fun s => f s * g s) (dmul p q).
Proof.
  intros [A (a & A1 & A2)] [B (b & B1 & B2)]. split; [cbn; rewrite A, B; reflexivity|].
  exists (fun i => a i * g 0 + f 0 * b i). split; [intros i; cbn; rewrite A1, B1, A, B; reflexivity|]. intros k.
  eapply d_eq; [apply (is_derive_mult (K := R_AbsRing) f g 0 _ _ (A2 k) (B2 k)); intros; apply Rmult_comm|].
  unfold dot, plus, mult; cbn. ring.
Qed.
Lemma tr_div f g p q : g 0 <> 0 -> tr f p -> tr g q -> tr (fun s => f s / g s) (ddiv p q).
Proof.
  intros H [A (a & A1 & A2)] [B (b & B1 & B2)]. split; [unfold ddiv; cbn [fst]; rewrite A, B; apply xdiv_fin, H|].
  assert (g 0 * g 0 <> 0) by (intros e; apply Rmult_integral in e; tauto).
  exists (fun i => a i / g 0 + - b i * f 0 * (1 / (g 0 * g 0))).
  split; [intros i; unfold ddiv; cbn [snd]; rewrite A1, B1, A, B; cbn [xmul xopp]; rewrite !xdiv_fin by assumption; reflexivity|].
  intros k. eapply d_eq; [apply (is_derive_div f g 0 _ _ (A2 k) (B2 k) H)|]. unfold dot. field. exact H.
Qed.
Lemma tr_divc f p c : c <> 0 -> tr f p -> tr (fun s => f s / c) (ddiv p (dc (Fin c))).
Proof. intros H Hf. apply (tr_div f (fun _ => c)); auto using tr_c. Qed.
Lemma tr_mulc f p c : tr f p -> tr (fun s => f s * c) (dmul p (dc (Fin c))).
Proof. intros Hf. apply (tr_mul f (fun _ => c)); auto using tr_c. Qed.
Lemma tr_cmul f p c : tr f p -> tr (fun s => c * f s) (dmul (dc (Fin c)) p).
Proof. intros Hf. apply (tr_mul (fun _ => c) f); auto using tr_c. Qed.
Lemma tr_pown f p n : tr f p -> tr (fun s => f s ^ n) (dpown p n).
Proof.
  intros [A (a & A1 & A2)]. split; [cbn; rewrite A; apply xpown_fin|].
  exists (fun i => a i * (INR n * f 0 ^ (n - 1))).
  split; [intros i; unfold dpown; cbn [snd]; rewrite A1, A, xpown_fin; reflexivity|]. intros k.
  eapply d_eq; [apply (is_derive_pow f n 0 _ (A2 k))|]. replace (pred n) with (n - 1)%nat by lia. unfold dot. ring.
Qed.
(** composition with a real function *)
Lemma tr_comp (F : R -> R) f p q dF : tr f p -> fst q = Fin (F (f 0)) -> (forall i d, snd p i = Fin d -> snd q i = Fin (dF * d)) ->
  (K -> is_derive F (f 0) dF) -> tr (fun s => F (f s)) q.
Proof.
  intros [A (a & A1 & A2)] Q1 Q2 HF. split; [exact Q1|]. exists (fun i => dF * a i).
  split; [intros i; apply Q2, A1|]. intros k.
  eapply d_eq; [apply (is_derive_comp (V := R_NormedModule) F f 0 _ _ (HF k) (A2 k))|]. unfold dot, scal; cbn. unfold mult; cbn. ring.
Qed.
Lemma is_derive_pow10 x : is_derive pow10R x (ln 10 * pow10R x).
Proof. unfold pow10R. auto_derive; [exact I|ring]. Qed.
Lemma tr_pow10 f p : tr f p -> tr (fun s => pow10R (f s)) (dpow10 p).
Proof.
  intros H. apply (tr_comp pow10R f p _ (ln 10 * pow10R (f 0)) H).
  - cbn. rewrite (tr_val _ _ H). reflexivity.
  - intros i d E. unfold dpow10. cbn [snd]. rewrite E, (tr_val _ _ H), xlog_fin by lra. cbn. f_equal. ring.
  - intros _. apply is_derive_pow10.
Qed.
Lemma ln10_pos : 0 < ln 10. Proof. rewrite <- ln_1. apply ln_increasing; lra. Qed.
Lemma tr_log10 f p : 0 < f 0 -> tr f p -> tr (fun s => log10R (f s)) (dlog10 p).
Proof.
  intros H0 H. pose proof ln10_pos. apply (tr_comp log10R f p _ (/ f 0 / ln 10) H).
  - unfold dlog10. cbn [fst]. rewrite (tr_val _ _ H). apply xlog10_fin, H0.
  - intros i d E. unfold dlog10. cbn [snd]. rewrite E, (tr_val _ _ H), xlog_fin by lra.
    rewrite !xdiv_fin by lra. f_equal. field. lra.
  - intros _. unfold log10R. auto_derive; [exact H0|]. field. lra.
Qed.
Lemma tr_logistic f p : tr f p -> tr (fun s => logisticR (f s)) (dlogistic p).
Proof.
  intros H. apply (tr_comp logisticR f p _ (logisticR (f 0) * (1 - logisticR (f 0))) H).
  - cbn. rewrite (tr_val _ _ H). reflexivity.
  - intros i d E. unfold dlogistic. cbn [snd]. rewrite E, (tr_val _ _ H). cbn. f_equal. ring.
  - intros _. apply is_derive_logistic.
Qed.
Lemma tr_sigmoid f x0 k lo hi p px0 pk plo phi : tr f p -> tr x0 px0 -> tr k pk -> tr lo plo -> tr hi phi ->
  tr (fun s => sigR (f s) (x0 s) (k s) (lo s) (hi s)) (dsigmoid p px0 pk plo phi).
Proof.
  intros. unfold dsigmoid, sigR. apply tr_add; [assumption|]. apply tr_mul; [apply tr_sub; assumption|].
  apply tr_logistic, tr_mul; [assumption|]. apply tr_sub; assumption.
Qed.
Lemma tr_bnd f p lo hi : lo < hi -> tr f p ->
  tr (fun s => bndR (f s) lo hi) (dsigmoid_b p (sigmoid_bounds (Fin lo, Fin hi))).
Proof.
  intros H Hf. rewrite sigmoid_bounds_fin by exact H. cbn [dsigmoid_b]. unfold bndR.
  apply (tr_sigmoid f (fun _ => _) (fun _ => _) (fun _ => _) (fun _ => _)); auto using tr_c.
Qed.

(** ** choices *)
Lemma tr_const_zero (a : nat -> R) : (forall i, a i = 0) -> dot v a = 0.
Proof. intros H. unfold dot. rewrite !H. ring. Qed.

Definition flat (f : R -> R) : Prop := locally 0 (fun s => f s = f 0).
Lemma flat_0 f d : flat f -> is_derive f 0 d -> d = 0.
Proof.
  intros H D. assert (D0 : is_derive f 0 0).
  { apply (is_derive_ext_loc (fun _ => f 0)); [eapply filter_imp; [|exact H]; cbn; intros; congruence|].
    apply (is_derive_const (V := R_NormedModule)). }
  rewrite <- (is_derive_unique _ _ _ D). apply (is_derive_unique _ _ _ D0).
Qed.
Lemma flat_derive f : flat f -> is_derive f 0 0.
Proof.
  intros H. apply (is_derive_ext_loc (fun _ => f 0)); [eapply filter_imp; [|exact H]; cbn; intros; congruence|].
  apply (is_derive_const (V := R_NormedModule)).
Qed.
Lemma flat_2 (F : R -> R -> R) f g : flat f -> flat g -> flat (fun s => F (f s) (g s)).
Proof. intros Hf Hg. pose proof (filter_and _ _ Hf Hg) as H. unfold flat. eapply filter_imp; [|exact H]. cbn. intros s [-> ->]. reflexivity. Qed.

Lemma tr_max f g p q : tr f p -> tr g q -> (K -> f 0 <> g 0 \/ (flat f /\ flat g)) -> tr (fun s => Rmax (f s) (g s)) (dmax p q).
Proof.
  intros [A (a & A1 & A2)] [B (b & B1 & B2)] HK.
  split; [unfold dmax; cbn [fst]; rewrite A, B; unfold xmax; cbn [isnan orb xlt]; unfold Rltb, Rmax;
    destruct (Rlt_dec (f 0) (g 0)), (Rle_dec (f 0) (g 0)); try reflexivity; try lra; f_equal; lra|].
  exists (fun i => if Rlt_dec (g 0) (f 0) then a i else if Rlt_dec (f 0) (g 0) then b i else 1 / 2 * a i + 1 / 2 * b i).
  split.
  { intros i. unfold dmax. cbn [snd]. rewrite A, B, A1, B1. cbn [xlt]. unfold Rltb.
    destruct (Rlt_dec (g 0) (f 0)); [cbn; f_equal; ring|]. destruct (Rlt_dec (f 0) (g 0)); cbn; f_equal; ring. }
  intros k. specialize (A2 k). specialize (B2 k). specialize (HK k).
  destruct HK as [HK|[Ff Fg]].
  2:{ pose proof (flat_0 _ _ Ff A2) as Za. pose proof (flat_0 _ _ Fg B2) as Zb.
      eapply d_eq; [apply flat_derive; apply (flat_2 Rmax); assumption|].
      destruct (Rlt_dec (g 0) (f 0)); [symmetry; exact Za|]. destruct (Rlt_dec (f 0) (g 0)); [symmetry; exact Zb|].
      transitivity (1 / 2 * dot v a + 1 / 2 * dot v b); [rewrite Za, Zb; ring|unfold dot; ring]. }
  assert (Cd : continuous (fun s => f s - g s) 0).
  { apply (ex_derive_continuous (V := R_NormedModule)). exists (dot v a - dot v b).
    apply (is_derive_minus (V := R_NormedModule) f g); assumption. }
  destruct (Rlt_dec (g 0) (f 0)) as [h|h].
  - apply (is_derive_ext_loc f); [|exact A2].
    assert (L : locally 0 (fun s => 0 < f s - g s)).
    { apply (Cd (fun y => 0 < y)). apply open_gt. lra. }
    eapply filter_imp; [|exact L]. cbn. intros s Hs. rewrite Rmax_left; [reflexivity|lra].
  - destruct (Rlt_dec (f 0) (g 0)) as [h'|h']; [|lra].
    apply (is_derive_ext_loc g); [|exact B2].
    assert (L : locally 0 (fun s => f s - g s < 0)).
    { apply (Cd (fun y => y < 0)). apply open_lt. lra. }
    eapply filter_imp; [|exact L]. cbn. intros s Hs. rewrite Rmax_right; [reflexivity|lra].
Qed.
Lemma tr_min f g p q : tr f p -> tr g q -> (K -> f 0 <> g 0 \/ (flat f /\ flat g)) -> tr (fun s => Rmin (f s) (g s)) (dmin p q).
Proof.
  intros [A (a & A1 & A2)] [B (b & B1 & B2)] HK.
  split; [unfold dmin; cbn [fst]; rewrite A, B; unfold xmin; cbn [isnan orb xlt]; unfold Rltb, Rmin;
    destruct (Rlt_dec (g 0) (f 0)), (Rle_dec (f 0) (g 0)); try reflexivity; try lra; f_equal; lra|].
  exists (fun i => if Rlt_dec (f 0) (g 0) then a i else if Rlt_dec (g 0) (f 0) then b i else 1 / 2 * a i + 1 / 2 * b i).
  split.
  { intros i. unfold dmin. cbn [snd]. rewrite A, B, A1, B1. cbn [xlt]. unfold Rltb.
    destruct (Rlt_dec (f 0) (g 0)); [cbn; f_equal; ring|]. destruct (Rlt_dec (g 0) (f 0)); cbn; f_equal; ring. }
  intros k. specialize (A2 k). specialize (B2 k). specialize (HK k).
  destruct HK as [HK|[Ff Fg]].
  2:{ pose proof (flat_0 _ _ Ff A2) as Za. pose proof (flat_0 _ _ Fg B2) as Zb.
      eapply d_eq; [apply flat_derive; apply (flat_2 Rmin); assumption|].
      destruct (Rlt_dec (f 0) (g 0)); [symmetry; exact Za|]. destruct (Rlt_dec (g 0) (f 0)); [symmetry; exact Zb|].
      transitivity (1 / 2 * dot v a + 1 / 2 * dot v b); [rewrite Za, Zb; ring|unfold dot; ring]. }
  assert (Cd : continuous (fun s => f s - g s) 0).
  { apply (ex_derive_continuous (V := R_NormedModule)). exists (dot v a - dot v b).
    apply (is_derive_minus (V := R_NormedModule) f g); assumption. }
  destruct (Rlt_dec (f 0) (g 0)) as [h|h].
  - apply (is_derive_ext_loc f); [|exact A2].
    assert (L : locally 0 (fun s => f s - g s < 0)) by (apply (Cd (fun y => y < 0)); apply open_lt; lra).
    eapply filter_imp; [|exact L]. cbn. intros s Hs. rewrite Rmin_left; [reflexivity|lra].
  - destruct (Rlt_dec (g 0) (f 0)) as [h'|h']; [|lra].
    apply (is_derive_ext_loc g); [|exact B2].
    assert (L : locally 0 (fun s => 0 < f s - g s)) by (apply (Cd (fun y => 0 < y)); apply open_gt; lra).
    eapply filter_imp; [|exact L]. cbn. intros s Hs. rewrite Rmin_right; [reflexivity|lra].
Qed.
(** jnp.clip(x, lo, inf) *)
Lemma tr_clip_lo f g p q : tr f p -> tr g q -> (K -> f 0 <> g 0 \/ (flat f /\ flat g)) -> tr (fun s => Rmax (f s) (g s)) (dclip p q (dc PInf)).
Proof.
  intros Hf Hg HK. destruct (tr_max _ _ _ _ Hf Hg HK) as [A (a & A1 & A2)]. unfold dclip.
  split; [unfold dmin; cbn [fst]; rewrite A; reflexivity|]. exists a. split; [|exact A2].
  intros i. unfold dmin. cbn [snd]. rewrite A, A1. cbn. f_equal. ring.
Qed.
(** the floor on the SFR: where(x < c, c, x) *)
Lemma tr_floor f p c : tr f p -> (K -> f 0 <> c) -> tr (fun s => Rmax c (f s)) (dwhere (fst p <? Fin c)%X (dc (Fin c)) p).
Proof.
  intros Hf HK. destruct (tr_max _ _ _ _ (tr_c c) Hf (fun k => or_introl (fun e => HK k (eq_sym e)))) as [A (a & A1 & A2)].
  pose proof (proj1 Hf) as F0. destruct Hf as [_ (b & B1 & _)].
  assert (Q : fst p <> NaN) by (rewrite F0; discriminate).
  split.
  - unfold dwhere. cbn [fst]. rewrite F0. cbn [xlt]. unfold Rltb, Rmax. cbn [dc fst].
    destruct (Rlt_dec (f 0) c), (Rle_dec c (f 0)); try reflexivity; try lra; f_equal; lra.
  - destruct (Req_dec (f 0) c) as [e|e].
    + exists b. split; [|intros k; exfalso; apply (HK k e)]. intros i. unfold dwhere. cbn [snd].
      rewrite F0. cbn [xlt]. rewrite Rltb_false by lra. rewrite B1. cbn. f_equal. ring.
    + exists a. split; [|exact A2]. intros i. specialize (A1 i). unfold dmax in A1. cbn [snd] in A1.
      unfold dwhere. cbn [snd]. rewrite F0 in *. cbn [dc fst snd] in *. cbn [xlt] in *.
      rewrite B1 in *.
      destruct (Rlt_le_dec (f 0) c) as [h|h].
      * rewrite (Rltb_true (f 0) c) in * by lra. exact A1.
      * rewrite (Rltb_false (f 0) c) in * by lra. rewrite (Rltb_true c (f 0)) in A1 by lra. exact A1.
Qed.
(** where(x > 0, x, 0) of something never negative *)
Lemma tr_relu f p : tr f p -> (forall s, 0 <= f s) -> tr f (dwhere (Fin 0 <? fst p)%X p (dc (Fin 0))).
Proof.
  intros [A (a & A1 & A2)] Hp. unfold dwhere. rewrite A. cbn [xlt].
  destruct (Rlt_le_dec 0 (f 0)) as [h|h].
  - rewrite Rltb_true by exact h. split; [reflexivity|]. exists a. split; [|exact A2]. intros i. cbn. rewrite A1. cbn. f_equal. ring.
  - assert (E : f 0 = 0) by (specialize (Hp 0); lra). rewrite Rltb_false by lra. split; [cbn; rewrite E; reflexivity|].
    exists (fun _ => 0). split; [intros i; cbn; rewrite A1; cbn; f_equal; ring|]. intros k. specialize (A2 k).
    assert (D : derivable_pt_lim f 0 (dot v a)) by (apply is_derive_Reals; exact A2).
    pose proof (deriv_minimum f (-1) 1 0 (exist _ (dot v a) D) ltac:(lra) ltac:(lra)) as M.
    cbn in M. rewrite tr_const_zero by reflexivity. apply (d_eq f (dot v a)); [exact A2|]. apply M. intros x _ _. rewrite E. apply Hp.
Qed.

(** ** kernels *)
Lemma tw_pdf_poly y : -3 <= y <= 3 ->
  tw_pdf y = -5 / 69984 * (7 * y ^ 6) + 7 / 2592 * (5 * y ^ 4) - 35 / 864 * (3 * y ^ 2) + 35 / 96.
Proof. intros H. rewrite tw_pdf_in by exact H. field. Qed.

Lemma tr_tw f p : tr f p -> tr (fun s => twR (f s)) (djax_tw p).
Proof.
  intros H. pose proof (tr_val _ _ H) as V. destruct p as [x dx]. cbn [fst] in V. subst x.
  set (y := f 0) in *.
  apply (tr_comp twR f _ _ (tw_pdf y) H).
  - unfold djax_tw, dwhere, dadd, dsub, ddiv, dmul, dpown, dc. cbn [fst]. rewrite !xpown_fin. cbn [xmul].
    rewrite !xdiv_fin by lra. cbn [xadd xsub xopp xlt]. unfold Rltb. fold y. unfold twR.
    destruct (Rlt_dec 3 y), (Rlt_dec y (-3)); try reflexivity; try lra.
  - intros i d E. cbn [snd] in E.
    unfold djax_tw, dwhere, dadd, dsub, ddiv, dmul, dpown, dc. cbn [fst snd]. rewrite E. rewrite !xpown_fin. cbn [xmul xopp xadd xsub].
    rewrite !xdiv_fin by lra. cbn [xmul xopp xadd xsub xlt]. unfold Rltb.
    destruct (Rlt_dec 3 y) as [h|h].
    + rewrite tw_pdf_out by lra. destruct (Rlt_dec y (-3)); cbn [xmul xadd]; f_equal; ring.
    + destruct (Rlt_dec y (-3)) as [h'|h'].
      * rewrite tw_pdf_out by lra. cbn [xmul xadd]. f_equal. ring.
      * rewrite tw_pdf_poly by lra. cbn [xmul xadd Nat.sub]. f_equal. cbn [INR]. field.
  - intros _. apply is_derive_tw.
Qed.

Lemma qexp_sum y f1 f2 : (if Rlt_dec y 0 then f1 * twR (y + 3) else f1 - f2 * twR (y - 3)) = f1 * twR (y + 3) - f2 * twR (y - 3).
Proof.
  destruct (Rlt_dec y 0); [rewrite (twR_lo (y - 3)) by lra; ring|rewrite (twR_hi (y + 3)) by lra; ring].
Qed.

Lemma tr_partial x m h f1 f2 pm ph p1 p2 : h 0 <> 0 -> tr m pm -> tr h ph -> tr f1 p1 -> tr f2 p2 ->
  tr (fun s => f1 s * twR ((x - m s) / h s + 3) - f2 s * twR ((x - m s) / h s - 3)) (djax_partial_u_tw_kern (Fin x) pm ph p1 p2).
Proof.
  intros Hh Hm Hhh H1 H2. unfold djax_partial_u_tw_kern. cbv zeta.
  set (y := ddiv (dsub (dc (Fin x)) pm) ph).
  assert (Hy : tr (fun s => (x - m s) / h s) y).
  { apply tr_div; [exact Hh| |exact Hhh]. apply (tr_sub (fun _ => x)); [apply tr_c|exact Hm]. }
  pose proof (tr_tw _ _ (tr_add _ (fun _ => 3) _ _ Hy (tr_c 3))) as T1.
  pose proof (tr_tw _ _ (tr_sub _ (fun _ => 3) _ _ Hy (tr_c 3))) as T2.
  pose proof (tr_mul _ _ _ _ H1 T1) as Z. pose proof (tr_mul _ _ _ _ H2 T2) as W2. pose proof (tr_sub _ _ _ _ H1 W2) as W.
  pose proof (tr_sub _ _ _ _ Z W2) as [A (a & A1 & A2)].
  pose proof (tr_val _ _ Hy) as Vy. set (y0 := (x - m 0) / h 0) in *.
  set (q1 := djax_tw (dadd y (dc (Fin 3)))) in *. set (q2 := djax_tw (dsub y (dc (Fin 3)))) in *.
  assert (Q1 : y0 < 0 -> fst q2 = Fin 0 /\ forall i, snd q2 i = Fin 0).
  { intros h0. destruct T2 as [V _]. split; [rewrite V; f_equal; apply twR_lo; fold y0; lra|].
    intros i. destruct Hy as [_ (b & B1 & _)]. unfold q2, djax_tw, dwhere, dadd, dsub, ddiv, dmul, dpown, dc. cbn [fst snd].
    rewrite Vy, B1. cbn [xsub xadd xopp]. rewrite !xpown_fin. cbn [xmul xopp xadd xsub].
    rewrite !xdiv_fin by lra. cbn [xmul xopp xadd xsub xlt]. rewrite Rltb_false, Rltb_true by lra.
    cbn [xmul xadd]. f_equal. ring. }
  assert (Q2 : 0 <= y0 -> fst q1 = Fin 1 /\ forall i, snd q1 i = Fin 0).
  { intros h0. destruct T1 as [V _]. split; [rewrite V; f_equal; apply twR_hi; fold y0; lra|].
    intros i. destruct Hy as [_ (b & B1 & _)]. unfold q1, djax_tw, dwhere, dadd, dsub, ddiv, dmul, dpown, dc. cbn [fst snd].
    rewrite Vy, B1. cbn [xsub xadd xopp]. rewrite !xpown_fin. cbn [xmul xopp xadd xsub].
    rewrite !xdiv_fin by lra. cbn [xmul xopp xadd xsub xlt]. unfold Rltb.
    destruct (Rlt_dec 3 (y0 + 3)) as [e|e]; [destruct (Rlt_dec (y0 + 3) (-3)); cbn [xmul xadd]; f_equal; ring|].
    destruct (Rlt_dec (y0 + 3) (-3)); [lra|]. cbn [xmul xadd Nat.sub]. f_equal. replace (y0 + 3) with 3 by lra. cbn [INR]. field. }
  destruct H1 as [V1 (b1 & B1 & _)]. destruct H2 as [V2 (b2 & B2 & _)].
  destruct T1 as [VT1 (c1 & C1 & _)]. destruct T2 as [VT2 (c2 & C2 & _)].
  split.
  - etransitivity; [|exact A]. unfold dwhere. rewrite Vy. cbn [xlt fst]. unfold Rltb. destruct (Rlt_dec y0 0) as [h0|h0].
    + destruct (Q1 h0) as [Q _]. unfold dsub, dmul. cbn [fst]. rewrite Q, V1, V2, VT1. cbn. f_equal. ring.
    + destruct (Q2 (Rnot_lt_le _ _ h0)) as [Q _]. unfold dsub, dmul. cbn [fst]. rewrite Q, V1, V2, VT2. cbn. f_equal. ring.
  - exists a. split; [|exact A2]. intros i. rewrite <- A1. unfold dwhere. rewrite Vy. cbn [xlt snd]. unfold Rltb.
    destruct (Rlt_dec y0 0) as [h0|h0].
    + destruct (Q1 h0) as [Qa Qb]. unfold dsub, dmul. cbn [fst snd]. rewrite Qa, Qb, V1, V2, VT1, B1, B2, C1. cbn. f_equal. ring.
    + destruct (Q2 (Rnot_lt_le _ _ h0)) as [Qa Qb]. unfold dsub, dmul. cbn [fst snd]. rewrite Qa, Qb, V1, V2, VT2, B1, B2, C2. cbn. f_equal. ring.
Qed.
End Tr.
