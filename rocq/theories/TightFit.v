(** The fit: what the formulas of the loss and of the weights say about the values returned. *)
From Coq Require Import Reals List Lra Lia Bool ZArith String QArith Qreals.
From Verif Require Import XReal ModelUtils ModelKernels ModelSfh ModelPop ModelHist ModelFit RealFacts XFacts SpecCore SpecHist SpecFit
  SigmoidProofs IntegralProofs FitProofs OptProofs FitTopProofs.
Import List ListNotations.
Open Scope R_scope.

(** ** C51 *)
Lemma guess_not_from_mass msh t s mah a b c tau floor lgt0 fb u e d mp :
  get_loss_data_default msh t s mah a b c tau floor lgt0 fb = Some ((u, e), d) ->
  last (snd (msh mah t lgt0)) NaN = Fin mp ->
  exists v1 v2 v3 v4, skipn 4 u = map Fin [v1; v2; v3; v4] /\
    (nth 0 (q_from_mass (last_ (snd (msh mah t lgt0)))) NaN = lg_qt (get_bounded_q_params (mkQ (Fin v1) (Fin v2) (Fin v3) (Fin v4))) <-> mp = 12).
Proof.
  intros H L. destruct (quench_guess_constant _ _ _ _ _ _ _ _ _ _ _ _ _ _ H) as (v1 & v2 & v3 & v4 & S & B).
  exists v1, v2, v3, v4. split; [exact S|]. rewrite B. cbn [lg_qt].
  change (last_ (snd (msh mah t lgt0))) with (last (snd (msh mah t lgt0)) NaN). rewrite L.
  rewrite <- (intended_quench_guess mp). cbn [guess_spec d_lg_qt].
  assert (E : nth 0 (q_from_mass (Fin mp)) NaN = Fin (clampR (7 / 10) (15 / 10) (15 / 10 - 1 / 2 * (mp - 11)))).
  { unfold q_from_mass. cbn [DEFAULT_Q_PARAMS q_array lg_qt qlglgdt lg_drop lg_rejuv upd nth].
    change (Fin (-1 / 2) * (Fin mp - Fin 11) + Fin (15 / 10))%X with (Fin (-1 / 2 * (mp - 11) + 15 / 10)).
    rewrite clip_fin. f_equal. f_equal. lra. }
  rewrite E. split; [intros I; injection I; auto|congruence].
Qed.

(** ** C52 *)
Lemma weight_values_returned tau dlogm tmin mmin ts ls lf w wf i : List.length ls = List.length ts -> List.length lf = List.length ts ->
  get_weights (map Fin ts) (map Fin ls) (map Fin lf) (Fin tau) (Fin dlogm) (Fin tmin) (Fin mmin) = Some (map Fin w, map Fin wf) ->
  (i < List.length ts)%nat ->
  (nth i w 0 = 1 / 2 <-> last ls 0 - nth i ls 0 < 1 / 10) /\
  (nth i w 0 = 10 ^ 10 <-> 1 / 10 <= last ls 0 - nth i ls 0 /\ ~ in_cut dlogm tmin mmin (last ls 0) (nth i ls 0) (nth i ts 0)) /\
  (nth i w 0 = 1 / 2 \/ nth i w 0 = 1 \/ nth i w 0 = 10 ^ 10).
Proof.
  intros L1 L2 H Hi. assert (N : ts <> []) by (intros ->; cbn in Hi; lia).
  destruct (weights_spec ts ls lf tau dlogm tmin mmin N L1 L2) as (w' & wf' & E & O). rewrite H in E.
  injection E as E1 E2. apply map_Fin_inj in E1. apply map_Fin_inj in E2. subst w' wf'.
  exact (weight_values _ _ _ _ _ _ _ _ _ i O Hi).
Qed.

(** ** C53 *)
Section Loss.
Variables (lmk : MahParams xr -> xr -> xr -> xr) (u : DiffstarParams R) (ts : list R) (mah : MahParams xr) (M LM S LF : list R) (tau floor : R) (W WF : list R) (lgt0 : xr) (fb : R) (h : R -> R).
Hypothesis Hne : ts <> [].
Hypothesis Hi : increasing (1 / 1000 :: ts).
Hypothesis Hh : halo_history lmk mah lgt0 h ts.
Hypothesis HM : List.length M = List.length ts. Hypothesis HLM : List.length LM = List.length ts.
Hypothesis HS : List.length S = List.length ts. Hypothesis HLF : List.length LF = List.length ts.
Hypothesis HW : List.length W = List.length ts. Hypothesis HWF : List.length WF = List.length ts.
Hypothesis PM : Forall (fun x => 0 < x) M. Hypothesis PW : Forall (fun x => 0 < x) W. Hypothesis PWF : Forall (fun x => 0 < x) WF.
Hypothesis Htau : 0 < tau. Hypothesis Hfl : 0 < floor.
Let data lq := mkLD (map Fin ts) mah (map Fin M) (map Fin LM) (map Fin S) (map Fin LF) (Fin tau) (Fin floor) (map Fin W) (map Fin WF) (Fin lq) lgt0 (Fin fb).

Lemma loss_vs_prior lq : exists p l,
  get_bounded_diffstar_params (map_d Fin u) = map_d Fin p /\
  loss_default_clipssfrh lmk (map Fin (params_list u)) (data lq) = Some (Fin l) /\
  0 < prior (d_lg_qt p) lq < 100 /\ prior (d_lg_qt p) lq <= l.
Proof.
  destruct (loss_value lmk u ts mah M LM S LF tau floor W WF lq lgt0 fb h Hne Hi Hh HM HLM HS HLF HW HWF PM PW PWF Htau Hfl)
    as (p & s & m & f & Ep & _ & _ & _ & _ & _ & _ & _ & E).
  exists p. eexists. split; [exact Ep|]. split; [exact E|]. split; [apply prior_range|apply fit_loss_ge_prior].
Qed.

Lemma loss_is_prior lq : exists p s m f l,
  get_bounded_diffstar_params (map_d Fin u) = map_d Fin p /\
  calc_sfh_singlegal_smh lmk (map_d Fin p) mah (map Fin ts) lgt0 (Fin fb) = Some (map Fin s, map Fin m) /\
  compute_fstar (map Fin ts) (map Fin m) (Fin tau) = map Fin f /\
  loss_default_clipssfrh lmk (map Fin (params_list u)) (data lq) = Some (Fin l) /\
  (l = prior (d_lg_qt p) lq <-> forall i, (i < List.length ts)%nat ->
     log10R (nth i m 0) = nth i LM 0 /\
     log10R (Rmax (nth i f 0) (nth i m 0 * (floor / 10))) = nth i LF 0 /\
     Rmax (nth i s 0) (nth i m 0 * (floor / 10)) = nth i S 0).
Proof.
  destruct (loss_value lmk u ts mah M LM S LF tau floor W WF lq lgt0 fb h Hne Hi Hh HM HLM HS HLF HW HWF PM PW PWF Htau Hfl)
    as (p & s & m & f & Ep & _ & Es & Ef & Ls & Lm & Lf & _ & E).
  exists p, s, m, f. eexists. split; [exact Ep|]. split; [exact Es|]. split; [exact Ef|]. split; [exact E|].
  apply fit_loss_eq_prior; try assumption. intros Z. apply Hne. destruct ts; [reflexivity|discriminate Z].
Qed.

(** the target time of peak enters through the penalty only *)
Lemma loss_vs_peak lq lq' : lq < lq' -> exists l l',
  loss_default_clipssfrh lmk (map Fin (params_list u)) (data lq) = Some (Fin l) /\
  loss_default_clipssfrh lmk (map Fin (params_list u)) (data lq') = Some (Fin l') /\ l < l' < l + 100 /\
  forall x y, x < y -> prior y lq < prior x lq.
Proof.
  intros L.
  destruct (loss_value lmk u ts mah M LM S LF tau floor W WF lq lgt0 fb h Hne Hi Hh HM HLM HS HLF HW HWF PM PW PWF Htau Hfl)
    as (p & s & m & f & Ep & _ & Es & Ef & _ & _ & _ & _ & E).
  destruct (loss_value lmk u ts mah M LM S LF tau floor W WF lq' lgt0 fb h Hne Hi Hh HM HLM HS HLF HW HWF PM PW PWF Htau Hfl)
    as (p' & s' & m' & f' & Ep' & _ & Es' & Ef' & _ & _ & _ & _ & E').
  assert (Q : p' = p).
  { rewrite Ep in Ep'. destruct p, p'. unfold map_d in Ep'. cbn in Ep'. injection Ep' as -> -> -> -> -> -> -> ->. reflexivity. }
  subst p'. rewrite Es in Es'. injection Es' as X1 X2. apply map_Fin_inj in X1. apply map_Fin_inj in X2. subst s' m'.
  rewrite Ef in Ef'. apply map_Fin_inj in Ef'. subst f'.
  do 2 eexists. split; [exact E|]. split; [exact E'|].
  assert (D : prior (d_lg_qt p) lq < prior (d_lg_qt p) lq').
  { pose proof (prior_decr (d_lg_qt p - lq') (d_lg_qt p - lq) 0 ltac:(lra)) as D. unfold prior in D |- *.
    replace (50 * (d_lg_qt p - lq - 0)) with (50 * (d_lg_qt p - lq)) in D by ring.
    replace (50 * (d_lg_qt p - lq' - 0)) with (50 * (d_lg_qt p - lq')) in D by ring. exact D. }
  split; [|intros x y; apply prior_decr].
  pose proof (prior_range (d_lg_qt p) lq). pose proof (prior_range (d_lg_qt p) lq'). unfold fit_loss. cbv zeta. lra.
Qed.
End Loss.
