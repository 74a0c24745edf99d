(** Fits started at a galaxy that quenches after the data end. *)
From Coq Require Import Reals Lra Lia List Psatz ZArith.
From Coquelicot Require Import Coquelicot.
From Verif Require Import XReal XFacts RealFacts ModelUtils ModelKernels ModelSfh ModelHist ModelFit ModelGrad SpecCore SpecHist SpecFit SpecGrad SigmoidProofs TriweightProofs QuenchProofs IntegralProofs SfhProofs DtProofs FstarProofs FitProofs OptProofs FitTopProofs GradProofs ModelAdam SpecAdam SpecLate HistProofs LossProofs GradTop AdamProofs AdamFit.
Import List ListNotations.
Open Scope R_scope.

Lemma bounded_eq u p : get_bounded_diffstar_params (map_d Fin u) = map_d Fin p -> p = bounded_of u.
Proof.
  intros Ep. pose proof (bounded_diffstar_fin u) as B. rewrite Ep in B. clear -B. unfold bounded_of.
  set (q := join_params _ _) in *. clearbody q. destruct p, q. unfold map_d in B. cbn in B. injection B as -> -> -> -> -> -> -> ->. reflexivity.
Qed.
Lemma late_one t p : 0 < t -> t < pow10R (d_lg_qt p - pow10R (d_qlglgdt p) / 2) ->
  quench_spec (d_lg_qt p) (pow10R (d_qlglgdt p)) (d_lg_drop p) (d_lg_rejuv p) (log10R t) = 1.
Proof. intros H L. apply quench_spec_before; [apply pow10_pos|]. apply log10_le_iff; lra. Qed.

Section Steady.
Variable u v : DiffstarParams R.
Hypothesis V0 : d_lgmcrit v = 0. Hypothesis V1 : d_lgy_at_mcrit v = 0. Hypothesis V2 : d_indx_lo v = 0. Hypothesis V3 : d_indx_hi v = 0.
Lemma bnd_cont x w lo hi : continuous ((fun s => bndR (x + s * w) lo hi) : R -> R) 0.
Proof.
  apply (ex_derive_continuous (V := R_NormedModule)). pose proof (is_derive_bnd (x + 0 * w) lo hi) as B.
  assert (D1 : is_derive (fun s => x + s * w) 0 w) by (auto_derive; [exact I|ring]).
  pose proof (is_derive_comp (V := R_NormedModule) (fun x => bndR x lo hi) (fun s => x + s * w) 0 _ _ B D1) as C. eexists. exact C.
Qed.
Lemma pow10_cont y : continuous (pow10R : R -> R) y.
Proof. apply (ex_derive_continuous (V := R_NormedModule)). unfold pow10R, Rpower. auto_derive. exact I. Qed.
Lemma late_steady fb h ts : Forall (fun t => 0 < t) ts -> quenches_after ts (bounded_of u) -> steady u v fb h ts.
Proof.
  unfold steady, quenches_after. intros HP HL. rewrite Forall_forall in *. intros t It. specialize (HP t It). specialize (HL t It). clear It.
  assert (C : continuous ((fun s => pow10R (d_lg_qt (bounded_of (move u v s)) - pow10R (d_qlglgdt (bounded_of (move u v s))) / 2)) : R -> R) 0).
  { apply (continuous_comp (fun s => d_lg_qt (bounded_of (move u v s)) - pow10R (d_qlglgdt (bounded_of (move u v s))) / 2) pow10R); [|apply pow10_cont].
    apply (continuous_minus (V := R_NormedModule)).
    - exact (bnd_cont (d_lg_qt u) (d_lg_qt v) (1 / 10) 2).
    - apply (continuous_scal_l (V := R_NormedModule) (fun s => pow10R (d_qlglgdt (bounded_of (move u v s)))) (/ 2)).
      apply (continuous_comp (fun s => d_qlglgdt (bounded_of (move u v s))) pow10R); [|apply pow10_cont].
      exact (bnd_cont (d_qlglgdt u) (d_qlglgdt v) (-3) (-1 / 100)). }
  assert (B : locally 0 (fun s => t < pow10R (d_lg_qt (bounded_of (move u v s)) - pow10R (d_qlglgdt (bounded_of (move u v s))) / 2))).
  { apply (C (fun y => t < y)), open_gt. rewrite move_0. exact HL. }
  unfold flat. eapply filter_imp; [|exact B]. cbn beta. intros s Hs. unfold sfr_unfloored.
  rewrite (late_one t _ HP Hs), (late_one t (bounded_of (move u v 0)) HP) by (rewrite move_0; exact HL).
  f_equal. unfold ms_spec, eff_spec.
  assert (E : d_lgmcrit (bounded_of (move u v s)) = d_lgmcrit (bounded_of (move u v 0)) /\ d_lgy_at_mcrit (bounded_of (move u v s)) = d_lgy_at_mcrit (bounded_of (move u v 0)) /\
    d_indx_lo (bounded_of (move u v s)) = d_indx_lo (bounded_of (move u v 0)) /\ d_indx_hi (bounded_of (move u v s)) = d_indx_hi (bounded_of (move u v 0))).
  { unfold bounded_of, move. cbn. rewrite V0, V1, V2, V3, !Rmult_0_r. auto. }
  destruct E as (-> & -> & -> & ->). reflexivity.
Qed.
End Steady.

Lemma late_gradient lmk u ts mah M LM S LF tau floor W WF lq lgt0 fb h p :
  ts <> [] -> increasing (1 / 1000 :: ts) -> halo_history lmk mah lgt0 h ts ->
  length M = length ts -> length LM = length ts -> length S = length ts -> length LF = length ts ->
  length W = length ts -> length WF = length ts ->
  Forall (fun x => 0 < x) M -> Forall (fun x => 0 < x) W -> Forall (fun x => 0 < x) WF -> 0 < tau -> 0 < floor ->
  get_bounded_diffstar_params (map_d Fin u) = map_d Fin p -> quenches_after ts p ->
  exists g0 g1 g2 g3 g, g < 0 /\
    loss_grad_default_clipssfrh lmk (map Fin (params_list u))
      (mkLD (map Fin ts) mah (map Fin M) (map Fin LM) (map Fin S) (map Fin LF) (Fin tau) (Fin floor) (map Fin W) (map Fin WF) (Fin lq) lgt0 (Fin fb))
    = Some (map Fin [g0; g1; g2; g3; g; 0; 0; 0]).
Proof.
  intros Hne Hi Hh HM HLM HS HLF HW HWF PM PW PWF Htau Hfl Ep Hs. apply bounded_eq in Ep. subst p.
  destruct (prior_slope (d_lg_qt u) lq) as (g4 & Hneg & D4).
  assert (PT : Forall (fun t => 0 < t) ts) by (eapply Forall_impl; [|exact Hh]; intros t [A _]; exact A).
  destruct (tr_loss u u False lmk mah lgt0 fb h ts Hne Hi Hh tau floor Htau Hfl S M LM LF W WF HS HM HLM HLF HW HWF PM PW PWF lq
    (fun k => False_ind _ k)) as (l & El & _ & g & Hg & _).
  assert (Hd : forall v, d_lgmcrit v = 0 -> d_lgy_at_mcrit v = 0 -> d_indx_lo v = 0 -> d_indx_hi v = 0 -> dot (dir v) g = d_lg_qt v * g4).
  { intros v V0 V1 V2 V3. pose proof (late_steady u v V0 V1 V2 V3 fb h ts PT Hs) as St.
    destruct (tr_loss u v True lmk mah lgt0 fb h ts Hne Hi Hh tau floor Htau Hfl S M LM LF W WF HS HM HLM HLF HW HWF PM PW PWF lq
      (fun _ => or_intror (or_intror St))) as (l' & El' & _ & g' & Hg' & D). specialize (D I).
    rewrite El in El'. injection El' as <-.
    assert (Q : forall i, g' i = g i) by (intros i; pose proof (Hg i) as A; pose proof (Hg' i) as B; rewrite A in B; injection B as B; symmetry; exact B).
    replace (dot (dir v) g') with (dot (dir v) g) in D by (unfold dot; rewrite !Q; reflexivity).
    rewrite <- (is_derive_unique _ _ _ D). apply is_derive_unique.
    set (s0 := map (fun t => sfr_spec (bounded_of (move u v 0)) fb (h t) t) ts).
    set (C := fit_loss floor s0 (massR ts s0) (fstarR ts (massR ts s0) tau) S M LM LF W WF 0 lq - prior 0 lq).
    apply (is_derive_ext_loc (fun s => C + prior (bndR (d_lg_qt u + s * d_lg_qt v) (1 / 10) 2) lq)).
    - eapply filter_imp; [|exact (steady_flat u v fb h ts St)]. cbn beta. intros s Es. rewrite Es. fold s0.
      unfold C, fit_loss. cbn. ring.
    - assert (D1 : is_derive (fun s => d_lg_qt u + s * d_lg_qt v) 0 (d_lg_qt v)) by (auto_derive; [exact I|ring]).
      assert (D4' : is_derive (fun x => prior (bndR x (1 / 10) 2) lq) (d_lg_qt u + 0 * d_lg_qt v) g4) by (replace (d_lg_qt u + 0 * d_lg_qt v) with (d_lg_qt u) by ring; exact D4).
      pose proof (is_derive_comp (V := R_NormedModule) (fun x => prior (bndR x (1 / 10) 2) lq) (fun s => d_lg_qt u + s * d_lg_qt v) 0 _ _ D4' D1) as Cc.
      pose proof (is_derive_plus (V := R_NormedModule) (fun _ => C) _ 0 _ _ (is_derive_const (V := R_NormedModule) C 0) Cc) as A.
      unfold plus, zero, scal in A; cbn in A. unfold mult in A; cbn in A. rewrite Rplus_0_l in A. exact A. }
  pose proof (Hd (mkDiffstar 0 0 0 0 1 0 0 0) eq_refl eq_refl eq_refl eq_refl) as H4. pose proof (Hd (mkDiffstar 0 0 0 0 0 1 0 0) eq_refl eq_refl eq_refl eq_refl) as H5.
  pose proof (Hd (mkDiffstar 0 0 0 0 0 0 1 0) eq_refl eq_refl eq_refl eq_refl) as H6. pose proof (Hd (mkDiffstar 0 0 0 0 0 0 0 1) eq_refl eq_refl eq_refl eq_refl) as H7.
  unfold dot, dir in *. cbn in H4, H5, H6, H7. clear Hd.
  exists (g 0%nat), (g 1%nat), (g 2%nat), (g 3%nat), g4. split; [exact Hneg|].
  unfold loss_grad_default_clipssfrh. rewrite map_length. change (length (params_list u)) with 8%nat. rewrite El.
  cbn [seq map]. rewrite !Hg. repeat f_equal; lra.
Qed.

Lemma bnd_mono lo hi x y : lo < hi -> x <= y -> bndR x lo hi <= bndR y lo hi.
Proof.
  intros H L. unfold bndR, sigR. apply Rplus_le_compat_l, Rmult_le_compat_l; [lra|]. apply logistic_le, Rmult_le_compat_l; [|lra].
  apply Rlt_le, Rdiv_lt_0_compat; lra.
Qed.
(** Once late, always late. *)
Lemma later_late u w ts : d_qlglgdt w = d_qlglgdt u -> d_lg_qt u <= d_lg_qt w -> quenches_after ts (bounded_of u) -> quenches_after ts (bounded_of w).
Proof.
  unfold quenches_after. intros E Q H. eapply Forall_impl; [|exact H]. cbn beta. intros t Ht. eapply Rlt_le_trans; [exact Ht|]. apply pow10_le.
  assert (A : d_qlglgdt (bounded_of w) = d_qlglgdt (bounded_of u)) by (unfold bounded_of; cbn; rewrite E; reflexivity). rewrite A.
  enough (d_lg_qt (bounded_of u) <= d_lg_qt (bounded_of w)) by lra. exact (bnd_mono (1 / 10) 2 _ _ ltac:(lra) Q).
Qed.

Lemma late_fit lmk d h ts fb u p : fit_data lmk d h -> ld_t d = map Fin ts -> ld_fb d = Fin fb ->
  get_bounded_diffstar_params (map_d Fin u) = map_d Fin p -> quenches_after ts p ->
  forall minimize nstep x f, (0 < nstep)%nat -> minimize (map Fin (params_list u)) = (x, f, false) ->
  exists u' p' l, minimizer (fit_loss_fn lmk d) (fit_grad_fn lmk d) minimize AdamState adam_init adam_update adam_params (map Fin (params_list u)) nstep [] =
      Some (map Fin (params_list u'), Fin l, 0%Z) /\
    d_lg_qt u <= d_lg_qt u' /\ d_qlglgdt u' = d_qlglgdt u /\ d_lg_drop u' = d_lg_drop u /\ d_lg_rejuv u' = d_lg_rejuv u /\
    get_bounded_diffstar_params (map_d Fin u') = map_d Fin p' /\ quenches_after ts p' /\
    calc_sfh_singlegal lmk (map_d Fin p') (ld_mah d) (map Fin ts) (ld_lgt0 d) (Fin fb) =
      map (fun t => Fin (Rmax (1 / 10 ^ 14) (ms_spec p' fb (h t)))) ts.
Proof.
  intros HD ET EF Ep Hs minimize nstep x f Hn Hm. apply bounded_eq in Ep. subst p.
  destruct (fallback lmk d h HD minimize u nstep x f Hn Hm) as (u' & l & l' & A & _ & _ & _ & _ & FZ).
  destruct HD as (ts' & mah & M & LM & S & LF & tau & floor & W & WF & lq & lgt0 & fb' & Ed & H1 & H2 & H3 & H4 & H5 & H6 & H7 & H8 & H9 & H10 & H11 & H12 & H13 & H14).
  assert (ts' = ts) as -> by (rewrite Ed in ET; apply map_Fin_inj in ET; exact ET).
  assert (fb' = fb) as -> by (rewrite Ed in EF; cbn in EF; injection EF as ->; reflexivity).
  assert (HZ : forall w, (forall j, (5 <= j)%nat -> nth j (params_list w) 0 = nth j (params_list u) 0) -> d_lg_qt u <= d_lg_qt w ->
      exists g, fit_grad_fn lmk d (map Fin (params_list w)) = map Fin g /\ (forall j, (5 <= j)%nat -> nth j g 0 = 0) /\ nth 4 g 0 <= 0).
  { intros w K Q.
    destruct (late_gradient lmk w ts mah M LM S LF tau floor W WF lq lgt0 fb h _ H1 H2 H3 H4 H5 H6 H7 H8 H9 H10 H11 H12 H13 H14 (bounded_diffstar_fin w)) as (g0 & g1 & g2 & g3 & g & Gn & Eg).
    { apply (later_late u w); [exact (K 5%nat ltac:(lia))|exact Q|exact Hs]. }
    exists [g0; g1; g2; g3; g; 0; 0; 0]. split; [unfold fit_grad_fn; rewrite Ed, Eg; reflexivity|]. split; [|cbn; lra].
    intros j Hj. do 5 (destruct j as [|j]; [lia|]). do 3 (destruct j as [|j]; [reflexivity|]). destruct j; reflexivity. }
  destruct (FZ _ HZ) as [J Q]. pose proof (J 5%nat ltac:(lia)) as J5. pose proof (J 6%nat ltac:(lia)) as J6. pose proof (J 7%nat ltac:(lia)) as J7.
  change (d_qlglgdt u' = d_qlglgdt u) in J5. change (d_lg_drop u' = d_lg_drop u) in J6. change (d_lg_rejuv u' = d_lg_rejuv u) in J7.
  pose proof (later_late u u' ts J5 Q Hs) as L.
  exists u', (bounded_of u'), l'. split; [exact A|]. split; [exact Q|]. split; [exact J5|]. split; [exact J6|]. split; [exact J7|]. split; [exact (bounded_diffstar_fin u')|]. split; [exact L|].
  rewrite Ed. cbn [ld_mah ld_lgt0]. rewrite (calc_sfh_value _ _ _ _ _ _ _ H3), map_map. apply map_ext_in. intros t It.
  unfold halo_history in H3. unfold quenches_after in L. rewrite Forall_forall in H3, L. destruct (H3 t It) as [Pt _].
  f_equal. unfold sfr_spec. rewrite (late_one t _ Pt (L t It)). f_equal. ring.
Qed.

(** Shape and depth of a late quenching event do not matter to the loss. *)
Lemma late_loss lmk d h ts u u' p p' : fit_data lmk d h -> ld_t d = map Fin ts ->
  get_bounded_diffstar_params (map_d Fin u) = map_d Fin p -> quenches_after ts p ->
  get_bounded_diffstar_params (map_d Fin u') = map_d Fin p' -> quenches_after ts p' ->
  d_lgmcrit u = d_lgmcrit u' -> d_lgy_at_mcrit u = d_lgy_at_mcrit u' -> d_indx_lo u = d_indx_lo u' -> d_indx_hi u = d_indx_hi u' -> d_lg_qt u = d_lg_qt u' ->
  exists l, loss_default_clipssfrh lmk (map Fin (params_list u)) d = Some (Fin l) /\ loss_default_clipssfrh lmk (map Fin (params_list u')) d = Some (Fin l).
Proof.
  intros HD ET Ep Hs Ep' Hs' E0 E1 E2 E3 E4. apply bounded_eq in Ep, Ep'. subst p p'.
  destruct (fit_ok lmk d h HD (params_list u) eq_refl) as (v & _ & F & _). apply loss_some in F.
  destruct (fit_ok lmk d h HD (params_list u') eq_refl) as (v' & _ & F' & _). apply loss_some in F'.
  exists v. split; [exact F|]. rewrite F'. do 2 f_equal.
  destruct HD as (ts' & mah & M & LM & S & LF & tau & floor & W & WF & lq & lgt0 & fb & Ed & H1 & H2 & H3 & H4 & H5 & H6 & H7 & H8 & H9 & H10 & H11 & H12 & H13 & H14).
  assert (ts' = ts) as -> by (rewrite Ed in ET; apply map_Fin_inj in ET; exact ET). rewrite Ed in F, F'.
  rewrite <- (move_0 u u) in F. rewrite <- (move_0 u' u) in F'.
  pose proof (loss_line lmk u u 0 ts mah M LM S LF tau floor W WF lq lgt0 fb h v H1 H2 H3 H4 H5 H6 H7 H8 H9 H10 H11 H12 H13 H14 F) as L. cbv zeta in L.
  pose proof (loss_line lmk u' u 0 ts mah M LM S LF tau floor W WF lq lgt0 fb h v' H1 H2 H3 H4 H5 H6 H7 H8 H9 H10 H11 H12 H13 H14 F') as L'. cbv zeta in L'.
  rewrite !move_0 in L, L'.
  assert (SE : map (fun t => sfr_spec (bounded_of u') fb (h t) t) ts = map (fun t => sfr_spec (bounded_of u) fb (h t) t) ts).
  { apply map_ext_in. intros t It. unfold halo_history in H3. unfold quenches_after in Hs, Hs'. rewrite Forall_forall in H3, Hs, Hs'. destruct (H3 t It) as [Pt _].
    unfold sfr_spec. rewrite (late_one t _ Pt (Hs t It)), (late_one t _ Pt (Hs' t It)). f_equal. f_equal. unfold ms_spec, eff_spec, bounded_of. cbn. rewrite E0, E1, E2, E3. reflexivity. }
  rewrite SE in L'. assert (QE : d_lg_qt (bounded_of u') = d_lg_qt (bounded_of u)) by (unfold bounded_of; cbn; rewrite E4; reflexivity). rewrite QE in L'. rewrite L, L'. reflexivity.
Qed.

(** ** A galaxy that quenches after 10 Gyr, fitted to a table ending at 1 Gyr. *)
Lemma ex_late : quenches_after [1] (bounded_of (mkDiffstar (45 / 4) 0 0 0 (21 / 20) (-301 / 200) 0 0)).
Proof.
  unfold quenches_after. repeat constructor. rewrite <- pow10_0 at 1. apply pow10_lt. unfold bounded_of. cbn.
  assert (A : pow10R (bndR (-301 / 200) (-3) (-1 / 100)) < 1) by (rewrite <- pow10_0; apply pow10_lt; pose proof (bnd_range (-301 / 200) (-3) (-1 / 100)); lra).
  assert (B : bndR (21 / 20) (1 / 10) 2 = 21 / 20) by (unfold bndR, sigR; replace (21 / 20 - (1 / 10 + 2) / 2) with 0 by field; rewrite Rmult_0_r, logistic_0; field).
  rewrite B. lra.
Qed.
