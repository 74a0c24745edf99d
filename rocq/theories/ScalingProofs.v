(** Proofs of the population scaling relations (C103-C105). *)
From Coq Require Import Reals Lra Lia List Bool String QArith Qreals ZArith.
From Verif Require Import XReal ModelUtils ModelKernels ModelSfh ModelPopTables ModelPop SpecPop SpecScaling
  RealFacts XFacts SigmoidProofs PopProofs PopParamProofs PopKernelProofs MatrixProofs.
Import ListNotations.
Open Scope R_scope.

Lemma step_sigR x x0 k lo hi : step x x0 k lo hi = sigR x x0 k lo hi.
Proof. reflexivity. Qed.

Lemma kept_clip y0 lo hi u : lo < y0 -> kept y0 lo hi (y0 + u) = y0 + clipR u (y0 - lo) (hi - y0).
Proof.
  intros H. unfold kept, clipR, belowR. change step with sigR. unfold sigR.
  cbv zeta. set (w := (y0 - lo) / 2000).
  replace (/ w * (y0 + u - (hi - (hi - y0) / 100))) with (2000 / (y0 - lo) * (u - 99/100 * (hi - y0)))
    by (unfold w; field; lra).
  replace (/ w * (y0 + u - (lo + (y0 - lo) / 100))) with (2000 / (y0 - lo) * (u + 99/100 * (y0 - lo)))
    by (unfold w; field; lra).
  set (l1 := logisticR (2000 / (y0 - lo) * (u - 99/100 * (hi - y0)))).
  set (l2 := logisticR (2000 / (y0 - lo) * (u + 99/100 * (y0 - lo)))). field.
Qed.

Lemma line_spec P x name nb lo hi lo' hi' : pop_in_bounds P -> P (name ++ "_slp")%string <> 0 ->
  existsb (fun r => String.eqb (name ++ "_int") (fst r)) QROWS = true ->
  existsb (fun r => String.eqb (name ++ "_slp") (fst r)) QROWS = true ->
  assoc (name ++ "_int")%string POP_BOUNDS = Some (lo, hi) -> getattr BOUNDING_VALS_PDICT nb = Some (lo, hi) ->
  Q2R lo = lo' -> Q2R hi = hi' ->
  line_model (Fin x) (attr (QP P) (name ++ "_int")) (attr (QP P) (name ++ "_slp")) (BOUNDING_VALS nb)
  = Fin (line_in P name lo' hi' x).
Proof.
  intros Hb Hs H1 H2 H3 H4 <- <-. rewrite (attr_q P _ H1), (attr_q P _ H2), (bounding_vals _ _ H4).
  assert (B := bound_of P _ _ _ Hb H3). unfold line_model, QQ2X, Q2X, LGM_X0. cbn [fst snd].
  rewrite clipped_fin by (auto; lra). apply f_equal. unfold line_in, line_y. rewrite kept_clip by lra. reflexivity.
Qed.

Lemma bent_spec P x name :
  existsb (fun r => String.eqb (name ++ "_xtp") (fst r)) QROWS = true ->
  existsb (fun r => String.eqb (name ++ "_ytp") (fst r)) QROWS = true ->
  existsb (fun r => String.eqb (name ++ "_lo") (fst r)) QROWS = true ->
  existsb (fun r => String.eqb (name ++ "_hi") (fst r)) QROWS = true ->
  Mcrit_model (Fin x) (attr (QP P) (name ++ "_xtp")) (attr (QP P) (name ++ "_ytp"))
     (attr (QP P) (name ++ "_lo")) (attr (QP P) (name ++ "_hi")) = Fin (bent P name x).
Proof.
  intros H1 H2 H3 H4. rewrite (attr_q P _ H1), (attr_q P _ H2), (attr_q P _ H3), (attr_q P _ H4).
  unfold Mcrit_model, sig_slope. rewrite sigmoid_fin. reflexivity.
Qed.

Ltac lines P Hb Hs :=
  repeat match goal with
  | |- context [line_model (Fin ?x) (attr (QP P) ?i) (attr (QP P) ?s) (BOUNDING_VALS ?nb)] =>
    let n := eval vm_compute in (substring 0 (String.length i - 4) i) in
    change i with (n ++ "_int")%string; change s with (n ++ "_slp")%string;
    rewrite (line_spec P x n nb _ _ _ _ Hb (slope_of P (n ++ "_slp")%string Hs eq_refl) eq_refl eq_refl eq_refl eq_refl eq_refl eq_refl)
  end.
Ltac bents P :=
  repeat match goal with
  | |- context [Mcrit_model (Fin ?x) (attr (QP P) ?a) (attr (QP P) ?b) (attr (QP P) ?c) (attr (QP P) ?d)] =>
    let n := eval vm_compute in (substring 0 (String.length a - 4) a) in
    change (Mcrit_model (Fin x) (attr (QP P) a) (attr (QP P) b) (attr (QP P) c) (attr (QP P) d)) with
      (Mcrit_model (Fin x) (attr (QP P) (n ++ "_xtp")) (attr (QP P) (n ++ "_ytp"))
         (attr (QP P) (n ++ "_lo")) (attr (QP P) (n ++ "_hi")));
    rewrite (bent_spec P x n eq_refl eq_refl eq_refl eq_refl)
  end.

Lemma q2r_int a : Q2R (a # 1) = IZR a.
Proof. rewrite q2r. cbn [Qnum Qden]. field. Qed.
Lemma q2r_frac a b : Q2R (a # b) = IZR a / IZR (Zpos b).
Proof. apply q2r. Qed.
Ltac consts := rewrite ?q2r_int, ?(q2r_frac 1 100), ?(q2r_frac 1 2).

Section Rel.
Variable P : string -> R.
Hypothesis Hb : pop_in_bounds P.
Hypothesis Hs : slopes_nonzero P.

Lemma mean_ms_eq m : get_mean_u_params_mseq (QP P) (Fin m) = map Fin (mean_ms P m).
Proof. unfold get_mean_u_params_mseq. bents P. lines P Hb Hs. consts. reflexivity. Qed.
Lemma mean_q_eq m tp : get_mean_u_params_qseq (QP P) (Fin m) (Fin tp) = map Fin (mean_q P m tp).
Proof.
  unfold get_mean_u_params_qseq, delta_uqt. bents P. lines P Hb Hs. consts. attrs. rewrite sigmoid_fin.
  unfold mean_q. cbn [map]. xr_simp. do 4 apply f_equal.
  match goal with |- ?a :: ?l = ?b :: ?l => replace b with a; [reflexivity|] end.
  apply f_equal. change step with sigR. ring.
Qed.
Lemma std_ms_eq m : get_cov_params_mseq_ms_block (QP P) (Fin m) = (map Fin (std_ms "mseq" P m), zeros 6).
Proof. unfold get_cov_params_mseq_ms_block. lines P Hb Hs. consts. reflexivity. Qed.
Lemma std_qms_eq m : get_cov_params_qseq_ms_block (QP P) (Fin m) = (map Fin (std_ms "qseq" P m), zeros 6).
Proof. unfold get_cov_params_qseq_ms_block. lines P Hb Hs. consts. reflexivity. Qed.
Lemma std_q_eq m : get_cov_params_qseq_q_block (QP P) (Fin m) = (map Fin (std_q P m), zeros 6).
Proof. unfold get_cov_params_qseq_q_block. lines P Hb Hs. consts. reflexivity. Qed.
End Rel.

Lemma cov_uncorrelated a b c d : covariance_block (map Fin [a; b; c; d], zeros 6) = uncorrelated [a; b; c; d].
Proof.
  cbn [map]. rewrite list4, covariance_block_fin. unfold uncorrelated, real_matrix. cbn [List.length List.seq map].
  cbn [fseq4 Nat.eqb nth]. unfold pow. rewrite !Rmult_1_r. reflexivity.
Qed.

Lemma frac_cen_eq P m tp : frac_quench_cen (QP P) (Fin m) (Fin tp) = Fin (frac "cen" P m tp).
Proof. unfold frac_quench_cen. attrs. rewrite !sigmoid_fin. reflexivity. Qed.
Lemma frac_sat_eq P m tp : frac_quench_sat (QP P) (Fin m) (Fin tp) = Fin (frac "sat" P m tp).
Proof. unfold frac_quench_sat. attrs. rewrite !sigmoid_fin. reflexivity. Qed.
Lemma qprob_sat_eq P m tp mu mh gy :
  get_qprob_sat (SP P) (Fin mu) (Fin mh) (Fin gy) (Fin (frac "sat" P m tp)) = Fin (frac_sat P m tp mu mh gy).
Proof.
  unfold get_qprob_sat, predict_sat_frac_delta_qprob, qprob_hi_vs_sub_host_mass, t_delay_vs_logmhost, satquench_kernel,
    LGMU_SPEED, DEFAULT_LGMH_K, DEFAULT_Q_SPEED. attrs. rewrite !sigmoid_fin. xr_simp. apply f_equal.
  unfold frac_sat, infall_quenched. change step with sigR. ring.
Qed.

(** C103 *)
Lemma relations : forall p P m tp mu mh gy, holds "" p P -> pop_in_bounds P -> slopes_nonzero P ->
  diffstarpop_means_covs p (Fin m) (Fin tp) (Fin mu) (Fin mh) (Fin gy) = Some (mkMC
    (Fin (frac "cen" P m tp)) (Fin (frac_sat P m tp mu mh gy))
    (map Fin (mean_ms P m)) (map Fin (mean_q P m tp))
    (uncorrelated (std_ms "mseq" P m)) (uncorrelated (std_ms "qseq" P m)) (uncorrelated (std_q P m))).
Proof.
  intros p P m tp mu mh gy Hp Hb Hs. rewrite (means_covs_eq p P) by auto. cbv zeta.
  unfold sfh_pdf_scalar_kernel. cbn [mc_frac_cen mc_frac_sat mu_mseq mu_qseq cov_mseq_ms cov_qseq_ms cov_qseq_q].
  rewrite frac_cen_eq, frac_sat_eq, qprob_sat_eq.
  rewrite (mean_ms_eq P Hb Hs), (mean_q_eq P Hb Hs).
  unfold get_covariance_mseq_ms_block, get_covariance_qseq_ms_block, get_covariance_qseq_q_block.
  rewrite (std_ms_eq P Hb Hs), (std_qms_eq P Hb Hs), (std_q_eq P Hb Hs).
  unfold std_ms, std_q. rewrite !cov_uncorrelated. reflexivity.
Qed.

(** ** How well a line is kept *)
Lemma scaled_small a v : 0 < a -> 0 <= v -> 0 <= v * logisticR (- (2000 / a * v)) <= a / 6000.
Proof.
  intros Ha Hv. split; [|now apply scaled_logistic_opp_le].
  assert (L := logistic_range (- (2000 / a * v))). set (l := logisticR _) in *. nra.
Qed.

Lemma kept_close y0 lo hi y : lo < y0 -> y0 < hi ->
  Rabs (kept y0 lo hi y - Rmax (lo + (y0 - lo) / 100) (Rmin (hi - (hi - y0) / 100) y)) <= (y0 - lo) / 6000.
Proof.
  intros H1 H2. replace y with (y0 + (y - y0)) at 1 by ring. rewrite kept_clip by auto.
  set (u := y - y0). set (A := y0 - lo). set (B := hi - y0).
  assert (HA : 0 < A) by (unfold A; lra). assert (HB : 0 < B) by (unfold B; lra).
  assert (E : Rmax (lo + A / 100) (Rmin (hi - B / 100) y) = y0 + Rmax (- (99/100) * A) (Rmin (99/100 * B) u)).
  { unfold Rmax, Rmin, A, B, u. repeat destruct Rle_dec; lra. }
  rewrite E. replace (y0 + clipR u A B - (y0 + Rmax (- (99/100) * A) (Rmin (99/100 * B) u)))
    with (clipR u A B - Rmax (- (99/100) * A) (Rmin (99/100 * B) u)) by ring.
  clear E H1 H2. clearbody A B u. clear y0 lo hi y.
  (* first stage *)
  assert (S1 : - (A / 6000) <= belowR u A - Rmax (- (99/100) * A) u <= 0).
  { unfold belowR. set (v := u + 99/100 * A). destruct (Rle_lt_dec 0 v) as [Hv|Hv].
    - rewrite Rmax_right by (unfold v in Hv; lra).
      assert (S := scaled_small A v HA Hv). rewrite logistic_opp in S.
      set (l := logisticR (2000 / A * v)) in *. unfold v in *. nra.
    - rewrite Rmax_left by (unfold v in Hv; lra).
      assert (S := scaled_small A (- v) HA ltac:(lra)).
      replace (- (2000 / A * - v)) with (2000 / A * v) in S by ring.
      set (l := logisticR (2000 / A * v)) in *. nra. }
  unfold clipR. set (y := belowR u A) in *. set (w := u - 99/100 * B).
  assert (L := logistic_range (2000 / A * w)).
  destruct (Rle_lt_dec 0 w) as [Hw|Hw].
  - (* above the upper stop *)
    rewrite (Rmin_left (99/100 * B) u) by (unfold w in Hw; lra).
    rewrite Rmax_right in S1 by (unfold w in Hw; lra). rewrite Rmax_right by lra.
    assert (S := scaled_small A w HA Hw). rewrite logistic_opp in S. set (l := logisticR (2000 / A * w)) in *.
    replace (y + (99/100 * B - y) * l - 99/100 * B) with ((y - 99/100 * B) * (1 - l)) by ring.
    assert (y - 99/100 * B <= w) by (unfold w; lra). assert (w - A / 6000 <= y - 99/100 * B) by (unfold w; lra).
    apply Rabs_le. split; nra.
  - (* below it *)
    rewrite (Rmin_right (99/100 * B) u) by (unfold w in Hw; lra).
    assert (S := scaled_small A (- w) HA ltac:(lra)).
    replace (- (2000 / A * - w)) with (2000 / A * w) in S by ring. set (l := logisticR (2000 / A * w)) in *.
    set (M := Rmax (- (99/100) * A) u) in *.
    assert (HM : u <= M <= 99/100 * B).
    { unfold M. split; [apply Rmax_r|]. apply Rmax_lub; [|unfold w in Hw]; lra. }
    replace (y + (99/100 * B - y) * l - M) with ((y - M) * (1 - l) + (99/100 * B - M) * l) by ring.
    assert (0 <= (99/100 * B - M) * l <= - w * l) by (unfold w; split; nra).
    apply Rabs_le. split; nra.
Qed.
