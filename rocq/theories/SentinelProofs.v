(** Satellites that have not fallen in yet. *)
From Coq Require Import Reals Lra Lia List Bool ZArith String QArith Qreals.
From Verif Require Import XReal ModelUtils ModelKernels ModelSfh ModelPopTables ModelPop RealFacts XFacts SpecCore SpecPop SpecPopFit
  PopParamProofs PopKernelProofs.
Import ListNotations.
Open Scope R_scope.

Lemma qp_same P P' : (forall n, In n pop_names -> ~ In n infall_names -> P n = P' n) -> QP P = QP P'.
Proof.
  intros H. unfold QP. apply map_ext_in. intros r Hr. f_equal. f_equal. apply H.
  - now apply in_names_q.
  - assert (C : forallb (fun r => negb (existsb (String.eqb (fst r)) infall_names)) QROWS = true) by (vm_compute; reflexivity).
    rewrite forallb_forall in C. specialize (C r Hr). apply negb_true_iff in C. intros I.
    rewrite (proj2 (existsb_exists _ _)) in C; [discriminate|]. exists (fst r). split; [exact I|apply String.eqb_refl].
Qed.
Lemma logistic_le_exp x : logisticR x <= exp x.
Proof.
  unfold logisticR. replace (exp x) with (/ exp (- x)) by (rewrite exp_Ropp, Rinv_inv; reflexivity).
  assert (H := exp_pos (- x)). apply Rinv_le_contravar; lra.
Qed.
Lemma infall_blind : forall p P p' P' m tp mu mh, holds "" p P -> holds "" p' P' -> pop_in_bounds P -> pop_in_bounds P' ->
  (forall n, In n pop_names -> ~ In n infall_names -> P n = P' n) ->
  exists mc mc' f f',
    diffstarpop_means_covs p (Fin m) (Fin tp) (Fin mu) (Fin mh) (Fin (-99)) = Some mc /\
    diffstarpop_means_covs p' (Fin m) (Fin tp) (Fin mu) (Fin mh) (Fin (-99)) = Some mc' /\
    mc_frac_sat mc = Fin f /\ mc_frac_sat mc' = Fin f' /\ Rabs (f - f') <= exp (-470) /\
    mc_frac_cen mc = mc_frac_cen mc' /\ mu_mseq mc = mu_mseq mc' /\ mu_qseq mc = mu_qseq mc' /\
    cov_mseq_ms mc = cov_mseq_ms mc' /\ cov_qseq_ms mc = cov_qseq_ms mc' /\ cov_qseq_q mc = cov_qseq_q mc'.
Proof.
  intros p P p' P' m tp mu mh Hp Hp' Hb Hb' HE.
  destruct (frac_sat_range P m tp Hb) as (q & E2 & R2).
  destruct (qprob_sat_fin P mu mh q Hb) as (h & t & Hh & Ht & E3).
  destruct (qprob_sat_fin P' mu mh q Hb') as (h' & t' & Hh' & Ht' & E3').
  rewrite (means_covs_eq p P) by assumption. rewrite (means_covs_eq p' P') by assumption. rewrite <- (qp_same P P' HE).
  eexists. eexists. eexists. eexists. split; [reflexivity|]. split; [reflexivity|].
  cbn [mc_frac_sat mc_frac_cen mu_mseq mu_qseq cov_mseq_ms cov_qseq_ms cov_qseq_q sfh_pdf_scalar_kernel]. rewrite E2, E3, E3'.
  split; [reflexivity|]. split; [reflexivity|]. split; [|repeat split].
  assert (B : forall h t, 0 < h < 1 -> -5 < t < 10 -> 0 <= h * logisticR (5 * (-99 - t)) * (1 - q) <= exp (-470)).
  { clear -R2. intros h t Hh Ht. assert (L := logistic_range (5 * (-99 - t))). assert (X := logistic_le_exp (5 * (-99 - t))).
    assert (Y : exp (5 * (-99 - t)) <= exp (-470)) by (left; apply exp_increasing; lra).
    set (l := logisticR _) in *. set (e := exp (-470)) in *. assert (0 < h * l <= e) by nra. split; [nra|].
    assert (h * l * (1 - q) <= h * l) by nra. lra. }
  assert (B1 := B h t Hh Ht). assert (B2 := B h' t' Hh' Ht'). apply Rabs_le. lra.
Qed.
