(** Quenching function. *)
From Coq Require Import Reals Lra Lia List Bool.
From Coquelicot Require Import Coquelicot.
From Verif Require Import XReal XFacts RealFacts ModelUtils ModelKernels ModelSfh SpecCore
  SigmoidProofs TriweightProofs.
Import List ListNotations.
Open Scope R_scope.

(** exponent as a function of the scaled time y *)
Definition qexpR (drop rejuv y : R) : R :=
  if Rlt_dec y 0 then drop * twR (y + 3) else drop - (drop - rejuv) * twR (y - 3).
Definition quenchR (lgt qt dt drop rejuv : R) : R :=
  pow10R (qexpR drop rejuv ((lgt - qt) / (dt / 12))).

Lemma quenching_kern_fin lgt qt dt drop rejuv : dt <> 0 ->
  quenching_kern (Fin lgt) (Fin qt) (Fin dt) (Fin drop) (Fin rejuv)
  = Fin (quenchR lgt qt dt drop rejuv).
Proof.
  intros H. unfold quenching_kern, jax_partial_u_tw_kern, quenchR, qexpR. xr_simp.
  rewrite (xdiv_fin dt 12) by lra.
  assert (dt / 12 <> 0) by (unfold Rdiv; apply Rmult_integral_contrapositive_currified; lra).
  rewrite xdiv_fin by assumption. xr_simp. rewrite !jax_tw_fin. xr_simp.
  cbn [xlt]. unfold Rltb. change (lgt + - qt) with (lgt - qt).
  destruct (Rlt_dec ((lgt - qt) / (dt / 12)) 0); reflexivity.
Qed.

Definition dqexpR (drop rejuv y : R) : R :=
  drop * tw_pdf (y + 3) - (drop - rejuv) * tw_pdf (y - 3).

Lemma qexp_left drop rejuv y : y <= 0 -> qexpR drop rejuv y = drop * twR (y + 3).
Proof.
  intros H. unfold qexpR. destruct (Rlt_dec y 0); [reflexivity|].
  replace y with 0 by lra. rewrite (twR_lo (0 - 3)), (twR_hi (0 + 3)) by lra. ring.
Qed.
Lemma qexp_right drop rejuv y : 0 <= y -> qexpR drop rejuv y = drop - (drop - rejuv) * twR (y - 3).
Proof. intros H. unfold qexpR. destruct (Rlt_dec y 0); [lra|reflexivity]. Qed.

Lemma is_derive_qexp drop rejuv y : is_derive (qexpR drop rejuv) y (dqexpR drop rejuv y).
Proof.
  assert (Dl : forall z, is_derive (fun y => drop * twR (y + 3)) z (drop * tw_pdf (z + 3))).
  { intros z. apply (is_derive_scal (fun y => twR (y + 3))).
    replace (tw_pdf (z + 3)) with (1 * tw_pdf (z + 3)) by ring.
    apply (is_derive_comp twR (fun y => y + 3)); [apply is_derive_tw|auto_derive; auto]. }
  assert (Dr : forall z, is_derive (fun y => drop - (drop - rejuv) * twR (y - 3)) z
                  (- ((drop - rejuv) * tw_pdf (z - 3)))).
  { intros z.
    replace (- ((drop - rejuv) * tw_pdf (z - 3)))
      with (minus 0 ((drop - rejuv) * tw_pdf (z - 3)))
      by (unfold minus, plus, opp; simpl; ring).
    apply (is_derive_minus (fun _ => drop) (fun y => (drop - rejuv) * twR (y - 3))).
    - auto_derive; auto.
    - apply (is_derive_scal (fun y => twR (y - 3))).
      replace (tw_pdf (z - 3)) with (1 * tw_pdf (z - 3)) by ring.
      apply (is_derive_comp twR (fun y => y - 3)); [apply is_derive_tw|auto_derive; auto]. }
  unfold dqexpR. destruct (Rtotal_order y 0) as [h|[h|h]].
  - rewrite (tw_pdf_out (y - 3)) by lra. replace (drop * tw_pdf (y + 3) - (drop - rejuv) * 0)
      with (drop * tw_pdf (y + 3)) by ring.
    apply (is_derive_local _ (fun y => drop * twR (y + 3)) y _ (- y)); [lra| |apply Dl].
    intros z Hz. apply Rabs_def2 in Hz. apply qexp_left. lra.
  - subst. rewrite (tw_pdf_out (0 - 3)), (tw_pdf_out (0 + 3)) by lra.
    replace (drop * 0 - (drop - rejuv) * 0) with 0 by ring.
    apply (is_derive_glue _ (fun y => drop * twR (y + 3)) (fun y => drop - (drop - rejuv) * twR (y - 3))).
    + intros; apply qexp_left; lra.
    + intros; apply qexp_right; lra.
    + pose proof (Dl 0) as E. rewrite tw_pdf_out, Rmult_0_r in E by lra. exact E.
    + pose proof (Dr 0) as E. rewrite tw_pdf_out, Rmult_0_r, Ropp_0 in E by lra. exact E.
  - rewrite (tw_pdf_out (y + 3)) by lra.
    replace (drop * 0 - (drop - rejuv) * tw_pdf (y - 3)) with (- ((drop - rejuv) * tw_pdf (y - 3))) by ring.
    apply (is_derive_local _ (fun y => drop - (drop - rejuv) * twR (y - 3)) y _ y); [lra| |apply Dr].
    intros z Hz. apply Rabs_def2 in Hz. apply qexp_right. lra.
Qed.

Lemma qexp_before drop rejuv y : y <= -6 -> qexpR drop rejuv y = 0.
Proof. intros. rewrite qexp_left, twR_lo by lra. ring. Qed.
Lemma qexp_after drop rejuv y : 6 <= y -> qexpR drop rejuv y = rejuv.
Proof. intros. rewrite qexp_right, twR_hi by lra. ring. Qed.
Lemma qexp_mid drop rejuv : qexpR drop rejuv 0 = drop.
Proof. rewrite qexp_left, twR_hi by lra. ring. Qed.

Lemma qexp_decr drop rejuv x y : drop <= 0 -> x <= y -> y <= 0 -> qexpR drop rejuv y <= qexpR drop rejuv x.
Proof.
  intros. rewrite !qexp_left by lra. pose proof (twR_mono (x + 3) (y + 3)). nra.
Qed.
Lemma qexp_incr drop rejuv x y : drop <= rejuv -> 0 <= x -> x <= y -> qexpR drop rejuv x <= qexpR drop rejuv y.
Proof.
  intros. rewrite !qexp_right by lra. pose proof (twR_mono (x - 3) (y - 3)). nra.
Qed.
Lemma qexp_range drop rejuv y : drop <= rejuv -> rejuv <= 0 -> drop <= qexpR drop rejuv y <= 0.
Proof.
  intros. destruct (Rle_lt_dec y 0).
  - rewrite qexp_left by lra. pose proof (twR_range (y + 3)). nra.
  - rewrite qexp_right by lra. pose proof (twR_range (y - 3)). nra.
Qed.

(** scaled time *)
Lemma scale_le a dt c x : 0 < dt -> (x <= a + c * (dt / 12) <-> (x - a) / (dt / 12) <= c).
Proof.
  intros H. assert (0 < dt / 12) by lra. split; intros h.
  - apply Rmult_le_reg_r with (dt / 12); [lra|]. unfold Rdiv at 1. rewrite Rmult_assoc, Rinv_l by lra. lra.
  - apply Rmult_le_compat_r with (r := dt / 12) in h; [|lra]. unfold Rdiv at 1 in h.
    rewrite Rmult_assoc, Rinv_l in h by lra. lra.
Qed.
Lemma scale_ge a dt c x : 0 < dt -> (a + c * (dt / 12) <= x <-> c <= (x - a) / (dt / 12)).
Proof.
  intros H. assert (0 < dt / 12) by lra. split; intros h.
  - apply Rmult_le_reg_r with (dt / 12); [lra|]. unfold Rdiv at 2. rewrite Rmult_assoc, Rinv_l by lra. lra.
  - apply Rmult_le_compat_r with (r := dt / 12) in h; [|lra]. unfold Rdiv at 2 in h.
    rewrite Rmult_assoc, Rinv_l in h by lra. lra.
Qed.

Lemma quench_before lgt qt dt drop rejuv : 0 < dt -> lgt <= qt - dt / 2 -> quenchR lgt qt dt drop rejuv = 1.
Proof.
  intros H Hl. unfold quenchR. rewrite qexp_before; [apply pow10_0|].
  apply scale_le; [exact H|]. lra.
Qed.
Lemma quench_after lgt qt dt drop rejuv : 0 < dt -> qt + dt / 2 <= lgt ->
  quenchR lgt qt dt drop rejuv = pow10R rejuv.
Proof.
  intros H Hl. unfold quenchR. rewrite qexp_after; [reflexivity|].
  apply scale_ge; [exact H|]. lra.
Qed.
Lemma quench_at qt dt drop rejuv : 0 < dt -> quenchR qt qt dt drop rejuv = pow10R drop.
Proof.
  intros H. unfold quenchR. replace ((qt - qt) / (dt / 12)) with 0 by (field; lra).
  rewrite qexp_mid. reflexivity.
Qed.
Lemma scale_mono a dt x y : 0 < dt -> x <= y -> (x - a) / (dt / 12) <= (y - a) / (dt / 12).
Proof.
  intros. unfold Rdiv at 1 3. apply Rmult_le_compat_r; [|lra].
  left. apply Rinv_0_lt_compat. lra.
Qed.
Lemma quench_decr qt dt drop rejuv x y : 0 < dt -> drop <= 0 -> x <= y -> y <= qt ->
  quenchR y qt dt drop rejuv <= quenchR x qt dt drop rejuv.
Proof.
  intros. apply pow10_le, qexp_decr; [assumption| |].
  - apply scale_mono; assumption.
  - apply scale_le; [assumption|lra].
Qed.
Lemma quench_incr qt dt drop rejuv x y : 0 < dt -> drop <= rejuv -> qt <= x -> x <= y ->
  quenchR x qt dt drop rejuv <= quenchR y qt dt drop rejuv.
Proof.
  intros. apply pow10_le, qexp_incr; [assumption| |].
  - apply scale_ge; [assumption|lra].
  - apply scale_mono; assumption.
Qed.
Lemma quench_range lgt qt dt drop rejuv : drop <= rejuv -> rejuv <= 0 ->
  pow10R drop <= quenchR lgt qt dt drop rejuv <= 1.
Proof.
  intros. unfold quenchR. pose proof (qexp_range drop rejuv ((lgt - qt) / (dt / 12)) H H0).
  rewrite <- pow10_0. split; apply pow10_le; lra.
Qed.
Lemma quench_pos lgt qt dt drop rejuv : 0 < quenchR lgt qt dt drop rejuv.
Proof. apply pow10_pos. Qed.

Definition dquenchR (lgt qt dt drop rejuv : R) : R :=
  quenchR lgt qt dt drop rejuv * ln 10 * dqexpR drop rejuv ((lgt - qt) / (dt / 12)) * (12 / dt).

Lemma is_derive_pow10 a : is_derive pow10R a (pow10R a * ln 10).
Proof. unfold pow10R. auto_derive; [auto|]. ring. Qed.

Lemma is_derive_quench qt dt drop rejuv x : 0 < dt ->
  is_derive (fun lgt => quenchR lgt qt dt drop rejuv) x (dquenchR x qt dt drop rejuv).
Proof.
  intros H. unfold quenchR, dquenchR.
  replace (quenchR x qt dt drop rejuv * ln 10 * dqexpR drop rejuv ((x - qt) / (dt / 12)) * (12 / dt))
    with ((12 / dt * dqexpR drop rejuv ((x - qt) / (dt / 12))) * (quenchR x qt dt drop rejuv * ln 10)) by ring.
  apply (is_derive_comp pow10R (fun lgt => qexpR drop rejuv ((lgt - qt) / (dt / 12)))).
  - apply is_derive_pow10.
  - apply (is_derive_comp (qexpR drop rejuv) (fun lgt => (lgt - qt) / (dt / 12))).
    + apply is_derive_qexp.
    + auto_derive; [auto|]. field. lra.
Qed.

Lemma continuous_dqexp drop rejuv y : continuous (dqexpR drop rejuv) y.
Proof.
  unfold dqexpR.
  apply (continuous_minus (fun y => drop * tw_pdf (y + 3)) (fun y => (drop - rejuv) * tw_pdf (y - 3))).
  - apply (continuous_scal_r drop (fun y => tw_pdf (y + 3))).
    apply (continuous_comp (fun y => y + 3) tw_pdf); [|apply continuous_tw_pdf].
    apply (ex_derive_continuous (fun y => y + 3)). auto_derive. auto.
  - apply (continuous_scal_r (drop - rejuv) (fun y => tw_pdf (y - 3))).
    apply (continuous_comp (fun y => y - 3) tw_pdf); [|apply continuous_tw_pdf].
    apply (ex_derive_continuous (fun y => y - 3)). auto_derive. auto.
Qed.

Lemma continuous_dquench qt dt drop rejuv x : 0 < dt ->
  continuous (fun lgt => dquenchR lgt qt dt drop rejuv) x.
Proof.
  intros H. unfold dquenchR.
  apply (continuous_mult (fun lgt => quenchR lgt qt dt drop rejuv * ln 10 *
     dqexpR drop rejuv ((lgt - qt) / (dt / 12))) (fun _ => 12 / dt)); [|apply continuous_const].
  apply (continuous_mult (fun lgt => quenchR lgt qt dt drop rejuv * ln 10)
     (fun lgt => dqexpR drop rejuv ((lgt - qt) / (dt / 12)))).
  - apply (continuous_mult (fun lgt => quenchR lgt qt dt drop rejuv) (fun _ => ln 10));
      [|apply continuous_const].
    apply (ex_derive_continuous (fun lgt => quenchR lgt qt dt drop rejuv)).
    eexists. apply is_derive_quench, H.
  - apply (continuous_comp (fun lgt => (lgt - qt) / (dt / 12)) (dqexpR drop rejuv));
      [|apply continuous_dqexp].
    apply (ex_derive_continuous (fun lgt => (lgt - qt) / (dt / 12))). auto_derive. auto.
Qed.

(** Packaged statements *)
Lemma quenching_shape qt dt drop rejuv : 0 < dt -> drop <= rejuv -> rejuv <= 0 ->
  exists Q : R -> R,
    (forall x, quenching_kern (Fin x) (Fin qt) (Fin dt) (Fin drop) (Fin rejuv) = Fin (Q x)) /\
    (forall x, x <= qt - dt / 2 -> Q x = 1) /\
    Q qt = pow10R drop /\
    (forall x, qt + dt / 2 <= x -> Q x = pow10R rejuv) /\
    (forall x y, x <= y -> y <= qt -> Q y <= Q x) /\
    (forall x y, qt <= x -> x <= y -> Q x <= Q y) /\
    (forall x, pow10R drop <= Q x <= 1).
Proof.
  intros H Hd Hr. exists (fun x => quenchR x qt dt drop rejuv).
  split; [intros; apply quenching_kern_fin; lra|].
  split; [intros; apply quench_before; auto|].
  split; [apply quench_at; auto|].
  split; [intros; apply quench_after; auto|].
  split; [intros; apply quench_decr; auto; lra|].
  split; [intros; apply quench_incr; auto|].
  intros; apply quench_range; auto.
Qed.

Lemma quenching_C1 qt dt drop rejuv : 0 < dt ->
  exists Q dQ : R -> R,
    (forall x, quenching_kern (Fin x) (Fin qt) (Fin dt) (Fin drop) (Fin rejuv) = Fin (Q x)) /\
    (forall x, is_derive Q x (dQ x)) /\ (forall x, continuous dQ x).
Proof.
  intros H. exists (fun x => quenchR x qt dt drop rejuv), (fun x => dquenchR x qt dt drop rejuv).
  split; [intros; apply quenching_kern_fin; lra|].
  split; intros; [apply is_derive_quench|apply continuous_dquench]; auto.
Qed.
