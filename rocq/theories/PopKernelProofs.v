(** Proofs about the population kernels (C31-C36). *)
From Coq Require Import Reals Lra Lia List Bool String QArith Qreals ZArith.
From Verif Require Import XReal ModelUtils ModelKernels ModelSfh ModelPopTables ModelPop SpecPop
  RealFacts XFacts SigmoidProofs PopProofs PopParamProofs.
Import ListNotations.
Open Scope R_scope.

(** ** Clipped line *)
Definition belowR (u a : R) : R := - (99/100) * a + (u + 99/100 * a) * logisticR (2000 / a * (u + 99/100 * a)).
Definition clipR (u a b : R) : R :=
  belowR u a + (99/100 * b - belowR u a) * logisticR (2000 / a * (u - 99/100 * b)).

Lemma clipped_fin x x0 y0 m ylo yhi : m <> 0 -> ylo < y0 -> y0 < yhi ->
  smoothly_clipped_line (Fin x) (Fin x0) (Fin y0) (Fin m) (Fin ylo) (Fin yhi)
  = Fin (y0 + clipR (m * (x - x0)) (y0 - ylo) (yhi - y0)).
Proof.
  intros Hm H1 H2. unfold smoothly_clipped_line. xr_simp.
  rewrite !(xdiv_fin _ _ Hm). xr_simp.
  rewrite !(xdiv_fin _ 100) by lra. xr_simp.
  rewrite !xdiv_fin.
  2:{ intros E. apply Hm. apply Rmult_integral in E.
      assert (E' : (x0 + - ((ylo + - y0) / m + x0)) = (y0 - ylo) / m) by (field; auto).
      destruct E as [E|E]; [|lra]. rewrite E' in E.
      assert ((y0 - ylo) / m * m = y0 - ylo) by (field; auto). rewrite E in H. lra. }
  rewrite !sigmoid_fin. apply f_equal. unfold clipR, belowR, sigR.
  assert (Ha : y0 - ylo <> 0) by lra.
  set (a := y0 - ylo) in *. set (b := yhi - y0). set (u := m * (x - x0)).
  assert (Ek : 20 / ((x0 + - ((ylo + - y0) / m + x0)) / 100) = 2000 / a * m).
  { unfold a. field. repeat split; auto; unfold a in Ha; lra. }
  rewrite Ek.
  assert (E1 : 2000 / a * m * (x - ((ylo + - y0) / m + x0 + (x0 + - ((ylo + - y0) / m + x0)) / 100))
             = 2000 / a * (u + 99/100 * a)).
  { unfold u, a. field. repeat split; auto; unfold a in Ha; lra. }
  assert (E2 : 2000 / a * m * (x - ((yhi + - y0) / m + x0 + - (((yhi + - y0) / m + x0 + - x0) / 100)))
             = 2000 / a * (u - 99/100 * b)).
  { unfold u, b. field. repeat split; auto; unfold a in Ha; lra. }
  rewrite E1, E2.
  assert (E3 : y0 + m * ((ylo + - y0) / m + x0 + (x0 + - ((ylo + - y0) / m + x0)) / 100 + - x0)
             = y0 - 99/100 * a) by (unfold a; field; auto).
  assert (E4 : y0 + m * ((yhi + - y0) / m + x0 + - (((yhi + - y0) / m + x0 + - x0) / 100) + - x0)
             = y0 + 99/100 * b) by (unfold b; field; auto).
  assert (E5 : y0 + m * (x + - x0) = y0 + u) by (unfold u; ring).
  rewrite E3, E4, E5. ring.
Qed.

Lemma scaled_logistic_ge a v : 0 < a -> - (a / 6000) <= v * logisticR (2000 / a * v).
Proof.
  intros Ha. assert (H := x_logistic_ge (2000 / a * v)).
  assert (0 < a / 2000) by lra.
  replace (v * logisticR (2000 / a * v)) with (a / 2000 * (2000 / a * v * logisticR (2000 / a * v))) by (field; lra).
  nra.
Qed.
Lemma scaled_logistic_opp_le a w : 0 < a -> w * logisticR (- (2000 / a * w)) <= a / 6000.
Proof.
  intros Ha. assert (H := x_logistic_opp_le (2000 / a * w)).
  assert (0 < a / 2000) by lra.
  replace (w * logisticR (- (2000 / a * w))) with (a / 2000 * (2000 / a * w * logisticR (- (2000 / a * w)))) by (field; lra).
  nra.
Qed.

Lemma below_ge u a : 0 < a -> - a < belowR u a.
Proof. intros Ha. unfold belowR. assert (H := scaled_logistic_ge a (u + 99/100 * a) Ha). lra. Qed.
Lemma below_le u a : 0 < a -> belowR u a <= Rmax u (- (99/100) * a).
Proof.
  intros Ha. unfold belowR. set (v := u + 99/100 * a).
  assert (L := logistic_range (2000 / a * v)). set (l := logisticR _) in *.
  destruct (Rle_lt_dec 0 v).
  - apply Rle_trans with u; [|apply Rmax_l]. assert (v * l <= v) by nra. unfold v in *. lra.
  - apply Rle_trans with (- (99/100) * a); [|apply Rmax_r]. assert (v * l <= 0) by nra. lra.
Qed.

Lemma clip_ge u a b : 0 < a -> 0 < b -> - a < clipR u a b.
Proof.
  intros Ha Hb. unfold clipR. assert (H := below_ge u a Ha). set (y := belowR u a) in *.
  assert (L := logistic_range (2000 / a * (u - 99/100 * b))). set (l := logisticR _) in *. nra.
Qed.
Lemma clip_le u a b : 0 < a -> 0 < b -> clipR u a b <= 99/100 * b + a / 6000.
Proof.
  intros Ha Hb. unfold clipR. assert (H := below_le u a Ha). set (y := belowR u a) in *.
  set (w := u - 99/100 * b).
  assert (E : y + (99/100 * b - y) * logisticR (2000 / a * w) = 99/100 * b + (y - 99/100 * b) * logisticR (- (2000 / a * w))).
  { rewrite logistic_opp. ring. }
  rewrite E. assert (L := logistic_range (- (2000 / a * w))).
  assert (S := scaled_logistic_opp_le a w Ha). set (l := logisticR _) in *.
  assert (Hy : y - 99/100 * b <= Rmax w 0).
  { apply Rle_trans with (Rmax u (- (99/100) * a) - 99/100*b); [lra|].
    unfold w, Rmax. destruct (Rle_dec u _), (Rle_dec _ 0); lra. }
  destruct (Rle_dec w 0) as [Hw|Hw].
  - rewrite Rmax_right in Hy by lra. nra.
  - rewrite Rmax_left in Hy by lra. nra.
Qed.

(** C31 *)
Lemma clipped_line_bounds : forall x0 y0 m ylo yhi, m <> 0 -> ylo < y0 < yhi ->
  exists f : R -> R,
    (forall x, smoothly_clipped_line (Fin x) (Fin x0) (Fin y0) (Fin m) (Fin ylo) (Fin yhi) = Fin (f x)) /\
    (forall x, ylo < f x < yhi + (y0 - ylo) / 6000) /\
    (y0 - ylo <= 60 * (yhi - y0) -> forall x, f x <= yhi) /\
    (y0 - ylo < 60 * (yhi - y0) -> forall x, f x < yhi).
Proof.
  intros x0 y0 m ylo yhi Hm [H1 H2]. eexists. split; [intros x; now apply clipped_fin|].
  split; [|split]; cbv beta.
  - intros x.
    assert (A := clip_ge (m * (x - x0)) (y0 - ylo) (yhi - y0) ltac:(lra) ltac:(lra)).
    assert (B := clip_le (m * (x - x0)) (y0 - ylo) (yhi - y0) ltac:(lra) ltac:(lra)). lra.
  - intros Hr x.
    assert (B := clip_le (m * (x - x0)) (y0 - ylo) (yhi - y0) ltac:(lra) ltac:(lra)). lra.
  - intros Hr x.
    assert (B := clip_le (m * (x - x0)) (y0 - ylo) (yhi - y0) ltac:(lra) ltac:(lra)). lra.
Qed.

(** C32: overshoot *)
Lemma exp_1_lt_3 : exp 1 <= 3. Proof. exact exp_le_3. Qed.
Lemma logistic_m1 : 1 / 4 <= logisticR (-1).
Proof.
  unfold logisticR. replace (- -1) with 1 by ring. assert (0 < exp 1) by apply exp_pos.
  assert (exp 1 <= 3) by apply exp_le_3.
  replace (1/4) with (/ 4) by field. apply Rinv_le_contravar; lra.
Qed.

Lemma clip_overshoot a b : 0 < a -> 0 < b -> 120 * b < a -> b < clipR (99/100 * b + a / 2000) a b.
Proof.
  intros Ha Hb Hab. unfold clipR.
  set (u := 99/100 * b + a / 2000).
  assert (Ew : 2000 / a * (u - 99/100 * b) = 1) by (unfold u; field; lra). rewrite Ew.
  assert (Hy : u - a / 6000 <= belowR u a).
  { unfold belowR. set (v := u + 99/100 * a).
    assert (S := scaled_logistic_opp_le a v Ha).
    assert (E : logisticR (- (2000 / a * v)) = 1 - logisticR (2000 / a * v)) by apply logistic_opp.
    rewrite E in S. replace u with (- (99/100) * a + v) at 1 by (unfold v; ring). nra. }
  set (y := belowR u a) in *.
  assert (E : logisticR 1 = 1 - logisticR (-1)) by (rewrite <- logistic_opp; f_equal; lra).
  rewrite E. assert (L := logistic_m1). assert (L2 := logistic_range (-1)).
  set (l := logisticR (-1)) in *. unfold u in Hy. nra.
Qed.

(** Overshoot with an anchor strictly inside the bounds, for every anchor close enough to
    the upper bound and every non-zero slope. *)
Lemma clipped_line_overshoot : forall x0 y0 m ylo yhi, m <> 0 -> ylo < y0 < yhi ->
  120 * (yhi - y0) < y0 - ylo -> exists x y,
  smoothly_clipped_line (Fin x) (Fin x0) (Fin y0) (Fin m) (Fin ylo) (Fin yhi) = Fin y /\ yhi < y.
Proof.
  intros x0 y0 m ylo yhi Hm H Hr.
  exists (x0 + (99/100 * (yhi - y0) + (y0 - ylo) / 2000) / m). eexists. split; [now apply clipped_fin|].
  replace (m * (x0 + (99/100 * (yhi - y0) + (y0 - ylo) / 2000) / m - x0)) with
    (99/100 * (yhi - y0) + (y0 - ylo) / 2000) by (field; auto).
  assert (G := clip_overshoot (y0 - ylo) (yhi - y0) ltac:(lra) ltac:(lra) Hr). lra.
Qed.

Lemma clipped_line_zero_slope : forall x x0 y0 ylo yhi, ylo < y0 < yhi ->
  smoothly_clipped_line (Fin x) (Fin x0) (Fin y0) (Fin 0) (Fin ylo) (Fin yhi) = NaN.
Proof.
  intros x x0 y0 ylo yhi H. unfold smoothly_clipped_line. xr_simp.
  rewrite (xdiv_zero_neg (ylo + - y0)) by lra. rewrite (xdiv_zero_pos (yhi + - y0)) by lra.
  cbn [xadd xopp xdiv]. destruct (Rlt_dec 100 0); [lra|].
  unfold sigmoid. cbn [xadd xopp xmul xsub xlogistic xdiv].
  repeat (cbn [xadd xopp xmul xsub xlogistic xdiv]; unfold xsub). reflexivity.
Qed.

(** ** Parameter lookup *)
Definition QP (P : string -> R) : nt xr := map (fun r => (fst r, Fin (P (fst r)))) QROWS.
Definition SP (P : string -> R) : nt xr := map (fun r => (fst r, Fin (P (fst r)))) SROWS.

Lemma attr_rows (P : string -> R) (rs : list (string * (Q * Q))) n :
  existsb (fun r => String.eqb n (fst r)) rs = true ->
  attr (map (fun r => (fst r, Fin (P (fst r)))) rs) n = Fin (P n).
Proof.
  intros H. unfold attr. induction rs as [|r rs IH]; simpl in *; [easy|].
  destruct (String.eqb_spec n (fst r)) as [e|E]; [now rewrite e|]. now apply IH.
Qed.
Lemma attr_q P n : existsb (fun r => String.eqb n (fst r)) QROWS = true -> attr (QP P) n = Fin (P n).
Proof. apply attr_rows. Qed.
Lemma attr_s P n : existsb (fun r => String.eqb n (fst r)) SROWS = true -> attr (SP P) n = Fin (P n).
Proof. apply attr_rows. Qed.

Lemma nt_of_params p P : holds "" p P ->
  vmap (getattr p) QSEQ_NAMES = Some (map (fun r => Fin (P (fst r))) QROWS) /\
  vmap (getattr p) SATQ_NAMES = Some (map (fun r => Fin (P (fst r))) SROWS) /\
  nt_make QSEQ_NAMES (map (fun r => Fin (P (fst r))) QROWS) = Some (QP P) /\
  nt_make SATQ_NAMES (map (fun r => Fin (P (fst r))) SROWS) = Some (SP P).
Proof.
  intros Hp. rewrite qseq_names, satq_names.
  split; [|split; [|split]].
  - apply id_names_rows. intros r Hr. apply Hp. now apply in_names_q.
  - apply id_names_rows. intros r Hr. apply Hp. now apply in_names_s.
  - apply nt_make_rows.
  - apply nt_make_rows.
Qed.

Lemma means_covs_eq p P m tp mu mh gy : holds "" p P ->
  diffstarpop_means_covs p m tp mu mh gy =
  let mc := sfh_pdf_scalar_kernel (QP P) m tp in
  Some (mkMC (mc_frac_cen mc) (get_qprob_sat (SP P) mu mh gy (mc_frac_sat mc))
         (mu_mseq mc) (mu_qseq mc) (cov_mseq_ms mc) (cov_qseq_ms mc) (cov_qseq_q mc)).
Proof.
  intros Hp. destruct (nt_of_params p P Hp) as (H1 & H2 & H3 & H4).
  unfold diffstarpop_means_covs. now rewrite H1, H2, H3, H4.
Qed.
Lemma means_covs_cen_eq p P m tp : holds "" p P ->
  diffstarpop_means_covs_cen p m tp = Some (sfh_pdf_scalar_kernel (QP P) m tp).
Proof.
  intros Hp. destruct (nt_of_params p P Hp) as (H1 & H2 & H3 & H4).
  unfold diffstarpop_means_covs_cen. now rewrite H1, H3.
Qed.

(** Bounds of one parameter *)
Lemma bound_of P n lo hi : pop_in_bounds P -> assoc n POP_BOUNDS = Some (lo, hi) ->
  Q2R lo < P n < Q2R hi.
Proof.
  intros Hb E. unfold pop_in_bounds in Hb. rewrite Forall_forall in Hb.
  assert (In (n, (lo, hi)) POP_BOUNDS).
  { clear Hb. revert E. generalize POP_BOUNDS. induction l as [|[k v] l IH]; simpl; [easy|].
    destruct (String.eqb_spec n k) as [->|]; [intros [= ->]; now left|right; auto]. }
  apply (Hb _ H).
Qed.
Lemma q2r (q : Q) : Q2R q = IZR (Qnum q) / IZR (Zpos (Qden q)). Proof. reflexivity. Qed.
Ltac bnd P n H :=
  let E := fresh in
  pose proof (bound_of P n _ _ H eq_refl) as E;
  rewrite !q2r in E; cbn [Qnum Qden] in E.

Ltac attrs := repeat first [rewrite attr_q by (vm_compute; reflexivity)
                           |rewrite attr_s by (vm_compute; reflexivity)].

(** ** Fractions *)
Lemma sigR_between x x0 k lo hi a b : a < lo < b -> a < hi < b -> a < sigR x x0 k lo hi < b.
Proof.
  intros H1 H2. unfold sigR. assert (L := logistic_range (k * (x - x0))). set (l := logisticR _) in *. nra.
Qed.

Lemma frac_cen_range P m tp : pop_in_bounds P -> exists f,
  frac_quench_cen (QP P) (Fin m) (Fin tp) = Fin f /\ 0 < f < 1.
Proof.
  intros Hb. unfold frac_quench_cen. attrs. rewrite !sigmoid_fin. eexists. split; [reflexivity|].
  bnd P "frac_quench_cen_yhi"%string Hb. bnd P "frac_quench_cen_ylo_ylotpeak"%string Hb.
  bnd P "frac_quench_cen_ylo_yhitpeak"%string Hb.
  apply sigR_between; [apply sigR_between|]; lra.
Qed.
Lemma frac_sat_range P m tp : pop_in_bounds P -> exists f,
  frac_quench_sat (QP P) (Fin m) (Fin tp) = Fin f /\ 0 < f < 1.
Proof.
  intros Hb. unfold frac_quench_sat. attrs. rewrite !sigmoid_fin. eexists. split; [reflexivity|].
  bnd P "frac_quench_sat_yhi"%string Hb. bnd P "frac_quench_sat_ylo_ylotpeak"%string Hb.
  bnd P "frac_quench_sat_ylo_yhitpeak"%string Hb.
  apply sigR_between; [apply sigR_between|]; lra.
Qed.

(** Satellite boost: [h] is the plateau, [t] the delay. *)
Lemma boost_fin P mu mh : pop_in_bounds P -> exists h t, 0 < h < 1 /\ -5 < t < 10 /\ forall gy,
  predict_sat_frac_delta_qprob (SP P) (Fin mu) (Fin mh) (Fin gy) = Fin (h * logisticR (5 * (gy - t))).
Proof.
  intros Hb. unfold predict_sat_frac_delta_qprob, qprob_hi_vs_sub_host_mass, t_delay_vs_logmhost, satquench_kernel,
    LGMU_SPEED, DEFAULT_LGMH_K, DEFAULT_Q_SPEED. attrs. rewrite !sigmoid_fin.
  bnd P "lgmu_lo_mh_lo"%string Hb. bnd P "lgmu_lo_mh_hi"%string Hb. bnd P "lgmu_hi_mh_lo"%string Hb.
  bnd P "lgmu_hi_mh_hi"%string Hb. bnd P "td_mlo"%string Hb. bnd P "td_mhi"%string Hb.
  eexists. eexists. split; [|split].
  3:{ intros gy. rewrite !sigmoid_fin. unfold sigR at 1. apply f_equal. rewrite Rplus_0_l, Rminus_0_r. reflexivity. }
  - apply sigR_between; apply sigR_between; lra.
  - apply sigR_between; lra.
Qed.

Lemma qprob_sat_fin P mu mh q : pop_in_bounds P -> exists h t, 0 < h < 1 /\ -5 < t < 10 /\ forall gy,
  get_qprob_sat (SP P) (Fin mu) (Fin mh) (Fin gy) (Fin q) = Fin (q + h * logisticR (5 * (gy - t)) * (1 - q)).
Proof.
  intros Hb. destruct (boost_fin P mu mh Hb) as (h & t & Hh & Ht & E). exists h, t.
  split; auto. split; auto. intros gy. unfold get_qprob_sat. rewrite E. reflexivity.
Qed.

(** C34 *)
Lemma quenched_fractions : forall p P m tp mu mh gy, holds "" p P -> pop_in_bounds P ->
  exists mc fc fs,
    diffstarpop_means_covs p (Fin m) (Fin tp) (Fin mu) (Fin mh) (Fin gy) = Some mc /\
    mc_frac_cen mc = Fin fc /\ mc_frac_sat mc = Fin fs /\ 0 < fc < 1 /\ 0 < fs < 1.
Proof.
  intros p P m tp mu mh gy Hp Hb. rewrite (means_covs_eq p P) by auto.
  destruct (frac_cen_range P m tp Hb) as (fc & E1 & R1).
  destruct (frac_sat_range P m tp Hb) as (fs & E2 & R2).
  destruct (qprob_sat_fin P mu mh fs Hb) as (h & t & Hh & Ht & E3).
  eexists. exists fc. eexists. split; [reflexivity|]. cbn [mc_frac_cen mc_frac_sat sfh_pdf_scalar_kernel].
  rewrite E1, E2, E3. repeat split; try lra.
  - assert (L := logistic_range (5 * (gy - t))). set (l := logisticR _) in *. assert (0 < h * l) by nra. nra.
  - assert (L := logistic_range (5 * (gy - t))). set (l := logisticR _) in *. assert (h * l < 1) by nra. nra.
Qed.

(** C35 *)
Lemma logistic_le_inv t : t < 0 -> logisticR t <= / (1 - t).
Proof.
  intros Ht. unfold logisticR. assert (H := exp_ineq1_le (- t)). apply Rinv_le_contravar; lra.
Qed.

Lemma satellite_boost : forall p P m tp mu mh, holds "" p P -> pop_in_bounds P ->
  exists (base : R) (fs : R -> R),
    (forall gy, exists mc, diffstarpop_means_covs p (Fin m) (Fin tp) (Fin mu) (Fin mh) (Fin gy) = Some mc /\
                           mc_frac_sat mc = Fin (fs gy)) /\
    0 < base < 1 /\
    (forall gy, base < fs gy < 1) /\
    (forall g1 g2, g1 < g2 -> fs g1 < fs g2) /\
    (forall gy, gy <= -5 -> fs gy - base <= / (1 + 5 * (-5 - gy))).
Proof.
  intros p P m tp mu mh Hp Hb.
  destruct (frac_sat_range P m tp Hb) as (q & E2 & R2).
  destruct (qprob_sat_fin P mu mh q Hb) as (h & t & Hh & Ht & E3).
  exists q, (fun gy => q + h * logisticR (5 * (gy - t)) * (1 - q)). split; [|split; [|split; [|split]]].
  - intros gy. eexists. split; [rewrite (means_covs_eq p P) by auto; reflexivity|].
    cbn [mc_frac_sat sfh_pdf_scalar_kernel]. now rewrite E2, E3.
  - auto.
  - intros gy. assert (L := logistic_range (5 * (gy - t))). set (l := logisticR _) in *.
    assert (0 < h * l < 1) by nra. nra.
  - intros g1 g2 Hg. assert (L := logistic_lt (5 * (g1 - t)) (5 * (g2 - t)) ltac:(lra)).
    set (l1 := logisticR _) in *. set (l2 := logisticR (5 * (g2 - t))) in *.
    assert (h * l1 < h * l2) by nra. nra.
  - intros gy Hg. assert (L := logistic_le (5 * (gy - t)) (5 * (gy + 5)) ltac:(lra)).
    assert (L0 := logistic_range (5 * (gy - t))).
    assert (L2 : logisticR (5 * (gy + 5)) <= / (1 + 5 * (-5 - gy))).
    { destruct (Req_dec gy (-5)) as [->|].
      - replace (1 + 5 * (-5 - -5)) with 1 by ring. rewrite Rinv_1.
        assert (X := logistic_range (5 * (-5 + 5))). lra.
      - replace (1 + 5 * (-5 - gy)) with (1 - 5 * (gy + 5)) by ring. apply logistic_le_inv. lra. }
    set (l := logisticR (5 * (gy - t))) in *. set (l2 := logisticR _) in *. set (z := / _) in *.
    assert (h * l <= z) by nra. nra.
Qed.

(** The satellite transformation itself raises whatever probability it is given. *)
Lemma qprob_sat_ge : forall p P mu mh q, holds "" p P -> pop_in_bounds P -> 0 <= q <= 1 ->
  exists s ws f, vmap (getattr p) SATQ_NAMES = Some ws /\ nt_make SATQ_NAMES ws = Some s /\
    (forall gy, get_qprob_sat s (Fin mu) (Fin mh) (Fin gy) (Fin q) = Fin (f gy)) /\
    (forall gy, q <= f gy <= 1) /\ (forall g1 g2, g1 <= g2 -> f g1 <= f g2).
Proof.
  intros p P mu mh q Hp Hb Hq. destruct (nt_of_params p P Hp) as (_ & H2 & _ & H4).
  destruct (qprob_sat_fin P mu mh q Hb) as (h & t & Hh & Ht & E3).
  exists (SP P). eexists. exists (fun gy => q + h * logisticR (5 * (gy - t)) * (1 - q)).
  split; [exact H2|]. split; [exact H4|]. split; [exact E3|]. split.
  - intros gy. assert (L := logistic_range (5 * (gy - t))). set (l := logisticR _) in *.
    assert (0 < h * l < 1) by nra. nra.
  - intros g1 g2 Hg. assert (L := logistic_le (5 * (g1 - t)) (5 * (g2 - t)) ltac:(lra)).
    set (l1 := logisticR _) in *. set (l2 := logisticR (5 * (g2 - t))) in *.
    assert (h * l1 <= h * l2) by nra. nra.
Qed.

(** Refutation with the shipped default parameters. *)
Lemma default_values : exists P, DEFAULT_DIFFSTARPOP_PARAMS = Some (pop_params P) /\
  P = fun n => match assoc n (combine pop_names (map snd SFH_PDF_QUENCH_PDICT ++ map snd DEFAULT_SATQUENCHPOP_PDICT)) with
               | Some q => Q2R q | None => 0 end.
Proof.
  eexists. split; [|reflexivity].
  assert (E := nt_make_by_position (map snd SFH_PDF_QUENCH_PDICT ++ map snd DEFAULT_SATQUENCHPOP_PDICT) eq_refl).
  rewrite <- E. unfold DEFAULT_DIFFSTARPOP_PARAMS, SFH_PDF_QUENCH_PARAMS, DEFAULT_SATQUENCHPOP_PARAMS, values.
  rewrite !(map_map _ snd). cbn [snd]. rewrite <- !(map_map snd Q2X), <- map_app. reflexivity.
Qed.

Lemma satellite_below_central : exists p m tp mu mh gy mc fc fs,
  DEFAULT_DIFFSTARPOP_PARAMS = Some p /\
  diffstarpop_means_covs p (Fin m) (Fin tp) (Fin mu) (Fin mh) (Fin gy) = Some mc /\
  mc_frac_cen mc = Fin fc /\ mc_frac_sat mc = Fin fs /\ fs < fc - 5 / 100.
Proof.
  destruct default_values as (P & E & EP).
  exists (pop_params P), 10, 5, 0, 13, (-100).
  destruct (default_in_bounds) as (P' & U & D1 & D2 & _).
  assert (Hb : pop_in_bounds P).
  { rewrite E in D1. apply Some_inj in D1. unfold pop_in_bounds in *. rewrite Forall_forall in *.
    intros r Hr. specialize (D2 r Hr).
    assert (X : P (fst r) = P' (fst r)); [|now rewrite X].
    assert (H1 := holds_params P (fst r) ltac:(apply in_map; auto)).
    assert (H2 := holds_params P' (fst r) ltac:(apply in_map; auto)). rewrite D1 in H1. congruence. }
  destruct (boost_fin P 0 13 Hb) as (h & t & Hh & Ht & E3).
  assert (V : forall n q, assoc n (combine pop_names (map snd SFH_PDF_QUENCH_PDICT ++ map snd DEFAULT_SATQUENCHPOP_PDICT)) = Some q ->
     P n = Q2R q) by (intros n q Hn; rewrite EP, Hn; reflexivity).
  assert (exists fc, frac_quench_cen (QP P) (Fin 10) (Fin 5) = Fin fc /\ 65 / 100 <= fc) as (fc & C1 & C2).
  { unfold frac_quench_cen. attrs. rewrite !sigmoid_fin. eexists. split; [reflexivity|].
    rewrite (V "frac_quench_cen_x0_tpeak"%string _ eq_refl), (V "frac_quench_cen_k_tpeak"%string _ eq_refl),
      (V "frac_quench_cen_ylo_ylotpeak"%string _ eq_refl), (V "frac_quench_cen_ylo_yhitpeak"%string _ eq_refl),
      (V "frac_quench_cen_yhi"%string _ eq_refl).
    rewrite !q2r. cbn [Qnum Qden snd].
    match goal with |- _ <= sigR _ _ _ ?d _ => set (y := d) end.
    assert (Hy : 65 / 100 <= y <= 999/1000).
    { unfold y, sigR. set (l2 := logisticR _). assert (L2 : 0 < l2 < 1) by apply logistic_range.
      assert (l2 <= 1 / 2). { unfold l2. rewrite <- logistic_0. apply logistic_le. lra. } nra. }
    unfold sigR at 1. match goal with |- context [logisticR ?z] => set (l := logisticR z) end.
    assert (L : 0 < l < 1) by apply logistic_range. nra. }
  assert (exists q, frac_quench_sat (QP P) (Fin 10) (Fin 5) = Fin q /\ 0 < q <= 58 / 100) as (q & S1 & S2).
  { destruct (frac_sat_range P 10 5 Hb) as (q & Eq & Rq). exists q. split; auto. split; [lra|].
    revert Eq. unfold frac_quench_sat. attrs. rewrite !sigmoid_fin. intros Eq. apply Fin_inj in Eq. rewrite <- Eq. clear Eq Rq q.
    rewrite (V "frac_quench_sat_x0_ylotpeak"%string _ eq_refl), (V "frac_quench_sat_x0_yhitpeak"%string _ eq_refl),
      (V "frac_quench_sat_ylo_ylotpeak"%string _ eq_refl), (V "frac_quench_sat_ylo_yhitpeak"%string _ eq_refl),
      (V "frac_quench_sat_yhi"%string _ eq_refl), (V "frac_quench_sat_k"%string _ eq_refl).
    rewrite !q2r. cbn [Qnum Qden snd].
    set (y := sigR 5 _ _ (501/1000) _).
    assert (Hy : 0 < y <= 501/1000).
    { unfold y, sigR. set (l2 := logisticR _). assert (L2 : 0 < l2 < 1) by apply logistic_range. nra. }
    match goal with |- context [sigR 10 ?a ?b y ?c] => set (x0 := a) end.
    assert (Hx : 11097/1000 < x0).
    { unfold x0, sigR. set (l2 := logisticR _). assert (L2 : 0 < l2 < 1) by apply logistic_range. nra. }
    unfold sigR. set (z := _ * (10 - x0)).
    assert (Hz : z < - 547/100) by (unfold z; nra).
    assert (L1 := logistic_range z).
    assert (L2 := logistic_le_inv z ltac:(lra)).
    assert (L3 : / (1 - z) <= / (647/100)) by (apply Rinv_le_contravar; lra).
    assert (L4 : / (647/100) < 1546/10000) by (replace (/ (647/100)) with (100/647) by field; lra).
    set (l := logisticR z) in *. nra. }
  eexists. exists fc. eexists. split; [exact E|].
  split; [rewrite (means_covs_eq _ P) by apply holds_params; reflexivity|].
  cbn [mc_frac_cen mc_frac_sat sfh_pdf_scalar_kernel]. split; [exact C1|].
  unfold get_qprob_sat. rewrite E3, S1. split; [reflexivity|].
  assert (L := logistic_le (5 * (-100 - t)) (-475) ltac:(lra)).
  assert (L0 := logistic_range (5 * (-100 - t))).
  assert (L2 := logistic_le_inv (-475) ltac:(lra)). replace (1 - -475) with 476 in L2 by lra.
  assert (/ 476 < 1/100) by lra.
  set (l := logisticR (5 * _)) in *. assert (h * l < 1/100) by nra.
  assert (0 < h * l) by nra. unfold xsub. cbn [xopp xadd]. nra.
Qed.
