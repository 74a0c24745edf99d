(** Star formation histories of single galaxies. *)
From Coq Require Import Reals Lra Lia List Bool.
From Coquelicot Require Import Coquelicot.
From Verif Require Import XReal XFacts RealFacts ModelUtils ModelKernels ModelSfh SpecCore
  SigmoidProofs TriweightProofs QuenchProofs IntegralProofs.
Import List ListNotations.
Open Scope R_scope.

Lemma tw_cdf_eq y : tw_cdf y = twR y.
Proof.
  unfold tw_cdf.
  replace (twR y) with (minus (twR y) (twR (-3))).
  2:{ rewrite (twR_lo (-3)) by lra. unfold minus, plus, opp; simpl. ring. }
  apply (is_RInt_unique (V := R_CompleteNormedModule)).
  apply (is_RInt_derive twR tw_pdf).
  - intros x _. apply is_derive_tw.
  - intros x _. apply continuous_tw_pdf.
Qed.

Lemma quench_spec_eq qt dt drop rejuv lgt : 0 < dt ->
  quenchR lgt qt dt drop rejuv = quench_spec qt dt drop rejuv lgt.
Proof.
  intros H. unfold quenchR, quench_spec. f_equal. rewrite !tw_cdf_eq.
  set (y := (lgt - qt) / (dt / 12)).
  replace ((lgt - (qt - dt / 4)) / (dt / 12)) with (y + 3) by (unfold y; field; lra).
  replace ((lgt - (qt + dt / 4)) / (dt / 12)) with (y - 3) by (unfold y; field; lra).
  destruct (Rle_lt_dec y 0).
  - rewrite qexp_left, (twR_lo (y - 3)) by lra. ring.
  - rewrite qexp_right, (twR_hi (y + 3)) by lra. ring.
Qed.

Definition effR (ms : MSParams R) (m : R) : R :=
  lgy_at_mcrit ms + sigR m (lgmcrit ms) 9 (indx_lo ms) (indx_hi ms) * (m - lgmcrit ms).

Lemma eff_fin ms m : sfr_eff_plaw (Fin m) (map_ms Fin ms) = Fin (effR ms m).
Proof. reflexivity. Qed.

Lemma eff_spec_eq p m : effR (slice_ms p) m = eff_spec p m.
Proof.
  unfold effR, eff_spec, sigR, logisticR. simpl. unfold Rdiv. rewrite Rmult_1_l. ring.
Qed.

Section S.
Variable log_mah_kern : MahParams xr -> xr -> xr -> xr.

Lemma sfh_ms_fin t mah p lgt0 fb m : log_mah_kern mah t lgt0 = Fin m ->
  sfh_ms_kernel log_mah_kern t mah (slice_ms (map_d Fin p)) lgt0 (Fin fb) = Fin (ms_spec p fb m).
Proof.
  intros H. unfold sfh_ms_kernel. rewrite H. cbv zeta.
  change (slice_ms (map_d Fin p)) with (map_ms Fin (slice_ms p)).
  rewrite eff_fin, eff_spec_eq. reflexivity.
Qed.

Lemma sfh_scalar_fin t mah p lgt0 fb m : 0 < t -> log_mah_kern mah (Fin t) lgt0 = Fin m ->
  sfh_singlegal_scalar log_mah_kern (Fin t) mah (slice_ms (map_d Fin p)) (slice_q (map_d Fin p)) lgt0 (Fin fb)
  = Fin (sfr_spec p fb m t).
Proof.
  intros Ht H. unfold sfh_singlegal_scalar. rewrite (sfh_ms_fin _ _ _ _ _ _ H).
  rewrite xlog10_fin by exact Ht.
  change (slice_q (map_d Fin p)) with (map_q Fin (slice_q p)).
  cbn [map_q slice_q lg_qt qlglgdt lg_drop lg_rejuv].
  change (xpow10 (Fin (d_qlglgdt p))) with (Fin (pow10R (d_qlglgdt p))).
  pose proof (pow10_pos (d_qlglgdt p)).
  rewrite quenching_kern_fin by lra. rewrite quench_spec_eq by assumption.
  cbv zeta. unfold SFR_MIN. cbn [xmul xlt]. unfold sfr_spec, Rltb, SFR_MIN_R.
  set (s := _ * ms_spec p fb m).
  destruct (Rlt_dec s (1 / 10 ^ 14)).
  - rewrite Rmax_left by lra. reflexivity.
  - rewrite Rmax_right by lra. reflexivity.
Qed.

Lemma calc_sfh_value p mah ts lgt0 fb m :
  halo_history log_mah_kern mah lgt0 m ts ->
  calc_sfh_singlegal log_mah_kern (map_d Fin p) mah (map Fin ts) lgt0 (Fin fb)
  = map Fin (map (fun t => sfr_spec p fb (m t) t) ts).
Proof.
  intros H. unfold calc_sfh_singlegal, sfh_singlegal_kern.
  rewrite !map_map. apply map_ext_in. intros t Ht.
  unfold halo_history in H. rewrite Forall_forall in H. destruct (H t Ht).
  apply sfh_scalar_fin; assumption.
Qed.

Lemma sfr_spec_floor p fb m t : 1 / 10 ^ 14 <= sfr_spec p fb m t.
Proof. apply Rmax_l. Qed.

Lemma calc_sfh_floor p mah ts lgt0 fb m :
  halo_history log_mah_kern mah lgt0 m ts ->
  exists s, calc_sfh_singlegal log_mah_kern (map_d Fin p) mah (map Fin ts) lgt0 (Fin fb) = map Fin s
    /\ length s = length ts /\ Forall (fun x => 1 / 10 ^ 14 <= x) s.
Proof.
  intros H. eexists. split; [apply calc_sfh_value, H|]. split; [apply map_length|].
  rewrite Forall_map, Forall_forall. intros. apply sfr_spec_floor.
Qed.

(** smh *)
Lemma calc_sfh_smh_value p mah ts lgt0 fb m :
  halo_history log_mah_kern mah lgt0 m ts ->
  let s := map (fun t => sfr_spec p fb (m t) t) ts in
  calc_sfh_singlegal_smh log_mah_kern (map_d Fin p) mah (map Fin ts) lgt0 (Fin fb)
  = Some (map Fin s, map Fin (massR ts s)).
Proof.
  intros H s. unfold calc_sfh_singlegal_smh.
  pose proof (calc_sfh_value p mah ts lgt0 fb m H) as E. unfold calc_sfh_singlegal in E.
  rewrite E. rewrite cumulative_fin by (rewrite map_length; reflexivity). reflexivity.
Qed.

Lemma smh_is_integral p mah ts lgt0 fb m :
  halo_history log_mah_kern mah lgt0 m ts -> increasing (1 / 1000 :: ts) ->
  exists sfh smh,
    calc_sfh_singlegal_smh log_mah_kern (map_d Fin p) mah (map Fin ts) lgt0 (Fin fb)
      = Some (map Fin sfh, map Fin smh) /\
    length sfh = length ts /\ length smh = length ts /\
    forall i, (i < length ts)%nat ->
      nth i smh 0 = 10 ^ 9 * RInt (pwl ((1 / 1000, 1 / 10 ^ 14) :: combine ts sfh)) (1 / 1000) (nth i ts 0).
Proof.
  intros H Hinc. do 2 eexists. split; [apply calc_sfh_smh_value, H|].
  split; [apply map_length|]. split; [apply massR_length; rewrite map_length; reflexivity|].
  intros i Hi. apply massR_integral; auto. rewrite map_length; reflexivity.
Qed.

Lemma smh_increasing p mah ts lgt0 fb m :
  halo_history log_mah_kern mah lgt0 m ts -> increasing (1 / 1000 :: ts) ->
  exists sfh smh,
    calc_sfh_singlegal_smh log_mah_kern (map_d Fin p) mah (map Fin ts) lgt0 (Fin fb)
      = Some (map Fin sfh, map Fin smh) /\
    length smh = length ts /\ increasing smh /\ Forall (fun x => 0 < x) smh.
Proof.
  intros H Hinc. do 2 eexists. split; [apply calc_sfh_smh_value, H|].
  split; [apply massR_length; rewrite map_length; reflexivity|].
  apply massR_increasing; auto.
  - rewrite map_length; reflexivity.
  - rewrite Forall_map, Forall_forall. intros t _. pose proof (sfr_spec_floor p fb (m t) t). lra.
Qed.

(** Same SFH whether or not smh is requested (any inputs, finite or not). *)
Lemma smh_same_sfh p mah ts lgt0 fb :
  exists smh, calc_sfh_singlegal_smh log_mah_kern p mah ts lgt0 fb
  = Some (calc_sfh_singlegal log_mah_kern p mah ts lgt0 fb, smh) /\ length smh = length ts.
Proof.
  unfold calc_sfh_singlegal_smh, calc_sfh_singlegal.
  set (s := sfh_singlegal_kern _ _ _ _ _ _ _).
  assert (Hl : length ts = length s) by (unfold s, sfh_singlegal_kern; rewrite map_length; reflexivity).
  rewrite cumulative_unfold by exact Hl. unfold cumtrapz. cbn [length]. rewrite Hl, Nat.eqb_refl.
  cbn [negb combine scan_out].
  destruct (cumtrapz_scan_func (T_BIRTH_MIN, SFR_MIN, Fin 0) (T_BIRTH_MIN, SFR_MIN)) as [st o].
  eexists. split; [reflexivity|]. cbn [tl]. rewrite map_length.
  assert (L : forall st l, length (scan_out cumtrapz_scan_func st l) = length l).
  { intros st0 l. revert st0. induction l as [|e l IH]; intros; simpl; auto.
    destruct (cumtrapz_scan_func st0 e). simpl. f_equal. apply IH. }
  rewrite L, combine_length. lia.
Qed.

(** Pointwise in time *)
Lemma calc_sfh_select p mah ts lgt0 fb idx :
  Forall (fun i => (i < length ts)%nat) idx ->
  calc_sfh_singlegal log_mah_kern p mah (map (fun i => nth i ts NaN) idx) lgt0 fb
  = map (fun i => nth i (calc_sfh_singlegal log_mah_kern p mah ts lgt0 fb) NaN) idx.
Proof.
  intros H. unfold calc_sfh_singlegal, sfh_singlegal_kern. rewrite map_map.
  apply map_ext_in. intros i Hi. rewrite Forall_forall in H. specialize (H i Hi).
  symmetry. apply nth_map with (f := fun t => sfh_singlegal_scalar log_mah_kern t mah _ _ lgt0 fb). exact H.
Qed.

(** fb *)
Lemma ms_spec_scale p c fb m : ms_spec p (c * fb) m = c * ms_spec p fb m.
Proof. unfold ms_spec. ring. Qed.

Lemma ms_spec_mono p fb1 fb2 m : fb1 <= fb2 -> ms_spec p fb1 m <= ms_spec p fb2 m.
Proof.
  intros. unfold ms_spec. pose proof (pow10_pos m). pose proof (pow10_pos (eff_spec p m)).
  apply Rmult_le_compat_r; [lra|]. apply Rmult_le_compat_r; lra.
Qed.

Lemma quench_spec_pos qt dt drop rejuv x : 0 < quench_spec qt dt drop rejuv x.
Proof. apply pow10_pos. Qed.

Lemma sfr_spec_mono p fb1 fb2 m t : fb1 <= fb2 -> sfr_spec p fb1 m t <= sfr_spec p fb2 m t.
Proof.
  intros H. unfold sfr_spec. apply Rle_max_compat_l.
  apply Rmult_le_compat_l; [left; apply quench_spec_pos|]. apply ms_spec_mono, H.
Qed.

Lemma cumR_le l1 : forall l2 a f1 f2 c1 c2, map fst l1 = map fst l2 ->
  increasing (a :: map fst l1) -> f1 <= f2 -> c1 <= c2 ->
  Forall2 (fun u v : R * R => snd u <= snd v) l1 l2 -> Forall2 Rle (cumR a f1 c1 l1) (cumR a f2 c2 l2).
Proof.
  induction l1 as [|[b g1] l1 IH]; intros [|[b2 g2] l2] a f1 f2 c1 c2 He Hinc Hf Hc HF;
    inversion HF; subst; [constructor|].
  simpl in He. injection He as <- He. destruct Hinc as [Hab Hinc]. simpl in Hab, H2.
  cbn [cumR].
  assert (E : c1 + (b - a) * (g1 + f1) / 2 <= c2 + (b - a) * (g2 + f2) / 2).
  { assert ((b - a) * (g1 + f1) <= (b - a) * (g2 + f2)) by (apply Rmult_le_compat_l; lra). lra. }
  constructor; [exact E|]. apply IH; auto.
Qed.

Lemma massR_le ts s1 s2 : length ts = length s1 -> increasing (T_BIRTH_MIN_R :: ts) ->
  Forall2 Rle s1 s2 -> Forall2 Rle (massR ts s1) (massR ts s2).
Proof.
  intros H1 Hinc HF. pose proof (F2_length _ _ _ HF) as H2.
  assert (E : Forall2 Rle (cumR T_BIRTH_MIN_R SFR_MIN_R 0 (combine ts s1))
                          (cumR T_BIRTH_MIN_R SFR_MIN_R 0 (combine ts s2))).
  { apply cumR_le; try lra.
    - rewrite !map_fst_combine by lia. reflexivity.
    - rewrite map_fst_combine by lia. exact Hinc.
    - clear Hinc H2. revert s2 ts H1 HF. induction s1 as [|a s1 IH]; intros s2 [|t ts] H1 HF;
        simpl in H1; try discriminate; inversion HF; subst; simpl; constructor; auto. }
  unfold massR. induction E; simpl; constructor; auto. apply Rmult_le_compat_r; lra.
Qed.

Lemma fb_monotone p mah ts lgt0 fb1 fb2 m :
  halo_history log_mah_kern mah lgt0 m ts -> increasing (1 / 1000 :: ts) -> fb1 <= fb2 ->
  exists s1 s2 m1 m2,
    calc_sfh_singlegal_smh log_mah_kern (map_d Fin p) mah (map Fin ts) lgt0 (Fin fb1)
      = Some (map Fin s1, map Fin m1) /\
    calc_sfh_singlegal_smh log_mah_kern (map_d Fin p) mah (map Fin ts) lgt0 (Fin fb2)
      = Some (map Fin s2, map Fin m2) /\
    Forall2 Rle s1 s2 /\ Forall2 Rle m1 m2.
Proof.
  intros H Hinc Hf. do 4 eexists. split; [apply calc_sfh_smh_value, H|].
  split; [apply calc_sfh_smh_value, H|].
  assert (E : Forall2 Rle (map (fun t => sfr_spec p fb1 (m t) t) ts) (map (fun t => sfr_spec p fb2 (m t) t) ts)).
  { clear H Hinc. induction ts; simpl; constructor; auto. apply sfr_spec_mono, Hf. }
  split; [exact E|]. apply massR_le; auto. rewrite map_length; reflexivity.
Qed.

Lemma fb_linear p mah t lgt0 fb c m s1 s2 :
  0 < t -> log_mah_kern mah (Fin t) lgt0 = Fin m ->
  calc_sfh_singlegal log_mah_kern (map_d Fin p) mah [Fin t] lgt0 (Fin fb) = [Fin s1] ->
  calc_sfh_singlegal log_mah_kern (map_d Fin p) mah [Fin t] lgt0 (Fin (c * fb)) = [Fin s2] ->
  1 / 10 ^ 14 < s1 -> 1 / 10 ^ 14 < s2 -> s2 = c * s1.
Proof.
  intros Ht Hm E1 E2 F1 F2.
  pose proof (calc_sfh_value p mah [t] lgt0 fb (fun _ => m)) as V1.
  pose proof (calc_sfh_value p mah [t] lgt0 (c * fb) (fun _ => m)) as V2.
  cbn [map] in *. rewrite V1 in E1 by (repeat constructor; auto).
  rewrite V2 in E2 by (repeat constructor; auto).
  injection E1 as <-. injection E2 as <-.
  unfold sfr_spec in *. rewrite ms_spec_scale in *.
  unfold Rmax in *. repeat destruct Rle_dec; lra.
Qed.

(** Quenching only lowers SFR *)
Lemma quench_spec_before qt dt drop rejuv x : 0 < dt -> x <= qt - dt / 2 -> quench_spec qt dt drop rejuv x = 1.
Proof. intros. rewrite <- quench_spec_eq by assumption. apply quench_before; assumption. Qed.

Lemma quench_spec_range qt dt drop rejuv x : 0 < dt -> drop <= rejuv -> rejuv <= 0 ->
  pow10R drop <= quench_spec qt dt drop rejuv x <= 1.
Proof. intros. rewrite <- quench_spec_eq by assumption. apply quench_range; assumption. Qed.

Lemma sfr_le_ms p mah ts lgt0 fb m : in_bounds p -> 0 <= fb ->
  halo_history log_mah_kern mah lgt0 m ts ->
  exists s, calc_sfh_singlegal log_mah_kern (map_d Fin p) mah (map Fin ts) lgt0 (Fin fb) = map Fin s /\
  Forall2 (fun x t => x <= Rmax (1 / 10 ^ 14) (ms_spec p fb (m t))) s ts.
Proof.
  intros Hb Hf H. eexists. split; [apply calc_sfh_value, H|].
  clear H. induction ts as [|t ts IH]; simpl; constructor; [|exact IH].
  unfold sfr_spec. apply Rle_max_compat_l.
  destruct Hb as (_ & _ & _ & _ & _ & _ & Hd & Hr).
  pose proof (quench_spec_range (d_lg_qt p) (pow10R (d_qlglgdt p)) (d_lg_drop p) (d_lg_rejuv p) (log10R t)
    (pow10_pos _)) as Q. specialize (Q ltac:(lra) ltac:(lra)).
  assert (0 <= ms_spec p fb (m t)).
  { unfold ms_spec. pose proof (pow10_pos (m t)). pose proof (pow10_pos (eff_spec p (m t))).
    apply Rmult_le_pos; [apply Rmult_le_pos|]; lra. }
  nra.
Qed.

Lemma sfr_before_onset (p p' : DiffstarParams R) mah ts lgt0 fb m : same_onset p p' ->
  halo_history log_mah_kern mah lgt0 m ts ->
  Forall (fun t => t <= pow10R (d_lg_qt p - pow10R (d_qlglgdt p) / 2)) ts ->
  calc_sfh_singlegal log_mah_kern (map_d Fin p) mah (map Fin ts) lgt0 (Fin fb)
  = calc_sfh_singlegal log_mah_kern (map_d Fin p') mah (map Fin ts) lgt0 (Fin fb).
Proof.
  intros (E1 & E2 & E3 & E4 & E5 & E6) H Ht.
  rewrite !(calc_sfh_value _ _ _ _ _ _ H). f_equal. apply map_ext_in. intros t Hin.
  unfold halo_history in H. rewrite Forall_forall in H, Ht.
  destruct (H t Hin) as [Hpos _]. specialize (Ht t Hin).
  assert (Hl : log10R t <= d_lg_qt p - pow10R (d_qlglgdt p) / 2) by (apply log10_le_iff; assumption).
  unfold sfr_spec. rewrite <- E5, <- E6.
  rewrite !quench_spec_before by (try apply pow10_pos; exact Hl).
  unfold ms_spec, eff_spec. rewrite E1, E2, E3, E4. reflexivity.
Qed.

(** Unquenched defaults *)
Lemma unquenched_value : DEFAULT_Q_PARAMS_UNQUENCHED = map_q Fin (bounded_qR (mkQ 5 5 5 5)).
Proof. apply (bounded_q_fin (mkQ 5 5 5 5)). Qed.

Lemma log10_today : log10R (138 / 10) <= 6 / 5.
Proof.
  assert (H : 5 * log10R (138 / 10) <= 6); [|lra].
  replace (5 * log10R (138 / 10)) with (log10R ((138 / 10) ^ 5)).
  - replace 6 with (log10R (pow10R 6)) by apply log10_pow10.
    apply log10_le; [apply pow_lt; lra|].
    replace 6 with (1 + 1 + 1 + 1 + 1 + 1) by ring. rewrite !pow10_plus, pow10_1. lra.
  - simpl. rewrite !log10_mult by (repeat apply Rmult_lt_0_compat; lra). rewrite log10_1. ring.
Qed.

Lemma unquenched_onset :
  6 / 5 <= lg_qt (bounded_qR (mkQ 5 5 5 5)) - pow10R (qlglgdt (bounded_qR (mkQ 5 5 5 5))) / 2.
Proof.
  cbn [bounded_qR lg_qt qlglgdt].
  assert (H1 : pow10R (bndR 5 (-3) (-1 / 100)) <= 1).
  { rewrite <- pow10_0. apply pow10_le. pose proof (bnd_range 5 (-3) (-1 / 100)). lra. }
  assert (H2 : 17 / 10 <= bndR 5 (1 / 10) 2); [|lra].
  unfold bndR, sigR.
  set (x := 4 / (2 - 1 / 10) * (5 - (1 / 10 + 2) / 2)).
  assert (Hx : 8 <= x) by (unfold x; lra).
  assert (Hl : 9 / 10 - 1 / 90 <= logisticR x).
  { apply Rle_trans with (logisticR 8); [|apply logistic_le, Hx].
    unfold logisticR. rewrite exp_Ropp. pose proof (exp_ineq1_le 8).
    assert (/ exp 8 <= / 9) by (apply Rinv_le_contravar; lra).
    pose proof (Rinv_0_lt_compat _ (exp_pos 8)).
    apply Rmult_le_reg_r with (1 + / exp 8); [lra|]. rewrite Rinv_l by lra. nra. }
  lra.
Qed.

Lemma unquenched_inert ms mah ts lgt0 fb m :
  halo_history log_mah_kern mah lgt0 m ts -> Forall (fun t => t <= 138 / 10) ts ->
  exists q : QParams R, DEFAULT_Q_PARAMS_UNQUENCHED = map_q Fin q /\
  calc_sfh_singlegal log_mah_kern (map_d Fin (join_params ms q)) mah (map Fin ts) lgt0 (Fin fb)
  = map (fun t => Fin (Rmax (1 / 10 ^ 14) (ms_spec (join_params ms q) fb (m t)))) ts.
Proof.
  intros H Ht. exists (bounded_qR (mkQ 5 5 5 5)). split; [apply unquenched_value|].
  rewrite (calc_sfh_value _ _ _ _ _ _ H), map_map. apply map_ext_in. intros t Hin.
  unfold halo_history in H. rewrite Forall_forall in H, Ht.
  destruct (H t Hin) as [Hpos _]. specialize (Ht t Hin).
  f_equal. unfold sfr_spec. rewrite quench_spec_before; [f_equal; ring|apply pow10_pos|].
  pose proof (log10_le _ _ Hpos Ht). pose proof log10_today. pose proof unquenched_onset.
  cbn [join_params d_lg_qt d_qlglgdt]. lra.
Qed.

End S.

(** Efficiency envelope *)
Lemma eff_at_mcrit p : eff_spec p (d_lgmcrit p) = d_lgy_at_mcrit p.
Proof. unfold eff_spec. replace (d_lgmcrit p - d_lgmcrit p) with 0 by ring. ring. Qed.

Lemma eff_form p m : eff_spec p m = d_lgy_at_mcrit p + (m - d_lgmcrit p) *
  (d_indx_lo p + (d_indx_hi p - d_indx_lo p) * logisticR (9 * (m - d_lgmcrit p))).
Proof. unfold eff_spec, logisticR. unfold Rdiv. rewrite Rmult_1_l. reflexivity. Qed.

Lemma eff_powerlaws p m : d_indx_hi p <= d_indx_lo p ->
  let x := m - d_lgmcrit p in
  let w := (d_indx_lo p - d_indx_hi p) / 27 in
  (x <= 0 -> d_lgy_at_mcrit p + d_indx_lo p * x <= eff_spec p m
             <= d_lgy_at_mcrit p + d_indx_lo p * x + w) /\
  (0 <= x -> d_lgy_at_mcrit p + d_indx_hi p * x <= eff_spec p m
             <= d_lgy_at_mcrit p + d_indx_hi p * x + w).
Proof.
  intros H x w. rewrite eff_form. fold x.
  pose proof (x_logistic_ge (9 * x)) as A. pose proof (x_logistic_opp_le (9 * x)) as B.
  pose proof (logistic_range (9 * x)) as [L U]. rewrite logistic_opp in B.
  set (s := logisticR (9 * x)) in *. set (D := d_indx_lo p - d_indx_hi p) in *.
  assert (HD : 0 <= D) by (unfold D; lra).
  split; intros Hx.
  - replace (x * (d_indx_lo p + (d_indx_hi p - d_indx_lo p) * s))
      with (d_indx_lo p * x + D * (- (x * s))) by (unfold D; ring).
    assert (0 <= - (x * s) <= 1 / 27) by (split; nra).
    assert (0 <= D * (- (x * s))) by (apply Rmult_le_pos; lra).
    assert (D * (- (x * s)) <= D * (1 / 27)) by (apply Rmult_le_compat_l; lra).
    unfold w. lra.
  - replace (x * (d_indx_lo p + (d_indx_hi p - d_indx_lo p) * s))
      with (d_indx_hi p * x + D * (x * (1 - s))) by (unfold D; ring).
    assert (0 <= x * (1 - s) <= 1 / 27) by (split; nra).
    assert (0 <= D * (x * (1 - s))) by (apply Rmult_le_pos; lra).
    assert (D * (x * (1 - s)) <= D * (1 / 27)) by (apply Rmult_le_compat_l; lra).
    unfold w. lra.
Qed.

Lemma eff_upper p m : d_indx_hi p <= 0 -> 0 <= d_indx_lo p ->
  eff_spec p m <= d_lgy_at_mcrit p + Rmax (d_indx_lo p) (- d_indx_hi p) / 27.
Proof.
  intros H1 H2. rewrite eff_form. set (x := m - d_lgmcrit p).
  pose proof (x_logistic_ge (9 * x)) as A. pose proof (x_logistic_opp_le (9 * x)) as B.
  pose proof (logistic_range (9 * x)) as [L U]. rewrite logistic_opp in B.
  set (s := logisticR (9 * x)) in *.
  pose proof (Rmax_l (d_indx_lo p) (- d_indx_hi p)). pose proof (Rmax_r (d_indx_lo p) (- d_indx_hi p)).
  destruct (Rle_lt_dec x 0).
  - assert (x * (d_indx_lo p + (d_indx_hi p - d_indx_lo p) * s) <= - d_indx_hi p / 27); [|lra].
    replace (x * (d_indx_lo p + (d_indx_hi p - d_indx_lo p) * s))
      with (d_indx_lo p * (x * (1 - s)) + (- d_indx_hi p) * (- (x * s))) by ring.
    assert (x * (1 - s) <= 0) by nra. assert (- (x * s) <= 1 / 27) by lra. nra.
  - assert (x * (d_indx_lo p + (d_indx_hi p - d_indx_lo p) * s) <= d_indx_lo p / 27); [|lra].
    replace (x * (d_indx_lo p + (d_indx_hi p - d_indx_lo p) * s))
      with (d_indx_lo p * (x * (1 - s)) + d_indx_hi p * (x * s)) by ring.
    assert (0 <= x * s) by nra. assert (x * (1 - s) <= 1 / 27) by lra. nra.
Qed.

(** Triweight kernel, all copies *)
Lemma triweight_kernel :
  (forall x m h, 0 < h -> tw_cuml_jax_kern (Fin x) (Fin m) (Fin h) = Fin (tw_cdf ((x - m) / h))) /\
  (forall y, jax_tw (Fin y) = Fin (tw_cdf y)) /\
  (forall y, y <= -3 -> tw_cdf y = 0) /\ (forall y, 3 <= y -> tw_cdf y = 1) /\
  (forall x y, x <= y -> tw_cdf x <= tw_cdf y) /\ (forall y, 0 <= tw_cdf y <= 1) /\
  (forall y, tw_cdf (- y) = 1 - tw_cdf y) /\
  (forall y, is_derive tw_cdf y (tw_pdf y)) /\ (forall y, continuous tw_pdf y).
Proof.
  split; [intros; rewrite tw_cuml_fin, tw_cdf_eq by lra; reflexivity|].
  split; [intros; rewrite jax_tw_fin, tw_cdf_eq; reflexivity|].
  split; [intros; rewrite tw_cdf_eq; apply twR_lo; assumption|].
  split; [intros; rewrite tw_cdf_eq; apply twR_hi; assumption|].
  split; [intros; rewrite !tw_cdf_eq; apply twR_mono; assumption|].
  split; [intros; rewrite tw_cdf_eq; apply twR_range|].
  split; [intros; rewrite !tw_cdf_eq; apply twR_sym|].
  split; [|apply continuous_tw_pdf].
  intros y. apply (is_derive_ext twR); [intros; symmetry; apply tw_cdf_eq|apply is_derive_tw].
Qed.

(** Mass in one bin of the triweight kernel *)
Lemma tw_bin_value m h L H : 0 < h -> L <= H ->
  tw_bin_jax_kern (Fin m) (Fin h) (Fin L) (Fin H) = Fin (RInt tw_pdf ((L - m) / h) ((H - m) / h)) /\
  0 <= RInt tw_pdf ((L - m) / h) ((H - m) / h) <= 1.
Proof.
  intros Hh HLH.
  assert (E : RInt tw_pdf ((L - m) / h) ((H - m) / h) = twR ((H - m) / h) - twR ((L - m) / h)).
  { apply (is_RInt_unique (V := R_CompleteNormedModule)).
    apply (is_RInt_derive twR tw_pdf); intros; [apply is_derive_tw|apply continuous_tw_pdf]. }
  split.
  - unfold tw_bin_jax_kern. rewrite !tw_cuml_fin by lra. rewrite E. reflexivity.
  - rewrite E. pose proof (twR_range ((H - m) / h)). pose proof (twR_range ((L - m) / h)).
    assert ((L - m) / h <= (H - m) / h).
    { apply Rmult_le_compat_r; [left; apply Rinv_0_lt_compat; lra|lra]. }
    pose proof (twR_mono _ _ H2). lra.
Qed.

(** Model-level restatement of the efficiency lemmas *)
Lemma eff_value p m : sfr_eff_plaw (Fin m) (map_ms Fin (slice_ms p)) = Fin (eff_spec p m).
Proof. rewrite eff_fin, eff_spec_eq. reflexivity. Qed.

Lemma efficiency_envelope p : d_indx_hi p <= 0 -> 0 <= d_indx_lo p ->
  exists E : R -> R, (forall m, sfr_eff_plaw (Fin m) (map_ms Fin (slice_ms p)) = Fin (E m)) /\
  E (d_lgmcrit p) = d_lgy_at_mcrit p /\
  (forall m, E m <= d_lgy_at_mcrit p + Rmax (d_indx_lo p) (- d_indx_hi p) / 27) /\
  (forall m, m <= d_lgmcrit p ->
     0 <= E m - (d_lgy_at_mcrit p + d_indx_lo p * (m - d_lgmcrit p)) <= (d_indx_lo p - d_indx_hi p) / 27) /\
  (forall m, d_lgmcrit p <= m ->
     0 <= E m - (d_lgy_at_mcrit p + d_indx_hi p * (m - d_lgmcrit p)) <= (d_indx_lo p - d_indx_hi p) / 27).
Proof.
  intros H1 H2. exists (eff_spec p). split; [apply eff_value|]. split; [apply eff_at_mcrit|].
  split; [intros; apply eff_upper; assumption|].
  split; intros m Hm; pose proof (eff_powerlaws p m ltac:(lra)) as [A B]; cbv zeta in A, B.
  - specialize (A ltac:(lra)). lra.
  - specialize (B ltac:(lra)). lra.
Qed.

Lemma quench_formula qt dt drop rejuv x : 0 < dt ->
  quenching_kern (Fin x) (Fin qt) (Fin dt) (Fin drop) (Fin rejuv) = Fin (quench_spec qt dt drop rejuv x).
Proof. intros H. rewrite quenching_kern_fin by lra. rewrite quench_spec_eq by exact H. reflexivity. Qed.
