(** Directions in which the parameters move a star formation history. *)
From Coq Require Import Reals Lra Lia List Bool.
From Coquelicot Require Import Coquelicot.
From Verif Require Import XReal XFacts RealFacts ModelUtils ModelKernels ModelSfh SpecCore SpecRefine
  SigmoidProofs TriweightProofs QuenchProofs IntegralProofs SfhProofs.
Import List ListNotations.
Open Scope R_scope.

Definition lgs (x : R) : R := 1 / (1 + exp (- (9 * x))).
Lemma lgs_range x : 0 < lgs x < 1.
Proof.
  unfold lgs. pose proof (exp_pos (- (9 * x))). split; [apply Rdiv_lt_0_compat; lra|].
  apply (Rmult_lt_reg_r (1 + exp (- (9 * x)))); [lra|]. unfold Rdiv. rewrite Rmult_assoc, Rinv_l; lra.
Qed.
Lemma lgs_mono x y : x <= y -> lgs x <= lgs y.
Proof.
  intros H. unfold lgs. pose proof (exp_pos (- (9 * y))). unfold Rdiv. apply Rmult_le_compat_l; [lra|].
  apply Rinv_le_contravar; [lra|].
  destruct (Req_dec x y) as [->|N]; [lra|]. assert (exp (- (9 * y)) < exp (- (9 * x))) by (apply exp_increasing; lra). lra.
Qed.
Lemma lgs_0 : lgs 0 = 1 / 2.
Proof. unfold lgs. replace (- (9 * 0)) with 0 by ring. rewrite exp_0. field. Qed.

Lemma quench_mono qt dt d d' r r' x : 0 < dt -> d <= d' -> r <= r' ->
  quench_spec qt dt d r x <= quench_spec qt dt d' r' x.
Proof.
  intros Hdt Hd Hr. unfold quench_spec. apply pow10_le.
  rewrite !tw_cdf_eq.
  set (c1 := twR ((x - (qt - dt / 4)) / (dt / 12))). set (c2 := twR ((x - (qt + dt / 4)) / (dt / 12))).
  assert (M : c2 <= c1).
  { apply twR_mono. unfold Rdiv. apply Rmult_le_compat_r; [left; apply Rinv_0_lt_compat; lra|lra]. }
  pose proof (twR_range ((x - (qt + dt / 4)) / (dt / 12))) as P. fold c2 in P.
  replace (d * c1 + (r - d) * c2) with (d * (c1 - c2) + r * c2) by ring.
  replace (d' * c1 + (r' - d') * c2) with (d' * (c1 - c2) + r' * c2) by ring.
  apply Rplus_le_compat; apply Rmult_le_compat_r; lra.
Qed.

Lemma eff_form' p m : eff_spec p m = d_lgy_at_mcrit p +
  (d_indx_lo p * ((m - d_lgmcrit p) * (1 - lgs (m - d_lgmcrit p))) + d_indx_hi p * ((m - d_lgmcrit p) * lgs (m - d_lgmcrit p))).
Proof. unfold eff_spec, lgs. ring. Qed.

Lemma ms_le p p' fb m : 0 <= fb -> eff_spec p m <= eff_spec p' m -> ms_spec p fb m <= ms_spec p' fb m.
Proof.
  intros Hf H. unfold ms_spec. apply Rmult_le_compat_l; [|apply pow10_le, H].
  apply Rmult_le_pos; [exact Hf|left; apply pow10_pos].
Qed.
Lemma ms_nonneg p fb m : 0 <= fb -> 0 <= ms_spec p fb m.
Proof.
  intros H. unfold ms_spec. apply Rmult_le_pos; [apply Rmult_le_pos; [exact H|left; apply pow10_pos]|left; apply pow10_pos].
Qed.

Lemma sfr_le p p' fb m t : 0 <= fb -> eff_spec p m <= eff_spec p' m ->
  d_lg_qt p' = d_lg_qt p -> d_qlglgdt p' = d_qlglgdt p -> d_lg_drop p <= d_lg_drop p' -> d_lg_rejuv p <= d_lg_rejuv p' ->
  sfr_spec p fb m t <= sfr_spec p' fb m t.
Proof.
  intros Hf He Hq Hd H1 H2. unfold sfr_spec. apply Rle_max_compat_l. rewrite Hq, Hd.
  apply Rmult_le_compat; [left; apply quench_spec_pos|apply ms_nonneg, Hf| |apply ms_le; assumption].
  apply quench_mono; [apply pow10_pos|assumption|assumption].
Qed.

Lemma eff_order p p' m : d_lgmcrit p' = d_lgmcrit p -> d_lgy_at_mcrit p <= d_lgy_at_mcrit p' ->
  0 <= (m - d_lgmcrit p) * (d_indx_lo p' - d_indx_lo p) -> 0 <= (m - d_lgmcrit p) * (d_indx_hi p' - d_indx_hi p) ->
  eff_spec p m <= eff_spec p' m.
Proof.
  intros Hc Hy Hl Hh. rewrite !eff_form', Hc. pose proof (lgs_range (m - d_lgmcrit p)) as L.
  set (x := m - d_lgmcrit p) in *. set (s := lgs x) in *.
  assert (A : 0 <= x * (d_indx_lo p' - d_indx_lo p) * (1 - s)) by (apply Rmult_le_pos; lra).
  assert (B : 0 <= x * (d_indx_hi p' - d_indx_hi p) * s) by (apply Rmult_le_pos; lra).
  nra.
Qed.

Lemma eff_lgmcrit_below p p' m : differ_in_lgmcrit p p' -> d_indx_hi p <= d_indx_lo p -> 0 <= d_indx_lo p + d_indx_hi p ->
  m <= d_lgmcrit p -> d_lgmcrit p <= d_lgmcrit p' -> eff_spec p' m <= eff_spec p m.
Proof.
  intros E Hi Hs Hm Hc. rewrite !eff_form'. rewrite E. cbn [d_lgmcrit d_lgy_at_mcrit d_indx_lo d_indx_hi].
  set (x := m - d_lgmcrit p). set (x' := m - d_lgmcrit p'). set (l := d_indx_lo p) in *. set (h := d_indx_hi p) in *.
  assert (X : x' <= x) by (unfold x, x'; lra). assert (X0 : x <= 0) by (unfold x; lra).
  pose proof (lgs_mono x' x X) as M. pose proof (lgs_mono x 0 X0) as M0. rewrite lgs_0 in M0.
  pose proof (lgs_range x). pose proof (lgs_range x').
  set (s := lgs x) in *. set (s' := lgs x') in *.
  assert (S0 : 0 <= l + (h - l) * s) by nra.
  assert (S1 : l + (h - l) * s <= l + (h - l) * s') by nra.
  replace (l * (x' * (1 - s')) + h * (x' * s')) with (x' * (l + (h - l) * s')) by ring.
  replace (l * (x * (1 - s)) + h * (x * s)) with (x * (l + (h - l) * s)) by ring.
  apply Rplus_le_compat_l. nra.
Qed.

Lemma eff_lgmcrit_above p p' m : differ_in_lgmcrit p p' -> d_indx_hi p <= d_indx_lo p -> d_indx_lo p + d_indx_hi p <= 0 ->
  d_lgmcrit p' <= m -> d_lgmcrit p <= d_lgmcrit p' -> eff_spec p m <= eff_spec p' m.
Proof.
  intros E Hi Hs Hm Hc. rewrite !eff_form'. rewrite E. cbn [d_lgmcrit d_lgy_at_mcrit d_indx_lo d_indx_hi].
  set (x := m - d_lgmcrit p). set (x' := m - d_lgmcrit p'). set (l := d_indx_lo p) in *. set (h := d_indx_hi p) in *.
  assert (X : x' <= x) by (unfold x, x'; lra). assert (X0 : 0 <= x') by (unfold x'; lra).
  pose proof (lgs_mono x' x X) as M. pose proof (lgs_mono 0 x' X0) as M0. rewrite lgs_0 in M0.
  pose proof (lgs_range x). pose proof (lgs_range x').
  set (s := lgs x) in *. set (s' := lgs x') in *.
  assert (S0 : l + (h - l) * s' <= 0) by nra.
  assert (S1 : l + (h - l) * s <= l + (h - l) * s') by nra.
  replace (l * (x' * (1 - s')) + h * (x' * s')) with (x' * (l + (h - l) * s')) by ring.
  replace (l * (x * (1 - s)) + h * (x * s)) with (x * (l + (h - l) * s)) by ring.
  apply Rplus_le_compat_l. nra.
Qed.

Section Dir.
Variable log_mah_kern : MahParams xr -> xr -> xr -> xr.

Lemma order_api p p' mah ts lgt0 fb m :
  halo_history log_mah_kern mah lgt0 m ts -> increasing (1 / 1000 :: ts) ->
  Forall (fun t => sfr_spec p fb (m t) t <= sfr_spec p' fb (m t) t) ts ->
  exists s1 s2 m1 m2,
    calc_sfh_singlegal_smh log_mah_kern (map_d Fin p) mah (map Fin ts) lgt0 (Fin fb) = Some (map Fin s1, map Fin m1) /\
    calc_sfh_singlegal_smh log_mah_kern (map_d Fin p') mah (map Fin ts) lgt0 (Fin fb) = Some (map Fin s2, map Fin m2) /\
    Forall2 Rle s1 s2 /\ Forall2 Rle m1 m2.
Proof.
  intros H Hinc HF. do 4 eexists. split; [apply calc_sfh_smh_value, H|]. split; [apply calc_sfh_smh_value, H|].
  assert (E : Forall2 Rle (map (fun t => sfr_spec p fb (m t) t) ts) (map (fun t => sfr_spec p' fb (m t) t) ts)).
  { clear H Hinc. induction HF; simpl; constructor; assumption. }
  split; [exact E|]. apply massR_le; auto. rewrite map_length; reflexivity.
Qed.

Lemma no_less p p' mah ts lgt0 fb m : 0 <= fb ->
  halo_history log_mah_kern mah lgt0 m ts -> increasing (1 / 1000 :: ts) -> forms_no_less (map m ts) p p' ->
  exists s1 s2 m1 m2,
    calc_sfh_singlegal_smh log_mah_kern (map_d Fin p) mah (map Fin ts) lgt0 (Fin fb) = Some (map Fin s1, map Fin m1) /\
    calc_sfh_singlegal_smh log_mah_kern (map_d Fin p') mah (map Fin ts) lgt0 (Fin fb) = Some (map Fin s2, map Fin m2) /\
    Forall2 Rle s1 s2 /\ Forall2 Rle m1 m2.
Proof.
  intros Hf H Hinc (Hc & Hq & Hd & Hy & Hr & Hj & HM). apply (order_api p p' mah ts lgt0 fb m H Hinc).
  rewrite Forall_map in HM. rewrite Forall_forall in *. intros t Ht. destruct (HM t Ht) as [A B].
  apply sfr_le; try assumption. apply eff_order; assumption.
Qed.

Lemma lgmcrit_below p p' mah ts lgt0 fb m : 0 <= fb ->
  halo_history log_mah_kern mah lgt0 m ts -> increasing (1 / 1000 :: ts) -> differ_in_lgmcrit p p' ->
  d_indx_hi p <= d_indx_lo p -> 0 <= d_indx_lo p + d_indx_hi p ->
  d_lgmcrit p <= d_lgmcrit p' -> Forall (fun t => m t <= d_lgmcrit p) ts ->
  exists s1 s2 m1 m2,
    calc_sfh_singlegal_smh log_mah_kern (map_d Fin p') mah (map Fin ts) lgt0 (Fin fb) = Some (map Fin s1, map Fin m1) /\
    calc_sfh_singlegal_smh log_mah_kern (map_d Fin p) mah (map Fin ts) lgt0 (Fin fb) = Some (map Fin s2, map Fin m2) /\
    Forall2 Rle s1 s2 /\ Forall2 Rle m1 m2.
Proof.
  intros Hf H Hinc E Hi Hs Hc HF. apply (order_api p' p mah ts lgt0 fb m H Hinc).
  rewrite Forall_forall in *. intros t Ht.
  apply sfr_le; [exact Hf|apply eff_lgmcrit_below; auto| | | | ]; rewrite E; cbn; auto; lra.
Qed.

Lemma lgmcrit_above p p' mah ts lgt0 fb m : 0 <= fb ->
  halo_history log_mah_kern mah lgt0 m ts -> increasing (1 / 1000 :: ts) -> differ_in_lgmcrit p p' ->
  d_indx_hi p <= d_indx_lo p -> d_indx_lo p + d_indx_hi p <= 0 ->
  d_lgmcrit p <= d_lgmcrit p' -> Forall (fun t => d_lgmcrit p' <= m t) ts ->
  exists s1 s2 m1 m2,
    calc_sfh_singlegal_smh log_mah_kern (map_d Fin p) mah (map Fin ts) lgt0 (Fin fb) = Some (map Fin s1, map Fin m1) /\
    calc_sfh_singlegal_smh log_mah_kern (map_d Fin p') mah (map Fin ts) lgt0 (Fin fb) = Some (map Fin s2, map Fin m2) /\
    Forall2 Rle s1 s2 /\ Forall2 Rle m1 m2.
Proof.
  intros Hf H Hinc E Hi Hs Hc HF. apply (order_api p p' mah ts lgt0 fb m H Hinc).
  rewrite Forall_forall in *. intros t Ht.
  apply sfr_le; [exact Hf|apply eff_lgmcrit_above; auto| | | | ]; rewrite E; cbn; auto; lra.
Qed.
End Dir.

(** A later quenching time can lower the rate: a galaxy quenched at 10^0.5 Gyr has recovered
    to its final level at 10 Gyr, one quenched at 10 Gyr is at the bottom of its drop. *)
Definition early : DiffstarParams R := mkDiffstar 12 (-10) 1 (-1) (1 / 2) (-1) (-2) (-1).
Definition late : DiffstarParams R := mkDiffstar 12 (-10) 1 (-1) 1 (-1) (-2) (-1).
Lemma later_quenching_lowers : in_bounds early /\ in_bounds late /\
  exists log_mah_kern mah lgt0 t s1 s2, 0 < t /\
  calc_sfh_singlegal log_mah_kern (map_d Fin early) mah [Fin t] lgt0 (Fin (1 / 10)) = [Fin s1] /\
  calc_sfh_singlegal log_mah_kern (map_d Fin late) mah [Fin t] lgt0 (Fin (1 / 10)) = [Fin s2] /\
  s2 < s1.
Proof.
  split; [unfold in_bounds, early; cbn; lra|]. split; [unfold in_bounds, late; cbn; lra|].
  set (k := fun (_ : MahParams xr) (_ _ : xr) => Fin 12).
  exists k, (mkMah (Fin 12) (Fin 0) (Fin 2) (Fin 1) (Fin 14)), (Fin 1), 10.
  assert (H : halo_history k (mkMah (Fin 12) (Fin 0) (Fin 2) (Fin 1) (Fin 14)) (Fin 1) (fun _ => 12) [10]).
  { repeat constructor. lra. }
  pose proof (calc_sfh_value k early _ _ _ (1 / 10) _ H) as V1. pose proof (calc_sfh_value k late _ _ _ (1 / 10) _ H) as V2.
  do 2 eexists. split; [lra|]. split; [exact V1|]. split; [exact V2|].
  assert (L10 : log10R 10 = 1).
  { unfold log10R. apply Rinv_r. apply Rgt_not_eq. rewrite <- ln_1. apply ln_increasing; lra. }
  assert (P1 : pow10R (-1) = 1 / 10).
  { unfold pow10R. replace (-1 * ln 10) with (- ln 10) by ring. rewrite exp_Ropp, exp_ln by lra. field. }
  assert (P2 : pow10R (-2) = 1 / 100).
  { unfold pow10R. replace (-2 * ln 10) with (- ln 10 + - ln 10) by ring. rewrite exp_plus, exp_Ropp, exp_ln by lra. field. }
  assert (P12 : pow10R 12 * pow10R (-10) = 100).
  { unfold pow10R. rewrite <- exp_plus. replace (12 * ln 10 + -10 * ln 10) with (ln 10 + ln 10) by ring. rewrite exp_plus, exp_ln; lra. }
  unfold sfr_spec. cbn [early late d_lg_qt d_qlglgdt d_lg_drop d_lg_rejuv].
  rewrite <- !quench_spec_eq by apply pow10_pos. rewrite L10.
  rewrite (quench_at 1 (pow10R (-1)) (-2) (-1)) by apply pow10_pos.
  rewrite (quench_after 1 (1 / 2) (pow10R (-1)) (-2) (-1)) by (try apply pow10_pos; rewrite P1; lra).
  assert (M : ms_spec early (1 / 10) 12 = 10 /\ ms_spec late (1 / 10) 12 = 10).
  { unfold ms_spec, eff_spec. cbn. replace (12 - 12) with 0 by ring. rewrite !Rmult_0_l, !Rplus_0_r. rewrite Rmult_assoc, P12. lra. }
  destruct M as [-> ->]. rewrite P1, P2. unfold Rmax.
  repeat destruct (Rle_dec _ _); lra.
Qed.

(** Raising [lgy_at_mcrit] by [d] multiplies rates above the floor by 10^d. *)
Lemma lgy_scales log_mah_kern (p p' : DiffstarParams R) mah t lgt0 fb d m s1 s2 :
  p' = mkDiffstar (d_lgmcrit p) (d_lgy_at_mcrit p + d) (d_indx_lo p) (d_indx_hi p)
         (d_lg_qt p) (d_qlglgdt p) (d_lg_drop p) (d_lg_rejuv p) ->
  0 < t -> log_mah_kern mah (Fin t) lgt0 = Fin m ->
  calc_sfh_singlegal log_mah_kern (map_d Fin p) mah [Fin t] lgt0 (Fin fb) = [Fin s1] ->
  calc_sfh_singlegal log_mah_kern (map_d Fin p') mah [Fin t] lgt0 (Fin fb) = [Fin s2] ->
  1 / 10 ^ 14 < s1 -> 1 / 10 ^ 14 < s2 -> s2 = pow10R d * s1.
Proof.
  intros E Ht Hm E1 E2 F1 F2.
  pose proof (calc_sfh_value log_mah_kern p mah [t] lgt0 fb (fun _ => m)) as V1.
  pose proof (calc_sfh_value log_mah_kern p' mah [t] lgt0 fb (fun _ => m)) as V2.
  cbn [map] in *. rewrite V1 in E1 by (repeat constructor; auto).
  rewrite V2 in E2 by (repeat constructor; auto).
  injection E1 as <-. injection E2 as <-.
  assert (M : ms_spec p' fb m = pow10R d * ms_spec p fb m).
  { rewrite E. unfold ms_spec, eff_spec. cbn.
    set (e := (m - d_lgmcrit p) * _). replace (d_lgy_at_mcrit p + d + e) with (d + (d_lgy_at_mcrit p + e)) by ring.
    unfold pow10R at 2. rewrite Rmult_plus_distr_r, exp_plus. fold (pow10R d) (pow10R (d_lgy_at_mcrit p + e)). ring. }
  unfold sfr_spec in *. rewrite M in *. rewrite E in *. cbn [d_lg_qt d_qlglgdt d_lg_drop d_lg_rejuv] in *.
  unfold Rmax in *. repeat destruct Rle_dec; lra.
Qed.
