(** Proofs about the star formation rate in binary32. *)
From Coq Require Import Reals Lra Lia List Bool String QArith Qreals ZArith.
From Coquelicot Require Import Coquelicot.
From Flocq Require Import Core.Core IEEE754.BinarySingleNaN.
From Verif Require Import XReal ModelUtils ModelKernels ModelFloat ModelFloatTw ModelFloatMass ModelFloatSfh SpecCore SpecFloat32 SpecFloatTw
  SpecFloatMass SpecFloatSfh RealFacts SigmoidProofs TriweightProofs SfhProofs FloatProofs FloatConst FloatAccuracy FloatTwProofs FloatTwTop.
Import ListNotations.
Open Scope R_scope.

Lemma uv : u24 = / 16777216. Proof. reflexivity. Qed.
Lemma tv : tny = / 1000000000000000000000. Proof. reflexivity. Qed.

(** ** Powers of ten *)
Lemma p10_pos x : 0 < Rpower 10 x. Proof. apply exp_pos. Qed.
Lemma p10_le a b : a <= b -> Rpower 10 a <= Rpower 10 b.
Proof. intro H. apply Rle_Rpower; lra. Qed.
Lemma p10_0 : Rpower 10 0 = 1. Proof. apply Rpower_O. lra. Qed.
Lemma p10_m3 : Rpower 10 (-3) = / 1000.
Proof. replace (-3) with (- INR 3) by (simpl; lra). rewrite Rpower_Ropp, Rpower_pow by lra. f_equal. simpl. lra. Qed.
Lemma p10_17 : Rpower 10 17 = 10 ^ 17.
Proof. rewrite <- Rpower_pow by lra. f_equal. simpl. lra. Qed.
Lemma p10_rel a b d : 0 <= d <= / 50 -> Rabs (a - b) <= d -> Rabs (Rpower 10 a - Rpower 10 b) <= 3.2 * d * Rpower 10 b.
Proof.
  intros D H. destruct ln10 as [L1 L2].
  replace a with (b + (a - b)) at 1 by ring. rewrite Rpower_plus. set (k := (a - b) * ln 10).
  change (Rpower 10 (a - b)) with (exp k).
  assert (K : - (3 * d) <= k <= 3 * d).
  { apply Rabs_le_inv. unfold k. rewrite Rabs_mult, (Rabs_pos_eq (ln 10)) by lra. rewrite (Rmult_comm 3). apply Rmult_le_compat; try lra. apply Rabs_pos. }
  assert (Lo : 1 - 3 * d <= exp k) by (pose proof (exp_ineq1_le k); lra).
  assert (Hi : exp k <= 1 + 3.2 * d).
  { pose proof (exp_ineq1_le (- k)) as N. rewrite exp_Ropp in N. pose proof (exp_pos k) as Pk.
    assert (M : exp k * (1 - k) <= 1). { apply Rle_trans with (exp k * / exp k); [apply Rmult_le_compat_l; lra|rewrite Rinv_r; lra]. }
    assert (M2 : exp k * (1 - 3 * d) <= 1) by (apply Rle_trans with (exp k * (1 - k)); [apply Rmult_le_compat_l; lra|exact M]).
    apply Rmult_le_reg_r with (1 - 3 * d); [lra|]. assert (0 <= d * (/ 50 - d)) by (apply Rmult_le_pos; lra). lra. }
  pose proof (p10_pos b) as Pb.
  replace (Rpower 10 b * exp k - Rpower 10 b) with ((exp k - 1) * Rpower 10 b) by ring.
  rewrite Rabs_mult, (Rabs_pos_eq (Rpower 10 b)) by lra. apply Rmult_le_compat_r; [lra|]. apply Rabs_le. lra.
Qed.

(** ** The efficiency *)
Lemma logistic_near z r : Rabs r <= Rabs z * (2.1 * u24) + 20 * tny -> Rabs (logisticR (z + r) - logisticR z) <= 4.3 * u24.
Proof.
  intro H. destruct (Rle_lt_dec (Rabs z) 1) as [S|B].
  - pose proof (logistic_lip z (z + r)) as L. replace (z + r - z) with r in L by ring. rewrite uv, tv in *. lra.
  - assert (Z : z <> 0) by (intro E; rewrite E, Rabs_R0 in B; lra).
    assert (E : Rabs (r / z) <= 2.1 * u24 + 20 * tny).
    { unfold Rdiv. rewrite Rabs_mult, Rabs_inv. apply Rmult_le_reg_r with (Rabs z); [lra|]. rewrite Rmult_assoc, Rinv_l, Rmult_1_r by lra.
      rewrite uv, tv in *. lra. }
    replace (z + r) with (z * (1 + r / z)) by (field; exact Z).
    apply Rle_trans with (1 := logistic_scale z (r / z) ltac:(rewrite uv, tv in *; lra)). rewrite uv, tv in *. lra.
Qed.
Lemma c_9 : is_finite INDX_K32 = true /\ B2R INDX_K32 = 9. Proof. unfold INDX_K32. intlit. Qed.

Section Rate.
Variables (st : style) (s pw lg m : f32 -> f32) (p : DiffstarParams f32) (fb t : f32).
Hypotheses (Hs : sigmoid_range s) (Hsa : sigmoid_accurate s) (Hp : power_good pw) (Hl : log_accurate lg)
  (Pp : params32 p) (Hfb : within32 (/ 100) 1 fb) (Ht : within32 (/ 2000) 1024 t) (Hm : within32 0 17 (m t)).
Let M := B2R (m t).
Let D := M - B2R (d_lgmcrit p).
Let sg := logisticR (9 * D).

Lemma D_range : -14 <= D <= 9.
Proof. destruct Pp as ([_ A] & _). destruct Hm as [_ B]. unfold D, M. lra. Qed.
Lemma D_ap : ap (fsub (m t) (d_lgmcrit p)) D 14 (14.1 * u24).
Proof.
  pose proof D_range as R. destruct Pp as ([Fc _] & _). destruct Hm as [Fm _].
  destruct (fsub_ok (m t) (d_lgmcrit p) Fm Fc) as [V F].
  { fold M. fold D. apply Rle_trans with 14; [apply Rabs_le; lra|rewrite bpow_100; lra]. }
  split; [exact F|]. split; [apply Rabs_le; lra|]. rewrite V. fold M. fold D.
  apply Rle_trans with (1 := near_tny D 14 ltac:(apply Rabs_le; lra)). num.
Qed.
Lemma s_ap : ap (s (fmul INDX_K32 (fsub (m t) (d_lgmcrit p)))) sg 1 (8.4 * u24).
Proof.
  pose proof D_range as R. destruct Pp as ([Fc _] & _). destruct Hm as [Fm _]. destruct c_9 as [F9 V9].
  destruct (fsub_ok (m t) (d_lgmcrit p) Fm Fc) as [V F].
  { fold M. fold D. apply Rle_trans with 14; [apply Rabs_le; lra|rewrite bpow_100; lra]. }
  fold M in V. fold D in V. pose proof (near_tny D (Rabs D) (Rle_refl _)) as N. rewrite <- V in N. set (d := fsub (m t) (d_lgmcrit p)) in *.
  assert (AD : Rabs D <= 14) by (apply Rabs_le; lra).
  assert (Ad : Rabs (B2R d) <= Rabs D * (1 + u24) + tny).
  { replace (B2R d) with (D + (B2R d - D)) by ring. apply Rle_trans with (1 := Rabs_triang _ _). lra. }
  destruct (fmul_ok INDX_K32 d F9 F) as [W G].
  { rewrite V9, Rabs_mult, (Rabs_pos_eq 9) by lra. rewrite bpow_100. rewrite uv, tv in *. lra. }
  rewrite V9 in W. assert (A9 : Rabs (9 * B2R d) <= 9 * (Rabs D * (1 + u24) + tny)) by (rewrite Rabs_mult, (Rabs_pos_eq 9) by lra; lra).
  pose proof (near_tny _ _ A9) as N9. rewrite <- W in N9. set (z := fmul INDX_K32 d) in *.
  assert (Z : Rabs (B2R z - 9 * D) <= Rabs (9 * D) * (2.1 * u24) + 20 * tny).
  { replace (B2R z - 9 * D) with ((B2R z - 9 * B2R d) + 9 * (B2R d - D)) by ring. apply Rle_trans with (1 := Rabs_triang _ _).
    rewrite (Rabs_mult 9 (B2R d - D)), (Rabs_mult 9 D), (Rabs_pos_eq 9) by lra.
    pose proof (Rabs_pos D). rewrite uv, tv in *. lra. }
  pose proof (logistic_near (9 * D) (B2R z - 9 * D) Z) as L. replace (9 * D + (B2R z - 9 * D)) with (B2R z) in L by ring.
  destruct (Hs z) as [Fs _]. { unfold number. destruct z; simpl in *; congruence. }
  split; [exact Fs|]. split. { unfold sg. pose proof (logistic_range (9 * D)). apply Rabs_le. lra. }
  assert (A : Rabs (B2R (s z) - logisticR (B2R z)) <= / 4194304).
  { pose proof (Hsa z) as H. unfold logisticR. destruct z; try discriminate G; exact H. }
  replace (B2R (s z) - sg) with ((B2R (s z) - logisticR (B2R z)) + (logisticR (B2R z) - sg)) by ring.
  apply Rle_trans with (1 := Rabs_triang _ _). unfold sg. rewrite uv in *. lra.
Qed.
Let sl := B2R (d_indx_lo p) + (B2R (d_indx_hi p) - B2R (d_indx_lo p)) * sg.
Lemma sl_range : -5 <= sl <= 5.
Proof.
  destruct Pp as (_ & _ & [_ A] & [_ B] & _). pose proof (logistic_range (9 * D)) as [L U]. fold sg in L, U. unfold sl.
  assert (B2R (d_indx_lo p) * 0 <= B2R (d_indx_lo p) * (1 - sg)) by (apply Rmult_le_compat_l; lra).
  assert (B2R (d_indx_lo p) * (1 - sg) <= 5 * 1) by (apply Rmult_le_compat; lra).
  assert (- B2R (d_indx_hi p) * sg <= 5 * 1) by (apply Rmult_le_compat; lra).
  assert (0 <= - B2R (d_indx_hi p) * sg) by (apply Rmult_le_pos; lra). lra.
Qed.
Lemma slope_ap : ap (sigmoid32 s (fusing st) (m t) (d_lgmcrit p) INDX_K32 (d_indx_lo p) (d_indx_hi p)) sl 5 (122 * u24).
Proof.
  pose proof sl_range as R. pose proof s_ap as S. destruct Pp as (_ & _ & [Fl A] & [Fh B] & _).
  assert (Al : ap (d_indx_lo p) (B2R (d_indx_lo p)) 5 0) by (apply ap_c; [now split|lra]).
  assert (Ah : ap (d_indx_hi p) (B2R (d_indx_hi p)) 5 0) by (apply ap_c; [now split|lra]).
  pose proof (ap_sub _ _ _ _ _ _ _ _ Ah Al ltac:(num) ltac:(num)) as H.
  unfold sigmoid32. destruct (fusing st).
  - destruct (ap_fma _ _ _ _ _ _ _ _ _ _ _ _ H S Al ltac:(num) ltac:(num)) as (F & _ & E). split; [exact F|]. split; [apply Rabs_le; lra|].
    unfold sl. rewrite Rplus_comm. apply Rle_trans with (1 := E). num.
  - pose proof (ap_mul _ _ _ _ _ _ _ _ H S ltac:(num) ltac:(num)) as P.
    destruct (ap_add _ _ _ _ _ _ _ _ Al P ltac:(num) ltac:(num)) as (F & _ & E). split; [exact F|]. split; [apply Rabs_le; lra|].
    unfold sl. apply Rle_trans with (1 := E). num.
Qed.
Let ef := eff_spec (numbers p) M.
Lemma ef_eq : ef = B2R (d_lgy_at_mcrit p) + sl * D.
Proof.
  unfold ef, eff_spec, sl, sg, logisticR, numbers, map_d. cbn [d_lgmcrit d_lgy_at_mcrit d_indx_lo d_indx_hi]. fold D.
  rewrite (Rmult_comm D). unfold Rdiv. rewrite Rmult_1_l. reflexivity.
Qed.
Lemma ef_ap : ap (sfr_eff_plaw32 st s (m t) (slice_ms p)) ef 83 (1950 * u24).
Proof.
  pose proof slope_ap as S. pose proof D_ap as X. destruct Pp as (_ & [Fy A] & _).
  assert (Ay : ap (d_lgy_at_mcrit p) (B2R (d_lgy_at_mcrit p)) 13 0) by (apply ap_c; [now split|lra]).
  rewrite ef_eq. unfold sfr_eff_plaw32, slice_ms. cbn [lgmcrit lgy_at_mcrit indx_lo indx_hi]. destruct (fusing st).
  - apply (ap_weak _ _ _ _ _ _ _ (ap_fma _ _ _ _ _ _ _ _ _ _ _ _ S X Ay ltac:(num) ltac:(num))); num.
  - pose proof (ap_mul _ _ _ _ _ _ _ _ S X ltac:(num) ltac:(num)) as P.
    apply (ap_weak _ _ _ _ _ _ _ (ap_add _ _ _ _ _ _ _ _ Ay P ltac:(num) ltac:(num))); num.
Qed.
Lemma ef_neg : -83 <= ef <= -6.4.
Proof.
  pose proof D_range as RD. pose proof sl_range as RS.
  split. { destruct ef_ap as (_ & B & _). apply Rabs_le_inv in B. lra. }
  rewrite ef_eq. destruct Pp as (_ & [_ Y] & [_ A] & [_ B] & _). pose proof (logistic_range (9 * D)) as [L U]. fold sg in L, U.
  assert (K : sl * D <= 5 / 9); [|lra]. unfold sl.
  destruct (Rle_lt_dec 0 D) as [P|N].
  - pose proof (logistic_tail (9 * D) ltac:(lra)) as T. fold sg in T.
    assert (T2 : (1 - sg) * D <= / 9).
    { apply Rle_trans with (/ (1 + 9 * D) * D); [apply Rmult_le_compat_r; lra|].
      apply Rmult_le_reg_l with (1 + 9 * D); [lra|]. rewrite <- Rmult_assoc, Rinv_r by lra. lra. }
    assert (0 <= (1 - sg) * D) by (apply Rmult_le_pos; lra).
    assert (B2R (d_indx_lo p) * ((1 - sg) * D) <= 5 * / 9) by (apply Rmult_le_compat; lra).
    assert (0 <= (- B2R (d_indx_hi p)) * (sg * D)) by (apply Rmult_le_pos; [lra|apply Rmult_le_pos; lra]). lra.
  - pose proof (logistic_tail (- (9 * D)) ltac:(lra)) as T. rewrite logistic_opp in T. fold sg in T.
    assert (T2 : sg * - D <= / 9).
    { apply Rle_trans with (/ (1 + - (9 * D)) * - D); [apply Rmult_le_compat_r; lra|].
      apply Rmult_le_reg_l with (1 + - (9 * D)); [lra|]. rewrite <- Rmult_assoc, Rinv_r by lra. lra. }
    assert (0 <= sg * - D) by (apply Rmult_le_pos; lra).
    assert (- B2R (d_indx_hi p) * (sg * - D) <= 5 * / 9) by (apply Rmult_le_compat; lra).
    assert (0 <= B2R (d_indx_lo p) * ((1 - sg) * - D)) by (apply Rmult_le_pos; [lra|apply Rmult_le_pos; lra]). lra.
Qed.
End Rate.
