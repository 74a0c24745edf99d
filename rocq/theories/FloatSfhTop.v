(** The binary32 star formation rate and the mass formed against the exact ones. *)
From Coq Require Import Reals Lra Lia List Bool String QArith Qreals ZArith.
From Coquelicot Require Import Rcomplements.
From Flocq Require Import Core.Core IEEE754.BinarySingleNaN.
From Verif Require Import XReal RealFacts ModelUtils ModelKernels ModelFloat ModelFloatTw ModelFloatMass ModelFloatSfh SpecCore SpecFloat32 SpecFloatTw
  SpecFloatMass SpecFloatSfh SigmoidProofs TriweightProofs FloatProofs FloatConst FloatAccuracy FloatDemo FloatMassProofs FloatMassTop
  FloatTwProofs FloatTwTop FloatApi FloatSfhProofs.
Import List ListNotations.
Open Scope R_scope.

Lemma log_range x : / 2000 <= x <= 1024 -> -4 <= ln x / ln 10 <= 4.
Proof.
  intro H. destruct ln10 as [L1 L2].
  assert (T : ln (10 ^ 4) = 4 * ln 10) by (rewrite ln_pow by lra; simpl; lra).
  assert (A : ln x <= 4 * ln 10). { rewrite <- T. apply ln_le; simpl; lra. }
  assert (B : - (4 * ln 10) <= ln x).
  { rewrite <- T, <- ln_Rinv by (simpl; lra). apply ln_le; [apply Rinv_0_lt_compat; simpl; lra|]. simpl. lra. }
  split; apply Rmult_le_reg_r with (ln 10); try lra; unfold Rdiv; rewrite Rmult_assoc, Rinv_l by lra; lra.
Qed.

Section Rate.
Variables (st : style) (s pw lg m : f32 -> f32) (p : DiffstarParams f32) (fb t : f32).
Hypotheses (Hs : sigmoid_range s) (Hsa : sigmoid_accurate s) (Hp : power_good pw) (Hl : log_accurate lg)
  (Pp : params32 p) (Hfb : within32 (/ 100) 1 fb) (Ht : within32 (/ 2000) 1024 t) (Hm : within32 0 17 (m t)).

(** ** Quenching *)
Let dt := Rpower 10 (B2R (d_qlglgdt p)).
Let L := ln (B2R t) / ln 10.
Let v := qE (B2R (d_lg_drop p)) (B2R (d_lg_rejuv p)) ((L - B2R (d_lg_qt p)) / (dt / 12)).
Let e := jax_partial_u_tw_kern32 st (lg t) (d_lg_qt p) (over st (pw (d_qlglgdt p)) (lit32 12)) (d_lg_drop p) (fsub (d_lg_drop p) (d_lg_rejuv p)).
Lemma dt_range : / 1000 <= dt <= 1.
Proof.
  destruct Pp as (_ & _ & _ & _ & _ & [_ A] & _). unfold dt. rewrite <- p10_m3, <- p10_0. split; apply p10_le; lra.
Qed.
Lemma dt_near : is_finite (pw (d_qlglgdt p)) = true /\ Rabs (B2R (pw (d_qlglgdt p)) - dt) <= / 260000 * dt.
Proof.
  pose proof dt_range as R. destruct Pp as (_ & _ & _ & _ & _ & [F A] & _).
  destruct (Hp (d_qlglgdt p)) as [G E]; [split; [exact F|lra]|]. split; [exact G|].
  apply Rle_trans with (1 := E). fold dt. apply Rle_trans with (/ 2 ^ 18 * dt + / 10 ^ 12); [|lra].
  apply Rplus_le_compat_l. apply Rinv_le_contravar; lra.
Qed.
Lemma v_range : -3 <= v <= 0.
Proof. destruct Pp as (_ & _ & _ & _ & _ & _ & [_ A] & [_ B]). apply qE_neg; lra. Qed.
Lemma e_near : is_finite e = true /\ Rabs (B2R e - v) <= 77 / 10 ^ 6 + 6.5 / 10 ^ 6 / dt.
Proof.
  pose proof dt_range as Rd. destruct dt_near as [Fd Ed]. destruct (Hl t Ht) as [Fl El]. fold L in El.
  pose proof (log_range (B2R t) (proj2 Ht)) as RL. fold L in RL.
  assert (U := uv). destruct Pp as (_ & _ & _ & _ & [Fq Rq] & _ & [Fr Rr] & [Fj Rj]).
  apply Rabs_le_inv in Ed. set (d' := pw (d_qlglgdt p)) in *.
  assert (Bd : / 1024 <= B2R d' <= 2) by lra.
  destruct (exponent32 st (lg t) (d_lg_qt p) d' (d_lg_drop p) (d_lg_rejuv p)) as (Fe & _ & Ee).
  { apply Rabs_le_inv in El. repeat split; try assumption; try lra. }
  fold e in Fe, Ee. split; [exact Fe|].
  set (y' := (B2R (lg t) - B2R (d_lg_qt p)) / (B2R d' / 12)) in *. set (y := (L - B2R (d_lg_qt p)) / (dt / 12)) in *.
  assert (Ey : y' - y = y * ((dt - B2R d') / B2R d') + 12 * (B2R (lg t) - L) / B2R d').
  { unfold y', y. field. lra. }
  assert (K : Rabs ((dt - B2R d') / B2R d') <= 3.9 / 10 ^ 6).
  { unfold Rdiv. rewrite Rabs_mult, Rabs_inv, (Rabs_pos_eq (B2R d')) by lra.
    apply Rmult_le_reg_r with (B2R d'); [lra|]. rewrite Rmult_assoc, Rinv_l, Rmult_1_r by lra. apply Rabs_le. lra. }
  assert (W : 0 < / dt <= 1000).
  { split; [apply Rinv_0_lt_compat; lra|]. rewrite <- (Rinv_inv 1000). apply Rinv_le_contravar; lra. }
  assert (K2 : Rabs (12 * (B2R (lg t) - L) / B2R d') <= 2.9 / 10 ^ 6 * / dt).
  { unfold Rdiv. rewrite !Rabs_mult, Rabs_inv, (Rabs_pos_eq (B2R d')), (Rabs_pos_eq 12) by lra.
    assert (I : / B2R d' <= 1.0001 * / dt).
    { apply Rmult_le_reg_r with (B2R d'); [lra|]. rewrite Rinv_l by lra.
      apply Rmult_le_reg_l with dt; [lra|]. replace (dt * (1.0001 * / dt * B2R d')) with (1.0001 * B2R d') by (field; lra). lra. }
    assert (0 < / B2R d') by (apply Rinv_0_lt_compat; lra).
    apply Rle_trans with (12 * / 2 ^ 22 * (1.0001 * / dt)); [|lra].
    apply Rmult_le_compat; try lra. apply Rmult_le_pos; [lra|apply Rabs_pos]. }
  assert (Y : Rabs (y' - y) <= Rabs y * (3.9 / 10 ^ 6) + 2.9 / 10 ^ 6 * / dt).
  { rewrite Ey. apply Rle_trans with (1 := Rabs_triang _ _). rewrite Rabs_mult. apply Rplus_le_compat; [|exact K2].
    apply Rmult_le_compat_l; [apply Rabs_pos|exact K]. }
  assert (X : Rabs (qE (B2R (d_lg_drop p)) (B2R (d_lg_rejuv p)) y' - v) <= 61 / 10 ^ 6 + 6.5 / 10 ^ 6 * / dt).
  { destruct (Rle_lt_dec (Rabs y) 7) as [S|S].
    - unfold v. fold y. apply Rle_trans with (1 := qE_lip (B2R (d_lg_drop p)) (B2R (d_lg_rejuv p)) y' y ltac:(lra) ltac:(lra)). lra.
    - assert (Z0 : qE (B2R (d_lg_drop p)) (B2R (d_lg_rejuv p)) y' = v); [|rewrite Z0, Rminus_diag_eq, Rabs_R0 by reflexivity; lra].
      apply Rabs_le_inv in Y. unfold v, qE. fold y. destruct (Rle_lt_dec 0 y) as [P|P].
      + rewrite (Rabs_pos_eq y) in * by lra. rewrite !twR_hi by lra. reflexivity.
      + rewrite (Rabs_left y) in * by lra. rewrite !twR_lo by lra. reflexivity. }
  replace (B2R e - v) with ((B2R e - qE (B2R (d_lg_drop p)) (B2R (d_lg_rejuv p)) y') + (qE (B2R (d_lg_drop p)) (B2R (d_lg_rejuv p)) y' - v)) by ring.
  apply Rle_trans with (1 := Rabs_triang _ _). unfold Rdiv. rewrite U in Ee. lra.
Qed.
Let Q := quench_spec (B2R (d_lg_qt p)) dt (B2R (d_lg_drop p)) (B2R (d_lg_rejuv p)) L.
Let q := quenching_kern32 st pw (lg t) (d_lg_qt p) (pw (d_qlglgdt p)) (d_lg_drop p) (d_lg_rejuv p).
Let w := / dt.
Lemma w_range : 1 <= w <= 1000.
Proof.
  pose proof dt_range as R. unfold w. split; [rewrite <- Rinv_1; apply Rinv_le_contravar; lra|].
  rewrite <- (Rinv_inv 1000). apply Rinv_le_contravar; lra.
Qed.
Lemma Q_eq : Q = Rpower 10 v.
Proof. pose proof dt_range. unfold Q. rewrite qE_spec by lra. reflexivity. Qed.
Lemma Q_range : / 1000 <= Q <= 1.
Proof. pose proof v_range. rewrite Q_eq, <- p10_m3, <- p10_0. split; apply p10_le; lra. Qed.
Lemma q_near : is_finite q = true /\ Rabs (B2R q - Q) <= (260 / 10 ^ 6 + 22 / 10 ^ 6 * w) * Q.
Proof.
  pose proof Q_range as RQ. pose proof w_range as Rw. destruct e_near as [Fe Ee]. pose proof v_range as Rv.
  assert (Ee' : Rabs (B2R e - v) <= 77 / 10 ^ 6 + 6.5 / 10 ^ 6 * w) by exact Ee. clear Ee.
  pose proof (p10_rel (B2R e) v (77 / 10 ^ 6 + 6.5 / 10 ^ 6 * w) ltac:(lra) Ee') as R. rewrite <- Q_eq in R.
  apply Rabs_le_inv in Ee'. destruct (Hp e) as [F E]; [split; [exact Fe|lra]|].
  unfold q, quenching_kern32. fold e. split; [exact F|]. set (X := Rpower 10 (B2R e)) in *.
  assert (T : / 2 ^ 120 <= / 10 ^ 15) by (apply Rinv_le_contravar; lra).
  assert (X <= 1.1 * Q).
  { apply Rabs_le_inv in R. assert ((77 / 10 ^ 6 + 6.5 / 10 ^ 6 * w) * Q <= / 100 * Q) by (apply Rmult_le_compat_r; lra). lra. }
  replace (B2R (pw e) - Q) with ((B2R (pw e) - X) + (X - Q)) by ring. apply Rle_trans with (1 := Rabs_triang _ _).
  assert (0 <= w * Q) by (apply Rmult_le_pos; lra). lra.
Qed.

(** ** The main sequence *)
Let M := B2R (m t).
Let ef := eff_spec (numbers p) M.
Let E := Rpower 10 ef.
Let x := pw (sfr_eff_plaw32 st s (m t) (slice_ms p)).
Lemma E_range : 0 < E <= / 10 ^ 6.
Proof.
  split; [apply p10_pos|]. pose proof (ef_neg st s m p t Hs Hsa Pp Hm) as [_ B]. fold M in B. fold ef in B.
  replace (/ 10 ^ 6) with (Rpower 10 (-6)); [apply p10_le; lra|].
  replace (-6) with (- INR 6) by (simpl; lra). rewrite Rpower_Ropp, Rpower_pow by lra. reflexivity.
Qed.
Lemma x_near : is_finite x = true /\ Rabs (B2R x - E) <= 376 / 10 ^ 6 * E + / 2 ^ 120.
Proof.
  pose proof E_range as RE. pose proof (ef_neg st s m p t Hs Hsa Pp Hm) as B. destruct (ef_ap st s m p t Hs Hsa Pp Hm) as (F & _ & Ee).
  fold M in B, Ee. fold ef in B, Ee. set (f := sfr_eff_plaw32 st s (m t) (slice_ms p)) in *. rewrite uv in Ee.
  pose proof (p10_rel (B2R f) ef (1950 * / 16777216) ltac:(lra) Ee) as R. fold E in R. apply Rabs_le_inv in Ee.
  destruct (Hp f) as [G N]; [split; [exact F|lra]|]. unfold x. split; [exact G|]. set (X := Rpower 10 (B2R f)) in *.
  assert (X <= 1.001 * E) by (apply Rabs_le_inv in R; lra).
  replace (B2R (pw f) - E) with ((B2R (pw f) - X) + (X - E)) by ring. apply Rle_trans with (1 := Rabs_triang _ _). lra.
Qed.
Let G := B2R fb * Rpower 10 M.
Let g := fmul fb (pw (m t)).
Lemma G_range : / 100 <= G <= 10 ^ 17.
Proof.
  destruct Hfb as [_ A]. destruct Hm as [_ B]. fold M in B. unfold G.
  assert (1 <= Rpower 10 M <= 10 ^ 17). { rewrite <- p10_17, <- p10_0. split; apply p10_le; lra. }
  split; [replace (/ 100) with (/ 100 * 1) by ring|replace (10 ^ 17) with (1 * 10 ^ 17) by ring]; apply Rmult_le_compat; lra.
Qed.
Lemma near_rel y : 0 <= y -> Rabs (near32 y - y) <= u24 * y + tny.
Proof. intro P. pose proof (near_tny y y ltac:(rewrite Rabs_pos_eq by exact P; lra)) as N. lra. Qed.
Lemma g_near : is_finite g = true /\ Rabs (B2R g - G) <= 4 / 10 ^ 6 * G.
Proof.
  pose proof G_range as RG. destruct Hfb as [Fb Rb]. destruct Hm as [Fm Rm]. destruct (Hp (m t)) as [F N]; [split; [exact Fm|fold M; fold M in Rm; lra]|].
  fold M in N, Rm. set (X := Rpower 10 M) in *.
  assert (RX : 1 <= X <= 10 ^ 17). { unfold X. rewrite <- p10_17, <- p10_0. split; apply p10_le; lra. }
  assert (T : / 2 ^ 120 <= / 10 ^ 15) by (apply Rinv_le_contravar; lra).
  assert (A : Rabs (B2R fb * B2R (pw (m t)) - G) <= 3.82 / 10 ^ 6 * G).
  { unfold G. fold X. rewrite <- Rmult_minus_distr_l, Rabs_mult, (Rabs_pos_eq (B2R fb)) by lra.
    apply Rle_trans with (B2R fb * (3.82 / 10 ^ 6 * X)); [apply Rmult_le_compat_l; lra|lra]. }
  apply Rabs_le_inv in A.
  destruct (fmul_ok fb (pw (m t)) Fb F) as [V Fg]. { rewrite Rabs_pos_eq by lra. rewrite bpow_100. lra. }
  fold g in V, Fg. split; [exact Fg|].
  pose proof (near_rel (B2R fb * B2R (pw (m t))) ltac:(lra)) as R. rewrite <- V in R. rewrite uv, tv in R. apply Rabs_le_inv in R. apply Rabs_le. lra.
Qed.
Let ms := fmul g x.
Let MS := G * E.
Lemma MS_range : 0 < MS <= 10 ^ 11.
Proof.
  pose proof G_range. pose proof E_range. unfold MS. split; [apply Rmult_lt_0_compat; lra|].
  replace (10 ^ 11) with (10 ^ 17 * / 10 ^ 6) by lra. apply Rmult_le_compat; lra.
Qed.
Lemma prod_near a b A B al be a0 b0 : 0 <= A -> 0 <= B -> Rabs (a - A) <= al * A + a0 -> Rabs (b - B) <= be * B + b0 ->
  Rabs (a * b - A * B) <= (al * A + a0) * (B + be * B + b0) + A * (be * B + b0).
Proof.
  intros PA PB Ha Hb. replace (a * b - A * B) with ((a - A) * b + A * (b - B)) by ring.
  apply Rle_trans with (1 := Rabs_triang _ _). rewrite !Rabs_mult, (Rabs_pos_eq A) by exact PA.
  assert (Rabs b <= B + be * B + b0).
  { replace b with (B + (b - B)) by ring. apply Rle_trans with (1 := Rabs_triang _ _). rewrite (Rabs_pos_eq B) by exact PB. lra. }
  apply Rplus_le_compat; [|apply Rmult_le_compat_l; assumption]. apply Rmult_le_compat; try apply Rabs_pos; assumption.
Qed.
Lemma ms_near : is_finite ms = true /\ Rabs (B2R ms - MS) <= 381 / 10 ^ 6 * MS + 3 / 10 ^ 19.
Proof.
  pose proof G_range as RG. pose proof E_range as RE. pose proof MS_range as RM. destruct g_near as [Fg Ng]. destruct x_near as [Fx Nx].
  pose proof (prod_near (B2R g) (B2R x) G E (4 / 10 ^ 6) (376 / 10 ^ 6) 0 (/ 2 ^ 120) ltac:(lra) ltac:(lra) ltac:(lra) Nx) as P.
  fold MS in P. set (A := / 2 ^ 120) in *.
  assert (GA : 0 <= G * A <= 1 / 10 ^ 19).
  { assert (HA : 0 < A <= 1 / 10 ^ 36) by (unfold A; split; [apply Rinv_0_lt_compat; lra|]; apply Rle_trans with (/ 10 ^ 36); [apply Rinv_le_contravar; lra|lra]).
    split; [apply Rmult_le_pos; lra|]. apply Rle_trans with (10 ^ 17 * (1 / 10 ^ 36)); [apply Rmult_le_compat; lra|lra]. }
  assert (P' : Rabs (B2R g * B2R x - MS) <= 380.1 / 10 ^ 6 * MS + 1.1 / 10 ^ 19).
  { apply Rle_trans with (1 := P). unfold MS in *. lra. }
  clear P. pose proof P' as P. apply Rabs_le_inv in P.
  assert (RP : Rabs (B2R g * B2R x) <= 1.001 * MS + 1.1 / 10 ^ 19) by (apply Rabs_le; lra).
  destruct (fmul_ok g x Fg Fx) as [V F]. { apply Rle_trans with (1 := RP). rewrite bpow_100. lra. }
  fold ms in V, F. split; [exact F|]. pose proof (near_tny _ _ RP) as N. rewrite <- V in N. rewrite uv, tv in N.
  replace (B2R ms - MS) with ((B2R ms - B2R g * B2R x) + (B2R g * B2R x - MS)) by ring. apply Rle_trans with (1 := Rabs_triang _ _). lra.
Qed.

(** ** The rate *)
Let r := fmul q ms.
Let S := Q * MS.
Lemma r_near : is_finite r = true /\ Rabs (B2R r - S) <= (642 / 10 ^ 6 + 23 / 10 ^ 6 * w) * S + 4 / 10 ^ 19.
Proof.
  pose proof Q_range as RQ. pose proof w_range as Rw. pose proof MS_range as RM. destruct q_near as [Fq Nq]. destruct ms_near as [Fm Nm].
  set (b := 260 / 10 ^ 6 + 22 / 10 ^ 6 * w) in *. assert (Rb : 0 <= b <= 3 / 100) by (unfold b; lra).
  pose proof (prod_near (B2R q) (B2R ms) Q MS b (381 / 10 ^ 6) 0 (3 / 10 ^ 19) ltac:(lra) ltac:(lra) ltac:(lra) Nm) as P. fold S in P.
  assert (RS : 0 <= S <= MS). { unfold S. split; [apply Rmult_le_pos; lra|]. rewrite <- (Rmult_1_l MS) at 2. apply Rmult_le_compat_r; lra. }
  assert (bQ : 0 <= b * Q <= 3 / 100). { split; [apply Rmult_le_pos; lra|]. rewrite <- (Rmult_1_r (3 / 100)). apply Rmult_le_compat; lra. }
  assert (bS : 0 <= b * S) by (apply Rmult_le_pos; lra).
  assert (P' : Rabs (B2R q * B2R ms - S) <= 1.0004 * (b * S) + 381 / 10 ^ 6 * S + 3.2 / 10 ^ 19).
  { apply Rle_trans with (1 := P). replace ((b * Q + 0) * (MS + 381 / 10 ^ 6 * MS + 3 / 10 ^ 19)) with (1.000381 * (b * S) + (b * Q) * (3 / 10 ^ 19)) by (unfold S; lra).
    unfold S in *. lra. }
  clear P. assert (bS2 : b * S <= 3 / 100 * S) by (apply Rmult_le_compat_r; lra).
  pose proof P' as P. apply Rabs_le_inv in P.
  assert (RP : Rabs (B2R q * B2R ms) <= 1.1 * S + 4 / 10 ^ 19) by (apply Rabs_le; lra).
  destruct (fmul_ok q ms Fq Fm) as [V F]. { apply Rle_trans with (1 := RP). rewrite bpow_100. lra. }
  fold r in V, F. split; [exact F|]. pose proof (near_tny _ _ RP) as N. rewrite <- V in N. rewrite uv, tv in N.
  replace (B2R r - S) with ((B2R r - B2R q * B2R ms) + (B2R q * B2R ms - S)) by ring. apply Rle_trans with (1 := Rabs_triang _ _).
  assert (EbS : b * S = 260 / 10 ^ 6 * S + 22 / 10 ^ 6 * (w * S)) by (unfold b; ring).
  assert (0 <= w * S) by (apply Rmult_le_pos; lra). lra.
Qed.
Lemma min32 : is_finite SFR_MIN32 = true /\ B2R SFR_MIN32 = near32 (1 / 10 ^ 14) /\ Rabs (B2R SFR_MIN32 - 1 / 10 ^ 14) <= / 10 ^ 6 * (1 / 10 ^ 14).
Proof.
  destruct start_lits as (_ & _ & F & V). split; [exact F|]. split; [exact V|]. unfold SFR_MIN32. rewrite V.
  apply Rle_trans with (1 := near_rel (1 / 10 ^ 14) ltac:(lra)). rewrite uv, tv. lra.
Qed.
Lemma rate32 : let y := sfh_singlegal_scalar32 st s pw lg m t (slice_ms p) (slice_q p) fb in
  let Y := sfr_spec (numbers p) (B2R fb) (B2R (m t)) (B2R t) in
  is_finite y = true /\ near32 (1 / 10 ^ 14) <= B2R y <= 2 ^ 40 /\ Rabs (B2R y - Y) <= sfr_tolerance p * Y.
Proof.
  intros y Y. pose proof w_range as Rw. pose proof Q_range as RQ. pose proof MS_range as RM. destruct r_near as [Fr Nr]. destruct min32 as (F0 & V0 & N0).
  assert (RS : 0 <= S <= 10 ^ 11). { unfold S. split; [apply Rmult_le_pos; lra|]. rewrite <- (Rmult_1_l (10 ^ 11)). apply Rmult_le_compat; lra. }
  assert (EY : Y = Rmax (1 / 10 ^ 14) S) by reflexivity.
  assert (Ey : y = if flt r SFR_MIN32 then SFR_MIN32 else r) by reflexivity.
  assert (By : is_finite y = true /\ B2R y = Rmax (B2R SFR_MIN32) (B2R r)).
  { rewrite Ey, flt_ok by assumption. destruct (Rlt_bool_spec (B2R r) (B2R SFR_MIN32)) as [A|A].
    - split; [exact F0|]. rewrite Rmax_left; lra.
    - split; [exact Fr|]. rewrite Rmax_right; lra. }
  destruct By as [Fy Vy]. split; [exact Fy|]. rewrite <- V0, Vy.
  assert (ET : sfr_tolerance p = / 1000 + / 16384 * w). { unfold sfr_tolerance, w. fold dt. rewrite Rinv_mult. reflexivity. }
  assert (wS : 0 <= w * S <= 1000 * S) by (split; [apply Rmult_le_pos|apply Rmult_le_compat_r]; lra).
  apply Rabs_le_inv in Nr, N0. split.
  { split; [apply Rmax_l|]. apply Rmax_lub; lra. }
  rewrite ET, EY. set (F := 1 / 10 ^ 14) in *.
  assert (HF : F = 1 / 10 ^ 14) by reflexivity.
  apply Rabs_le. unfold Rmax. destruct (Rle_dec F S) as [A|A]; destruct (Rle_dec (B2R SFR_MIN32) (B2R r)) as [B|B].
  - lra.
  - lra.
  - assert (0 <= w * F) by (apply Rmult_le_pos; lra). assert (w * S <= w * F) by (apply Rmult_le_compat_l; lra). lra.
  - assert (0 <= w * F) by (apply Rmult_le_pos; lra). lra.
Qed.
Lemma starved32 : quench_spec (B2R (d_lg_qt p)) (Rpower 10 (B2R (d_qlglgdt p))) (B2R (d_lg_drop p)) (B2R (d_lg_rejuv p)) (log10R (B2R t))
    * ms_spec (numbers p) (B2R fb) (B2R (m t)) <= 9 / 10 ^ 15 ->
  sfh_singlegal_scalar32 st s pw lg m t (slice_ms p) (slice_q p) fb = SFR_MIN32.
Proof.
  change (S <= 9 / 10 ^ 15 -> (if flt r SFR_MIN32 then SFR_MIN32 else r) = SFR_MIN32). intro H.
  pose proof w_range as Rw. pose proof Q_range as RQ. pose proof MS_range as RM. destruct r_near as [Fr Nr]. destruct min32 as (F0 & V0 & N0).
  assert (RS : 0 <= S) by (unfold S; apply Rmult_le_pos; lra).
  assert (wS : w * S <= 1000 * S) by (apply Rmult_le_compat_r; lra).
  apply Rabs_le_inv in Nr, N0. rewrite flt_ok by assumption. rewrite Rlt_bool_true by lra. reflexivity.
Qed.
End Rate.
Lemma min32_low : B2R SFR_MIN32 < 1 / 10 ^ 14.
Proof.
  assert (E : B2R SFR_MIN32 = 11805916 / 2 ^ 70).
  { rewrite <- (SF2R_B2SF _ _ SFR_MIN32). replace (B2SF SFR_MIN32) with (SpecFloat.S754_finite false 11805916 (-70)) by (vm_compute; reflexivity).
    unfold SF2R, F2R. simpl. lra. }
  rewrite E. lra.
Qed.
Lemma starving st s pw lg m p fb t : sigmoid_range s -> sigmoid_accurate s -> power_good pw -> log_accurate lg ->
  params32 p -> within32 (/ 100) 1 fb -> within32 (/ 2000) 1024 t -> within32 0 17 (m t) ->
  quench_spec (B2R (d_lg_qt p)) (Rpower 10 (B2R (d_qlglgdt p))) (B2R (d_lg_drop p)) (B2R (d_lg_rejuv p)) (log10R (B2R t))
    * ms_spec (numbers p) (B2R fb) (B2R (m t)) <= 9 / 10 ^ 15 ->
  exists y, calc_sfh_singlegal32 st s pw lg m p [t] fb = [y] /\ is_finite y = true /\ B2R y = near32 (1 / 10 ^ 14) /\ B2R y < 1 / 10 ^ 14.
Proof.
  intros Hs Hsa Hp Hl Pp Hfb Ht Hm H. exists SFR_MIN32. destruct min32 as (F0 & V0 & _).
  split; [|split; [exact F0|split; [exact V0|exact min32_low]]].
  unfold calc_sfh_singlegal32. cbn [map]. now rewrite starved32.
Qed.

(** ** The history and the mass formed *)
Lemma trap_rel t a b tau n : 0 <= tau -> (forall i, (i < n)%nat -> t i <= t (S i)) ->
  (forall i, (i <= n)%nat -> 0 <= b i /\ Rabs (a i - b i) <= tau * b i) ->
  0 <= trapezoids t b n /\ Rabs (trapezoids t a n - trapezoids t b n) <= tau * trapezoids t b n.
Proof.
  intros T. induction n as [|n IH]; intros Ht H; cbn [trapezoids].
  - rewrite Rminus_diag_eq, Rabs_R0 by reflexivity. lra.
  - destruct IH as [P R]. { intros i Hi. apply Ht. lia. } { intros i Hi. apply H. lia. }
    pose proof (Ht n ltac:(lia)) as D. destruct (H n ltac:(lia)) as [B0 A0]. destruct (H (S n) ltac:(lia)) as [B1 A1].
    assert (0 <= (t (S n) - t n) * (b (S n) + b n)) by (apply Rmult_le_pos; lra). split; [lra|].
    replace (trapezoids t a n + (t (S n) - t n) * (a (S n) + a n) / 2 - (trapezoids t b n + (t (S n) - t n) * (b (S n) + b n) / 2))
      with ((trapezoids t a n - trapezoids t b n) + (t (S n) - t n) * ((a (S n) - b (S n)) + (a n - b n)) / 2) by lra.
    apply Rle_trans with (1 := Rabs_triang _ _).
    assert (X : Rabs ((t (S n) - t n) * (a (S n) - b (S n) + (a n - b n)) / 2) <= tau * ((t (S n) - t n) * (b (S n) + b n) / 2)); [|lra].
    unfold Rdiv. rewrite !Rabs_mult, (Rabs_pos_eq (t (S n) - t n)), (Rabs_pos_eq (/ 2)) by lra.
    assert (Y : Rabs (a (S n) - b (S n) + (a n - b n)) <= tau * b (S n) + tau * b n) by (apply Rle_trans with (1 := Rabs_triang _ _); lra).
    pose proof (Rmult_le_compat_l (t (S n) - t n) _ _ ltac:(lra) Y) as Z. lra.
Qed.

Lemma tolerance_range p : params32 p -> 0 <= sfr_tolerance p <= 1 / 10.
Proof.
  intro Pp. pose proof (w_range p Pp) as W. unfold sfr_tolerance. rewrite Rinv_mult. lra.
Qed.
Lemma nth_sfh st s pw lg m p fb ts k : (k < List.length ts)%nat ->
  nth k (calc_sfh_singlegal32 st s pw lg m p ts fb) B754_nan =
  sfh_singlegal_scalar32 st s pw lg m (nth k ts B754_nan) (slice_ms p) (slice_q p) fb.
Proof.
  intro K. unfold calc_sfh_singlegal32.
  rewrite (nth_indep _ B754_nan (sfh_singlegal_scalar32 st s pw lg m B754_nan (slice_ms p) (slice_q p) fb)) by (rewrite map_length; exact K).
  apply (map_nth (fun t => sfh_singlegal_scalar32 st s pw lg m t (slice_ms p) (slice_q p) fb)).
Qed.

Lemma history32 st s pw lg m p fb ts : sigmoid_range s -> sigmoid_accurate s -> power_good pw -> log_accurate lg ->
  params32 p -> history_input fb m ts ->
  exists sfh smh, calc_sfh_smh_singlegal32 st s pw lg m p ts fb = Some (sfh, smh) /\
    List.length sfh = List.length ts /\ List.length smh = List.length ts /\
    forall k, (k < List.length ts)%nat ->
      is_finite (nth k smh B754_nan) = true /\ 0 <= B2R (nth k smh B754_nan) /\
      ((S k < List.length ts)%nat -> B2R (nth k smh B754_nan) <= B2R (nth (S k) smh B754_nan)) /\
      Rabs (B2R (nth k smh B754_nan) - mass_spec p fb m ts k)
        <= (sfr_tolerance p + INR (k + 8) / 2 ^ 22) * mass_spec p fb m ts k + / 2 ^ 70.
Proof.
  intros Hs Hsa Hp Hl Pp (Hfb & Ln & Hts & Ho). pose proof (tolerance_range p Pp) as RT.
  set (ss := calc_sfh_singlegal32 st s pw lg m p ts fb).
  assert (Ls : List.length ss = List.length ts) by apply map_length.
  assert (RK : forall k, (k < List.length ts)%nat -> let y := nth k ss B754_nan in let Y := rate p fb m ts (S k) in
    is_finite y = true /\ near32 (1 / 10 ^ 14) <= B2R y <= 2 ^ 40 /\ Rabs (B2R y - Y) <= sfr_tolerance p * Y).
  { intros k K. unfold ss. rewrite (nth_sfh _ _ _ _ _ _ _ _ _ K). rewrite Forall_forall in Hts.
    destruct (Hts (nth k ts B754_nan) (nth_In _ _ K)) as [H1 H2]. now apply rate32. }
  pose proof (near_nonneg (1 / 10 ^ 14) ltac:(lra)) as N0.
  assert (MI : mass_input ts ss).
  { split; [now symmetry|]. split; [exact Ln|]. split; [|split; [|exact Ho]].
    - revert Hts. apply Forall_impl. intros t [[F R] _]. split; [exact F|]. lra.
    - apply Forall_forall. intros y Hy. destruct (In_nth _ _ B754_nan Hy) as (k & K & Ek). assert (K' : (k < List.length ts)%nat) by (rewrite <- Ls; exact K). destruct (RK k K') as (F & R & _).
      rewrite <- Ek. split; [exact F|]. split; [exact (Rle_trans _ _ _ N0 (proj1 R))|exact (proj2 R)]. }
  destruct (mass32 (fusing st) ts ss MI) as (mm & Em & Lm & G). exists ss, mm.
  split; [unfold calc_sfh_smh_singlegal32; fold ss; now rewrite Em|]. split; [exact Ls|]. split; [exact Lm|]. intros k K. destruct (G k K) as (F & P & I & X0 & X).
  split; [exact F|]. split; [exact P|]. split; [exact I|].
  destruct (trap_rel (point (1 / 1000) ts) (point (1 / 10 ^ 14) ss) (rate p fb m ts) (sfr_tolerance p) (S k)) as [T0 T1]; [lra| | |].
  { intros i Hi. apply Ho. lia. }
  { intros [|i] Hi.
    - cbn [rate point]. rewrite Rminus_diag_eq, Rabs_R0 by reflexivity. split; [exact N0|]. apply Rmult_le_pos; lra.
    - cbn [point]. destruct (RK i ltac:(lia)) as (_ & _ & R). split; [|exact R]. cbn [rate]. unfold sfr_spec.
      apply Rle_trans with (2 := Rmax_l _ _). lra. }
  unfold exact_mass, mass_spec in *. set (E' := trapezoids _ (point (1 / 10 ^ 14) ss) (S k)) in *. set (E := trapezoids _ (rate p fb m ts) (S k)) in *.
  assert (C : 0 <= INR (k + 8) / 2 ^ 23) by (pose proof (pos_INR (k + 8)); lra).
  assert (C2 : INR (k + 8) / 2 ^ 22 = 2 * (INR (k + 8) / 2 ^ 23)) by lra. rewrite C2.
  apply Rabs_le_inv in T1, X. assert (TE : sfr_tolerance p * E <= 1 / 10 * E) by (apply Rmult_le_compat_r; lra).
  assert (Y : INR (k + 8) / 2 ^ 23 * (10 ^ 9 * E') <= INR (k + 8) / 2 ^ 23 * (2 * (10 ^ 9 * E))) by (apply Rmult_le_compat_l; lra).
  apply Rabs_le. lra.
Qed.

Lemma rates32 st s pw lg m p fb ts : sigmoid_range s -> sigmoid_accurate s -> power_good pw -> log_accurate lg ->
  params32 p -> history_input fb m ts ->
  List.length (calc_sfh_singlegal32 st s pw lg m p ts fb) = List.length ts /\
  forall k, (k < List.length ts)%nat ->
    let y := nth k (calc_sfh_singlegal32 st s pw lg m p ts fb) B754_nan in
    let t := nth k ts B754_nan in
    let Y := sfr_spec (numbers p) (B2R fb) (B2R (m t)) (B2R t) in
    is_finite y = true /\ near32 (1 / 10 ^ 14) <= B2R y /\ Rabs (B2R y - Y) <= sfr_tolerance p * Y.
Proof.
  intros Hs Hsa Hp Hl Pp (Hfb & Ln & Hts & Ho). split; [apply map_length|]. intros k K. rewrite (nth_sfh _ _ _ _ _ _ _ _ _ K).
  rewrite Forall_forall in Hts. destruct (Hts (nth k ts B754_nan) (nth_In _ _ K)) as [H1 H2].
  destruct (rate32 st s pw lg m p fb (nth k ts B754_nan) Hs Hsa Hp Hl Pp Hfb H1 H2) as (A & B & C). split; [exact A|]. split; [apply B|exact C].
Qed.

(** ** Rounding the exact functions is accurate enough *)
Lemma of_real_big x : Rabs x <= bpow radix2 99 -> is_finite (of_real x) = true /\ B2R (of_real x) = near32 x.
Proof.
  intro H. pose proof (binary_normalize_correct 24 128 eq_refl eq_refl mode_NE
    (Ztrunc (scaled_mantissa radix2 (FLT_exp (-149) 24) (near32 x))) (cexp radix2 (FLT_exp (-149) 24) (near32 x)) false) as C.
  cbv zeta in C.
  assert (G : generic_format radix2 (FLT_exp (-149) 24) (near32 x)) by (apply generic_format_round; typeclasses eauto).
  unfold generic_format in G. rewrite <- G in C.
  assert (A : Rabs (near32 x) <= bpow radix2 100).
  { apply Rle_trans with (bpow radix2 99); [|now apply bpow_le].
    apply abs_round_le_generic; try typeclasses eauto; [|exact H]. apply generic_format_bpow. unfold FLT_exp. lia. }
  rewrite (small _ A) in C. destruct C as (C1 & C2 & _). split; [exact C2|].
  unfold of_real. rewrite C1. apply round_generic; [typeclasses eauto|]. apply generic_format_round; typeclasses eauto.
Qed.
Lemma round_power_good : power_good round_power.
Proof.
  intros z [F R]. pose proof (p10_pos (B2R z)) as P.
  assert (B : Rpower 10 (B2R z) <= 10 ^ 20).
  { replace (10 ^ 20) with (Rpower 10 20); [apply p10_le; lra|]. replace 20 with (INR 20) by (simpl; lra). apply Rpower_pow. lra. }
  destruct (of_real_big (Rpower 10 (B2R z))) as [G E].
  { rewrite Rabs_pos_eq by lra. apply Rle_trans with (1 := B). replace (bpow radix2 99) with (2 ^ 99) by (simpl; lra). lra. }
  split; [exact G|]. unfold round_power. rewrite E. pose proof (near_bounds (Rpower 10 (B2R z)) ltac:(lra)) as N. pose proof hh_small as H. rewrite uu_val in N.
  assert (K : / 2 ^ 140 <= / 2 ^ 120) by (apply Rinv_le_contravar; lra). apply Rabs_le. lra.
Qed.
Definition round_log10 (z : f32) : f32 := of_real (ln (B2R z) / ln 10).
Lemma round_log10_ok : log_accurate round_log10.
Proof.
  intros z [F R]. destruct ln10 as [L1 L2].
  assert (T : ln (10 ^ 7) = 7 * ln 10) by (rewrite ln_pow by lra; simpl; lra).
  assert (D : ln (B2R z ^ 2) = 2 * ln (B2R z)) by (rewrite ln_pow by lra; simpl; lra).
  assert (S : / 10 ^ 7 <= B2R z ^ 2 <= 10 ^ 7).
  { assert (B2R z * B2R z <= 1024 * 1024) by (apply Rmult_le_compat; lra).
    assert (/ 2000 * / 2000 <= B2R z * B2R z) by (apply Rmult_le_compat; lra). simpl. lra. }
  assert (A : 2 * ln (B2R z) <= 7 * ln 10). { rewrite <- T, <- D. apply ln_le; [|apply S]. apply pow_lt. lra. }
  assert (B : - (7 * ln 10) <= 2 * ln (B2R z)).
  { rewrite <- T, <- D, <- ln_Rinv by (simpl; lra). apply ln_le; [apply Rinv_0_lt_compat; simpl; lra|apply S]. }
  assert (Q : -3.5 <= ln (B2R z) / ln 10 <= 3.5).
  { split; apply Rmult_le_reg_r with (ln 10); try lra; unfold Rdiv; rewrite Rmult_assoc, Rinv_l by lra; lra. }
  destruct (of_real_ok (ln (B2R z) / ln 10)) as [G E]; [apply Rabs_le; lra|]. split; [exact G|]. unfold round_log10. rewrite E.
  apply Rle_trans with (1 := near_tny (ln (B2R z) / ln 10) 3.5 ltac:(apply Rabs_le; lra)). num.
Qed.

(** ** A galaxy *)
Definition demo_galaxy : DiffstarParams f32 :=
  map_d lit32 (mkDiffstar 12%Q (-10)%Q 1%Q (-1)%Q 1%Q (-1 # 2)%Q (-2)%Q (-1)%Q).
Definition demo_halo (t : f32) : f32 := if flt t (lit32 4) then lit32 11 else lit32 12.
Lemma wl lo hi (x : f32) v : is_finite x = true /\ B2R x = v -> lo <= v <= hi -> within32 lo hi x.
Proof. intros [F V] H. split; [exact F|]. rewrite V. exact H. Qed.
Lemma wl2 (x : f32) v (y : f32) w : is_finite x = true /\ B2R x = v -> is_finite y = true /\ B2R y = w -> w <= v <= 0 -> within32 (B2R y) 0 x.
Proof. intros [F V] [_ W] H. split; [exact F|]. rewrite V, W. exact H. Qed.
Lemma demo_galaxy_ok : params32 demo_galaxy.
Proof.
  split; [apply (wl _ _ _ 12); [unfold demo_galaxy, map_d; cbn [d_lgmcrit]; intlit|lra]|].
  split; [apply (wl _ _ _ (-10)); [unfold demo_galaxy, map_d; cbn [d_lgy_at_mcrit]; intlit|lra]|].
  split; [apply (wl _ _ _ 1); [unfold demo_galaxy, map_d; cbn [d_indx_lo]; intlit|lra]|].
  split; [apply (wl _ _ _ (-1)); [unfold demo_galaxy, map_d; cbn [d_indx_hi]; intlit|lra]|].
  split; [apply (wl _ _ _ 1); [unfold demo_galaxy, map_d; cbn [d_lg_qt]; intlit|lra]|].
  split; [apply (wl _ _ _ (-1 / 2)); [unfold demo_galaxy, map_d; cbn [d_qlglgdt]; intlit|lra]|].
  split; [apply (wl _ _ _ (-2)); [unfold demo_galaxy, map_d; cbn [d_lg_drop]; intlit|lra]|].
  apply (wl2 _ (-1) _ (-2)); [unfold demo_galaxy, map_d; cbn [d_lg_rejuv]; intlit|unfold demo_galaxy, map_d; cbn [d_lg_drop]; intlit|lra].
Qed.
Lemma demo_times : within32 1 1 (lit32 1) /\ within32 4 4 (lit32 4) /\ within32 8 8 (lit32 8).
Proof.
  split; [apply (wl _ _ _ 1); [intlit|lra]|]. split; [apply (wl _ _ _ 4); [intlit|lra]|]. apply (wl _ _ _ 8); [intlit|lra].
Qed.
Lemma demo_halo_ok t : within32 0 17 (demo_halo t).
Proof. unfold demo_halo. destruct (flt t (lit32 4)); [apply (wl _ _ _ 11); [intlit|lra]|apply (wl _ _ _ 12); [intlit|lra]]. Qed.
Definition demo_fb : f32 := lit32 (1 # 8).
Definition demo_ts : list f32 := [lit32 1; lit32 4; lit32 8].
Lemma demo_history_ok : history_input demo_fb demo_halo demo_ts.
Proof.
  unfold demo_fb, demo_ts. destruct demo_times as ([A1 A2] & [B1 B2] & [C1 C2]).
  generalize dependent (lit32 1). intros a A1 A2. generalize dependent (lit32 4). intros b B1 B2. generalize dependent (lit32 8). intros c C1 C2.
  split; [apply (wl _ _ _ (1 / 8)); [intlit|lra]|]. split; [cbn; lia|]. split.
  - constructor; [split; [split; [exact A1|lra]|apply demo_halo_ok]|].
    constructor; [split; [split; [exact B1|lra]|apply demo_halo_ok]|].
    constructor; [split; [split; [exact C1|lra]|apply demo_halo_ok]|]. constructor.
  - pose proof (near_rel (1 / 1000) ltac:(lra)) as N. rewrite uv, tv in N. apply Rabs_le_inv in N.
    intros [|[|[|i]]] Hi; cbn [point nth]; try lra. cbn [List.length] in Hi. lia.
Qed.

(** ** Whatever the unbounded parameters *)
Lemma near_int z : (Z.abs z <= 1000)%Z -> near32 (IZR z) = IZR z.
Proof.
  intro H. apply round_generic; [typeclasses eauto|]. apply generic_format_FLT. exists (Float radix2 z 0).
  - unfold F2R. cbn [Fnum Fexp]. rewrite bpow_powerRZ. simpl. ring.
  - cbn [Fnum]. change (Zpower radix2 24) with 16777216%Z. lia.
  - cbn [Fexp]. lia.
Qed.
Lemma inside_int a b x : inside32 (inject_Z a) (inject_Z b) x -> (Z.abs a <= 1000)%Z -> (Z.abs b <= 1000)%Z -> within32 (IZR a) (IZR b) x.
Proof.
  intros [F R] A B. split; [exact F|]. unfold Q2R in R. cbn [inject_Z Qnum Qden] in R. rewrite Rinv_1, !Rmult_1_r, !near_int in R by assumption. exact R.
Qed.
Lemma within_weak lo hi lo' hi' x : within32 lo hi x -> lo' <= lo -> hi <= hi' -> within32 lo' hi' x.
Proof. intros [F R] A B. split; [exact F|lra]. Qed.
Lemma any_params s fused u : sigmoid_range s -> all_eight number u -> params32 (get_bounded_diffstar_params32 s fused u).
Proof.
  intros Hs Hu. destruct (eight_range s fused u Hs Hu) as (A & B & C & D & E & [F1 F2] & G & [H1 H2]).
  set (p := get_bounded_diffstar_params32 s fused u) in *.
  pose proof (inside_int (-12) (-8) _ B ltac:(lia) ltac:(lia)) as B'. pose proof (inside_int 0 5 _ C ltac:(lia) ltac:(lia)) as C'.
  pose proof (inside_int (-5) 0 _ D ltac:(lia) ltac:(lia)) as D'. pose proof (inside_int (-3) 0 _ G ltac:(lia) ltac:(lia)) as G'.
  split. { destruct A as [A1 A2]. split; [exact A1|]. pose proof (near_rel (Q2R 9)) as N1. pose proof (near_rel (Q2R (27 # 2))) as N2.
    assert (V1 : Q2R 9 = 9) by (unfold Q2R; simpl; lra). assert (V2 : Q2R (27 # 2) = 27 / 2) by (unfold Q2R; simpl; lra).
    rewrite V1, V2 in *. specialize (N1 ltac:(lra)). specialize (N2 ltac:(lra)). rewrite uv, tv in *. apply Rabs_le_inv in N1, N2. lra. }
  split; [apply (within_weak (-12) (-8)); [exact B'|lra|lra]|]. split; [exact C'|]. split; [exact D'|].
  split. { destruct E as [E1 E2]. split; [exact E1|]. pose proof (near_rel (Q2R (1 # 10))) as N1. pose proof (near_rel (Q2R 2)) as N2.
    assert (V1 : Q2R (1 # 10) = 1 / 10) by (unfold Q2R; simpl; lra). assert (V2 : Q2R 2 = 2) by (unfold Q2R; simpl; lra).
    rewrite V1, V2 in *. specialize (N1 ltac:(lra)). specialize (N2 ltac:(lra)). rewrite uv, tv in *. apply Rabs_le_inv in N1, N2. lra. }
  split; [split; [exact F1|lra]|]. split; [exact G'|]. split; [exact H1|exact H2].
Qed.
Lemma any_rates st s pw lg m fused u fb ts : sigmoid_range s -> sigmoid_accurate s -> power_good pw -> log_accurate lg ->
  all_eight number u -> history_input fb m ts ->
  let p := get_bounded_diffstar_params32 s fused u in
  exists sfh smh, calc_sfh_smh_singlegal32 st s pw lg m p ts fb = Some (sfh, smh) /\
    List.length sfh = List.length ts /\ List.length smh = List.length ts /\
    forall k, (k < List.length ts)%nat ->
      is_finite (nth k sfh B754_nan) = true /\ near32 (1 / 10 ^ 14) <= B2R (nth k sfh B754_nan) /\
      Rabs (B2R (nth k sfh B754_nan) - rate p fb m ts (S k)) <= / 16 * rate p fb m ts (S k) /\
      is_finite (nth k smh B754_nan) = true /\ 0 <= B2R (nth k smh B754_nan) /\
      ((S k < List.length ts)%nat -> B2R (nth k smh B754_nan) <= B2R (nth (S k) smh B754_nan)).
Proof.
  intros Hs Hsa Hp Hl Hu HI p. pose proof (any_params s fused u Hs Hu) as Pp.
  destruct (history32 st s pw lg m p fb ts Hs Hsa Hp Hl Pp HI) as (sfh & smh & E & L1 & L2 & G).
  destruct (rates32 st s pw lg m p fb ts Hs Hsa Hp Hl Pp HI) as (_ & R).
  exists sfh, smh. split; [exact E|]. split; [exact L1|]. split; [exact L2|]. intros k K.
  assert (Es : calc_sfh_singlegal32 st s pw lg m p ts fb = sfh).
  { unfold calc_sfh_smh_singlegal32 in E. destruct (cumulative_mstar_formed32 _ _ _); [|discriminate]. congruence. }
  destruct (R k K) as (F & B & X). rewrite Es in *. split; [exact F|]. split; [exact B|]. split.
  { apply Rle_trans with (1 := X). cbn [rate]. apply Rmult_le_compat_r.
    - unfold sfr_spec. apply Rle_trans with (2 := Rmax_l _ _). lra.
    - pose proof (w_range p Pp) as W. unfold sfr_tolerance. rewrite Rinv_mult. lra. }
  destruct (G k K) as (F' & P' & I' & _). split; [exact F'|]. split; [exact P'|exact I'].
Qed.
Definition demo_u : DiffstarParams f32 := map_d (fun _ : nat => lit32 1) (mkDiffstar 0 0 0 0 0 0 0 0)%nat.

(** A galaxy that forms nothing. *)
Definition starved_galaxy : DiffstarParams f32 :=
  map_d lit32 (mkDiffstar 12%Q (-13)%Q 0%Q 0%Q 1%Q (-1 # 2)%Q (-2)%Q (-1)%Q).
Definition small_halo (t : f32) : f32 := lit32 0.
Lemma starved_galaxy_ok : params32 starved_galaxy.
Proof.
  split; [apply (wl _ _ _ 12); [unfold starved_galaxy, map_d; cbn [d_lgmcrit]; intlit|lra]|].
  split; [apply (wl _ _ _ (-13)); [unfold starved_galaxy, map_d; cbn [d_lgy_at_mcrit]; intlit|lra]|].
  split; [apply (wl _ _ _ 0); [exact zero32|lra]|].
  split; [apply (wl _ _ _ 0); [exact zero32|lra]|].
  split; [apply (wl _ _ _ 1); [unfold starved_galaxy, map_d; cbn [d_lg_qt]; intlit|lra]|].
  split; [apply (wl _ _ _ (-1 / 2)); [unfold starved_galaxy, map_d; cbn [d_qlglgdt]; intlit|lra]|].
  split; [apply (wl _ _ _ (-2)); [unfold starved_galaxy, map_d; cbn [d_lg_drop]; intlit|lra]|].
  apply (wl2 _ (-1) _ (-2)); [unfold starved_galaxy, map_d; cbn [d_lg_rejuv]; intlit|unfold starved_galaxy, map_d; cbn [d_lg_drop]; intlit|lra].
Qed.
Lemma starved_small t : within32 (/ 2000) 1024 t ->
  quench_spec (B2R (d_lg_qt starved_galaxy)) (Rpower 10 (B2R (d_qlglgdt starved_galaxy))) (B2R (d_lg_drop starved_galaxy)) (B2R (d_lg_rejuv starved_galaxy)) (log10R (B2R t))
    * ms_spec (numbers starved_galaxy) (B2R (lit32 (1 # 64))) (B2R (small_halo t)) <= 9 / 10 ^ 15.
Proof.
  intro Ht. pose proof (Q_range starved_galaxy t starved_galaxy_ok) as RQ. cbv zeta in RQ.
  assert (E : ms_spec (numbers starved_galaxy) (B2R (lit32 (1 # 64))) (B2R (small_halo t)) = / 64 * / 10 ^ 13).
  { assert (A : is_finite (lit32 (1 # 64)) = true /\ B2R (lit32 (1 # 64)) = 1 / 64) by intlit.
    assert (B : is_finite (lit32 (-13)) = true /\ B2R (lit32 (-13)) = -13) by intlit.
    unfold ms_spec, eff_spec, numbers, small_halo, starved_galaxy, map_d. cbn [d_lgmcrit d_lgy_at_mcrit d_indx_lo d_indx_hi].
    generalize dependent (lit32 (1 # 64)). intros x A. rewrite (proj2 A). clear x A.
    generalize dependent (lit32 (-13)). intros y B. rewrite (proj2 B). clear y B.
    rewrite (proj2 zero32). 
    match goal with |- context [pow10R (-13 + ?a)] => replace (-13 + a) with (-13) by (unfold Rdiv; ring) end.
    change (pow10R 0) with (Rpower 10 0). change (pow10R (-13)) with (Rpower 10 (-13)). rewrite p10_0.
    replace (-13) with (- INR 13) by (simpl; lra). rewrite Rpower_Ropp, Rpower_pow by lra. lra. }
  rewrite E. apply Rle_trans with (1 * (/ 64 * / 10 ^ 13)); [|lra]. apply Rmult_le_compat_r; [lra|]. apply RQ.
Qed.
Lemma demo_u_ok : all_eight number demo_u.
Proof. assert (H : number (lit32 1)) by (vm_compute; reflexivity). repeat split; exact H. Qed.
