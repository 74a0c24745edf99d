(** The star-forming efficiency has one peak. *)
From Coq Require Import Reals List Lra Lia.
From Coquelicot Require Import Coquelicot.
From Verif Require Import XReal XFacts RealFacts ModelUtils ModelKernels ModelSfh SpecCore SpecSymmetry
  SigmoidProofs IntegralProofs SfhProofs SymmetryProofs.
Import List ListNotations.
Open Scope R_scope.

Definition bend (a b x : R) : R := x * (a - (a + b) * (1 / (1 + exp (- (9 * x))))).
Definition slope_sign (a b z : R) : R := a * exp (- z) + (a - b) - b * exp z - (a + b) * z.

Lemma bend_derive a b x : is_derive (bend a b) x (exp (9 * x) / (1 + exp (9 * x)) ^ 2 * slope_sign a b (9 * x)).
Proof.
  unfold bend, slope_sign. auto_derive.
  - pose proof (exp_pos (- (9 * x))). lra.
  - rewrite !exp_Ropp. pose proof (exp_pos (9 * x)). set (w := exp (9 * x)) in *. field. split; lra.
Qed.
Lemma slope_sign_dec a b y z : 0 < a -> 0 <= b -> y < z -> slope_sign a b z < slope_sign a b y.
Proof.
  intros A B H. unfold slope_sign. pose proof (exp_increasing y z H) as E1. assert (N : - z < - y) by lra. pose proof (exp_increasing _ _ N) as E2.
  assert (a * exp (- z) < a * exp (- y)) by (apply Rmult_lt_compat_l; lra).
  assert (b * exp y <= b * exp z) by (apply Rmult_le_compat_l; lra).
  assert ((a + b) * y < (a + b) * z) by (apply Rmult_lt_compat_l; lra). lra.
Qed.
Lemma exp13 : 10 / 3 < exp (13 / 10).
Proof.
  assert (E : 1 + 13 / 100 < exp (13 / 100)) by (apply exp_ineq1; lra).
  replace (13 / 10) with (INR 10 * (13 / 100)) by (simpl; lra).
  assert (P : forall n x, exp (INR n * x) = exp x ^ n).
  { induction n as [|n IH]; intros x; [simpl; rewrite Rmult_0_l; apply exp_0|]. rewrite S_INR, Rmult_plus_distr_r, Rmult_1_l, exp_plus, IH. cbn [pow]. ring. }
  rewrite P. eapply Rlt_le_trans; [|apply pow_incr; split; [|left; exact E]]; lra.
Qed.
Lemma exp13n : exp (- (13 / 10)) < 3 / 10.
Proof. rewrite exp_Ropp. replace (3 / 10) with (/ (10 / 3)) by field. apply Rinv_lt_contravar; [apply Rmult_lt_0_compat; [lra|apply exp_pos]|apply exp13]. Qed.
Lemma slope_root a b : 0 < a -> 0 <= b -> exists z, slope_sign a b z = 0 /\ -13 / 10 < z < 13 / 10.
Proof.
  intros A B. pose proof exp13 as E. pose proof exp13n as E'.
  assert (L : 0 < slope_sign a b (-13 / 10)).
  { unfold slope_sign. replace (- (-13 / 10)) with (13 / 10) by lra. replace (-13 / 10) with (- (13 / 10)) by lra.
    assert (a * (10 / 3) < a * exp (13 / 10)) by (apply Rmult_lt_compat_l; lra).
    assert (b * exp (- (13 / 10)) <= b * (3 / 10)) by (apply Rmult_le_compat_l; lra). lra. }
  assert (H : slope_sign a b (13 / 10) < 0).
  { unfold slope_sign. assert (a * exp (- (13 / 10)) < a * (3 / 10)) by (apply Rmult_lt_compat_l; lra).
    assert (0 <= b * exp (13 / 10)) by (apply Rmult_le_pos; lra). lra. }
  destruct (IVT (fun z => - slope_sign a b z) (-13 / 10) (13 / 10)) as (z & Z & R).
  - intros x. apply (continuity_pt_opp (slope_sign a b) x). apply derivable_continuous_pt, ex_derive_Reals_0.
    unfold slope_sign. auto_derive. auto.
  - lra.
  - lra.
  - lra.
  - exists z. assert (R' : slope_sign a b z = 0) by lra. split; [exact R'|].
    split.
    + destruct (Req_dec z (-13 / 10)) as [->|N]; lra.
    + destruct (Req_dec z (13 / 10)) as [->|N]; lra.
Qed.
Lemma bend_peak a b : 0 < a -> 0 <= b -> exists x, Rabs x < 13 / 90 /\
  (0 < x <-> b < a) /\ (x < 0 <-> a < b) /\ (x = 0 <-> a = b) /\
  (forall y z, y < z -> z <= x -> bend a b y < bend a b z) /\ (forall y z, y < z -> x <= y -> bend a b z < bend a b y).
Proof.
  intros A B. destruct (slope_root a b A B) as (r & R & [R1 R2]). exists (r / 9).
  split; [apply Rabs_def1; lra|].
  assert (Z0 : slope_sign a b 0 = 2 * (a - b)) by (unfold slope_sign; rewrite Ropp_0, exp_0; ring).
  assert (P : 0 < r -> b < a) by (intros H; pose proof (slope_sign_dec a b 0 r A B H); lra).
  assert (N : r < 0 -> a < b) by (intros H; pose proof (slope_sign_dec a b r 0 A B H); lra).
  assert (Z : r = 0 -> a = b) by (intros H; rewrite H in R; lra).
  assert (T : r < 0 \/ r = 0 \/ 0 < r) by lra.
  split; [split; intros H; [apply P; lra|destruct T as [T|[T|T]]; [apply N in T; lra|apply Z in T; lra|lra]]|].
  split; [split; intros H; [apply N; lra|destruct T as [T|[T|T]]; [lra|apply Z in T; lra|apply P in T; lra]]|].
  split; [split; intros H; [apply Z; lra|destruct T as [T|[T|T]]; [apply N in T; lra|lra|apply P in T; lra]]|].
  set (f' := fun x => exp (9 * x) / (1 + exp (9 * x)) ^ 2 * slope_sign a b (9 * x)).
  assert (V : forall y z, y < z -> exists c, bend a b z - bend a b y = f' c * (z - y) /\ y < c < z).
  { intros y z H. apply MVT_cor2; [exact H|]. intros c _. apply is_derive_Reals, bend_derive. }
  assert (K : forall x, 0 < exp (9 * x) / (1 + exp (9 * x)) ^ 2).
  { intros x. pose proof (exp_pos (9 * x)). apply Rdiv_lt_0_compat; [lra|]. apply pow_lt. lra. }
  split; intros y z H X; destruct (V y z H) as (c & E & C1 & C2).
  - assert (S : 0 < slope_sign a b (9 * c)) by (rewrite <- R; apply slope_sign_dec; lra).
    assert (0 < f' c * (z - y)); [|lra]. apply Rmult_lt_0_compat; [|lra]. apply Rmult_lt_0_compat; [apply K|exact S].
  - assert (S : slope_sign a b (9 * c) < 0) by (rewrite <- R; apply slope_sign_dec; lra).
    assert (0 < - f' c * (z - y)); [|lra]. apply Rmult_lt_0_compat; [|lra]. unfold f'.
    replace (- (exp (9 * c) / (1 + exp (9 * c)) ^ 2 * slope_sign a b (9 * c))) with (exp (9 * c) / (1 + exp (9 * c)) ^ 2 * (- slope_sign a b (9 * c))) by ring.
    apply Rmult_lt_0_compat; [apply K|lra].
Qed.

(** ** C137 *)
Lemma eff_bend p m : eff_spec p m = d_lgy_at_mcrit p + bend (d_indx_lo p) (- d_indx_hi p) (m - d_lgmcrit p).
Proof. unfold eff_spec, bend. ring. Qed.
Lemma mass_eff_bend p m : m + eff_spec p m = d_lgmcrit p + d_lgy_at_mcrit p + bend (1 + d_indx_lo p) (- (1 + d_indx_hi p)) (m - d_lgmcrit p).
Proof. unfold eff_spec, bend. ring. Qed.
Lemma efficiency_peak p : 0 < d_indx_lo p -> d_indx_hi p <= 0 -> exists (E : R -> R) mpk,
  (forall m, sfr_eff_plaw (Fin m) (map_ms Fin (slice_ms p)) = Fin (E m)) /\
  (forall m m', m < m' -> m' <= mpk -> E m < E m') /\ (forall m m', m < m' -> mpk <= m -> E m' < E m) /\
  Rabs (mpk - d_lgmcrit p) < 13 / 90 /\ (d_lgmcrit p < mpk <-> 0 < d_indx_lo p + d_indx_hi p) /\
  (mpk < d_lgmcrit p <-> d_indx_lo p + d_indx_hi p < 0) /\ (mpk = d_lgmcrit p <-> d_indx_lo p + d_indx_hi p = 0).
Proof.
  intros A B. destruct (bend_peak (d_indx_lo p) (- d_indx_hi p) A) as (x & X & P & N & Z & I & D); [lra|].
  exists (eff_spec p), (d_lgmcrit p + x). split; [apply eff_value|].
  split; [intros m m' H L; rewrite !eff_bend; apply Rplus_lt_compat_l, I; lra|].
  split; [intros m m' H L; rewrite !eff_bend; apply Rplus_lt_compat_l, D; lra|].
  replace (d_lgmcrit p + x - d_lgmcrit p) with x by ring. split; [exact X|].
  split; [split; intros H; [apply Rlt_Rminus in H; assert (0 < x) by lra; apply P in H0; lra|assert (- d_indx_hi p < d_indx_lo p) by lra; apply P in H0; lra]|].
  split; [split; intros H; [assert (x < 0) by lra; apply N in H0; lra|assert (d_indx_lo p < - d_indx_hi p) by lra; apply N in H0; lra]|].
  split; intros H; [assert (x = 0) by lra; apply Z in H0; lra|assert (d_indx_lo p = - d_indx_hi p) by lra; apply Z in H0; lra].
Qed.

Lemma sfr_le_of p fb q m m' t : 0 <= fb -> q = quench_spec (d_lg_qt p) (pow10R (d_qlglgdt p)) (d_lg_drop p) (d_lg_rejuv p) (log10R t) ->
  m + eff_spec p m < m' + eff_spec p m' ->
  sfr_spec p fb m t <= sfr_spec p fb m' t /\ (1 / 10 ^ 14 < sfr_spec p fb m' t -> sfr_spec p fb m t < sfr_spec p fb m' t).
Proof.
  intros F -> H. unfold sfr_spec, ms_spec. set (q := quench_spec _ _ _ _ _). pose proof (quench_spec_pos (d_lg_qt p) (pow10R (d_qlglgdt p)) (d_lg_drop p) (d_lg_rejuv p) (log10R t)) as Q. fold q in Q.
  rewrite !(Rmult_assoc fb), <- !pow10_plus. pose proof (pow10_lt _ _ H) as K. pose proof (pow10_pos (m + eff_spec p m)) as K0.
  set (k := pow10R (m + eff_spec p m)) in *. set (k' := pow10R (m' + eff_spec p m')) in *.
  assert (L : q * (fb * k) <= q * (fb * k')) by (apply Rmult_le_compat_l; [lra|]; apply Rmult_le_compat_l; lra).
  split; [apply Rle_max_compat_l, L|]. intros G. apply Rmax_lub_lt; [exact G|].
  unfold Rmax in *. destruct (Rle_dec (1 / 10 ^ 14) (q * (fb * k'))) as [D|D]; [|lra].
  assert (FP : 0 < fb). { destruct F as [F|<-]; [exact F|]. rewrite Rmult_0_l, Rmult_0_r in G. lra. }
  apply Rmult_lt_compat_l; [exact Q|]. apply Rmult_lt_compat_l; [exact FP|exact K].
Qed.
Lemma sfr_peak p : -1 < d_indx_lo p -> d_indx_hi p <= -1 -> exists mpk,
  Rabs (mpk - d_lgmcrit p) < 13 / 90 /\ (d_lgmcrit p < mpk <-> -2 < d_indx_lo p + d_indx_hi p) /\
  forall mah lgt0 t fb m m', 0 < t -> 0 <= fb -> m < m' -> exists s s',
    calc_sfh_singlegal (steady m) (map_d Fin p) mah [Fin t] lgt0 (Fin fb) = [Fin s] /\
    calc_sfh_singlegal (steady m') (map_d Fin p) mah [Fin t] lgt0 (Fin fb) = [Fin s'] /\
    (m' <= mpk -> s <= s' /\ (1 / 10 ^ 14 < s' -> s < s')) /\
    (mpk <= m -> s' <= s /\ (1 / 10 ^ 14 < s -> s' < s)).
Proof.
  intros A B. destruct (bend_peak (1 + d_indx_lo p) (- (1 + d_indx_hi p))) as (x & X & P & N & Z & I & D); [lra|lra|].
  exists (d_lgmcrit p + x). replace (d_lgmcrit p + x - d_lgmcrit p) with x by ring. split; [exact X|].
  split; [split; intros H; [assert (0 < x) by lra; apply P in H0; lra|assert (- (1 + d_indx_hi p) < 1 + d_indx_lo p) by lra; apply P in H0; lra]|].
  intros mah lgt0 t fb m m' T F M. exists (sfr_spec p fb m t), (sfr_spec p fb m' t).
  assert (TT : Forall (fun t => 0 < t) [t]) by (constructor; [exact T|constructor]).
  split; [exact (calc_sfh_value (steady m) p mah [t] lgt0 fb (fun _ => m) (steady_history m mah lgt0 [t] TT))|].
  split; [exact (calc_sfh_value (steady m') p mah [t] lgt0 fb (fun _ => m') (steady_history m' mah lgt0 [t] TT))|].
  split; intros L; apply (sfr_le_of p fb _ _ _ t F eq_refl); rewrite !mass_eff_bend; apply Rplus_lt_compat_l; [apply I|apply D]; lra.
Qed.
