(** Proofs about quenching and bin weights in binary32. *)
From Coq Require Import Reals Lra Lia List Bool String QArith Qreals ZArith.
From Coquelicot Require Import Coquelicot.
From Flocq Require Import Core.Core IEEE754.BinarySingleNaN.
From Verif Require Import XReal ModelUtils ModelKernels ModelFloat ModelFloatTw SpecCore SpecHist SpecFloat32 SpecFloatTw
  TriweightProofs SfhProofs QuenchProofs HistProofs FloatProofs FloatConst FloatAccuracy FloatDemo FloatTwProofs.
Import ListNotations.
Open Scope R_scope.

(** ** The argument *)
Lemma quot_ok x m h hv : is_finite x = true -> is_finite m = true -> is_finite h = true ->
  Rabs (B2R x - B2R m) <= 4096 -> / 20000 <= hv -> Rabs (B2R h - hv) <= 3 * u24 * hv ->
  let y := (B2R x - B2R m) / hv in let z := fdiv (fsub x m) h in
  is_finite z = true /\ Rabs (B2R z - y) <= Rabs y * (6 * u24) + u24 / 100.
Proof.
  intros Fx Fm Fh D Hv Eh y z. set (d0 := B2R x - B2R m) in *.
  assert (U : u24 = / 16777216) by reflexivity. assert (T : tny = / 1000000000000000000000) by reflexivity.
  apply Rabs_le_inv in Eh.
  destruct (fsub_ok x m Fx Fm) as [V1 F1]. { apply Rle_trans with (1 := D). rewrite bpow_100. lra. }
  pose proof (near_tny d0 (Rabs d0) (Rle_refl _)) as N1. unfold d0 in N1 at 1. rewrite <- V1 in N1. set (d := B2R (fsub x m)) in *.
  assert (Hp : 0 < B2R h) by (rewrite U in Eh; lra).
  assert (Y0 : Rabs y = Rabs d0 / hv). { unfold y. unfold Rdiv. rewrite Rabs_mult, Rabs_inv, (Rabs_pos_eq hv) by lra. reflexivity. }
  assert (I : / hv <= 20000). { rewrite <- (Rinv_inv 20000). apply Rinv_le_contravar; lra. }
  assert (Ip : 0 < / hv) by (apply Rinv_0_lt_compat; lra).
  assert (Yb : 0 <= Rabs y <= 4096 * 20000).
  { split; [apply Rabs_pos|]. rewrite Y0. apply Rmult_le_compat; try lra. apply Rabs_pos. }
  assert (Q : Rabs (d / B2R h - y) <= Rabs y * (4.1 * u24) + u24 / 1000).
  { replace (d / B2R h - y) with ((d - d0 - y * (B2R h - hv)) * / hv * (hv / B2R h)) by (unfold y; field; lra).
    rewrite !Rabs_mult, (Rabs_pos_eq (/ hv)) by lra.
    assert (R1 : 0 <= hv / B2R h <= 1.0000002).
    { split; [apply Rmult_le_pos; [lra|left; now apply Rinv_0_lt_compat]|].
      apply Rmult_le_reg_r with (B2R h); [exact Hp|]. unfold Rdiv. rewrite Rmult_assoc, Rinv_l, Rmult_1_r by lra. rewrite U in Eh. lra. }
    rewrite (Rabs_pos_eq (hv / B2R h)) by lra.
    assert (K : Rabs (d - d0 - y * (B2R h - hv)) <= Rabs d0 * u24 + tny + Rabs y * (3 * u24 * hv)).
    { unfold Rminus at 1. apply Rle_trans with (1 := Rabs_triang _ _). rewrite Rabs_Ropp, Rabs_mult. apply Rplus_le_compat; [exact N1|].
      apply Rmult_le_compat_l; [apply Rabs_pos|]. apply Rabs_le. lra. }
    apply Rle_trans with ((Rabs d0 * u24 + tny + Rabs y * (3 * u24 * hv)) * / hv * 1.0000002).
    { apply Rmult_le_compat; try lra.
      - apply Rmult_le_pos; [apply Rabs_pos|lra].
      - apply Rmult_le_compat_r; [lra|exact K]. }
    replace ((Rabs d0 * u24 + tny + Rabs y * (3 * u24 * hv)) * / hv) with (Rabs d0 / hv * u24 + tny * / hv + Rabs y * (3 * u24)) by (field; lra).
    rewrite <- Y0. assert (tny * / hv <= tny * 20000) by (apply Rmult_le_compat_l; lra). rewrite U, T in *. lra. }
  apply Rabs_le_inv in Q.
  assert (Qa : Rabs (d / B2R h) <= Rabs y * (1 + 4.1 * u24) + u24 / 1000).
  { replace (d / B2R h) with (y + (d / B2R h - y)) by ring. apply Rle_trans with (1 := Rabs_triang _ _).
    assert (Rabs (d / B2R h - y) <= Rabs y * (4.1 * u24) + u24 / 1000) by (apply Rabs_le; lra). lra. }
  destruct (fdiv_ok (fsub x m) h F1) as [V2 F2]; [lra| |].
  { fold d. apply Rle_trans with (1 := Qa). rewrite bpow_100. rewrite U. lra. }
  fold d in V2. split; [exact F2|]. unfold z. rewrite V2.
  pose proof (near_tny _ _ Qa) as N2. apply Rabs_le_inv in N2. apply Rabs_le. rewrite U, T in *. lra.
Qed.

Lemma arg_tw st z y : is_finite z = true -> Rabs (B2R z - y) <= Rabs y * (6 * u24) + u24 / 100 ->
  ap (jax_tw32 st z) (twR y) 1 (34 * u24).
Proof.
  intros F H. assert (U : u24 = / 16777216) by reflexivity. pose proof (twR_range y) as R.
  destruct (tw32_ap st z F) as (G & _ & E). split; [exact G|]. split; [apply Rabs_le; lra|].
  destruct (Rle_lt_dec (Rabs y) 4) as [L|L].
  - replace (B2R (jax_tw32 st z) - twR y) with ((B2R (jax_tw32 st z) - twR (B2R z)) + (twR (B2R z) - twR y)) by ring.
    apply Rle_trans with (1 := Rabs_triang _ _). pose proof (twR_lip (B2R z) y) as K. rewrite U in *. lra.
  - assert (X : Rabs (B2R (jax_tw32 st z) - twR y) <= 0); [|rewrite U; lra].
    apply Rabs_le_inv in H. destruct (Rle_lt_dec 0 y) as [P|P].
    + rewrite (Rabs_pos_eq y) in * by lra. rewrite tw32_high by (assumption || (rewrite U in H; lra)). rewrite twR_hi by lra.
      rewrite (proj2 c_1). rewrite Rminus_diag_eq by reflexivity. rewrite Rabs_R0. lra.
    + rewrite (Rabs_left y) in * by lra. rewrite tw32_low by (assumption || (rewrite U in H; lra)). rewrite twR_lo by lra.
      rewrite (proj2 zero32). rewrite Rminus_diag_eq by reflexivity. rewrite Rabs_R0. lra.
Qed.

Lemma cuml_ap st x m h : within32 (-1024) 1024 x -> within32 (-1024) 1024 m -> within32 (/ 1024) 1024 h ->
  ap (tw_cuml_kern32 st x m h) (twR ((B2R x - B2R m) / B2R h)) 1 (34 * u24).
Proof.
  intros [Fx Rx] [Fm Rm] [Fh Rh]. unfold tw_cuml_kern32.
  destruct (quot_ok x m h (B2R h) Fx Fm Fh) as [A B].
  - apply Rabs_le; lra.
  - lra.
  - rewrite Rminus_diag_eq by reflexivity. rewrite Rabs_R0. unfold u24. lra.
  - now apply arg_tw.
Qed.

Lemma weight32 st x s lo hi : bin_input x s lo hi ->
  is_finite (tw_bin_weight_kern32 st x s lo hi) = true /\
  Rabs (B2R (tw_bin_weight_kern32 st x s lo hi) - tw_mass (B2R x) (B2R s) (B2R lo) (B2R hi)) <= / 2 ^ 17.
Proof.
  intros (Hx & Hs & Hl & Hh). pose proof (cuml_ap st x lo s Hx Hl Hs) as A. pose proof (cuml_ap st x hi s Hx Hh Hs) as B.
  rewrite tw_mass_eq by (destruct Hs; lra).
  destruct (ap_sub _ _ _ _ _ _ _ _ A B ltac:(num) ltac:(num)) as (F & _ & E). split; [exact F|].
  apply Rle_trans with (1 := E). num.
Qed.
Lemma weight32_utils st m h L H : bin_input m h L H ->
  is_finite (tw_bin_jax_kern32 st m h L H) = true /\
  Rabs (B2R (tw_bin_jax_kern32 st m h L H) - tw_mass (B2R m) (B2R h) (B2R L) (B2R H)) <= / 2 ^ 17.
Proof.
  intros (Hx & Hs & Hl & Hh). pose proof (cuml_ap st H m h Hh Hx Hs) as A. pose proof (cuml_ap st L m h Hl Hx Hs) as B.
  rewrite tw_mass_eq by (destruct Hs; lra).
  destruct (ap_sub _ _ _ _ _ _ _ _ A B ltac:(num) ltac:(num)) as (F & _ & E). split; [exact F|].
  replace (twR ((B2R m - B2R L) / B2R h)) with (1 - twR ((B2R L - B2R m) / B2R h))
    by (rewrite <- twR_sym; f_equal; field; destruct Hs; lra).
  replace (twR ((B2R m - B2R H) / B2R h)) with (1 - twR ((B2R H - B2R m) / B2R h))
    by (rewrite <- twR_sym; f_equal; field; destruct Hs; lra).
  replace (1 - twR ((B2R L - B2R m) / B2R h) - (1 - twR ((B2R H - B2R m) / B2R h)))
    with (twR ((B2R H - B2R m) / B2R h) - twR ((B2R L - B2R m) / B2R h)) by ring.
  apply Rle_trans with (1 := E). num.
Qed.

(** ** The quenching exponent *)
Definition qE (drop rejuv y : R) : R := drop * twR (y + 3) - (drop - rejuv) * twR (y - 3).
Lemma qE_lip drop rejuv a b : -3 <= drop <= 0 -> drop <= rejuv <= 0 -> Rabs (qE drop rejuv a - qE drop rejuv b) <= 2.2 * Rabs (a - b).
Proof.
  intros D J. unfold qE.
  replace (drop * twR (a + 3) - (drop - rejuv) * twR (a - 3) - (drop * twR (b + 3) - (drop - rejuv) * twR (b - 3)))
    with (drop * (twR (a + 3) - twR (b + 3)) + (rejuv - drop) * (twR (a - 3) - twR (b - 3))) by ring.
  apply Rle_trans with (1 := Rabs_triang _ _). rewrite !Rabs_mult.
  pose proof (twR_lip (a + 3) (b + 3)) as K1. pose proof (twR_lip (a - 3) (b - 3)) as K2.
  replace (a + 3 - (b + 3)) with (a - b) in K1 by ring. replace (a - 3 - (b - 3)) with (a - b) in K2 by ring.
  assert (Rabs drop * Rabs (twR (a + 3) - twR (b + 3)) <= 3 * (35 / 96 * Rabs (a - b))).
  { apply Rmult_le_compat; auto using Rabs_pos. apply Rabs_le. lra. }
  assert (Rabs (rejuv - drop) * Rabs (twR (a - 3) - twR (b - 3)) <= 3 * (35 / 96 * Rabs (a - b))).
  { apply Rmult_le_compat; auto using Rabs_pos. apply Rabs_le. lra. }
  pose proof (Rabs_pos (a - b)). lra.
Qed.
Lemma qE_neg drop rejuv y : -3 <= drop <= 0 -> drop <= rejuv <= 0 -> -3 <= qE drop rejuv y <= 0.
Proof.
  intros D J. unfold qE. pose proof (twR_range (y + 3)) as A. pose proof (twR_range (y - 3)) as B.
  assert (M : twR (y - 3) <= twR (y + 3)) by (apply twR_mono; lra).
  assert (drop * 1 <= drop * twR (y + 3)) by nra.
  assert (0 <= (rejuv - drop) * twR (y - 3)) by (apply Rmult_le_pos; lra).
  assert ((rejuv - drop) * twR (y - 3) <= (- drop) * twR (y - 3)) by (apply Rmult_le_compat_r; lra).
  assert (- drop * twR (y - 3) <= - drop * twR (y + 3)) by (apply Rmult_le_compat_l; lra).
  lra.
Qed.
Lemma qE_spec qt dt drop rejuv lgt : 0 < dt -> quench_spec qt dt drop rejuv lgt = pow10R (qE drop rejuv ((lgt - qt) / (dt / 12))).
Proof.
  intro P. unfold quench_spec, qE. rewrite !tw_cdf_eq. f_equal.
  replace ((lgt - (qt - dt / 4)) / (dt / 12)) with ((lgt - qt) / (dt / 12) + 3) by (field; lra).
  replace ((lgt - (qt + dt / 4)) / (dt / 12)) with ((lgt - qt) / (dt / 12) - 3) by (field; lra). ring.
Qed.

Lemma over12 st dt : within32 (/ 1024) 4 dt -> is_finite (over st dt (lit32 12)) = true /\
  Rabs (B2R (over st dt (lit32 12)) - B2R dt / 12) <= 3 * u24 * (B2R dt / 12).
Proof.
  intros [F R]. assert (U : u24 = / 16777216) by reflexivity. assert (T : tny = / 1000000000000000000000) by reflexivity.
  assert (A : ap dt (B2R dt) (B2R dt) 0) by (apply ap_c; [now split|lra]).
  pose proof (ap_divc _ _ _ _ _ _ A (proj1 c_12) (proj2 c_12) ltac:(lra) ltac:(lra) ltac:(lra)) as D.
  pose proof (ap_mul _ _ _ _ _ _ _ _ A (ap_rec _ _ c_12 ltac:(lra)) ltac:(lra)) as M.
  assert (X : B2R dt * (/ 12 * u24 + tny) + / 12 * 0 + 0 * (/ 12 * u24 + tny) <= 1000000000) by (rewrite U, T; lra).
  specialize (M X). unfold over. destruct (dividing_by st).
  - destruct D as (G & _ & E). split; [exact G|]. apply Rle_trans with (1 := E). rewrite U, T. lra.
  - destruct M as (G & _ & E). split; [exact G|]. unfold Rdiv at 1. apply Rle_trans with (1 := E). rewrite U, T. lra.
  - destruct M as (G & _ & E). split; [exact G|]. unfold Rdiv at 1. apply Rle_trans with (1 := E). rewrite U, T. lra.
Qed.

(** Given the argument [z], the exponent. *)
Lemma exponent_at st z drop rejuv : is_finite z = true -> Rabs (B2R z) <= 1000000000 / 2 -> within32 (-3) 0 drop -> within32 (B2R drop) 0 rejuv ->
  let f2 := fsub drop rejuv in
  let a := fmul drop (jax_tw32 st (fadd z (lit32 3))) in
  let t := jax_tw32 st (fsub z (lit32 3)) in
  let w := if fusing st then ffma (fopp f2) t drop else fsub drop (fmul f2 t) in
  let r := if flt z (lit32 0) then a else w in
  is_finite r = true /\ Rabs (B2R r - qE (B2R drop) (B2R rejuv) (B2R z)) <= 130 * u24.
Proof.
  intros Fz Bz [Fd Rd] [Fj Rj] f2 a t w r. unfold qE.
  assert (U : u24 = / 16777216) by reflexivity. assert (T : tny = / 1000000000000000000000) by reflexivity.
  assert (Az : ap z (B2R z) (Rabs (B2R z)) 0).
  { split; [exact Fz|]. split; [lra|]. rewrite Rminus_diag_eq by reflexivity. rewrite Rabs_R0. lra. }
  assert (Ad : ap drop (B2R drop) 3 0) by (apply ap_c; [now split|lra]).
  assert (Aj : ap rejuv (B2R rejuv) 3 0) by (apply ap_c; [now split|lra]).
  assert (A2 : ap f2 (B2R drop - B2R rejuv) 3 (4 * u24)).
  { destruct (ap_sub _ _ _ _ _ _ _ _ Ad Aj ltac:(lra) ltac:(lra)) as (F2 & _ & E2). split; [exact F2|]. split; [apply Rabs_le; lra|].
    destruct (fsub_ok drop rejuv Fd Fj) as [V _]. { apply Rle_trans with 3; [apply Rabs_le; lra|rewrite bpow_100; lra]. }
    unfold f2. rewrite V. pose proof (near_tny (B2R drop - B2R rejuv) 3 ltac:(apply Rabs_le; lra)) as N. rewrite U, T in *. lra. }
  (* the shifted argument and its kernel value *)
  assert (SH : forall q (c : f32), is_finite c = true -> Rabs (B2R c - q) <= Rabs q * u24 + tny -> ap (jax_tw32 st c) (twR q) 1 (27 * u24)).
  { intros q c Fc Hc. destruct (arg_tw st c q Fc) as (G & B1 & E).
    { pose proof (Rabs_pos q). rewrite U, T in *. lra. }
    split; [exact G|]. split; [exact B1|].
    destruct (Rle_lt_dec (Rabs q) 4) as [L|L].
    - destruct (tw32_ap st c Fc) as (_ & _ & E'). 
      replace (B2R (jax_tw32 st c) - twR q) with ((B2R (jax_tw32 st c) - twR (B2R c)) + (twR (B2R c) - twR q)) by ring.
      apply Rle_trans with (1 := Rabs_triang _ _). pose proof (twR_lip (B2R c) q) as K. rewrite U, T in *. lra.
    - assert (X : Rabs (B2R (jax_tw32 st c) - twR q) <= 0); [|rewrite U; lra].
      apply Rabs_le_inv in Hc. destruct (Rle_lt_dec 0 q) as [P|P].
      + rewrite (Rabs_pos_eq q) in * by lra. rewrite tw32_high by (assumption || (rewrite U, T in Hc; lra)). rewrite twR_hi by lra.
        rewrite (proj2 c_1). rewrite Rminus_diag_eq by reflexivity. rewrite Rabs_R0. lra.
      + rewrite (Rabs_left q) in * by lra. rewrite tw32_low by (assumption || (rewrite U, T in Hc; lra)). rewrite twR_lo by lra.
        rewrite (proj2 zero32). rewrite Rminus_diag_eq by reflexivity. rewrite Rabs_R0. lra. }
  assert (Bz' : Rabs (B2R z + 3) <= bpow radix2 100 /\ Rabs (B2R z - 3) <= bpow radix2 100).
  { rewrite bpow_100. apply Rabs_le_inv in Bz. split; apply Rabs_le; lra. }
  destruct c_3 as [F3 V3].
  destruct (fadd_ok z (lit32 3) Fz F3) as [Vp Fp]; [rewrite V3; apply Bz'|].
  destruct (fsub_ok z (lit32 3) Fz F3) as [Vm Fm]; [rewrite V3; apply Bz'|].
  rewrite V3 in Vp, Vm.
  assert (Tp : ap (jax_tw32 st (fadd z (lit32 3))) (twR (B2R z + 3)) 1 (27 * u24)).
  { apply SH; [exact Fp|]. rewrite Vp. apply near_tny, Rle_refl. }
  assert (Tm : ap t (twR (B2R z - 3)) 1 (27 * u24)).
  { apply SH; [exact Fm|]. rewrite Vm. apply near_tny, Rle_refl. }
  unfold r. rewrite flt_ok by (assumption || apply zero32). rewrite (proj2 zero32).
  destruct (Rlt_le_dec (B2R z) 0) as [L|L].
  - rewrite Rlt_bool_true by exact L. rewrite (twR_lo (B2R z - 3)) by lra.
    destruct (ap_mul _ _ _ _ _ _ _ _ Ad Tp ltac:(num) ltac:(num)) as (G & _ & E). split; [exact G|]. fold a in E.
    rewrite Rmult_0_r, Rminus_0_r. apply Rle_trans with (1 := E). num.
  - rewrite Rlt_bool_false by exact L. rewrite (twR_hi (B2R z + 3)), Rmult_1_r by lra. unfold w. destruct (fusing st).
    + destruct (ap_fma _ _ _ _ _ _ _ _ _ _ _ _ (ap_opp _ _ _ _ A2) Tm Ad ltac:(num) ltac:(num)) as (G & _ & E). split; [exact G|].
      replace (B2R drop - (B2R drop - B2R rejuv) * twR (B2R z - 3)) with (- (B2R drop - B2R rejuv) * twR (B2R z - 3) + B2R drop) by ring.
      apply Rle_trans with (1 := E). num.
    + pose proof (ap_mul _ _ _ _ _ _ _ _ A2 Tm ltac:(num) ltac:(num)) as M.
      destruct (ap_sub _ _ _ _ _ _ _ _ Ad M ltac:(num) ltac:(num)) as (G & _ & E). split; [exact G|].
      apply Rle_trans with (1 := E). num.
Qed.

Lemma exponent32 st lgt qt dt drop rejuv : quench_input lgt qt dt drop rejuv ->
  let e := jax_partial_u_tw_kern32 st lgt qt (over st dt (lit32 12)) drop (fsub drop rejuv) in
  let v := qE (B2R drop) (B2R rejuv) ((B2R lgt - B2R qt) / (B2R dt / 12)) in
  is_finite e = true /\ -3 <= v <= 0 /\ Rabs (B2R e - v) <= 255 * u24.
Proof.
  intros ([Fl Rl] & [Fq Rq] & Hd & Hdr & Hj) e v. assert (U : u24 = / 16777216) by reflexivity.
  destruct (over12 st dt Hd) as [Fh Eh]. destruct Hd as [_ Rd].
  destruct (quot_ok lgt qt (over st dt (lit32 12)) (B2R dt / 12) Fl Fq Fh) as [Fz Ez]; [apply Rabs_le; lra|lra|exact Eh|].
  set (z := fdiv (fsub lgt qt) (over st dt (lit32 12))) in *. set (y := (B2R lgt - B2R qt) / (B2R dt / 12)) in *.
  assert (Y : Rabs y <= 400000).
  { unfold y, Rdiv. rewrite Rabs_mult. apply Rle_trans with (32 * 12288); [|lra]. apply Rmult_le_compat; auto using Rabs_pos.
    - apply Rabs_le; lra.
    - rewrite Rabs_inv. rewrite (Rabs_pos_eq (B2R dt * / 12)) by lra. rewrite <- (Rinv_inv 12288). apply Rinv_le_contravar; lra. }
  destruct (exponent_at st z drop rejuv Fz) as [Fe Ee]; try assumption.
  { replace (B2R z) with (y + (B2R z - y)) by ring. apply Rle_trans with (1 := Rabs_triang _ _). rewrite U in *. lra. }
  assert (Ee' : Rabs (B2R e - qE (B2R drop) (B2R rejuv) (B2R z)) <= 130 * u24) by exact Ee. clear Ee. split; [exact Fe|]. destruct Hdr as [_ Rdr]. destruct Hj as [_ Rj].
  split; [apply qE_neg; lra|].
  replace (B2R e - v) with ((B2R e - qE (B2R drop) (B2R rejuv) (B2R z)) + (qE (B2R drop) (B2R rejuv) (B2R z) - v)) by ring.
  apply Rle_trans with (1 := Rabs_triang _ _).
  assert (X : Rabs (qE (B2R drop) (B2R rejuv) (B2R z) - v) <= 125 * u24); [|lra].
  destruct (Rle_lt_dec (Rabs y) 7) as [L|L].
  - unfold v. apply Rle_trans with (1 := qE_lip (B2R drop) (B2R rejuv) (B2R z) y ltac:(lra) ltac:(lra)).
    clearbody z y. clear - U Ez L. rewrite U in Ez |- *. lra.
  - assert (Z0 : qE (B2R drop) (B2R rejuv) (B2R z) = v); [|rewrite Z0, Rminus_diag_eq by reflexivity; rewrite Rabs_R0, U; lra].
    apply Rabs_le_inv in Ez. unfold v, qE. destruct (Rle_lt_dec 0 y) as [P|P].
    + rewrite (Rabs_pos_eq y) in * by lra. rewrite U in Ez. rewrite !twR_hi by lra. reflexivity.
    + rewrite (Rabs_left y) in * by lra. rewrite U in Ez. rewrite !twR_lo by lra. reflexivity.
Qed.

(** ** The power of ten *)
Lemma ln10 : 2 < ln 10 < 3.
Proof.
  split; apply exp_lt_inv; rewrite exp_ln by lra.
  - replace 2 with (1 + 1) by ring. rewrite exp_plus. pose proof exp_le_3. pose proof (exp_pos 1).
    assert (exp 1 * exp 1 <= 3 * 3) by (apply Rmult_le_compat; lra). lra.
  - assert (H : 1.5 <= exp (/ 2)) by (pose proof (exp_ineq1_le (/ 2)); lra).
    assert (E : exp 3 = exp (/ 2) ^ 6). { cbn [pow]. rewrite Rmult_1_r, <- !exp_plus. f_equal. lra. }
    rewrite E. assert (1.5 ^ 6 <= exp (/ 2) ^ 6) by (apply pow_incr; lra). lra.
Qed.
Lemma pow10_near a b d : 0 <= d <= / 1000 -> Rabs (a - b) <= d -> b <= 0 -> Rabs (pow10R a - pow10R b) <= 3.01 * d.
Proof.
  intros D H B. destruct ln10 as [L1 L2]. unfold pow10R.
  assert (Pb : 0 < exp (b * ln 10) <= 1).
  { split; [apply exp_pos|]. rewrite <- exp_0. assert (X : b * ln 10 <= 0 * ln 10) by (apply Rmult_le_compat_r; lra).
    destruct (Rle_lt_or_eq_dec _ _ X) as [h|h]; [left; apply exp_increasing; lra|right; f_equal; lra]. }
  replace (a * ln 10) with (b * ln 10 + (a - b) * ln 10) by ring. rewrite exp_plus.
  set (k := (a - b) * ln 10). assert (K : - (3 * d) <= k <= 3 * d).
  { apply Rabs_le_inv. unfold k. rewrite Rabs_mult, (Rabs_pos_eq (ln 10)) by lra. rewrite (Rmult_comm 3). apply Rmult_le_compat; try lra. apply Rabs_pos. }
  assert (Lo : 1 - 3 * d <= exp k) by (pose proof (exp_ineq1_le k); lra).
  assert (Hi : exp k <= 1 + 3.01 * d).
  { pose proof (exp_ineq1_le (- k)) as N. rewrite exp_Ropp in N. pose proof (exp_pos k) as Pk.
    assert (M : exp k * (1 - k) <= 1). { apply Rle_trans with (exp k * / exp k); [apply Rmult_le_compat_l; lra|rewrite Rinv_r; lra]. }
    assert (M2 : exp k * (1 - 3 * d) <= 1) by (apply Rle_trans with (exp k * (1 - k)); [apply Rmult_le_compat_l; lra|exact M]).
    apply Rmult_le_reg_r with (1 - 3 * d); [lra|]. assert (0 <= d * (/ 1000 - d)) by (apply Rmult_le_pos; lra). lra. }
  replace (exp (b * ln 10) * exp k - exp (b * ln 10)) with (exp (b * ln 10) * (exp k - 1)) by ring.
  rewrite Rabs_mult, (Rabs_pos_eq (exp (b * ln 10))) by lra.
  apply Rle_trans with (1 * Rabs (exp k - 1)); [apply Rmult_le_compat_r; [apply Rabs_pos|lra]|].
  rewrite Rmult_1_l. apply Rabs_le. lra.
Qed.

Lemma quench32 st p lgt qt dt drop rejuv : power_accurate p -> quench_input lgt qt dt drop rejuv ->
  let q := quenching_kern32 st p lgt qt dt drop rejuv in
  is_finite q = true /\ 0 < B2R q <= 1 + / 2 ^ 14 /\
  Rabs (B2R q - quench_spec (B2R qt) (B2R dt) (B2R drop) (B2R rejuv) (B2R lgt)) <= / 2 ^ 14.
Proof.
  intros HP H q. destruct (exponent32 st lgt qt dt drop rejuv H) as (Fe & Rv & Ee).
  assert (Pdt : 0 < B2R dt) by (destruct H as (_ & _ & [_ R] & _); lra).
  rewrite qE_spec by exact Pdt.
  set (v := qE _ _ _) in *. unfold q, quenching_kern32. set (e := jax_partial_u_tw_kern32 _ _ _ _ _ _) in *.
  assert (U : u24 = / 16777216) by reflexivity. apply Rabs_le_inv in Ee.
  destruct (HP e) as [Fp Ep]. { split; [exact Fe|]. rewrite U in Ee. lra. }
  change (Rpower 10 (B2R e)) with (pow10R (B2R e)) in Ep.
  pose proof (pow10_near (B2R e) v (255 * u24) ltac:(unfold u24; lra) ltac:(apply Rabs_le; lra) ltac:(lra)) as N.
  assert (Pv : pow10R v <= 1).
  { unfold pow10R. rewrite <- exp_0. destruct ln10. assert (X : v * ln 10 <= 0 * ln 10) by (apply Rmult_le_compat_r; lra).
    destruct (Rle_lt_or_eq_dec _ _ X) as [h|h]; [left; apply exp_increasing; lra|right; f_equal; lra]. }
  assert (Pe : 0 < pow10R (B2R e)) by apply exp_pos.
  split; [exact Fp|]. apply Rabs_le_inv in N, Ep. rewrite U in *. split; [lra|]. apply Rabs_le. lra.
Qed.

(** ** Counterexamples *)
Definition ybad : f32 := lit32 (-6290915 # 2097152).
Definition yover : f32 := lit32 (6290915 # 2097152).
Lemma c_ybad : is_finite ybad = true /\ B2R ybad = -6290915 / 2097152. Proof. unfold ybad. intlit. Qed.
Lemma c_yover : is_finite yover = true /\ B2R yover = 6290915 / 2097152. Proof. unfold yover. intlit. Qed.
Lemma bad_neg st : is_finite (jax_tw32 st ybad) = true /\ B2R (jax_tw32 st ybad) <= - / 2 ^ 23.
Proof.
  destruct (tw32_ap st ybad (proj1 c_ybad)) as (F & _). split; [exact F|].
  assert (L : Bleb (jax_tw32 st ybad) (lit32 (-1 # 8388608)) = true) by (destruct st as [[] []]; vm_compute; reflexivity).
  assert (K : is_finite (lit32 (-1 # 8388608)) = true /\ B2R (lit32 (-1 # 8388608)) = -1 / 8388608) by intlit.
  rewrite Bleb_correct in L by (exact F || apply K). rewrite (proj2 K) in L.
  destruct (Rle_bool_spec (B2R (jax_tw32 st ybad)) (-1 / 8388608)); [lra|discriminate].
Qed.
Lemma over_one st : is_finite (jax_tw32 st yover) = true /\ 1 < B2R (jax_tw32 st yover).
Proof.
  destruct (tw32_ap st yover (proj1 c_yover)) as (F & _). split; [exact F|].
  assert (L : Bltb (lit32 1) (jax_tw32 st yover) = true) by (destruct st as [[] []]; vm_compute; reflexivity).
  rewrite Bltb_correct in L by (exact F || apply c_1). rewrite (proj2 c_1) in L.
  destruct (Rlt_bool_spec 1 (B2R (jax_tw32 st yover))); [assumption|discriminate].
Qed.
Lemma c_4 : is_finite (lit32 4) = true /\ B2R (lit32 4) = 4. Proof. intlit. Qed.
Lemma c_m4 : is_finite (lit32 (-4)) = true /\ B2R (lit32 (-4)) = -4. Proof. intlit. Qed.

Lemma range_refuted st : (exists y, -3 < B2R y < 3 /\ is_finite (jax_tw32 st y) = true /\ B2R (jax_tw32 st y) < 0) /\
  (exists y, -3 < B2R y < 3 /\ is_finite (jax_tw32 st y) = true /\ 1 < B2R (jax_tw32 st y)) /\
  (exists y y', is_finite y = true /\ is_finite y' = true /\ B2R y < B2R y' /\ B2R (jax_tw32 st y') < B2R (jax_tw32 st y)).
Proof.
  destruct (bad_neg st) as [F N]. destruct (over_one st) as [G O]. split; [|split].
  - exists ybad. rewrite (proj2 c_ybad). repeat split; try lra. exact F.
  - exists yover. rewrite (proj2 c_yover). repeat split; try lra. exact G.
  - exists (lit32 (-4)), ybad. rewrite (proj2 c_ybad), (proj2 c_m4), (tw32_low st (lit32 (-4))), (proj2 zero32);
      [|apply c_m4|rewrite (proj2 c_m4); lra].
    repeat split; lra.
Qed.

Lemma weight_refuted st : exists x s lo hi, bin_input x s lo hi /\ B2R lo < B2R hi /\ B2R (tw_bin_weight_kern32 st x s lo hi) < 0.
Proof.
  exists (lit32 0), (lit32 1), yover, (lit32 4).
  assert (I : bin_input (lit32 0) (lit32 1) yover (lit32 4)).
  { repeat split; rewrite ?(proj2 zero32), ?(proj2 c_1), ?(proj2 c_4), ?(proj2 c_yover); lra. }
  split; [exact I|]. rewrite (proj2 c_yover), (proj2 c_4). split; [lra|].
  destruct (weight32 st _ _ _ _ I) as [F _].
  assert (L : Bltb (tw_bin_weight_kern32 st (lit32 0) (lit32 1) yover (lit32 4)) (lit32 0) = true) by (destruct st as [[] []]; vm_compute; reflexivity).
  rewrite Bltb_correct in L by (exact F || apply zero32). rewrite (proj2 zero32) in L.
  destruct (Rlt_bool_spec (B2R (tw_bin_weight_kern32 st (lit32 0) (lit32 1) yover (lit32 4))) 0); [assumption|discriminate].
Qed.

Definition qlgt : f32 := lit32 (541 # 33554432).
Definition qqt : f32 := lit32 (3 # 8).
Definition qdt : f32 := lit32 (3 # 4).
Lemma c_qlgt : is_finite qlgt = true /\ B2R qlgt = 541 / 33554432. Proof. unfold qlgt. intlit. Qed.
Lemma c_qqt : is_finite qqt = true /\ B2R qqt = 3 / 8. Proof. unfold qqt. intlit. Qed.
Lemma c_qdt : is_finite qdt = true /\ B2R qdt = 3 / 4. Proof. unfold qdt. intlit. Qed.
Lemma c_m1 : is_finite (lit32 (-1)) = true /\ B2R (lit32 (-1)) = -1. Proof. intlit. Qed.
Lemma qbad_input : quench_input qlgt qqt qdt (lit32 (-3)) (lit32 (-1)).
Proof.
  repeat split; rewrite ?(proj2 c_qlgt), ?(proj2 c_qqt), ?(proj2 c_qdt), ?(proj2 c_m3), ?(proj2 c_m1); lra.
Qed.
Lemma quench_refuted st p : power_accurate p -> exists lgt qt dt drop rejuv, quench_input lgt qt dt drop rejuv /\
  1 < B2R (quenching_kern32 st p lgt qt dt drop rejuv).
Proof.
  intro HP. exists qlgt, qqt, qdt, (lit32 (-3)), (lit32 (-1)). split; [exact qbad_input|].
  destruct (exponent32 st _ _ _ _ _ qbad_input) as (F & _). unfold quenching_kern32.
  assert (K : is_finite (lit32 (3 # 8388608)) = true /\ B2R (lit32 (3 # 8388608)) = 3 / 8388608) by intlit.
  assert (L : Bleb (lit32 (3 # 8388608)) (jax_partial_u_tw_kern32 st qlgt qqt (over st qdt (lit32 12)) (lit32 (-3)) (fsub (lit32 (-3)) (lit32 (-1)))) = true)
    by (destruct st as [[] []]; vm_compute; reflexivity).
  assert (M : Bleb (jax_partial_u_tw_kern32 st qlgt qqt (over st qdt (lit32 12)) (lit32 (-3)) (fsub (lit32 (-3)) (lit32 (-1)))) (lit32 1) = true)
    by (destruct st as [[] []]; vm_compute; reflexivity).
  set (e := jax_partial_u_tw_kern32 _ _ _ _ _ _) in *.
  rewrite Bleb_correct in L by (exact F || apply K). rewrite (proj2 K) in L.
  rewrite Bleb_correct in M by (exact F || apply c_1). rewrite (proj2 c_1) in M.
  destruct (Rle_bool_spec (3 / 8388608) (B2R e)) as [A|]; [|discriminate].
  destruct (Rle_bool_spec (B2R e) 1) as [B|]; [|discriminate].
  destruct (HP e) as [Fp Ep]; [split; [exact F|lra]|]. apply Rabs_le_inv in Ep.
  assert (G : 1 + 6 / 8388608 <= Rpower 10 (B2R e)).
  { unfold Rpower. destruct ln10. assert (3 / 8388608 * 2 <= B2R e * ln 10) by (apply Rmult_le_compat; lra).
    pose proof (exp_ineq1_le (B2R e * ln 10)). lra. }
  lra.
Qed.

(** Rounding the exact power is accurate enough. *)
Definition round_power (z : f32) : f32 := of_real (Rpower 10 (B2R z)).
Lemma round_power_ok : power_accurate round_power.
Proof.
  intros z [F R]. destruct ln10 as [L1 L2].
  assert (A : / 100000000 <= Rpower 10 (B2R z)).
  { apply Rle_trans with (exp (- (12))).
    - rewrite exp_Ropp. apply Rinv_le_contravar; [apply exp_pos|].
      replace 12 with (1 + 1 + 1 + 1 + 1 + 1 + 1 + 1 + 1 + 1 + 1 + 1) by lra. rewrite !exp_plus. pose proof exp_le_3 as E. pose proof (exp_pos 1) as P.
      apply Rle_trans with (exp 1 ^ 12); [right; ring|]. apply Rle_trans with (3 ^ 12); [apply pow_incr; lra|lra].
    - unfold Rpower. assert (X : - (12) <= B2R z * ln 10).
      { apply Rle_trans with (-4 * ln 10); [lra|]. apply Rmult_le_compat_r; lra. }
      destruct X as [X|X]; [left; now apply exp_increasing|right; now f_equal]. }
  assert (B : Rpower 10 (B2R z) <= 1024).
  { apply Rle_trans with (Rpower 10 1); [apply Rle_Rpower; lra|]. rewrite Rpower_1; lra. }
  destruct (of_real_ok (Rpower 10 (B2R z))) as [G E]; [apply Rabs_le; lra|]. split; [exact G|]. unfold round_power. rewrite E.
  apply Rle_trans with (1 := near_tny (Rpower 10 (B2R z)) (Rpower 10 (B2R z)) ltac:(rewrite Rabs_pos_eq by lra; lra)). num.
Qed.

Lemma triweight32 st y : is_finite y = true ->
  is_finite (jax_tw32 st y) = true /\ Rabs (B2R (jax_tw32 st y) - tw_cdf (B2R y)) <= / 2 ^ 19 /\
  (B2R y < -3 -> B2R (jax_tw32 st y) = 0) /\ (3 < B2R y -> B2R (jax_tw32 st y) = 1).
Proof.
  intro F. destruct (tw32_ap st y F) as (G & _ & E). split; [exact G|]. rewrite tw_cdf_eq. split; [|split].
  - apply Rle_trans with (1 := E). num.
  - intro L. rewrite tw32_low by assumption. apply zero32.
  - intro L. rewrite tw32_high by assumption. apply c_1.
Qed.
Lemma demo_bin : bin_input qlgt qdt (lit32 (-1)) (lit32 4).
Proof. repeat split; rewrite ?(proj2 c_qlgt), ?(proj2 c_qdt), ?(proj2 c_m1), ?(proj2 c_4); lra. Qed.
