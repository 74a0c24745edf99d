(** Triweight kernel: CDF, derivative, monotonicity. *)
From Coq Require Import Reals Lra Lia List Bool.
From Coquelicot Require Import Coquelicot.
From Verif Require Import XReal XFacts RealFacts ModelUtils ModelKernels ModelSfh SpecCore.
Import List ListNotations.
Open Scope R_scope.

Definition twpR (y : R) : R :=
  -5 * y ^ 7 / 69984 + 7 * y ^ 5 / 2592 - 35 * y ^ 3 / 864 + 35 * y / 96 + 1 / 2.
Definition twR (y : R) : R :=
  if Rlt_dec y (-3) then 0 else if Rlt_dec 3 y then 1 else twpR y.

Lemma tw_poly_fin y : tw_poly (Fin y) = Fin (twpR y).
Proof.
  unfold tw_poly. rewrite !xpown_fin. xr_simp. rewrite !xdiv_fin by lra. reflexivity.
Qed.

Lemma jax_tw_fin y : jax_tw (Fin y) = Fin (twR y).
Proof.
  unfold jax_tw, twR. cbv zeta. rewrite tw_poly_fin. simpl. unfold Rltb.
  destruct (Rlt_dec y (-3)), (Rlt_dec 3 y); try reflexivity. lra.
Qed.

Lemma tw_cuml_fin x m h : h <> 0 ->
  tw_cuml_jax_kern (Fin x) (Fin m) (Fin h) = Fin (twR ((x - m) / h)).
Proof.
  intros H. unfold tw_cuml_jax_kern, twR. xr_simp. rewrite xdiv_fin by exact H.
  rewrite tw_poly_fin. cbn [xlt]. unfold Rltb.
  change (x + - m) with (x - m).
  destruct (Rlt_dec ((x - m) / h) (-3)); [reflexivity|].
  destruct (Rlt_dec 3 ((x - m) / h)); reflexivity.
Qed.

Lemma twp_m3 : twpR (-3) = 0.
Proof. unfold twpR. field. Qed.
Lemma twp_3 : twpR 3 = 1.
Proof. unfold twpR. field. Qed.

Lemma twR_lo y : y <= -3 -> twR y = 0.
Proof.
  intros H. unfold twR. destruct (Rlt_dec y (-3)); [reflexivity|].
  replace y with (-3) by lra. destruct (Rlt_dec 3 (-3)); [lra|apply twp_m3].
Qed.
Lemma twR_hi y : 3 <= y -> twR y = 1.
Proof.
  intros H. unfold twR. destruct (Rlt_dec y (-3)); [lra|].
  destruct (Rlt_dec 3 y); [reflexivity|]. replace y with 3 by lra. apply twp_3.
Qed.
Lemma twR_mid y : -3 <= y <= 3 -> twR y = twpR y.
Proof.
  intros H. unfold twR. destruct (Rlt_dec y (-3)); [lra|].
  destruct (Rlt_dec 3 y); [lra|reflexivity].
Qed.

Lemma tw_pdf_in y : -3 <= y <= 3 -> tw_pdf y = 35 / 96 * (1 - (y / 3) ^ 2) ^ 3.
Proof.
  intros H. unfold tw_pdf. destruct (Rle_dec (Rabs y) 3) as [h|h]; [reflexivity|].
  exfalso. apply h. apply Rabs_le. lra.
Qed.
Lemma tw_pdf_out y : y <= -3 \/ 3 <= y -> tw_pdf y = 0.
Proof.
  intros H. unfold tw_pdf. destruct (Rle_dec (Rabs y) 3) as [h|h]; [|reflexivity].
  apply Rabs_le_between in h. assert (E : y = -3 \/ y = 3) by lra.
  destruct E; subst; field.
Qed.

Lemma tw_pdf_nonneg y : 0 <= tw_pdf y.
Proof.
  unfold tw_pdf. destruct (Rle_dec (Rabs y) 3) as [h|h]; [|lra].
  apply Rabs_le_between in h.
  apply Rmult_le_pos; [lra|]. apply pow_le.
  assert ((y / 3) ^ 2 <= 1); [|lra].
  replace ((y / 3) ^ 2) with (y * y / 9) by field.
  assert (y * y <= 9) by nra. lra.
Qed.

Lemma is_derive_twp y : is_derive twpR y (35 / 96 * (1 - (y / 3) ^ 2) ^ 3).
Proof. unfold twpR. auto_derive; [auto|]. field. Qed.

Lemma is_derive_tw y : is_derive twR y (tw_pdf y).
Proof.
  destruct (Rtotal_order y (-3)) as [h|[h|h]].
  - rewrite tw_pdf_out by lra.
    apply (is_derive_local _ (fun _ => 0) y 0 (-3 - y)); [lra| |auto_derive; auto].
    intros z Hz. apply Rabs_def2 in Hz. apply twR_lo. lra.
  - subst. rewrite tw_pdf_out by lra.
    apply (is_derive_local _ (fun z => if Rlt_dec z (-3) then 0 else twpR z) _ _ 1); [lra| |].
    + intros z Hz. apply Rabs_def2 in Hz. destruct (Rlt_dec z (-3)).
      * apply twR_lo; lra.
      * apply twR_mid; lra.
    + apply (is_derive_glue _ (fun _ => 0) twpR).
      * intros x Hx. destruct (Rlt_dec x (-3)); [reflexivity|]. replace x with (-3) by lra. apply twp_m3.
      * intros x Hx. destruct (Rlt_dec x (-3)); [lra|reflexivity].
      * auto_derive; auto.
      * replace 0 with (35 / 96 * (1 - (-3 / 3) ^ 2) ^ 3) by field. apply is_derive_twp.
  - destruct (Rtotal_order y 3) as [g|[g|g]].
    + rewrite tw_pdf_in by lra.
      apply (is_derive_local _ twpR y _ (Rmin (y - -3) (3 - y))).
      * apply Rmin_pos; lra.
      * intros z Hz. apply Rabs_def2 in Hz.
        pose proof (Rmin_l (y - -3) (3 - y)). pose proof (Rmin_r (y - -3) (3 - y)).
        apply twR_mid; lra.
      * apply is_derive_twp.
    + subst. rewrite tw_pdf_out by lra.
      apply (is_derive_local _ (fun z => if Rlt_dec 3 z then 1 else twpR z) _ _ 1); [lra| |].
      * intros z Hz. apply Rabs_def2 in Hz. destruct (Rlt_dec 3 z).
        -- apply twR_hi; lra.
        -- apply twR_mid; lra.
      * apply (is_derive_glue _ twpR (fun _ => 1)).
        -- intros x Hx. destruct (Rlt_dec 3 x); [lra|reflexivity].
        -- intros x Hx. destruct (Rlt_dec 3 x); [reflexivity|]. replace x with 3 by lra. apply twp_3.
        -- replace 0 with (35 / 96 * (1 - (3 / 3) ^ 2) ^ 3) by field. apply is_derive_twp.
        -- auto_derive; auto.
    + rewrite tw_pdf_out by lra.
      apply (is_derive_local _ (fun _ => 1) y 0 (y - 3)); [lra| |auto_derive; auto].
      intros z Hz. apply Rabs_def2 in Hz. apply twR_hi. lra.
Qed.

Lemma twR_mono x y : x <= y -> twR x <= twR y.
Proof. apply (is_derive_nondecreasing twR tw_pdf is_derive_tw tw_pdf_nonneg). Qed.

Lemma twR_range y : 0 <= twR y <= 1.
Proof.
  split.
  - destruct (Rle_lt_dec y (-3)); [rewrite twR_lo by lra; lra|].
    rewrite <- (twR_lo (-3)) by lra. apply twR_mono. lra.
  - destruct (Rle_lt_dec 3 y); [rewrite twR_hi by lra; lra|].
    rewrite <- (twR_hi 3) by lra. apply twR_mono. lra.
Qed.

Lemma twR_sym y : twR (- y) = 1 - twR y.
Proof.
  destruct (Rle_lt_dec y (-3)).
  - rewrite (twR_lo y), twR_hi by lra. ring.
  - destruct (Rle_lt_dec 3 y).
    + rewrite (twR_hi y), twR_lo by lra. ring.
    + rewrite !twR_mid by lra. unfold twpR. field.
Qed.

Lemma twR_0 : twR 0 = 1 / 2.
Proof. rewrite twR_mid by lra. unfold twpR. field. Qed.

(** Strict monotonicity inside the support. *)
Lemma twR_strict x y : -3 <= x -> x < y -> y <= 3 -> twR x < twR y.
Proof.
  intros Hx Hxy Hy.
  destruct (MVT_gen twR x y tw_pdf) as [c [Hc He]].
  - intros z _. apply is_derive_tw.
  - intros z _. apply continuity_pt_filterlim. apply (ex_derive_continuous twR z).
    eexists; apply is_derive_tw.
  - destruct (twR_mono x y (Rlt_le _ _ Hxy)) as [h|h]; [exact h|exfalso].
    (* constant on [x,y]: use the midpoint pieces where the density is positive *)
    set (a := (2 * x + y) / 3). set (b := (x + 2 * y) / 3).
    assert (Hab : a < b) by (unfold a, b; lra).
    destruct (MVT_gen twR a b tw_pdf) as [d [Hd Hde]].
    + intros z _. apply is_derive_tw.
    + intros z _. apply continuity_pt_filterlim. apply (ex_derive_continuous twR z).
      eexists; apply is_derive_tw.
    + rewrite Rmin_left, Rmax_right in Hd by lra.
      assert (Hd3 : -3 < d < 3) by (unfold a, b in *; lra).
      assert (0 < tw_pdf d).
      { rewrite tw_pdf_in by lra. apply Rmult_lt_0_compat; [lra|]. apply pow_lt.
        replace ((d / 3) ^ 2) with (d * d / 9) by field. assert (d * d < 9) by nra. lra. }
      assert (0 < twR b - twR a) by (rewrite Hde; apply Rmult_lt_0_compat; lra).
      pose proof (twR_mono x a). pose proof (twR_mono b y). unfold a, b in *. lra.
Qed.

(** Continuity of the density. *)
Lemma tw_pdf_max y : tw_pdf y = 35 / 96 * ((1 - (y / 3) ^ 2 + Rabs (1 - (y / 3) ^ 2)) / 2) ^ 3.
Proof.
  destruct (Rle_lt_dec y (-3)) as [h|h].
  - rewrite tw_pdf_out by lra.
    replace ((y / 3) ^ 2) with (y * y / 9) by field.
    assert (9 <= y * y) by nra. rewrite Rabs_left1 by lra. field.
  - destruct (Rle_lt_dec 3 y) as [g|g].
    + rewrite tw_pdf_out by lra.
      replace ((y / 3) ^ 2) with (y * y / 9) by field.
      assert (9 <= y * y) by nra. rewrite Rabs_left1 by lra. field.
    + rewrite tw_pdf_in by lra.
      rewrite Rabs_pos_eq; [field|].
      replace ((y / 3) ^ 2) with (y * y / 9) by field.
      assert (y * y <= 9) by nra. lra.
Qed.

Lemma continuous_tw_pdf y : continuous tw_pdf y.
Proof.
  apply (continuous_ext (fun y => 35 / 96 * ((1 - (y / 3) ^ 2 + Rabs (1 - (y / 3) ^ 2)) / 2) ^ 3)).
  { intros. symmetry. apply tw_pdf_max. }
  set (g := fun y => 1 - (y / 3) ^ 2).
  assert (Cg : continuous g y).
  { apply (ex_derive_continuous g). unfold g. auto_derive. auto. }
  assert (Ca : continuous (fun y => Rabs (g y)) y).
  { apply (continuous_comp g Rabs); [exact Cg|]. apply continuous_Rabs. }
  set (k := fun y => g y + Rabs (g y)).
  assert (Ck : continuous k y).
  { apply (continuous_plus g (fun y => Rabs (g y))); assumption. }
  apply (continuous_comp k (fun v => 35 / 96 * (v / 2) ^ 3)); [exact Ck|].
  apply (ex_derive_continuous (fun v => 35 / 96 * (v / 2) ^ 3)). auto_derive. auto.
Qed.
