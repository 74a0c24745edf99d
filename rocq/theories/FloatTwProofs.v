(** Proofs about the triweight kernel in binary32. *)
From Coq Require Import Reals Lra Lia List Bool String QArith Qreals ZArith.
From Coquelicot Require Import Coquelicot.
From Flocq Require Import Core.Core IEEE754.BinarySingleNaN.
From Flocq Require Import Relative.
From Verif Require Import XReal ModelUtils ModelFloat ModelFloatTw SpecCore SpecFloat32 SpecFloatTw
  TriweightProofs FloatProofs FloatConst FloatAccuracy.
Import ListNotations.
Open Scope R_scope.

Definition tny : R := / 1000000000000000000000.
Lemma near_tny y B : Rabs y <= B -> Rabs (near32 y - y) <= B * u24 + tny.
Proof.
  intro H. destruct (error_N_FLT radix2 (-149) 24 eq_refl (fun x => negb (Z.even x)) y) as (e & h & He & Hh & _ & E).
  change (round radix2 (FLT_exp (-149) 24) ZnearestE y) with (near32 y) in E. rewrite E.
  replace (y * (1 + e) + h - y) with (y * e + h) by ring.
  apply Rle_trans with (1 := Rabs_triang _ _). rewrite Rabs_mult. apply Rplus_le_compat.
  - apply Rmult_le_compat; auto using Rabs_pos. apply Rle_trans with (1 := He). simpl. unfold u24. lra.
  - apply Rle_trans with (1 := Hh). apply Rle_trans with (bpow radix2 (-70)).
    + pose proof (bpow_gt_0 radix2 (-149)). assert (bpow radix2 (-149) <= bpow radix2 (-70)) by (now apply bpow_le). lra.
    + unfold tny. change (bpow radix2 (-70)) with (/ 1180591620717411303424). apply Rinv_le_contravar; lra.
Qed.

(** [x] is finite and within [e] of [v], which is at most [B] in size. *)
Definition ap (x : f32) (v B e : R) : Prop := is_finite x = true /\ Rabs v <= B /\ Rabs (B2R x - v) <= e.

Lemma ap_weak x v B e v' B' e' : ap x v B e -> v' = v -> B <= B' -> e <= e' -> ap x v' B' e'.
Proof. intros (F & H & E) -> L M. split; [exact F|]. split; lra. Qed.

Lemma ap_round B e r v x : 0 <= B <= 1000000000 -> 0 <= e <= 1000000000 -> Rabs v <= B -> Rabs (r - v) <= e ->
  (Rabs r <= bpow radix2 100 -> B2R x = near32 r /\ is_finite x = true) ->
  ap x v B (e + (B + e) * u24 + tny).
Proof.
  intros HB He Hv Hr H. apply Rabs_le_inv in Hv, Hr.
  assert (A : Rabs r <= B + e) by (apply Rabs_le; lra).
  destruct H as [E F]. { apply Rle_trans with (1 := A). rewrite bpow_100. lra. }
  split; [exact F|]. split; [apply Rabs_le; lra|].
  pose proof (near_tny _ _ A) as N. rewrite <- E in N. apply Rabs_le_inv in N. apply Rabs_le. lra.
Qed.

Lemma mul_err a v b w B C e f : Rabs v <= B -> Rabs w <= C -> Rabs (a - v) <= e -> Rabs (b - w) <= f ->
  Rabs (a * b - v * w) <= B * f + C * e + e * f.
Proof.
  intros H1 H2 H3 H4. replace (a * b - v * w) with (v * (b - w) + w * (a - v) + (a - v) * (b - w)) by ring.
  apply Rle_trans with (1 := Rabs_triang _ _). apply Rplus_le_compat; [apply Rle_trans with (1 := Rabs_triang _ _); apply Rplus_le_compat|];
    rewrite Rabs_mult; apply Rmult_le_compat; auto using Rabs_pos.
Qed.
Lemma abs_le_pos v B : Rabs v <= B -> 0 <= B.
Proof. intro H. pose proof (Rabs_pos v). lra. Qed.

Lemma ap_mul x y v w B C e f : ap x v B e -> ap y w C f -> B * C <= 1000000000 -> B * f + C * e + e * f <= 1000000000 ->
  ap (fmul x y) (v * w) (B * C) ((B * f + C * e + e * f) + (B * C + (B * f + C * e + e * f)) * u24 + tny).
Proof.
  intros (Fx & Hv & Ex) (Fy & Hw & Ey) L M.
  pose proof (abs_le_pos _ _ Hv). pose proof (abs_le_pos _ _ Hw). pose proof (abs_le_pos _ _ Ex). pose proof (abs_le_pos _ _ Ey).
  apply (ap_round (B * C) _ (B2R x * B2R y)).
  - split; [now apply Rmult_le_pos|exact L].
  - split; [|exact M]. repeat apply Rplus_le_le_0_compat; now apply Rmult_le_pos.
  - rewrite Rabs_mult. apply Rmult_le_compat; auto using Rabs_pos.
  - now apply mul_err.
  - now apply fmul_ok.
Qed.
Lemma ap_fma x y z v w t B C D e f g : ap x v B e -> ap y w C f -> ap z t D g ->
  B * C + D <= 1000000000 -> B * f + C * e + e * f + g <= 1000000000 ->
  ap (ffma x y z) (v * w + t) (B * C + D) ((B * f + C * e + e * f + g) + (B * C + D + (B * f + C * e + e * f + g)) * u24 + tny).
Proof.
  intros (Fx & Hv & Ex) (Fy & Hw & Ey) (Fz & Ht & Ez) L M.
  pose proof (abs_le_pos _ _ Hv). pose proof (abs_le_pos _ _ Hw). pose proof (abs_le_pos _ _ Ex). pose proof (abs_le_pos _ _ Ey).
  pose proof (abs_le_pos _ _ Ht). pose proof (abs_le_pos _ _ Ez).
  apply (ap_round (B * C + D) _ (B2R x * B2R y + B2R z)).
  - split; [|exact L]. apply Rplus_le_le_0_compat; [now apply Rmult_le_pos|assumption].
  - split; [|exact M]. repeat apply Rplus_le_le_0_compat; try assumption; now apply Rmult_le_pos.
  - apply Rle_trans with (1 := Rabs_triang _ _). apply Rplus_le_compat; [|exact Ht].
    rewrite Rabs_mult. apply Rmult_le_compat; auto using Rabs_pos.
  - replace (B2R x * B2R y + B2R z - (v * w + t)) with (B2R x * B2R y - v * w + (B2R z - t)) by ring.
    apply Rle_trans with (1 := Rabs_triang _ _). apply Rplus_le_compat; [now apply mul_err|exact Ez].
  - now apply ffma_ok.
Qed.
Lemma ap_add x y v w B C e f : ap x v B e -> ap y w C f -> B + C <= 1000000000 -> e + f <= 1000000000 ->
  ap (fadd x y) (v + w) (B + C) ((e + f) + (B + C + (e + f)) * u24 + tny).
Proof.
  intros (Fx & Hv & Ex) (Fy & Hw & Ey) L M.
  pose proof (abs_le_pos _ _ Hv). pose proof (abs_le_pos _ _ Hw). pose proof (abs_le_pos _ _ Ex). pose proof (abs_le_pos _ _ Ey).
  apply (ap_round (B + C) _ (B2R x + B2R y)); try lra.
  - apply Rle_trans with (1 := Rabs_triang _ _). lra.
  - replace (B2R x + B2R y - (v + w)) with (B2R x - v + (B2R y - w)) by ring. apply Rle_trans with (1 := Rabs_triang _ _). lra.
  - now apply fadd_ok.
Qed.
Lemma ap_opp x v B e : ap x v B e -> ap (fopp x) (- v) B e.
Proof.
  intros (F & H & E). split; [unfold fopp; now rewrite is_finite_Bopp|]. split; [now rewrite Rabs_Ropp|].
  unfold fopp. rewrite B2R_Bopp. replace (- B2R x - - v) with (- (B2R x - v)) by ring. now rewrite Rabs_Ropp.
Qed.
Lemma ap_sub x y v w B C e f : ap x v B e -> ap y w C f -> B + C <= 1000000000 -> e + f <= 1000000000 ->
  ap (fsub x y) (v - w) (B + C) ((e + f) + (B + C + (e + f)) * u24 + tny).
Proof.
  intros (Fx & Hv & Ex) (Fy & Hw & Ey) L M.
  pose proof (abs_le_pos _ _ Hv). pose proof (abs_le_pos _ _ Hw). pose proof (abs_le_pos _ _ Ex). pose proof (abs_le_pos _ _ Ey).
  apply (ap_round (B + C) _ (B2R x - B2R y)); try lra.
  - apply Rabs_le_inv in Hv, Hw. apply Rabs_le. lra.
  - apply Rabs_le_inv in Ex, Ey. apply Rabs_le. lra.
  - now apply fsub_ok.
Qed.
(** dividing by a constant *)
Lemma ap_divc x d v B e q : ap x v B e -> is_finite d = true -> B2R d = q -> 1 <= q -> B <= 1000000000 -> e <= 1000000000 ->
  ap (fdiv x d) (v / q) (B / q) (e / q + (B / q + e / q) * u24 + tny).
Proof.
  intros (Fx & Hv & Ex) Fd Hd Q L M. pose proof (abs_le_pos _ _ Hv). pose proof (abs_le_pos _ _ Ex).
  assert (I : 0 < / q <= 1).
  { split; [apply Rinv_0_lt_compat; lra|]. rewrite <- Rinv_1. apply Rinv_le_contravar; lra. }
  assert (AI : Rabs (/ q) = / q) by (apply Rabs_pos_eq; lra).
  apply (ap_round (B / q) _ (B2R x / B2R d)); unfold Rdiv.
  - split; [apply Rmult_le_pos; lra|]. apply Rle_trans with (B * 1); [apply Rmult_le_compat_l; lra|lra].
  - split; [apply Rmult_le_pos; lra|]. apply Rle_trans with (e * 1); [apply Rmult_le_compat_l; lra|lra].
  - rewrite Rabs_mult, AI. apply Rmult_le_compat_r; lra.
  - rewrite Hd. replace (B2R x * / q - v * / q) with ((B2R x - v) * / q) by ring. rewrite Rabs_mult, AI. apply Rmult_le_compat_r; lra.
  - apply fdiv_ok; [exact Fx|lra].
Qed.

(** ** Constants *)
Lemma int_lit q m e s : B2SF (lit32 q) = SpecFloat.S754_finite s m e -> is_finite (lit32 q) = true /\ B2R (lit32 q) = IZR (cond_Zopp s (Zpos m)) * bpow radix2 e.
Proof.
  intro H. split.
  - rewrite <- is_finite_SF_B2SF, H. reflexivity.
  - rewrite <- (SF2R_B2SF _ _ (lit32 q)), H. reflexivity.
Qed.
Ltac intlit := match goal with |- _ /\ B2R (lit32 ?q) = _ =>
  let t := eval vm_compute in (B2SF (lit32 q)) in
  match t with SpecFloat.S754_finite ?s ?m ?e =>
    let K := fresh in assert (K : B2SF (lit32 q) = SpecFloat.S754_finite s m e) by (vm_compute; reflexivity);
    apply int_lit in K; destruct K as [K1 K2]; split; [exact K1|rewrite K2; simpl; lra] end end.
Lemma c_m5 : is_finite (lit32 (-5)) = true /\ B2R (lit32 (-5)) = -5. Proof. intlit. Qed.
Lemma c_7 : is_finite (lit32 7) = true /\ B2R (lit32 7) = 7. Proof. intlit. Qed.
Lemma c_35 : is_finite (lit32 35) = true /\ B2R (lit32 35) = 35. Proof. intlit. Qed.
Lemma c_69984 : is_finite (lit32 69984) = true /\ B2R (lit32 69984) = 69984. Proof. intlit. Qed.
Lemma c_2592 : is_finite (lit32 2592) = true /\ B2R (lit32 2592) = 2592. Proof. intlit. Qed.
Lemma c_864 : is_finite (lit32 864) = true /\ B2R (lit32 864) = 864. Proof. intlit. Qed.
Lemma c_96 : is_finite (lit32 96) = true /\ B2R (lit32 96) = 96. Proof. intlit. Qed.
Lemma c_half : is_finite (lit32 (1 # 2)) = true /\ B2R (lit32 (1 # 2)) = / 2. Proof. intlit. Qed.
Lemma c_1 : is_finite (lit32 1) = true /\ B2R (lit32 1) = 1. Proof. intlit. Qed.
Lemma c_3 : is_finite (lit32 3) = true /\ B2R (lit32 3) = 3. Proof. intlit. Qed.
Lemma c_m3 : is_finite (lit32 (-3)) = true /\ B2R (lit32 (-3)) = -3. Proof. intlit. Qed.
Lemma c_12 : is_finite (lit32 12) = true /\ B2R (lit32 12) = 12. Proof. intlit. Qed.
Lemma ap_c x v B : is_finite x = true /\ B2R x = v -> - B <= v <= B -> ap x v B 0.
Proof. intros [F E] H. split; [exact F|]. rewrite E. split; [now apply Rabs_le|]. rewrite Rminus_diag_eq by reflexivity. rewrite Rabs_R0. lra. Qed.

Ltac num := unfold u24, tny; lra.
(** The constant [1 / d]. *)
Lemma ap_rec d q : is_finite d = true /\ B2R d = q -> 1 <= q -> ap (fdiv (lit32 1) d) (/ q) (/ q) (/ q * u24 + tny).
Proof.
  intros [F E] Q. pose proof (ap_divc (lit32 1) d 1 1 0 q (ap_c _ _ 1 c_1 ltac:(lra)) F E Q ltac:(lra) ltac:(lra)) as H.
  apply (ap_weak _ _ _ _ _ _ _ H); unfold Rdiv; lra.
Qed.

(** ** Powers *)
Section Poly.
Variables (st : style) (y : f32).
Hypotheses (Fy : is_finite y = true) (Ry : -3 <= B2R y <= 3).
Let v := B2R y.
Lemma ap_y : ap y v 3 0.
Proof. apply ap_c; [now split|exact Ry]. Qed.
Let y2 := fmul y y.
Let y4 := fmul y2 y2.
Let y3 := fmul y y2.
Let y5 := fmul y y4.
Let y7 := fmul y3 y4.
Lemma ap_y2 : ap y2 (v * v) 9 (9.01 * u24).
Proof. eapply ap_weak; [apply (ap_mul _ _ _ _ _ _ _ _ ap_y ap_y)|..]; num. Qed.
Lemma ap_y4 : ap y4 (v * v * (v * v)) 81 (244 * u24).
Proof. eapply ap_weak; [apply (ap_mul _ _ _ _ _ _ _ _ ap_y2 ap_y2)|..]; num. Qed.
Lemma ap_y3 : ap y3 (v * (v * v)) 27 (54.1 * u24).
Proof. eapply ap_weak; [apply (ap_mul _ _ _ _ _ _ _ _ ap_y ap_y2)|..]; num. Qed.
Lemma ap_y5 : ap y5 (v * (v * v * (v * v))) 243 (976 * u24).
Proof. eapply ap_weak; [apply (ap_mul _ _ _ _ _ _ _ _ ap_y ap_y4)|..]; num. Qed.
Lemma ap_y7 : ap y7 (v * (v * v) * (v * v * (v * v))) 2187 (13160 * u24).
Proof. eapply ap_weak; [apply (ap_mul _ _ _ _ _ _ _ _ ap_y3 ap_y4)|..]; num. Qed.

(** ** Terms *)
Ltac apw K := refine (ap_weak _ _ _ _ _ _ _ K _ _ _); num.
Lemma ap_t7 : ap (term st (lit32 (-5)) y7 (lit32 69984)) (-5 * (v * (v * v) * (v * v * (v * v))) / 69984) 0.15625 (1.45 * u24).
Proof.
  pose proof ap_y7 as P. pose proof (ap_rec _ _ c_69984 ltac:(lra)) as Q. pose proof (ap_c _ _ 5 c_m5 ltac:(lra)) as C.
  pose proof (ap_mul _ _ _ _ _ _ _ _ C P ltac:(num) ltac:(num)) as M.
  unfold term. destruct (dividing_by st).
  - apw (ap_divc _ _ _ _ _ _ M (proj1 c_69984) (proj2 c_69984) ltac:(lra) ltac:(num) ltac:(num)).
  - apw (ap_mul _ _ _ _ _ _ _ _ M Q ltac:(num) ltac:(num)).
  - pose proof (ap_mul _ _ _ _ _ _ _ _ C Q ltac:(num) ltac:(num)) as K.
    apw (ap_mul _ _ _ _ _ _ _ _ P K ltac:(num) ltac:(num)).
Qed.
Lemma ap_t5 s sv : ap s sv 0.15625 (1.45 * u24) ->
  ap (add_term st s (lit32 7) y5 (lit32 2592)) (sv + 7 * (v * (v * v * (v * v))) / 2592) 0.8125 (6.95 * u24).
Proof.
  intro S. pose proof ap_y5 as P. pose proof (ap_rec _ _ c_2592 ltac:(lra)) as Q. pose proof (ap_c _ _ 7 c_7 ltac:(lra)) as C.
  pose proof (ap_mul _ _ _ _ _ _ _ _ C P ltac:(num) ltac:(num)) as M.
  pose proof (ap_mul _ _ _ _ _ _ _ _ C Q ltac:(num) ltac:(num)) as K.
  unfold add_term, term. destruct (dividing_by st), (fusing st);
  first [pose proof (ap_divc _ _ _ _ _ _ M (proj1 c_2592) (proj2 c_2592) ltac:(lra) ltac:(num) ltac:(num)) as T;
         apw (ap_add _ _ _ _ _ _ _ _ S T ltac:(num) ltac:(num))
        |apw (ap_fma _ _ _ _ _ _ _ _ _ _ _ _ M Q S ltac:(num) ltac:(num))
        |apw (ap_fma _ _ _ _ _ _ _ _ _ _ _ _ P K S ltac:(num) ltac:(num))
        |pose proof (ap_mul _ _ _ _ _ _ _ _ M Q ltac:(num) ltac:(num)) as T;
         apw (ap_add _ _ _ _ _ _ _ _ S T ltac:(num) ltac:(num))
        |pose proof (ap_mul _ _ _ _ _ _ _ _ P K ltac:(num) ltac:(num)) as T;
         apw (ap_add _ _ _ _ _ _ _ _ S T ltac:(num) ltac:(num))].
Qed.
Lemma ap_t3 s sv : ap s sv 0.8125 (6.95 * u24) ->
  ap (sub_term st s (lit32 35) y3 (lit32 864)) (sv - 35 * (v * (v * v)) / 864) 1.90625 (14.4 * u24).
Proof.
  intro S. pose proof ap_y3 as P. pose proof (ap_rec _ _ c_864 ltac:(lra)) as Q. pose proof (ap_c _ _ 35 c_35 ltac:(lra)) as C.
  pose proof (ap_mul _ _ _ _ _ _ _ _ C P ltac:(num) ltac:(num)) as M.
  pose proof (ap_mul _ _ _ _ _ _ _ _ C Q ltac:(num) ltac:(num)) as K.
  unfold sub_term, term. destruct (dividing_by st), (fusing st);
  first [pose proof (ap_divc _ _ _ _ _ _ M (proj1 c_864) (proj2 c_864) ltac:(lra) ltac:(num) ltac:(num)) as T;
         apw (ap_sub _ _ _ _ _ _ _ _ S T ltac:(num) ltac:(num))
        |apw (ap_fma _ _ _ _ _ _ _ _ _ _ _ _ (ap_opp _ _ _ _ M) Q S ltac:(num) ltac:(num))
        |apw (ap_fma _ _ _ _ _ _ _ _ _ _ _ _ (ap_opp _ _ _ _ P) K S ltac:(num) ltac:(num))
        |pose proof (ap_mul _ _ _ _ _ _ _ _ M Q ltac:(num) ltac:(num)) as T;
         apw (ap_sub _ _ _ _ _ _ _ _ S T ltac:(num) ltac:(num))
        |pose proof (ap_mul _ _ _ _ _ _ _ _ P K ltac:(num) ltac:(num)) as T;
         apw (ap_sub _ _ _ _ _ _ _ _ S T ltac:(num) ltac:(num))].
Qed.
Lemma ap_t1 s sv : ap s sv 1.90625 (14.4 * u24) ->
  ap (add_term st s (lit32 35) y (lit32 96)) (sv + 35 * v / 96) 3 (20.8 * u24).
Proof.
  intro S. pose proof ap_y as P. pose proof (ap_rec _ _ c_96 ltac:(lra)) as Q. pose proof (ap_c _ _ 35 c_35 ltac:(lra)) as C.
  pose proof (ap_mul _ _ _ _ _ _ _ _ C P ltac:(num) ltac:(num)) as M.
  pose proof (ap_mul _ _ _ _ _ _ _ _ C Q ltac:(num) ltac:(num)) as K.
  unfold add_term, term. destruct (dividing_by st), (fusing st);
  first [pose proof (ap_divc _ _ _ _ _ _ M (proj1 c_96) (proj2 c_96) ltac:(lra) ltac:(num) ltac:(num)) as T;
         apw (ap_add _ _ _ _ _ _ _ _ S T ltac:(num) ltac:(num))
        |apw (ap_fma _ _ _ _ _ _ _ _ _ _ _ _ M Q S ltac:(num) ltac:(num))
        |apw (ap_fma _ _ _ _ _ _ _ _ _ _ _ _ P K S ltac:(num) ltac:(num))
        |pose proof (ap_mul _ _ _ _ _ _ _ _ M Q ltac:(num) ltac:(num)) as T;
         apw (ap_add _ _ _ _ _ _ _ _ S T ltac:(num) ltac:(num))
        |pose proof (ap_mul _ _ _ _ _ _ _ _ P K ltac:(num) ltac:(num)) as T;
         apw (ap_add _ _ _ _ _ _ _ _ S T ltac:(num) ltac:(num))].
Qed.
Lemma ap_poly : ap (tw_poly32 st y) (twpR v) 3.5 (25 * u24).
Proof.
  pose proof (ap_t1 _ _ (ap_t3 _ _ (ap_t5 _ _ ap_t7))) as S.
  pose proof (ap_add _ _ _ _ _ _ _ _ S (ap_c _ _ (/ 2) c_half ltac:(lra)) ltac:(num) ltac:(num)) as T.
  refine (ap_weak _ _ _ _ _ _ _ T _ _ _); try num. unfold twpR. field.
Qed.
End Poly.

(** ** The kernel *)
Lemma flt_ok x y : is_finite x = true -> is_finite y = true -> flt x y = Rlt_bool (B2R x) (B2R y).
Proof. intros A B. unfold flt. now apply Bltb_correct. Qed.
Lemma zero32 : is_finite (lit32 0) = true /\ B2R (lit32 0) = 0.
Proof. now split. Qed.

Lemma tw32_low st y : is_finite y = true -> B2R y < -3 -> jax_tw32 st y = lit32 0.
Proof.
  intros F H. unfold jax_tw32. cbv zeta. rewrite !flt_ok by (assumption || apply c_3 || apply c_m3).
  rewrite (proj2 c_3), (proj2 c_m3), (Rlt_bool_false 3), (Rlt_bool_true (B2R y)) by lra. reflexivity.
Qed.
Lemma tw32_high st y : is_finite y = true -> 3 < B2R y -> jax_tw32 st y = lit32 1.
Proof.
  intros F H. unfold jax_tw32. cbv zeta. rewrite !flt_ok by (assumption || apply c_3 || apply c_m3).
  rewrite (proj2 c_3), (proj2 c_m3), (Rlt_bool_true 3) by lra. reflexivity.
Qed.
Lemma tw32_mid st y : is_finite y = true -> -3 <= B2R y <= 3 -> jax_tw32 st y = tw_poly32 st y.
Proof.
  intros F H. unfold jax_tw32. cbv zeta. rewrite !flt_ok by (assumption || apply c_3 || apply c_m3).
  rewrite (proj2 c_3), (proj2 c_m3), !Rlt_bool_false by lra. reflexivity.
Qed.
Lemma tw32_ap st y : is_finite y = true -> ap (jax_tw32 st y) (twR (B2R y)) 1 (25 * u24).
Proof.
  intro F. assert (B : Rabs (twR (B2R y)) <= 1) by (apply Rabs_le; pose proof (twR_range (B2R y)); lra).
  destruct (Rlt_le_dec (B2R y) (-3)) as [L|L].
  - rewrite tw32_low by assumption. rewrite twR_lo by lra.
    apply (ap_weak _ _ _ _ _ _ _ (ap_c _ _ 1 zero32 ltac:(lra))); unfold u24; lra.
  - destruct (Rlt_le_dec 3 (B2R y)) as [H|H].
    + rewrite tw32_high by assumption. rewrite twR_hi by lra.
      apply (ap_weak _ _ _ _ _ _ _ (ap_c _ _ 1 c_1 ltac:(lra))); unfold u24; lra.
    + rewrite tw32_mid by (assumption || lra). destruct (ap_poly st y F (conj L H)) as (A & _ & E).
      split; [exact A|]. split; [exact B|]. rewrite twR_mid by lra. exact E.
Qed.

Lemma twR_lip a b : Rabs (twR a - twR b) <= 35 / 96 * Rabs (a - b).
Proof.
  assert (P : forall x y, x <= y -> 0 <= twR y - twR x <= 35 / 96 * (y - x)).
  { intros x y H. split; [pose proof (twR_mono x y H); lra|].
    destruct (MVT_gen twR x y tw_pdf) as [c [Hc He]].
    - intros z _. apply is_derive_tw.
    - intros z _. apply continuity_pt_filterlim. apply (ex_derive_continuous twR z).
      eexists; apply is_derive_tw.
    - rewrite He. apply Rmult_le_compat_r; [lra|].
      destruct (Rle_lt_dec (Rabs c) 3) as [I|I].
      + apply Rabs_le_inv in I. rewrite tw_pdf_in by lra. rewrite <- (Rmult_1_r (35 / 96)) at 2. apply Rmult_le_compat_l; [lra|].
        rewrite <- (pow1 3). apply pow_incr. replace ((c / 3) ^ 2) with (c * c / 9) by field.
        assert (0 <= c * c <= 9) by nra. lra.
      + rewrite tw_pdf_out; [lra|]. destruct (Rle_lt_dec 0 c) as [K|K];
          [rewrite Rabs_pos_eq in I by lra|rewrite Rabs_left in I by lra]; lra. }
  destruct (Rle_lt_dec a b) as [H|H].
  - destruct (P a b H) as [A B]. rewrite (Rabs_left1 (twR a - twR b)), (Rabs_left1 (a - b)) by lra. lra.
  - destruct (P b a ltac:(lra)) as [A B]. rewrite !Rabs_pos_eq by lra. lra.
Qed.

Lemma tw32_special st : jax_tw32 st (B754_infinity false) = lit32 1 /\ jax_tw32 st (B754_infinity true) = lit32 0 /\
  jax_tw32 st B754_nan = B754_nan.
Proof.
  unfold jax_tw32. cbv zeta.
  assert (A1 : flt (lit32 3) (B754_infinity false) = true) by (vm_compute; reflexivity).
  assert (A2 : flt (lit32 3) (B754_infinity true) = false) by (vm_compute; reflexivity).
  assert (A3 : flt (B754_infinity true) (lit32 (-3)) = true) by (vm_compute; reflexivity).
  assert (A4 : flt (lit32 3) B754_nan = false) by (vm_compute; reflexivity).
  assert (A5 : flt B754_nan (lit32 (-3)) = false) by (vm_compute; reflexivity).
  assert (N : is_nan (tw_poly32 st B754_nan) = true) by (destruct st as [[] []]; vm_compute; reflexivity).
  rewrite A1, A2, A3, A4, A5. split; [reflexivity|]. split; [reflexivity|].
  destruct (tw_poly32 st B754_nan); try discriminate N. reflexivity.
Qed.
