(** The binary32 transforms are close to the exact ones. *)
From Coq Require Import Reals Lra Lia List Bool String QArith Qreals Qabs ZArith.
From Flocq Require Import Core.Core IEEE754.BinarySingleNaN.
From Verif Require Import XReal RealFacts ModelUtils ModelKernels ModelSfh ModelPopTables ModelPop ModelFloat
  SpecPop SpecFloat32 PopParamProofs FloatProofs FloatConst FloatRange FloatTop FloatAccuracy.
Import ListNotations.
Open Scope R_scope.

(** The value of a binary32 number as a fraction. *)
Definition valQ (x : f32) : Q :=
  match B2SF x with
  | SpecFloat.S754_finite s m e => Qmult (inject_Z (cond_Zopp s (Zpos m))) (twoQ e)
  | _ => 0
  end.
Lemma valQ_R x : Q2R (valQ x) = B2R x.
Proof.
  unfold valQ. rewrite <- (SF2R_B2SF _ _ x). destruct (B2SF x) as [s|s| |s m e]; simpl SF2R; try (unfold Q2R; simpl; lra).
  rewrite Q2R_mult, twoQ_R. unfold F2R. simpl Fnum. simpl Fexp. f_equal. unfold Q2R, inject_Z. simpl. lra.
Qed.
Definition nearQ (x : f32) (q e : Q) : bool := is_finite x && Qle_bool (q - e) (valQ x) && Qle_bool (valQ x) (q + e).
Lemma nearQ_R x q e : nearQ x q e = true -> is_finite x = true /\ Rabs (B2R x - Q2R q) <= Q2R e.
Proof.
  unfold nearQ. rewrite !andb_true_iff. intros ((F & H1) & H2). split; [exact F|].
  apply Qleb_R in H1, H2. rewrite Q2R_minus, valQ_R in H1. rewrite Q2R_plus, valQ_R in H2. apply Rabs_le. lra.
Qed.

(** Centre, slope and ends, against the exact ones. *)
Definition acc_ok (v : f32 * f32 * f32 * f32) (c k lo hi E H : Q) : bool :=
  let '(x0, k', lo', hi') := v in
  nearQ x0 c (1 # 2097152) && nearQ k' k (k * (1 # 8388608)) && Qle_bool (Qabs c) 1000 &&
  Qle_bool (1 # 16) k && Qle_bool k 4 && nearQ lo' lo E && nearQ hi' hi E && nearQ lo' 0 H && nearQ hi' 0 H &&
  Qle_bool lo hi && Qle_bool (1 # 100) H && Qle_bool H 1024.
Lemma Qabs_R q a : Qle_bool (Qabs q) a = true -> Rabs (Q2R q) <= Q2R a.
Proof.
  intro H. apply Qleb_R in H. revert H. apply Qabs_case; intros L H; apply Qle_Rle in L; replace (Q2R 0) with 0 in L by (unfold Q2R; simpl; lra).
  - now rewrite Rabs_pos_eq.
  - rewrite Q2R_opp in H. now rewrite Rabs_left1.
Qed.
Lemma z0 : Q2R 0 = 0. Proof. unfold Q2R. simpl. lra. Qed.

Lemma squash_eq lo hi c k x : squash lo hi c k x = lo + (hi - lo) * logisticR (k * (x - c)).
Proof. reflexivity. Qed.
Lemma logistic01 x : 0 <= logisticR x <= 1.
Proof. pose proof (logistic_range x). lra. Qed.

(** The centre and slope alone, with ends known to some tolerance. *)
Lemma close_gen s fused x (x0 k' lo' hi' : f32) c k lo hi E H :
  sigmoid_range s -> sigmoid_accurate s -> is_finite x = true ->
  is_finite x0 = true -> is_finite k' = true -> Rabs (B2R x0 - c) <= / 2097152 -> Rabs c <= 1000 ->
  Rabs (B2R k' - k) <= k * / 8388608 -> / 16 <= k <= 4 ->
  is_finite lo' = true -> is_finite hi' = true -> Rabs (B2R lo' - lo) <= E -> Rabs (B2R hi' - hi) <= E ->
  Rabs (B2R lo') <= H -> Rabs (B2R hi') <= H -> lo <= hi -> / 100 <= H <= 1024 ->
  close32 (3 * E + (hi - lo) * / 262144 + H * / 1048576) (squash lo hi c k (B2R x)) (sigmoid32 s fused x x0 k' lo' hi').
Proof.
  intros Hr Ha Fx F0 Fk E0 C Ek K Fl Fh El Eh Al Ah L HH. unfold close32. rewrite squash_eq. unfold sigmoid32.
  assert (A0 : Rabs (B2R x0) <= 1024) by (apply Rabs_le; apply Rabs_le_inv in E0, C; lra).
  pose proof (s_err s x x0 k' c k Ha Fx F0 Fk A0 K E0 Ek) as S.
  assert (N : number (fmul k' (fsub x x0))).
  { apply fmul_number; auto; [|apply Rabs_le_inv in Ek; lra]. apply fsub_number; auto.
    destruct x; try discriminate Fx; reflexivity. }
  destruct (Hr _ N) as (Fs & Hs).
  exact (out_err fused lo' hi' _ lo hi _ H E Fl Fh Fs Hs (logistic01 _) S L El Eh Al Ah HH).
Qed.

Lemma acc_spec s fused x v c k lo hi E H :
  sigmoid_range s -> sigmoid_accurate s -> is_finite x = true -> acc_ok v c k lo hi E H = true ->
  close32 (3 * Q2R E + (Q2R hi - Q2R lo) * / 262144 + Q2R H * / 1048576)
    (squash (Q2R lo) (Q2R hi) (Q2R c) (Q2R k) (B2R x)) (sigmoid_b32 s fused x v).
Proof.
  intros Hr Ha Fx. destruct v as [[[x0 k'] lo'] hi']. unfold acc_ok. rewrite !andb_true_iff.
  intros (((((((((((H1 & H2) & H3) & H4) & H5) & H6) & H7) & H8) & H9) & H10) & H11) & H12).
  apply nearQ_R in H1, H2, H6, H7, H8, H9. apply Qabs_R in H3. apply Qleb_R in H4, H5, H10, H11, H12.
  rewrite z0, Rminus_0_r in H8, H9.
  replace (Q2R (1 # 2097152)) with (/ 2097152) in H1 by (unfold Q2R; simpl; lra).
  rewrite Q2R_mult in H2. replace (Q2R (1 # 8388608)) with (/ 8388608) in H2 by (unfold Q2R; simpl; lra).
  replace (Q2R 1000) with 1000 in H3 by (unfold Q2R; simpl; lra).
  replace (Q2R (1 # 16)) with (/ 16) in H4 by (unfold Q2R; simpl; lra).
  replace (Q2R 4) with 4 in H5 by (unfold Q2R; simpl; lra).
  replace (Q2R (1 # 100)) with (/ 100) in H11 by (unfold Q2R; simpl; lra).
  replace (Q2R 1024) with 1024 in H12 by (unfold Q2R; simpl; lra).
  destruct H1, H2, H6, H7, H8, H9. cbn [sigmoid_b32]. apply close_gen; auto.
Qed.

Lemma close_le t1 t2 x r : t1 <= t2 -> close32 t1 x r -> close32 t2 x r.
Proof. unfold close32. lra. Qed.

Definition midQ (b : Q * Q) : Q := (fst b + snd b) * (1 # 2).
Definition slopeQ (b : Q * Q) : Q := 4 / (snd b - fst b).
Definition eight_acc (b : Q * Q) : bool :=
  acc_ok (sigmoid_bounds32 b) (midQ b) (slopeQ b) (fst b) (snd b) (1 # 100000000) 14 &&
  Qle_bool (snd b - fst b) 5 && negb (Qeq_bool (snd b - fst b) 0).
Lemma eight_accurate : forallb eight_acc eight = true.
Proof. vm_compute. reflexivity. Qed.

Lemma close_one s fused b x : sigmoid_range s -> sigmoid_accurate s -> is_finite x = true -> In b eight ->
  close32 (/ 30000) (squash (Q2R (fst b)) (Q2R (snd b)) ((Q2R (fst b) + Q2R (snd b)) / 2) (4 / (Q2R (snd b) - Q2R (fst b))) (B2R x))
    (sigmoid_b32 s fused x (sigmoid_bounds32 b)).
Proof.
  intros Hr Ha Fx Hb. pose proof eight_accurate as A. rewrite forallb_forall in A. specialize (A b Hb).
  unfold eight_acc in A. rewrite !andb_true_iff in A. destruct A as ((A & W) & NZ).
  apply Qleb_R in W. rewrite Q2R_minus in W. replace (Q2R 5) with 5 in W by (unfold Q2R; simpl; lra).
  apply negb_true_iff, Qeq_bool_neq in NZ.
  pose proof (acc_spec s fused x _ _ _ _ _ _ _ Hr Ha Fx A) as C.
  unfold midQ, slopeQ in C. rewrite Q2R_mult, Q2R_plus, Q2R_div, Q2R_minus in C by exact NZ.
  replace (Q2R (1 # 2)) with (/ 2) in C by (unfold Q2R; simpl; lra).
  replace (Q2R 4) with 4 in C by (unfold Q2R; simpl; lra).
  revert C. apply close_le. replace (Q2R (1 # 100000000)) with (/ 100000000) by (unfold Q2R; simpl; lra).
  replace (Q2R 14) with 14 by (unfold Q2R; simpl; lra). lra.
Qed.

Ltac qr := unfold Q2R; simpl; lra.
Lemma ms_close s fused u : sigmoid_range s -> sigmoid_accurate s ->
  is_finite (lgmcrit u) = true -> is_finite (lgy_at_mcrit u) = true -> is_finite (indx_lo u) = true -> is_finite (indx_hi u) = true ->
  let p := get_bounded_sfr_params32 s fused u in
  close32 (/ 30000) (squash 9 (27 / 2) (45 / 4) (8 / 9) (B2R (lgmcrit u))) (lgmcrit p) /\
  close32 (/ 30000) (squash (-12) (-8) (-10) 1 (B2R (lgy_at_mcrit u))) (lgy_at_mcrit p) /\
  close32 (/ 30000) (squash 0 5 (5 / 2) (4 / 5) (B2R (indx_lo u))) (indx_lo p) /\
  close32 (/ 30000) (squash (-5) 0 (- (5 / 2)) (4 / 5) (B2R (indx_hi u))) (indx_hi p).
Proof.
  intros Hr Ha F1 F2 F3 F4. cbv zeta. unfold get_bounded_sfr_params32.
  cbn [lgmcrit lgy_at_mcrit indx_lo indx_hi MS_SIG32].
  split; [|split; [|split]].
  - pose proof (close_one s fused (9, 27 # 2)%Q _ Hr Ha F1 ltac:(unfold eight; simpl; tauto)) as C. cbn [fst snd] in C.
    replace (Q2R 9) with 9 in C by qr. replace (Q2R (27 # 2)) with (27 / 2) in C by qr.
    replace ((9 + 27 / 2) / 2) with (45 / 4) in C by lra. replace (4 / (27 / 2 - 9)) with (8 / 9) in C by lra. exact C.
  - pose proof (close_one s fused (-12, -8)%Q _ Hr Ha F2 ltac:(unfold eight; simpl; tauto)) as C. cbn [fst snd] in C.
    replace (Q2R (-12)) with (-12) in C by qr. replace (Q2R (-8)) with (-8) in C by qr.
    replace ((-12 + -8) / 2) with (-10) in C by lra. replace (4 / (-8 - -12)) with 1 in C by lra. exact C.
  - pose proof (close_one s fused (0, 5)%Q _ Hr Ha F3 ltac:(unfold eight; simpl; tauto)) as C. cbn [fst snd] in C.
    replace (Q2R 0) with 0 in C by qr. replace (Q2R 5) with 5 in C by qr.
    replace ((0 + 5) / 2) with (5 / 2) in C by lra. replace (4 / (5 - 0)) with (4 / 5) in C by lra. exact C.
  - pose proof (close_one s fused (-5, 0)%Q _ Hr Ha F4 ltac:(unfold eight; simpl; tauto)) as C. cbn [fst snd] in C.
    replace (Q2R 0) with 0 in C by qr. replace (Q2R (-5)) with (-5) in C by qr.
    replace ((-5 + 0) / 2) with (- (5 / 2)) in C by lra. replace (4 / (0 - -5)) with (4 / 5) in C by lra. exact C.
Qed.

Lemma squash_range lo hi c k x : lo <= hi -> lo <= squash lo hi c k x <= hi.
Proof. intro H. rewrite squash_eq. pose proof (logistic01 (k * (x - c))) as [A B]. nra. Qed.

Definition rejuv_ok : bool :=
  match sigmoid_bounds32 drop_sb with
  | (x0, k, _, hi) => nearQ x0 (-3 # 2) (1 # 2097152) && nearQ k (4 # 3) ((4 # 3) * (1 # 8388608)) && nearQ hi 0 0
  end.
Lemma rejuv_ok_true : rejuv_ok = true. Proof. vm_compute. reflexivity. Qed.

Lemma q_close s fused u : sigmoid_range s -> sigmoid_accurate s ->
  is_finite (lg_qt u) = true -> is_finite (qlglgdt u) = true -> is_finite (lg_drop u) = true -> is_finite (lg_rejuv u) = true ->
  let p := get_bounded_q_params32 s fused u in
  let drop := squash (-3) 0 (- (3 / 2)) (4 / 3) (B2R (lg_drop u)) in
  close32 (/ 30000) (squash (/ 10) 2 (21 / 20) (40 / 19) (B2R (lg_qt u))) (lg_qt p) /\
  close32 (/ 30000) (squash (-3) (- / 100) (- (301 / 200)) (400 / 299) (B2R (qlglgdt u))) (qlglgdt p) /\
  close32 (/ 30000) drop (lg_drop p) /\
  close32 (/ 8000) (squash drop 0 (- (3 / 2)) (4 / 3) (B2R (lg_rejuv u))) (lg_rejuv p).
Proof.
  intros Hr Ha F1 F2 F3 F4. cbv zeta.
  pose proof rejuv_ok_true as R. unfold rejuv_ok in R. destruct (sigmoid_bounds32 drop_sb) as [[[x0 k] lo] hi] eqn:Eb.
  rewrite !andb_true_iff in R. destruct R as ((R1 & R2) & R3). apply nearQ_R in R1, R2, R3.
  rewrite (bounded_q_eq s fused u x0 k lo hi Eb). cbn [lg_qt qlglgdt lg_drop lg_rejuv].
  assert (D : close32 (/ 30000) (squash (-3) 0 (- (3 / 2)) (4 / 3) (B2R (lg_drop u))) (sigmoid_b32 s fused (lg_drop u) (sigmoid_bounds32 drop_sb))).
  { pose proof (close_one s fused drop_sb _ Hr Ha F3 ltac:(unfold eight, drop_sb; simpl; tauto)) as C. unfold drop_sb in C at 1 2 3 4 5 6. cbn [fst snd] in C.
    replace (Q2R 0) with 0 in C by qr. replace (Q2R (-3)) with (-3) in C by qr.
    replace ((-3 + 0) / 2) with (- (3 / 2)) in C by lra. replace (4 / (0 - -3)) with (4 / 3) in C by lra. exact C. }
  split; [|split; [|split]].
  - pose proof (close_one s fused (1 # 10, 2)%Q _ Hr Ha F1 ltac:(unfold eight; simpl; tauto)) as C. cbn [fst snd] in C.
    replace (Q2R (1 # 10)) with (/ 10) in C by qr. replace (Q2R 2) with 2 in C by qr.
    replace ((/ 10 + 2) / 2) with (21 / 20) in C by lra. replace (4 / (2 - / 10)) with (40 / 19) in C by lra. exact C.
  - pose proof (close_one s fused (-3, -1 # 100)%Q _ Hr Ha F2 ltac:(unfold eight; simpl; tauto)) as C. cbn [fst snd] in C.
    replace (Q2R (-3)) with (-3) in C by qr. replace (Q2R (-1 # 100)) with (- / 100) in C by qr.
    replace ((-3 + - / 100) / 2) with (- (301 / 200)) in C by lra. replace (4 / (- / 100 - -3)) with (400 / 299) in C by (field; lra). exact C.
  - exact D.
  - rewrite Eb in *. set (dr := squash _ _ _ _ _) in *. set (d := sigmoid_b32 _ _ _ _) in *.
    assert (Rd : -3 <= dr <= 0) by (apply squash_range; lra).
    assert (Nd : number (lg_drop u)) by (destruct (lg_drop u); try discriminate F3; reflexivity).
    destruct (param_between s fused drop_sb (lg_drop u) Hr Nd drop_sb_ok) as (Fd & _). rewrite Eb in Fd.
    unfold d. cbn [sigmoid_b32]. fold (sigmoid_b32 s fused (lg_drop u) (x0, k, lo, hi)). fold d.
    destruct R1 as (G0 & R1), R2 as (Gk & R2), R3 as (Gh & R3).
    rewrite Q2R_mult in R2. rewrite z0 in R3.
    replace (Q2R (-3 # 2)) with (- (3 / 2)) in R1 by qr. replace (Q2R (1 # 2097152)) with (/ 2097152) in R1 by qr.
    replace (Q2R (4 # 3)) with (4 / 3) in R2 by qr. replace (Q2R (1 # 8388608)) with (/ 8388608) in R2 by qr.
    unfold close32 in D. pose proof (Rabs_le_inv _ _ D) as D'.
    refine (close_le _ _ _ _ _ (close_gen s fused (lg_rejuv u) x0 k d hi (- (3 / 2)) (4 / 3) dr 0 (/ 30000) 4 Hr Ha F4 G0 Gk R1 _ R2 _ Fd Gh D _ _ _ _ _)); try lra;
      try (apply Rabs_le; apply Rabs_le_inv in R3; lra).
Qed.

(** ** Population parameters *)
Definition pop_acc (b : Q * Q) : bool :=
  let '(lo, hi) := QQ32 b in
  acc_ok (fmul (lit32 (1 # 2)) (fadd lo hi), lit32 (1 # 10), lo, hi) (midQ b) (1 # 10) (fst b) (snd b) (1 # 1000000) 25 &&
  Qle_bool (snd b - fst b) 40.
Lemma pop_accurate : forallb (fun r => pop_acc (snd r)) POP_BOUNDS = true.
Proof. vm_compute. reflexivity. Qed.

Lemma pop_close s fused u U : sigmoid_range s -> sigmoid_accurate s ->
  (forall n, In n pop_names -> assoc ("u_" ++ n) u = Some (U n)) ->
  (forall n, In n pop_names -> is_finite (U n) = true) ->
  exists p, get_bounded_diffstarpop_params32 s fused u = Some p /\ map fst p = pop_names /\
    forall n lo hi, In (n, (lo, hi)) POP_BOUNDS ->
      exists r, assoc n p = Some r /\
        close32 (/ 5000) (squash (Q2R lo) (Q2R hi) ((Q2R lo + Q2R hi) / 2) (/ 10) (B2R (U n))) r.
Proof.
  intros Hr Ha Hu Hf. exists (map (fun r => (fst r, val32 s fused U r)) POP_BOUNDS).
  split; [exact (bounded32_rows s fused u U Hu)|]. split; [rewrite map_map; reflexivity|].
  intros n lo hi Hin. exists (val32 s fused U (n, (lo, hi))). split; [exact (rows_assoc (val32 s fused U) _ Hin)|].
  assert (F : is_finite (U n) = true) by (apply Hf; change n with (fst (n, (lo, hi))); now apply in_map).
  pose proof pop_accurate as A. rewrite forallb_forall in A. specialize (A _ Hin). cbn [snd] in A.
  unfold pop_acc, QQ32 in A. rewrite andb_true_iff in A. cbn [fst snd] in A. destruct A as (A & W).
  apply Qleb_R in W. rewrite Q2R_minus in W. replace (Q2R 40) with 40 in W by qr.
  pose proof (acc_spec s fused (U n) _ _ _ _ _ _ _ Hr Ha F A) as C.
  unfold midQ in C. cbn [fst snd] in C. rewrite Q2R_mult, Q2R_plus in C.
  replace (Q2R (1 # 2)) with (/ 2) in C by qr. replace (Q2R (1 # 10)) with (/ 10) in C by qr.
  unfold val32, get_p_from_u_p32, QQ32. cbn [fst snd]. cbn [sigmoid_b32] in C.
  revert C. apply close_le. replace (Q2R (1 # 1000000)) with (/ 1000000) by qr. replace (Q2R 25) with 25 by qr. lra.
Qed.
