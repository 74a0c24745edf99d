(** Range and saturation of the bounded parameters in binary32. *)
From Coq Require Import Reals Lra Lia List Bool String QArith Qreals Qabs ZArith.
From Flocq Require Import Core.Core IEEE754.BinarySingleNaN.
From Verif Require Import XReal ModelUtils ModelKernels ModelSfh ModelPopTables ModelPop ModelFloat SpecPop SpecFloat32
  PopParamProofs FloatProofs FloatConst.
Import ListNotations.
Open Scope R_scope.

(** ** Constants of the eight parameters *)
Definition sb_ok (b : Q * Q) : bool :=
  let '(x0, k, _, _) := sigmoid_bounds32 b in
  is_finite x0 && is_finite k && Bltb (lit32 (6 # 10)) k && Bltb x0 (lit32 12) && bound_ok b.

Lemma lit32_eq q : to32 (lit q) = lit32 q. Proof. reflexivity. Qed.

Lemma lt32 (x y : f32) : is_finite x = true -> is_finite y = true -> Bltb x y = true -> B2R x < B2R y.
Proof.
  intros Fx Fy H. rewrite (Bltb_correct _ _ _ _ Fx Fy) in H. revert H. case Rlt_bool_spec; [auto|discriminate].
Qed.

Lemma sb_spec b : sb_ok b = true ->
  exists x0 k, sigmoid_bounds32 b = (x0, k, lit32 (fst b), lit32 (snd b)) /\
    is_finite x0 = true /\ is_finite k = true /\ 59 / 100 < B2R k /\ B2R x0 < 12 /\ bound_ok b = true.
Proof.
  unfold sb_ok. destruct (sigmoid_bounds32 b) as [[[x0 k] lo] hi] eqn:E. rewrite !andb_true_iff.
  intros ((((F0 & Fk) & K) & X) & B). exists x0, k.
  assert (E2 : lo = lit32 (fst b) /\ hi = lit32 (snd b)).
  { unfold sigmoid_bounds32 in E. injection E as _ _ <- <-. split; reflexivity. }
  destruct E2 as [-> ->].
  split; [reflexivity|]. split; [exact F0|]. split; [exact Fk|].
  assert (L1 : lit_ok (6 # 10) = true) by (vm_compute; reflexivity).
  assert (L2 : lit_ok 12 = true) by (vm_compute; reflexivity).
  apply lit_ok_spec in L1, L2. destruct L1 as (G1 & V1), L2 as (G2 & V2).
  apply lt32 in K; auto. apply lt32 in X; auto.
  split; [|split; [|exact B]].
  - apply Rle_lt_trans with (2 := K). rewrite V1.
    apply Rle_trans with (near32 (19 / 32)).
    + rewrite (near32_eq (19 / 32) (19 * 2 ^ 19) (-24)); [|lia| |].
      * change (bpow radix2 (-24)) with (/ 16777216). rewrite (mult_IZR). simpl. lra.
      * change (bpow radix2 (-24 + 23)) with (/ 2). change (bpow radix2 (-24 + 24)) with 1.
        rewrite Rabs_pos_eq by lra. lra.
      * change (bpow radix2 (- -24)) with 16777216. rewrite Rabs_pos_eq; rewrite mult_IZR; simpl; lra.
    + apply near32_le. unfold Q2R. simpl. lra.
  - apply Rlt_le_trans with (1 := X). rewrite V2.
    replace (Q2R 12) with 12 by (unfold Q2R; simpl; lra).
    rewrite (near32_eq 12 (12 * 2 ^ 20) (-20)); [|lia| |].
    + change (bpow radix2 (-20)) with (/ 1048576). rewrite mult_IZR. simpl. lra.
    + change (bpow radix2 (-20 + 23)) with 8. change (bpow radix2 (-20 + 24)) with 16.
      rewrite Rabs_pos_eq by lra. lra.
    + change (bpow radix2 (- -20)) with 1048576. rewrite mult_IZR. simpl. rewrite Rabs_pos_eq; lra.
Qed.

Lemma param_between s fused b u : sigmoid_range s -> number u -> sb_ok b = true ->
  let r := sigmoid_b32 s fused u (sigmoid_bounds32 b) in
  is_finite r = true /\ near32 (Q2R (fst b)) <= B2R r <= B2R (top (lit32 (fst b)) (lit32 (snd b))).
Proof.
  intros Hs Hu Hb. destruct (sb_spec b Hb) as (x0 & k & E & F0 & Fk & K & _ & B).
  destruct (bound_ok_spec b B) as (F1 & F2 & E1 & E2 & L & A1 & A2).
  unfold sigmoid_b32. rewrite E. cbv zeta. rewrite <- E1.
  apply sigmoid32_between; auto. lra.
Qed.
Lemma param_inside s fused b u : sigmoid_range s -> number u -> sb_ok b = true -> tight b = true ->
  inside32 (fst b) (snd b) (sigmoid_b32 s fused u (sigmoid_bounds32 b)).
Proof.
  intros Hs Hu Hb T. destruct (param_between s fused b u Hs Hu Hb) as (F & L & H).
  destruct (sb_spec b Hb) as (_ & _ & _ & _ & _ & _ & _ & B).
  split; [exact F|]. split; [exact L|]. apply Rle_trans with (1 := H). now apply tight_spec.
Qed.

(** ** The eight parameters *)
Lemma ms_range s fused u : sigmoid_range s ->
  number (lgmcrit u) -> number (lgy_at_mcrit u) -> number (indx_lo u) -> number (indx_hi u) ->
  let p := get_bounded_sfr_params32 s fused u in
  inside32 9 (27 # 2) (lgmcrit p) /\ inside32 (-12) (-8) (lgy_at_mcrit p) /\
  inside32 0 5 (indx_lo p) /\ inside32 (-5) 0 (indx_hi p).
Proof.
  intros Hs H1 H2 H3 H4. cbv zeta. unfold get_bounded_sfr_params32.
  cbn [lgmcrit lgy_at_mcrit indx_lo indx_hi MS_SIG32].
  split; [|split; [|split]].
  - apply (param_inside s fused (9, 27 # 2)%Q); auto; vm_compute; reflexivity.
  - apply (param_inside s fused (-12, -8)%Q); auto; vm_compute; reflexivity.
  - apply (param_inside s fused (0, 5)%Q); auto; vm_compute; reflexivity.
  - apply (param_inside s fused (-5, 0)%Q); auto; vm_compute; reflexivity.
Qed.

Lemma zero32 : is_finite (lit32 0) = true /\ B2R (lit32 0) = 0.
Proof. split; [reflexivity|]. rewrite <- (SF2R_B2SF _ _ (lit32 0)). vm_compute. reflexivity. Qed.

Lemma top_zero (d : f32) : is_finite d = true -> Rabs (B2R d) <= 1024 -> B2R (top d (lit32 0)) = 0.
Proof.
  intros F A. destruct zero32 as (Fz & Z). apply Rabs_le_inv in A.
  destruct (fsub_ok (lit32 0) d Fz F) as (S1 & S2).
  { rewrite Z, bpow_100. apply Rabs_le. lra. }
  rewrite Z in S1. replace (0 - B2R d) with (- B2R d) in S1 by ring. rewrite near32_opp, near32_B2R in S1.
  unfold top. destruct (fadd_ok d (fsub (lit32 0) d) F S2) as (T1 & _).
  { rewrite S1, bpow_100. apply Rabs_le. lra. }
  rewrite T1, S1. replace (B2R d + - B2R d) with 0 by ring. apply near32_0.
Qed.

Definition drop_sb : Q * Q := (-3, 0)%Q.
Lemma drop_sb_ok : sb_ok drop_sb = true. Proof. vm_compute. reflexivity. Qed.
Lemma drop_tight : tight drop_sb = true. Proof. vm_compute. reflexivity. Qed.
Lemma near32_int n : (Z.abs n < 2 ^ 24)%Z -> near32 (IZR n) = IZR n.
Proof.
  intro H. apply round_generic; [typeclasses eauto|].
  apply generic_format_FLT. exists (Float radix2 n 0).
  - unfold F2R. simpl. ring.
  - simpl. exact H.
  - simpl. lia.
Qed.
Lemma near32_m3 : near32 (Q2R (-3)) = -3.
Proof. replace (Q2R (-3)) with (IZR (-3)) by (unfold Q2R; simpl; lra). now apply near32_int. Qed.
Lemma near32_z : near32 (Q2R 0) = 0.
Proof. replace (Q2R 0) with 0 by (unfold Q2R; simpl; lra). apply near32_0. Qed.

Lemma bounded_q_eq s fused u x0 k lo hi : sigmoid_bounds32 drop_sb = (x0, k, lo, hi) ->
  get_bounded_q_params32 s fused u =
    mkQ (sigmoid_b32 s fused (lg_qt u) (sigmoid_bounds32 (1 # 10, 2)%Q))
        (sigmoid_b32 s fused (qlglgdt u) (sigmoid_bounds32 (-3, -1 # 100)%Q))
        (sigmoid_b32 s fused (lg_drop u) (sigmoid_bounds32 drop_sb))
        (sigmoid32 s fused (lg_rejuv u) x0 k (sigmoid_b32 s fused (lg_drop u) (sigmoid_bounds32 drop_sb)) hi).
Proof.
  intro E. unfold get_bounded_q_params32. cbn [lg_rejuv lg_drop lg_qt qlglgdt Q_SIG32].
  change (-3, 0)%Q with drop_sb. now rewrite E.
Qed.

Lemma q_range s fused u : sigmoid_range s ->
  number (lg_qt u) -> number (qlglgdt u) -> number (lg_drop u) -> number (lg_rejuv u) ->
  let p := get_bounded_q_params32 s fused u in
  inside32 (1 # 10) 2 (lg_qt p) /\
  (is_finite (qlglgdt p) = true /\ -3 <= B2R (qlglgdt p) <= B2R (top (lit32 (-3)) (lit32 (-1 # 100)))) /\
  inside32 (-3) 0 (lg_drop p) /\
  (is_finite (lg_rejuv p) = true /\ B2R (lg_drop p) <= B2R (lg_rejuv p) <= 0).
Proof.
  intros Hs H1 H2 H3 H4. cbv zeta.
  destruct (sb_spec _ drop_sb_ok) as (x0 & k & E & F0 & Fk & K & _ & B).
  rewrite (bounded_q_eq s fused u _ _ _ _ E). cbn [lg_rejuv lg_drop lg_qt qlglgdt].
  assert (D : inside32 (-3) 0 (sigmoid_b32 s fused (lg_drop u) (sigmoid_bounds32 drop_sb))).
  { apply (param_inside s fused drop_sb); auto using drop_sb_ok, drop_tight. }
  split; [|split; [|split; [exact D|]]].
  - apply (param_inside s fused (1 # 10, 2)%Q); auto; vm_compute; reflexivity.
  - destruct (param_between s fused (-3, -1 # 100)%Q (qlglgdt u) Hs H2) as (F & L & U);
      [vm_compute; reflexivity|]. cbn [fst snd] in L, U. rewrite near32_m3 in L. auto.
  - destruct D as (FD & LD & UD). rewrite near32_m3 in LD. rewrite near32_z in UD.
    set (d := sigmoid_b32 s fused (lg_drop u) (sigmoid_bounds32 drop_sb)) in *.
    destruct zero32 as (Fz & Z). change (snd drop_sb) with 0%Q.
    assert (Ad : Rabs (B2R d) <= 1024) by (apply Rabs_le; lra).
    destruct (sigmoid32_between s fused (lg_rejuv u) x0 k d (lit32 0) Hs H4 F0 Fk) as (F & L & U);
      auto; try lra.
    + rewrite Z, Rabs_R0. lra.
    + rewrite (top_zero d FD Ad) in U. split; [exact F|]. split; [exact L|exact U].
Qed.

(** ** Saturation *)
Lemma bminus_overflow_pos (x y : f32) c : is_finite x = true -> is_finite y = true ->
  Rabs (B2R y) <= 1024 -> 0 <= c -> c <= B2R x - B2R y ->
  Rlt_bool (Rabs (round radix2 (SpecFloat.fexp 24 128) (round_mode mode_NE) (B2R x - B2R y))) (bpow radix2 128) = false ->
  fsub x y = B754_infinity false.
Proof.
  intros Fx Fy A C0 C R.
  pose proof (Bminus_correct 24 128 _ _ mode_NE x y Fx Fy) as H. rewrite R in H. destruct H as (H & S).
  assert (P : 0 < B2R x).
  { assert (N : ~ (Rabs (B2R x - B2R y) <= bpow radix2 100)).
    { intro Q. rewrite (small _ Q) in R. discriminate R. }
    apply Rnot_le_lt in N. rewrite bpow_100 in N. rewrite Rabs_pos_eq in N by lra.
    apply Rabs_le_inv in A. lra. }
  assert (Sx : Bsign x = false).
  { destruct x as [sx|sx| |sx m e Hx]; simpl in P; try lra. simpl. destruct sx; [|reflexivity].
    exfalso. revert P. apply Rle_not_lt. apply F2R_le_0. simpl. lia. }
  rewrite Sx in H. unfold fsub. destruct (Bminus mode_NE x y); simpl in H; try discriminate H.
  now injection H as ->.
Qed.

Lemma fsub_at_least x y a c : at_least a x -> is_finite y = true -> Rabs (B2R y) <= 1024 ->
  0 <= c -> c <= a - B2R y -> near32 c = c -> at_least c (fsub x y).
Proof.
  intros Hx Fy A C0 C N.
  assert (G : is_finite x = true -> a <= B2R x -> at_least c (fsub x y)).
  { intros Fx X. destruct (Rlt_bool (Rabs (round radix2 (SpecFloat.fexp 24 128) (round_mode mode_NE) (B2R x - B2R y)))
                     (bpow radix2 128)) eqn:R.
    - pose proof (Bminus_correct 24 128 _ _ mode_NE x y Fx Fy) as H. rewrite R in H. destruct H as (H1 & H2 & _).
      assert (V : c <= B2R (fsub x y)).
      { unfold fsub. rewrite H1. rewrite <- N. apply near32_le. lra. }
      unfold fsub in *. destruct (Bminus mode_NE x y); simpl in *; try discriminate H2; exact V.
    - rewrite (bminus_overflow_pos x y c Fx Fy A C0 ltac:(lra) R). reflexivity. }
  destruct x as [sx|sx| |sx m e Hm]; simpl in Hx; try contradiction.
  - apply G; [reflexivity|exact Hx].
  - subst sx. destruct y; try discriminate Fy; reflexivity.
  - apply G; [reflexivity|exact Hx].
Qed.

Lemma bsign_pos (x : f32) : 0 < B2R x -> Bsign x = false.
Proof.
  intro P. destruct x as [sx|sx| |sx m e Hx]; simpl in P; try lra. simpl. destruct sx; [|reflexivity].
  exfalso. revert P. apply Rle_not_lt. apply F2R_le_0. simpl. lia.
Qed.

Lemma fmul_at_least k y c e : at_least c y -> is_finite k = true -> 0 < B2R k -> 0 < c ->
  e <= B2R k * c -> near32 e = e -> at_least e (fmul k y).
Proof.
  intros Hy Fk K C0 C N.
  assert (G : is_finite y = true -> c <= B2R y -> at_least e (fmul k y)).
  { intros Fy Y. pose proof (Bmult_correct 24 128 _ _ mode_NE k y) as H.
    destruct (Rlt_bool (Rabs (round radix2 (SpecFloat.fexp 24 128) (round_mode mode_NE) (B2R k * B2R y)))
                     (bpow radix2 128)) eqn:R.
    - destruct H as (H1 & H2 & _). rewrite Fk, Fy in H2.
      assert (V : e <= B2R (fmul k y)).
      { unfold fmul. rewrite H1. rewrite <- N. apply near32_le.
        apply Rle_trans with (1 := C). apply Rmult_le_compat_l; lra. }
      unfold fmul in *. destruct (Bmult mode_NE k y); simpl in *; try discriminate H2; exact V.
    - rewrite (bsign_pos k K), (bsign_pos y) in H by lra. unfold fmul.
      destruct (Bmult mode_NE k y); simpl in H; try discriminate H. now injection H as ->. }
  destruct y as [sx|sx| |sx m x Hm]; simpl in Hy; try contradiction.
  - apply G; [reflexivity|exact Hy].
  - subst sx. pose proof (bsign_pos k K). destruct k as [sk|sk| |sk mk ek Hk]; simpl in *; try discriminate Fk; try lra.
    subst sk. reflexivity.
  - apply G; [reflexivity|exact Hy].
Qed.

Lemma at_least_number a x : at_least a x -> number x.
Proof. destruct x; simpl; try contradiction; reflexivity. Qed.

(** At saturation the value is the lower end plus the rounded height. *)
Lemma sigmoid32_sat (s : f32 -> f32) fused x x0 k lo hi a c :
  sigmoid_saturates s -> at_least a x -> is_finite x0 = true -> Rabs (B2R x0) <= 1024 ->
  is_finite k = true -> 0 < B2R k -> 0 < c -> near32 c = c -> c <= a - B2R x0 -> 18 <= B2R k * c ->
  is_finite lo = true -> is_finite hi = true -> Rabs (B2R lo) <= 1024 -> Rabs (B2R hi) <= 1024 ->
  let r := sigmoid32 s fused x x0 k lo hi in
  is_finite r = true /\ B2R r = B2R (top lo hi).
Proof.
  intros Hs Hx F0 A0 Fk K C0 N C E Fl Fh Bl Bh r. unfold r, sigmoid32.
  assert (S : s (fmul k (fsub x x0)) = binary_normalize 24 128 eq_refl eq_refl mode_NE 1 0 false).
  { apply Hs. apply fmul_at_least with c; auto.
    - apply fsub_at_least with a; auto. lra.
    - now apply (near32_int 18). }
  rewrite S. set (one := binary_normalize 24 128 _ _ mode_NE 1 0 false).
  assert (F1 : is_finite one = true) by reflexivity.
  assert (V1 : B2R one = 1).
  { rewrite <- (SF2R_B2SF _ _ one). replace (B2SF one) with (SpecFloat.S754_finite false 8388608 (-23)) by (vm_compute; reflexivity).
    unfold SF2R, F2R. simpl. lra. }
  apply Rabs_le_inv in Bl, Bh.
  destruct (fsub_ok hi lo Fh Fl) as (D1 & D2).
  { rewrite bpow_100. apply Rabs_le. lra. }
  assert (Bd : Rabs (B2R (fsub hi lo)) <= 4096).
  { rewrite D1. change 4096 with (bpow radix2 12). apply near32_abs; [lia|]. simpl. apply Rabs_le. lra. }
  apply Rabs_le_inv in Bd. set (d := fsub hi lo) in *. unfold top. fold d.
  destruct (fadd_ok lo d Fl D2) as (T1 & T2).
  { rewrite bpow_100. apply Rabs_le. lra. }
  destruct fused.
  - destruct (ffma_ok d one lo D2 F1 Fl) as (R1 & R2).
    { rewrite V1, bpow_100. apply Rabs_le. lra. }
    split; [exact R2|]. rewrite R1, T1, V1. f_equal. ring.
  - destruct (fmul_ok d one D2 F1) as (M1 & M2).
    { rewrite V1, bpow_100. apply Rabs_le. lra. }
    rewrite V1, Rmult_1_r, near32_B2R in M1.
    destruct (fadd_ok lo (fmul d one) Fl M2) as (R1 & R2).
    { rewrite M1, bpow_100. apply Rabs_le. lra. }
    split; [exact R2|]. now rewrite R1, T1, M1.
Qed.

(** Inverting a value at distance [hi - lo] from [lo] gives infinity. *)
Lemma inverse_at_top (lg : f32 -> f32) (y x0 k lo hi : f32) :
  lg (B754_zero false) = B754_infinity true -> is_finite x0 = true -> is_finite k = true -> 0 < B2R k ->
  is_finite y = true -> is_finite lo = true -> is_finite hi = true ->
  Rabs (B2R y) <= 1024 -> Rabs (B2R lo) <= 1024 -> Rabs (B2R hi) <= 1024 ->
  near32 (B2R y - B2R lo) = near32 (B2R hi - B2R lo) -> near32 (B2R hi - B2R lo) <> 0 ->
  inverse_sigmoid32 lg y x0 k lo hi = B754_infinity false.
Proof.
  intros Hl F0 Fk K Fy Fl Fh By Bl Bh E Z. apply Rabs_le_inv in By, Bl, Bh.
  destruct (fsub_ok hi lo Fh Fl) as (D1 & D2).
  { rewrite bpow_100. apply Rabs_le. lra. }
  destruct (fsub_ok y lo Fy Fl) as (E1 & E2).
  { rewrite bpow_100. apply Rabs_le. lra. }
  rewrite E in E1.
  assert (Q : B2R (fsub hi lo) / B2R (fsub y lo) = 1) by (rewrite D1, E1; now field).
  assert (One : near32 1 = 1) by now apply (near32_int 1).
  destruct (fdiv_ok (fsub hi lo) (fsub y lo)) as (V1 & V2); auto.
  { now rewrite E1. }
  { rewrite Q, bpow_100. apply Rabs_le. lra. }
  rewrite Q, One in V1.
  unfold inverse_sigmoid32. set (q := fdiv (fsub hi lo) (fsub y lo)) in *.
  assert (L : fsub q (lit32 1) = B754_zero false).
  { assert (Fo : is_finite (lit32 1) = true) by reflexivity.
    assert (Vo : B2R (lit32 1) = 1).
    { rewrite <- (SF2R_B2SF _ _ (lit32 1)).
      replace (B2SF (lit32 1)) with (SpecFloat.S754_finite false 8388608 (-23)) by (vm_compute; reflexivity).
      unfold SF2R, F2R. simpl. lra. }
    pose proof (Bminus_correct 24 128 _ _ mode_NE q (lit32 1) V2 Fo) as H.
    rewrite V1, Vo in H. replace (1 - 1) with 0 in H by ring.
    rewrite small in H by (rewrite Rabs_R0, bpow_100; lra).
    destruct H as (H1 & H2 & H3). rewrite Rcompare_Eq in H3 by reflexivity.
    change (round radix2 (SpecFloat.fexp 24 128) (round_mode mode_NE) 0) with (near32 0) in H1.
    rewrite near32_0 in H1. rewrite (bsign_pos q) in H3 by lra. simpl in H3.
    unfold fsub. destruct (Bminus mode_NE q (lit32 1)) as [sz|sz| |sz m e Hm]; simpl in *; try discriminate H2.
    - now subst sz.
    - exfalso. apply eq_0_F2R in H1. destruct sz; discriminate H1. }
  rewrite L, Hl.
  assert (I : fdiv (B754_infinity true) k = B754_infinity true).
  { pose proof (bsign_pos k K). destruct k as [sk|sk| |sk mk ek Hk]; simpl in *; try discriminate Fk; try lra.
    subst sk. reflexivity. }
  rewrite I. destruct x0; try discriminate F0; reflexivity.
Qed.
