(** Binary32 values of the constants. *)
From Coq Require Import Reals Lra Lia List Bool String QArith Qreals Qabs ZArith.
From Flocq Require Import Core.Core IEEE754.BinarySingleNaN.
From Verif Require Import XReal ModelUtils ModelKernels ModelSfh ModelPopTables ModelPop ModelFloat SpecPop SpecFloat32 FloatProofs.
Import ListNotations.
Open Scope R_scope.

Lemma near32_eq x m e : (-149 <= e)%Z ->
  bpow radix2 (e + 23) <= Rabs x < bpow radix2 (e + 24) ->
  Rabs (x * bpow radix2 (- e) - IZR m) < / 2 -> near32 x = IZR m * bpow radix2 e.
Proof.
  intros He Hx Hm. unfold near32, round, scaled_mantissa, cexp.
  rewrite (mag_unique radix2 x (e + 24)) by (replace (e + 24 - 1)%Z with (e + 23)%Z by lia; exact Hx).
  replace (FLT_exp (-149) 24 (e + 24)) with e by (unfold FLT_exp; lia).
  rewrite (Znearest_imp _ _ m) by exact Hm. reflexivity.
Qed.

(** [two e] as a fraction *)
Definition twoQ (e : Z) : Q := if (0 <=? e)%Z then inject_Z (2 ^ e) else (1 # Z.to_pos (2 ^ (- e))).
Lemma twoQ_R e : Q2R (twoQ e) = bpow radix2 e.
Proof.
  unfold twoQ. destruct (Z.leb_spec 0 e) as [H|H].
  - unfold Q2R, inject_Z. simpl. rewrite Rinv_1, Rmult_1_r. rewrite <- IZR_Zpower by exact H. reflexivity.
  - unfold Q2R. simpl Qnum. simpl Qden. rewrite Z2Pos.id by (apply Z.pow_pos_nonneg; lia).
    rewrite Rmult_1_l. replace (bpow radix2 e) with (/ bpow radix2 (- e)) by (rewrite <- bpow_opp; f_equal; lia).
    f_equal. rewrite <- IZR_Zpower by lia. reflexivity.
Qed.
Definition Qleb (a b : Q) : bool := Qle_bool a b.
Definition Qltb' (a b : Q) : bool := negb (Qle_bool b a).
Lemma Qleb_R a b : Qle_bool a b = true -> Q2R a <= Q2R b.
Proof. intro H. apply Qle_Rle. now apply Qle_bool_iff. Qed.
Lemma Qltb'_R a b : Qltb' a b = true -> Q2R a < Q2R b.
Proof.
  unfold Qltb'. intro H. apply Qlt_Rlt. apply Qnot_le_lt. intro C. apply Qle_bool_iff in C. now rewrite C in H.
Qed.

(** The literal is finite and is the nearest binary32 number to the decimal. *)
Definition lit_ok (q : Q) : bool :=
  match B2SF (lit32 q) with
  | SpecFloat.S754_zero _ => (Qnum q =? 0)%Z
  | SpecFloat.S754_finite s m e =>
      (-149 <=? e)%Z &&
      (let a := if s then Qopp q else q in
       Qle_bool (twoQ (e + 23)) a && Qltb' a (twoQ (e + 24)) &&
       Qltb' (Qminus (Qmult a (twoQ (- e))) (inject_Z (Zpos m))) (1 # 2) &&
       Qltb' (- 1 # 2) (Qminus (Qmult a (twoQ (- e))) (inject_Z (Zpos m))))
  | _ => false
  end.

Lemma lit_ok_spec q : lit_ok q = true -> is_finite (lit32 q) = true /\ B2R (lit32 q) = near32 (Q2R q).
Proof.
  unfold lit_ok. rewrite <- (is_finite_SF_B2SF _ _ (lit32 q)), <- (SF2R_B2SF _ _ (lit32 q)).
  destruct (B2SF (lit32 q)) as [s|s| |s m e]; try discriminate.
  - intro H. apply Z.eqb_eq in H. split; [reflexivity|]. simpl. unfold Q2R. rewrite H, Rmult_0_l. now rewrite near32_0.
  - rewrite !andb_true_iff. intros (He & ((H1 & H2) & H3) & H4). apply Z.leb_le in He.
    apply Qleb_R in H1. apply Qltb'_R in H2, H3, H4. split; [reflexivity|].
    rewrite Q2R_minus, Q2R_mult in H3, H4. rewrite !twoQ_R in *.
    assert (I : Q2R (inject_Z (Zpos m)) = IZR (Zpos m)) by (unfold Q2R; simpl; lra).
    rewrite I in *.
    replace (Q2R (1 # 2)) with (/ 2) in H3 by (unfold Q2R; simpl; lra).
    replace (Q2R (-1 # 2)) with (- / 2) in H4 by (unfold Q2R; simpl; lra).
    pose proof (bpow_gt_0 radix2 (e + 23)) as P.
    set (a := if s then Qopp q else q) in *.
    assert (E : near32 (Q2R a) = IZR (Zpos m) * bpow radix2 e).
    { apply near32_eq; [exact He| |].
      - rewrite Rabs_pos_eq by lra. split; assumption.
      - apply Rabs_def1; lra. }
    simpl SF2R. unfold F2R. simpl Fnum. simpl Fexp. subst a. destruct s.
    + rewrite Q2R_opp, near32_opp in E. simpl cond_Zopp.
      change (Zneg m) with (- Zpos m)%Z. rewrite opp_IZR. lra.
    + simpl cond_Zopp. lra.
Qed.

(** The bounds as literals. *)
Definition bound_ok (b : Q * Q) : bool :=
  lit_ok (fst b) && lit_ok (snd b) && Qle_bool (fst b) (snd b) &&
  Qle_bool (Qabs (fst b)) 1024 && Qle_bool (Qabs (snd b)) 1024.
(** The lower end plus the rounded height does not exceed the upper end. *)
Definition tight (b : Q * Q) : bool := Bleb (top (lit32 (fst b)) (lit32 (snd b))) (lit32 (snd b)).

Lemma near32_1024 x : Rabs x <= 1024 -> Rabs (near32 x) <= 1024.
Proof. intro H. change 1024 with (bpow radix2 10). apply near32_abs; [lia|exact H]. Qed.

Lemma bound_ok_spec b : bound_ok b = true ->
  is_finite (lit32 (fst b)) = true /\ is_finite (lit32 (snd b)) = true /\
  B2R (lit32 (fst b)) = near32 (Q2R (fst b)) /\ B2R (lit32 (snd b)) = near32 (Q2R (snd b)) /\
  B2R (lit32 (fst b)) <= B2R (lit32 (snd b)) /\
  Rabs (B2R (lit32 (fst b))) <= 1024 /\ Rabs (B2R (lit32 (snd b))) <= 1024.
Proof.
  unfold bound_ok. rewrite !andb_true_iff. intros ((((H1 & H2) & H3) & H4) & H5).
  apply lit_ok_spec in H1, H2. destruct H1 as (F1 & E1), H2 as (F2 & E2).
  apply Qleb_R in H3, H4, H5.
  assert (A : forall q, Q2R (Qabs q) <= Q2R 1024 -> Rabs (Q2R q) <= 1024).
  { intros q H. replace (Q2R 1024) with 1024 in H by (unfold Q2R; simpl; lra).
    revert H. apply Qabs_case; intros L H; apply Qle_Rle in L; replace (Q2R 0) with 0 in L by (unfold Q2R; simpl; lra).
    - now rewrite Rabs_pos_eq.
    - rewrite Q2R_opp in H. now rewrite Rabs_left1. }
  repeat split; auto; rewrite ?E1, ?E2.
  - now apply near32_le.
  - apply near32_1024. now apply A.
  - apply near32_1024. now apply A.
Qed.

Lemma top_finite b : bound_ok b = true -> is_finite (top (lit32 (fst b)) (lit32 (snd b))) = true.
Proof.
  intro H. destruct (bound_ok_spec b H) as (F1 & F2 & _ & _ & _ & A1 & A2).
  apply Rabs_le_inv in A1, A2.
  destruct (fsub_ok (lit32 (snd b)) (lit32 (fst b)) F2 F1) as (D1 & D2).
  { rewrite bpow_100. apply Rabs_le. lra. }
  assert (B : Rabs (B2R (fsub (lit32 (snd b)) (lit32 (fst b)))) <= 4096).
  { rewrite D1. change 4096 with (bpow radix2 12). apply near32_abs; [lia|]. simpl. apply Rabs_le. lra. }
  apply Rabs_le_inv in B.
  apply (fadd_ok _ _ F1 D2). rewrite bpow_100. apply Rabs_le. lra.
Qed.

Lemma tight_spec b : bound_ok b = true -> tight b = true ->
  B2R (top (lit32 (fst b)) (lit32 (snd b))) <= near32 (Q2R (snd b)).
Proof.
  intros H T. destruct (bound_ok_spec b H) as (F1 & F2 & E1 & E2 & _).
  unfold tight in T. rewrite (Bleb_correct _ _ _ _ (top_finite b H) F2) in T.
  rewrite <- E2. revert T. case Rle_bool_spec; [auto|discriminate].
Qed.

Lemma pop_bounds_ok : forallb (fun r => bound_ok (snd r)) POP_BOUNDS = true.
Proof. vm_compute. reflexivity. Qed.
Lemma pop_tight : forallb (fun r => tight (snd r) || String.eqb (fst r) "qphi_lgmu_crit") POP_BOUNDS = true.
Proof. vm_compute. reflexivity. Qed.
