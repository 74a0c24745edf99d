(** Numbers as text: printing to six significant digits and reading back. *)
From Coq Require Import Reals List Bool ZArith NArith Ascii String Lia Lra.
From Verif Require Import XReal ModelUtils ModelKernels ModelSfh ModelLoad ModelIO SpecIO RealFacts XFacts.
Import List ListNotations.
Open Scope R_scope.

Lemma Rltb_inv a b : Rltb a b = true -> a < b.
Proof. unfold Rltb. destruct (Rlt_dec a b); congruence. Qed.
Lemma Rltb_inv_false a b : Rltb a b = false -> b <= a.
Proof. unfold Rltb. destruct (Rlt_dec a b); [discriminate|lra]. Qed.
Lemma Reqb_inv a b : Reqb a b = true -> a = b.
Proof. unfold Reqb. destruct (Req_EM_T a b); congruence. Qed.
Lemma Reqb_inv_false a b : Reqb a b = false -> a <> b.
Proof. unfold Reqb. destruct (Req_EM_T a b); congruence. Qed.

(** ** Digits *)
Lemma digit_code : forall n, (n < 10)%N -> N_of_ascii (digit n) = (48 + n)%N.
Proof. intros n H. unfold digit. apply N_ascii_embedding. lia. Qed.
Lemma digit_is_digit : forall n, (n < 10)%N -> is_digit (digit n) = true.
Proof.
  intros n H. unfold is_digit. rewrite digit_code by exact H.
  apply andb_true_intro; split; apply N.leb_le; lia.
Qed.

Definition all_digits (s : str) : Prop := Forall (fun c => is_digit c = true) s.

Lemma dec_digits_spec : forall fuel n acc, (n < 2 ^ N.of_nat fuel)%N -> (0 < fuel)%nat ->
  exists ds, dec_digits fuel n acc = ds ++ acc /\ ds <> [] /\ all_digits ds /\ num_of_digits ds = n.
Proof.
  induction fuel as [|fuel IH]; intros n acc Hn Hf; [lia|].
  cbn [dec_digits]. cbv zeta.
  assert (Hm : (n mod 10 < 10)%N) by (apply N.mod_lt; lia).
  destruct (N.eqb_spec (n / 10) 0) as [E|E].
  - exists [digit (n mod 10)]. split; [reflexivity|]. split; [discriminate|].
    split; [constructor; [apply digit_is_digit; exact Hm|constructor]|].
    unfold num_of_digits. cbn [fold_left]. rewrite digit_code by exact Hm.
    pose proof (N.div_mod' n 10). lia.
  - assert (Hd : (n / 10 < 2 ^ N.of_nat fuel)%N).
    { apply N.div_lt_upper_bound; [lia|].
      rewrite Nat2N.inj_succ, N.pow_succ_r' in Hn. lia. }
    assert (Hf' : (0 < fuel)%nat).
    { destruct fuel; [|lia]. change (2 ^ N.of_nat 0)%N with 1%N in Hd. apply N.lt_1_r in Hd. congruence. }
    destruct (IH (n / 10)%N (digit (n mod 10) :: acc) Hd Hf') as (ds & H1 & H2 & H3 & H4).
    exists (ds ++ [digit (n mod 10)]). split; [rewrite H1, <- app_assoc; reflexivity|].
    split; [destruct ds; discriminate|].
    split; [apply Forall_app; split; [exact H3|constructor; [apply digit_is_digit; exact Hm|constructor]]|].
    unfold num_of_digits in *. rewrite fold_left_app. cbn [fold_left].
    rewrite H4, digit_code by exact Hm. pose proof (N.div_mod' n 10) as Q. clear - Q Hm.
    set (q := (n / 10)%N) in *. set (r := (n mod 10)%N) in *. clearbody q r. lia.
Qed.

Lemma size_bound : forall n, (n < 2 ^ N.of_nat (S (N.size_nat n)))%N.
Proof.
  intro n. destruct n as [|p]; [cbn; lia|].
  assert (H : (N.pos p < 2 ^ N.size (N.pos p))%N).
  { apply N.size_gt. }
  replace (N.of_nat (S (N.size_nat (N.pos p)))) with (N.succ (N.size (N.pos p))).
  - rewrite N.pow_succ_r'. lia.
  - cbn [N.size N.size_nat].
    assert (Hp : forall p, N.pos (Pos.size p) = N.of_nat (Pos.size_nat p)).
    { clear. induction p; cbn [Pos.size Pos.size_nat]; try rewrite Nat2N.inj_succ, <- IHp; try reflexivity;
        lia. }
    rewrite Hp. lia.
Qed.

Lemma str_of_N_spec : forall n, exists ds, str_of_N n = ds /\ ds <> [] /\ all_digits ds /\ num_of_digits ds = n.
Proof.
  intro n. destruct (dec_digits_spec (S (N.size_nat n)) n [] (size_bound n)) as (ds & H1 & H2 & H3 & H4); [lia|].
  exists ds. unfold str_of_N. rewrite H1, app_nil_r. auto.
Qed.

Lemma take_digits_app : forall ds r, all_digits ds ->
  match r with [] => True | c :: _ => is_digit c = false end ->
  take_digits (ds ++ r) = (ds, r).
Proof.
  induction ds as [|c ds IH]; intros r H Hr.
  - cbn [app]. destruct r as [|x r]; [reflexivity|]. cbn [take_digits]. rewrite Hr. reflexivity.
  - inversion H; subst. cbn [app take_digits]. rewrite H2. rewrite IH by assumption. reflexivity.
Qed.

Lemma digit_not_sign : forall c, is_digit c = true ->
  Ascii.eqb c "-" = false /\ Ascii.eqb c "+" = false /\ Ascii.eqb c "." = false /\ c <> "n"%char /\ c <> "i"%char.
Proof.
  intros c H. split; [|split; [|split; [|split]]]; try (apply <- Ascii.eqb_neq); intro E; subst c; cbv in H; discriminate.
Qed.

Lemma parse_int_digits : forall ds, ds <> [] -> all_digits ds ->
  parse_int ds = Some (Z.of_N (num_of_digits ds)).
Proof.
  intros ds Hne Hd. unfold parse_int.
  destruct ds as [|c ds]; [congruence|].
  inversion Hd; subst. destruct (digit_not_sign c H1) as (E1 & E2 & _).
  unfold parse_sign. rewrite E1, E2.
  rewrite <- (app_nil_r (c :: ds)). rewrite take_digits_app; [|exact Hd|exact I].
  rewrite app_nil_r. reflexivity.
Qed.

Lemma parse_int_minus : forall ds, ds <> [] -> all_digits ds ->
  parse_int ("-"%char :: ds) = Some (- Z.of_N (num_of_digits ds))%Z.
Proof.
  intros ds Hne Hd. unfold parse_int, parse_sign. cbn [Ascii.eqb Bool.eqb].
  change (Ascii.eqb "-" "-") with true. cbn iota.
  rewrite <- (app_nil_r ds) at 1. rewrite take_digits_app; [|exact Hd|exact I].
  destruct ds; [congruence|reflexivity].
Qed.
Lemma parse_int_plus : forall ds, ds <> [] -> all_digits ds ->
  parse_int ("+"%char :: ds) = Some (Z.of_N (num_of_digits ds))%Z.
Proof.
  intros ds Hne Hd. unfold parse_int, parse_sign.
  change (Ascii.eqb "+" "-") with false. change (Ascii.eqb "+" "+") with true. cbn iota.
  rewrite <- (app_nil_r ds) at 1. rewrite take_digits_app; [|exact Hd|exact I].
  destruct ds; [congruence|reflexivity].
Qed.

Lemma parse_int_str : forall z, parse_int (str_of_Z z) = Some z.
Proof.
  intro z. destruct z as [|p|p]; cbn [str_of_Z].
  - reflexivity.
  - destruct (str_of_N_spec (Z.to_N (Z.pos p))) as (ds & E & H1 & H2 & H3).
    rewrite E, parse_int_digits, H3 by assumption. reflexivity.
  - destruct (str_of_N_spec (N.pos p)) as (ds & E & H1 & H2 & H3).
    rewrite E, parse_int_minus, H3 by assumption. reflexivity.
Qed.

(** ** Rounding *)
Lemma Int_part_bounds : forall r, IZR (Int_part r) <= r < IZR (Int_part r) + 1.
Proof. intro r. pose proof (base_Int_part r). lra. Qed.

Lemma Int_part_eq : forall r z, IZR z <= r < IZR z + 1 -> Int_part r = z.
Proof.
  intros r z H. pose proof (Int_part_bounds r) as B.
  assert (A1 : IZR (Int_part r) < IZR (z + 1)) by (rewrite plus_IZR; lra).
  assert (A2 : IZR z < IZR (Int_part r + 1)) by (rewrite plus_IZR; lra).
  apply lt_IZR in A1. apply lt_IZR in A2. lia.
Qed.

Lemma round_half_even_bound : forall r, Rabs (IZR (round_half_even r) - r) <= 1 / 2.
Proof.
  intro r. unfold round_half_even. cbv zeta. pose proof (Int_part_bounds r) as B.
  destruct (Rltb (r - IZR (Int_part r)) (1 / 2)) eqn:E1.
  - apply Rltb_inv in E1. apply Rabs_le. lra.
  - apply Rltb_inv_false in E1.
    destruct (Rltb (1 / 2) (r - IZR (Int_part r))) eqn:E2.
    + apply Rltb_inv in E2. rewrite plus_IZR. apply Rabs_le. lra.
    + apply Rltb_inv_false in E2.
      destruct (Z.even (Int_part r)); [|rewrite plus_IZR]; apply Rabs_le; lra.
Qed.
Lemma round_half_even_int : forall z, round_half_even (IZR z) = z.
Proof.
  intro z. unfold round_half_even. cbv zeta. rewrite (Int_part_eq (IZR z) z) by lra.
  replace (Rltb (IZR z - IZR z) (1 / 2)) with true; [reflexivity|].
  symmetry. apply Rltb_true. lra.
Qed.

Lemma powerRZ_10_pos : forall z, 0 < powerRZ 10 z.
Proof. intro z. apply powerRZ_lt. lra. Qed.
Lemma powerRZ_10_exp : forall z, powerRZ 10 z = exp (IZR z * ln 10).
Proof.
  intro z. assert (P : forall n, 10 ^ n = exp (INR n * ln 10)).
  { intro n. rewrite <- Rpower_pow by lra. reflexivity. }
  destruct z as [|p|p]; cbn [powerRZ].
  - rewrite Rmult_0_l, exp_0. reflexivity.
  - rewrite P, INR_IPR. reflexivity.
  - rewrite P, INR_IPR, <- exp_Ropp. f_equal.
    change (IZR (Z.neg p)) with (- IPR p). ring.
Qed.

Lemma sci_scale : forall a, 0 < a ->
  100000 <= a / powerRZ 10 (Int_part (log10R a) - 5) < 1000000.
Proof.
  intros a Ha. set (e := Int_part (log10R a)).
  pose proof (Int_part_bounds (log10R a)) as B. fold e in B.
  assert (L10 : 0 < ln 10) by (rewrite <- ln_1; apply ln_increasing; lra).
  assert (Ea : a = exp (log10R a * ln 10)).
  { unfold log10R. replace (ln a / ln 10 * ln 10) with (ln a) by (field; lra). rewrite exp_ln; auto. }
  assert (P5 : powerRZ 10 (e - 5) = powerRZ 10 e / 100000).
  { replace (e - 5)%Z with (e + (-5))%Z by lia. rewrite powerRZ_add by lra.
    assert (E5 : powerRZ 10 (-5) = / 100000).
    { unfold powerRZ. change (Pos.to_nat 5) with 5%nat. apply f_equal. ring. }
    rewrite E5. reflexivity. }
  assert (Q : powerRZ 10 e <= a < powerRZ 10 e * 10).
  { rewrite powerRZ_10_exp. split.
    - rewrite Ea. destruct (Rle_lt_or_eq_dec _ _ (proj1 B)) as [H|H].
      + left. apply exp_increasing. apply Rmult_lt_compat_r; assumption.
      + rewrite <- H. right. reflexivity.
    - rewrite Ea. replace (exp (IZR e * ln 10) * 10) with (exp (IZR e * ln 10) * exp (ln 10)) by (rewrite (exp_ln 10); lra).
      rewrite <- exp_plus. apply exp_increasing.
      replace (IZR e * ln 10 + ln 10) with ((IZR e + 1) * ln 10) by ring.
      apply Rmult_lt_compat_r; [exact L10|apply B]. }
  pose proof (powerRZ_10_pos e) as Pe.
  rewrite P5. replace (a / (powerRZ 10 e / 100000)) with (a / powerRZ 10 e * 100000) by (field; lra).
  assert (H1 : 1 <= a / powerRZ 10 e).
  { apply Rmult_le_reg_r with (powerRZ 10 e); [exact Pe|]. unfold Rdiv.
    rewrite Rmult_assoc, Rinv_l by lra. lra. }
  assert (H2 : a / powerRZ 10 e < 10).
  { apply Rmult_lt_reg_r with (powerRZ 10 e); [exact Pe|]. unfold Rdiv.
    rewrite Rmult_assoc, Rinv_l by lra. lra. }
  lra.
Qed.

(** The printed mantissa and exponent *)
Lemma sci_spec : forall a, 0 <= a ->
  let '(m, e) := sci a in
  (0 <= m <= 999999)%Z /\ Rabs (IZR m * powerRZ 10 (e - 5) - a) <= 5 / 10 ^ 6 * a.
Proof.
  intros a Ha. unfold sci. destruct (Reqb a 0) eqn:E0.
  - apply Reqb_inv in E0. subst. split; [lia|]. rewrite Rmult_0_l, Rminus_0_r, Rabs_R0. lra.
  - apply Reqb_inv_false in E0. assert (Hp : 0 < a) by lra. cbv zeta.
    set (e := Int_part (log10R a)). pose proof (sci_scale a Hp) as B. fold e in B.
    set (s := a / powerRZ 10 (e - 5)) in *.
    pose proof (round_half_even_bound s) as R. set (m := round_half_even s) in *.
    pose proof (powerRZ_10_pos (e - 5)) as Pe.
    assert (Es : a = s * powerRZ 10 (e - 5)) by (unfold s; field; lra).
    assert (Main : Rabs (IZR m * powerRZ 10 (e - 5) - a) <= 5 / 10 ^ 6 * a).
    { rewrite Es at 1. replace (IZR m * powerRZ 10 (e - 5) - s * powerRZ 10 (e - 5))
        with ((IZR m - s) * powerRZ 10 (e - 5)) by ring.
      rewrite Rabs_mult, (Rabs_pos_eq (powerRZ 10 (e - 5))) by lra.
      rewrite Es. replace (5 / 10 ^ 6 * (s * powerRZ 10 (e - 5))) with ((5 / 10 ^ 6 * s) * powerRZ 10 (e - 5)) by ring.
      apply Rmult_le_compat_r; [lra|]. lra. }
    destruct (Z.eqb_spec m 1000000) as [Em|Em].
    + split; [lia|]. rewrite Em in Main.
      replace (IZR 100000 * powerRZ 10 (e + 1 - 5)) with (IZR 1000000 * powerRZ 10 (e - 5)); [exact Main|].
      replace (e + 1 - 5)%Z with ((e - 5) + 1)%Z by lia. rewrite powerRZ_add by lra.
      cbn [powerRZ]. rewrite Pos2Nat.inj_1, pow_1. lra.
    + split; [|exact Main].
      assert (A : - (1 / 2) <= IZR m - s <= 1 / 2).
      { pose proof (Rle_abs (IZR m - s)). pose proof (Rle_abs (- (IZR m - s))) as Q. rewrite Rabs_Ropp in Q. lra. }
      assert (Hlo : (0 < m + 1)%Z) by (apply lt_IZR; rewrite plus_IZR; lra).
      assert (Hhi : (m < 1000001)%Z) by (apply lt_IZR; lra). lia.
Qed.

(** Numbers with at most six significant digits print exactly. *)
Lemma log10_lt : forall a b, 0 < a -> a < b -> log10R a < log10R b.
Proof.
  intros a b Ha H. unfold log10R. apply Rmult_lt_compat_r.
  - apply Rinv_0_lt_compat. rewrite <- ln_1. apply ln_increasing; lra.
  - apply ln_increasing; assumption.
Qed.
Lemma sci_exact : forall m k, (0 <= m < 1000000)%Z ->
  let a := IZR m * powerRZ 10 k in
  let '(m', e') := sci a in IZR m' * powerRZ 10 (e' - 5) = a.
Proof.
  intros m k Hm a. pose proof (powerRZ_10_pos k) as Pk.
  unfold sci. destruct (Reqb a 0) eqn:E0.
  - apply Reqb_inv in E0. rewrite E0. apply Rmult_0_l.
  - apply Reqb_inv_false in E0.
    assert (Hm0 : (0 < m)%Z).
    { destruct (Z.eq_dec m 0) as [E|E]; [|lia]. subst m. exfalso. apply E0. unfold a. apply Rmult_0_l. }
    assert (Hp : 0 < a). { unfold a. apply Rmult_lt_0_compat; [apply IZR_lt; lia|exact Pk]. }
    cbv zeta. set (e := Int_part (log10R a)). pose proof (sci_scale a Hp) as B. fold e in B.
    pose proof (powerRZ_10_pos (e - 5)) as Pe.
    (* e - 5 <= k *)
    assert (Hek : (e - 5 <= k)%Z).
    { destruct (Z_le_gt_dec (e - 5) k) as [H|H]; [exact H|exfalso].
      assert (Q : powerRZ 10 (e - 5) = powerRZ 10 k * powerRZ 10 (e - 5 - k)).
      { rewrite <- powerRZ_add by lra. f_equal. lia. }
      assert (G : 10 <= powerRZ 10 (e - 5 - k)).
      { replace (e - 5 - k)%Z with (Z.of_nat (S (Z.to_nat (e - 5 - k - 1)))) by lia.
        rewrite <- pow_powerRZ. rewrite <- tech_pow_Rmult.
        assert (1 <= 10 ^ Z.to_nat (e - 5 - k - 1)) by (apply pow_R1_Rle; lra). lra. }
      assert (C : a / powerRZ 10 (e - 5) <= 99999.9).
      { apply Rmult_le_reg_r with (powerRZ 10 (e - 5)); [exact Pe|].
        unfold Rdiv. rewrite Rmult_assoc, Rinv_l by lra. rewrite Rmult_1_r. unfold a. rewrite Q.
        assert (IZR m <= 999999) by (apply IZR_le; lia).
        replace (99999.9 * (powerRZ 10 k * powerRZ 10 (e - 5 - k)))
          with ((99999.9 * powerRZ 10 (e - 5 - k)) * powerRZ 10 k) by ring.
        apply Rmult_le_compat_r; lra. }
      lra. }
    assert (Hint : a / powerRZ 10 (e - 5) = IZR (m * 10 ^ (k - (e - 5)))).
    { assert (Q : powerRZ 10 k = powerRZ 10 (e - 5) * powerRZ 10 (k - (e - 5))).
      { rewrite <- powerRZ_add by lra. f_equal. lia. }
      assert (W : powerRZ 10 (k - (e - 5)) = IZR (10 ^ (k - (e - 5)))).
      { replace (k - (e - 5))%Z with (Z.of_nat (Z.to_nat (k - (e - 5)))) by lia.
        rewrite <- pow_powerRZ, pow_IZR. reflexivity. }
      unfold a. rewrite Q, W, mult_IZR. field. lra. }
    rewrite Hint, round_half_even_int. rewrite Hint in B.
    destruct (Z.eqb_spec (m * 10 ^ (k - (e - 5))) 1000000) as [E|E].
    + rewrite E in B. lra.
    + rewrite <- Hint. field. lra.
Qed.

(** ** Reading back a printed number *)
Lemma mantissa_digits : forall m, (m <= 999999)%N ->
  exists c0 cs, fmt_mantissa m = c0 :: "."%char :: cs /\ is_digit c0 = true /\ all_digits cs /\
    List.length cs = 5%nat /\ num_of_digits (c0 :: cs) = m.
Proof.
  intros m Hm. unfold fmt_mantissa.
  assert (D : forall a, (a mod 10 < 10)%N) by (intro; apply N.mod_lt; lia).
  assert (D0 : (m / 100000 < 10)%N) by (apply N.div_lt_upper_bound; lia).
  eexists. eexists. split; [reflexivity|].
  split; [apply digit_is_digit; exact D0|].
  split; [repeat (constructor; [apply digit_is_digit; apply D|]); constructor|].
  split; [reflexivity|].
  unfold num_of_digits. cbn [fold_left]. rewrite !digit_code by (apply D || exact D0).
  pose proof (N.div_mod' m 10) as E1. pose proof (N.div_mod' (m / 10) 10) as E2.
  pose proof (N.div_mod' (m / 100) 10) as E3. pose proof (N.div_mod' (m / 1000) 10) as E4.
  pose proof (N.div_mod' (m / 10000) 10) as E5.
  rewrite N.div_div in E2, E3, E4, E5 by lia.
  change (10 * 10)%N with 100%N in E2. change (100 * 10)%N with 1000%N in E3.
  change (1000 * 10)%N with 10000%N in E4. change (10000 * 10)%N with 100000%N in E5.
  pose proof (D m). pose proof (D (m / 10)%N). pose proof (D (m / 100)%N). pose proof (D (m / 1000)%N).
  pose proof (D (m / 10000)%N).
  generalize dependent (m mod 10)%N. generalize dependent (m / 10 mod 10)%N.
  generalize dependent (m / 100 mod 10)%N. generalize dependent (m / 1000 mod 10)%N.
  generalize dependent (m / 10000 mod 10)%N. generalize dependent (m / 10)%N.
  generalize dependent (m / 100)%N. generalize dependent (m / 1000)%N.
  generalize dependent (m / 10000)%N. generalize dependent (m / 100000)%N.
  clear. intros. lia.
Qed.

Lemma exponent_text : forall e, exists sg ds, fmt_exponent e = "e"%char :: sg :: ds /\
  (sg = "-"%char \/ sg = "+"%char) /\ ds <> [] /\ all_digits ds /\ parse_int (sg :: ds) = Some e.
Proof.
  intro e. unfold fmt_exponent. cbv zeta.
  set (a := Z.abs_N e).
  assert (Hds : exists ds, (if (a <? 10)%N then "0"%char :: str_of_N a else str_of_N a) = ds /\
            ds <> [] /\ all_digits ds /\ num_of_digits ds = a).
  { destruct (str_of_N_spec a) as (ds & E & H1 & H2 & H3). rewrite E.
    destruct (a <? 10)%N.
    - exists ("0"%char :: ds). split; [reflexivity|]. split; [discriminate|].
      split; [constructor; [reflexivity|exact H2]|]. exact H3.
    - exists ds. auto. }
  destruct Hds as (ds & E & H1 & H2 & H3). rewrite E.
  destruct (Z.ltb_spec e 0) as [L|L].
  - exists "-"%char, ds. split; [reflexivity|]. split; [left; reflexivity|].
    split; [exact H1|]. split; [exact H2|].
    rewrite parse_int_minus by assumption. rewrite H3. unfold a. f_equal. lia.
  - exists "+"%char, ds. split; [reflexivity|]. split; [right; reflexivity|].
    split; [exact H1|]. split; [exact H2|].
    rewrite parse_int_plus by assumption. rewrite H3. unfold a. f_equal. lia.
Qed.

Lemma str_eqb_head : forall c t d u, c <> d -> str_eqb (c :: t) (d :: u) = false.
Proof. intros. unfold str_eqb. destruct (list_eq_dec ascii_dec (c :: t) (d :: u)); congruence. Qed.

Lemma parse_unsigned : forall neg m e t, (0 <= m <= 999999)%Z ->
  parse_sign t = (neg, fmt_mantissa (Z.to_N m) ++ fmt_exponent e) ->
  parse_float t = Some (Fin (if neg then - (IZR m * powerRZ 10 (e - 5)) else IZR m * powerRZ 10 (e - 5))).
Proof.
  intros neg m e t Hm Hs. unfold parse_float. rewrite Hs.
  destruct (mantissa_digits (Z.to_N m)) as (c0 & cs & E & H1 & H2 & H3 & H4); [lia|].
  destruct (exponent_text e) as (sg & ds & E' & G1 & G2 & G3 & G4).
  rewrite E, E'. cbn [app].
  destruct (digit_not_sign c0 H1) as (A1 & A2 & A3 & A4 & A5).
  change (lit "nan") with ["n"; "a"; "n"]%char. change (lit "inf") with ["i"; "n"; "f"]%char.
  rewrite !str_eqb_head by assumption.
  change (c0 :: "."%char :: cs ++ "e"%char :: sg :: ds) with ([c0] ++ ("."%char :: cs ++ "e"%char :: sg :: ds)).
  rewrite take_digits_app; [|constructor; [exact H1|constructor]|reflexivity].
  change (Ascii.eqb "." ".") with true. cbn iota.
  rewrite take_digits_app; [|exact H2|reflexivity].
  cbn [app]. change (Ascii.eqb "e" "e") with true. cbn [orb].
  rewrite G4, H4, H3. rewrite Z2N.id by lia. reflexivity.
Qed.

Lemma parse_sign_digit : forall c t, is_digit c = true -> parse_sign (c :: t) = (false, c :: t).
Proof. intros c t H. destruct (digit_not_sign c H) as (A1 & A2 & _). unfold parse_sign. rewrite A1, A2. reflexivity. Qed.

Lemma parse_fmt_value : forall r, exists m e, sci (Rabs r) = (m, e) /\
  parse_float (fmt_5e (Fin r)) =
    Some (Fin (if Rltb r 0 then - (IZR m * powerRZ 10 (e - 5)) else IZR m * powerRZ 10 (e - 5))).
Proof.
  intro r. pose proof (sci_spec (Rabs r) (Rabs_pos r)) as S.
  unfold fmt_5e. destruct (sci (Rabs r)) as [m e] eqn:Es. destruct S as [S1 S2].
  exists m, e. split; [reflexivity|].
  destruct (Rltb r 0).
  - apply parse_unsigned with (neg := true); [exact S1|]. reflexivity.
  - apply parse_unsigned with (neg := false); [exact S1|].
    destruct (mantissa_digits (Z.to_N m)) as (c0 & cs & E & H1 & _); [lia|].
    rewrite E. cbn [app]. apply parse_sign_digit. exact H1.
Qed.

Lemma parse_fmt : forall x, exists y, parse_float (fmt_5e x) = Some y /\ printed x y.
Proof.
  intros [r| | |]; [|exists PInf; split; reflexivity|exists NInf; split; reflexivity|exists NaN; split; reflexivity].
  destruct (parse_fmt_value r) as (m & e & Es & Ep).
  pose proof (sci_spec (Rabs r) (Rabs_pos r)) as S. rewrite Es in S. destruct S as [_ S].
  eexists. split; [exact Ep|]. cbn [printed]. eexists. split; [reflexivity|].
  destruct (Rltb r 0) eqn:E.
  - apply Rltb_inv in E. rewrite (Rabs_left r) in * by exact E.
    rewrite <- Rabs_Ropp. replace (- (- (IZR m * powerRZ 10 (e - 5)) - r)) with (IZR m * powerRZ 10 (e - 5) - - r) by ring.
    exact S.
  - apply Rltb_inv_false in E. rewrite (Rabs_pos_eq r) in * by exact E. exact S.
Qed.

Lemma parse_fmt_exact : forall m k, (Z.abs m < 1000000)%Z ->
  parse_float (fmt_5e (Fin (IZR m * powerRZ 10 k))) = Some (Fin (IZR m * powerRZ 10 k)).
Proof.
  intros m k Hm. set (r := IZR m * powerRZ 10 k). pose proof (powerRZ_10_pos k) as Pk.
  destruct (parse_fmt_value r) as (m' & e & Es & Ep). rewrite Ep. apply f_equal, f_equal.
  assert (Ea : Rabs r = IZR (Z.abs m) * powerRZ 10 k).
  { unfold r. rewrite Rabs_mult, (Rabs_pos_eq (powerRZ 10 k)) by lra. rewrite <- abs_IZR. reflexivity. }
  pose proof (sci_exact (Z.abs m) k) as X. cbv zeta in X. rewrite <- Ea, Es in X.
  rewrite X by lia.
  destruct (Rltb r 0) eqn:E.
  - apply Rltb_inv in E. rewrite (Rabs_left r) by exact E. ring.
  - apply Rltb_inv_false in E. rewrite (Rabs_pos_eq r) by exact E. reflexivity.
Qed.

(** ** Fields *)
Definition plain (c : ascii) : Prop := c <> " "%char /\ c <> NL /\ c <> "#"%char.
Lemma field_plain : forall w, w <> [] -> Forall plain w -> field w.
Proof.
  intros w Hne H. rewrite Forall_forall in H. unfold field. repeat split; [exact Hne| | |];
    intro I; apply H in I; destruct I as (A & B & C); (apply A; reflexivity) || (apply B; reflexivity) || (apply C; reflexivity).
Qed.
Lemma plain_field : forall w, field w -> w <> [] /\ Forall plain w.
Proof.
  intros w (H0 & H1 & H2 & H3). split; [exact H0|]. apply Forall_forall. intros c I.
  unfold plain. repeat split; intro E; subst c; contradiction.
Qed.
Lemma digit_plain : forall c, is_digit c = true -> plain c.
Proof. intros c H. unfold plain. repeat split; intro E; subst c; cbv in H; discriminate. Qed.
Lemma digits_plain : forall ds, all_digits ds -> Forall plain ds.
Proof. intros ds H. eapply Forall_impl; [|exact H]. apply digit_plain. Qed.
Lemma plain_minus : plain "-"%char. Proof. unfold plain. repeat split; discriminate. Qed.

Lemma str_of_Z_field : forall z, field (str_of_Z z).
Proof.
  intro z. destruct z as [|p|p]; cbn [str_of_Z].
  - apply field_plain; [discriminate|]. constructor; [|constructor]. apply digit_plain. reflexivity.
  - destruct (str_of_N_spec (Z.to_N (Z.pos p))) as (ds & E & H1 & H2 & _). rewrite E.
    apply field_plain; [exact H1|apply digits_plain; exact H2].
  - destruct (str_of_N_spec (N.pos p)) as (ds & E & H1 & H2 & _). rewrite E.
    apply field_plain; [discriminate|]. constructor; [apply plain_minus|apply digits_plain; exact H2].
Qed.
Lemma plain_other : forall c, In c ["."; "e"; "-"; "+"; "n"; "a"; "i"; "f"]%char -> plain c.
Proof.
  intros c H. unfold plain, NL. cbn [In] in H.
  repeat match goal with H : _ \/ _ |- _ => destruct H as [H|H] end; try contradiction; subst c;
    repeat split; discriminate.
Qed.
Lemma fmt_5e_field : forall x, field (fmt_5e x).
Proof.
  intros [r| | |].
  - pose proof (sci_spec (Rabs r) (Rabs_pos r)) as S. unfold fmt_5e.
    destruct (sci (Rabs r)) as [m e]. destruct S as [S _].
    destruct (mantissa_digits (Z.to_N m)) as (c0 & cs & E & H1 & H2 & _); [lia|].
    destruct (exponent_text e) as (sg & ds & E' & G1 & G2 & G3 & _). rewrite E, E'.
    apply field_plain; [destruct (Rltb r 0); discriminate|].
    apply Forall_app. split; [destruct (Rltb r 0); [constructor; [apply plain_minus|constructor]|constructor]|].
    cbn [app]. constructor; [apply digit_plain; exact H1|].
    constructor; [apply plain_other; cbn; tauto|].
    apply Forall_app. split; [apply digits_plain; exact H2|].
    constructor; [apply plain_other; cbn; tauto|].
    constructor; [apply plain_other; cbn; destruct G1; subst; tauto|].
    apply digits_plain; exact G3.
  - apply field_plain; [discriminate|]. repeat (constructor; [apply plain_other; cbn; tauto|]). constructor.
  - apply field_plain; [discriminate|]. repeat (constructor; [apply plain_other; cbn; tauto|]). constructor.
  - apply field_plain; [discriminate|]. repeat (constructor; [apply plain_other; cbn; tauto|]). constructor.
Qed.
