(** Averaged star formation rates on fine time tables. *)
From Coq Require Import Reals Lra Lia List ZArith.
From Coquelicot Require Import Coquelicot.
From Verif Require Import XReal XFacts RealFacts ModelUtils ModelKernels ModelSfh SpecCore SpecRefine
  IntegralProofs DtProofs SfhProofs FstarProofs RefineProofs RefineExamples GasProofs.
Import List ListNotations.
Open Scope R_scope.

Lemma RInt_small (f : R -> R) B a b : a <= b -> (forall t, a <= t <= b -> continuous f t) ->
  (forall t, a <= t <= b -> Rabs (f t) <= B) -> Rabs (RInt f a b) <= B * (b - a).
Proof.
  intros H C K. rewrite Rmult_comm. apply abs_RInt_le_const; [exact H| |exact K].
  apply ex_RInt_cont; [exact H|exact C].
Qed.

Lemma bracket (ts : list R) x : (1 <= length ts)%nat -> increasing ts -> nth 0 ts 0 < x -> forall j, (j < length ts)%nat -> x < nth j ts 0 ->
  exists i, (S i <= j)%nat /\ nth i ts 0 <= x < nth (S i) ts 0.
Proof.
  intros L Hinc H0. induction j as [|j IH]; intros Hj Hx; [lra|].
  destruct (Rlt_le_dec x (nth j ts 0)) as [K|K].
  - destruct (IH ltac:(lia) K) as (i & A & B). exists i. split; [lia|exact B].
  - exists j. split; [lia|]. split; assumption.
Qed.

Lemma low_mass (f : R -> R) (ts ms : list R) e B h j x : length ts = length ms -> increasing ts ->
  0 <= e -> 0 <= B -> 0 <= h ->
  (forall t, nth 0 ts 0 <= t <= nth (length ts - 1) ts 0 -> continuous f t) ->
  (forall t, nth 0 ts 0 <= t <= nth (length ts - 1) ts 0 -> Rabs (f t) <= B) ->
  spacing h ts -> grows_by_integral f ts ms e -> (j < length ts)%nat -> x < nth j ts 0 ->
  exists v, jnp_interp (Fin x) (map Fin ts) (map Fin ms) = Fin v /\
  Rabs (nth j ms 0 - v - 10 ^ 9 * RInt f (Rmax (nth 0 ts 0) x) (nth j ts 0))
  <= e * (nth j ts 0 - nth 0 ts 0) + (2 * 10 ^ 9 * B + e) * h.
Proof.
  intros HL Hinc He HB Hh FC FB HS HG Hj Hx.
  destruct (jnp_interp_fin x ts ms HL ltac:(lia) Hinc) as (v & Ev & V0 & _ & Vi).
  exists v. split; [exact Ev|].
  assert (P9 : 0 < 10 ^ 9) by (apply pow_lt; lra).
  assert (PB : 0 <= (2 * 10 ^ 9 * B + e) * h).
  { apply Rmult_le_pos; [|exact Hh]. assert (0 <= 2 * 10 ^ 9 * B) by (apply Rmult_le_pos; lra). lra. }
  destruct (Rle_lt_dec x (nth 0 ts 0)) as [K|K].
  - rewrite Rmax_left by exact K. rewrite (V0 K).
    pose proof (HG 0%nat j ltac:(lia) Hj) as G. lra.
  - rewrite Rmax_right by lra.
    destruct (bracket ts x ltac:(lia) Hinc K j Hj Hx) as (i & Hij & Hxi).
    rewrite (Vi i ltac:(lia) Hxi).
    assert (INI : nth 0 ts 0 <= nth i ts 0) by (apply increasing_nth; [exact Hinc|lia|lia]).
    assert (INS : nth (S i) ts 0 <= nth j ts 0) by (apply increasing_nth; [exact Hinc|lia|lia]).
    assert (INL : nth j ts 0 <= nth (length ts - 1) ts 0) by (apply increasing_nth; [exact Hinc|lia|lia]).
    pose proof (HG (S i) j Hij Hj) as G1.
    pose proof (HG i (S i) ltac:(lia) ltac:(lia)) as G2.
    pose proof (HS i ltac:(lia)) as Sp.
    assert (I1 : Rabs (RInt f (nth i ts 0) (nth (S i) ts 0)) <= B * (nth (S i) ts 0 - nth i ts 0)).
    { apply RInt_small; [lra| |]; intros t Ht; [apply FC|apply FB]; lra. }
    assert (I2 : Rabs (RInt f x (nth (S i) ts 0)) <= B * (nth (S i) ts 0 - x)).
    { apply RInt_small; [lra| |]; intros t Ht; [apply FC|apply FB]; lra. }
    assert (CH : RInt f x (nth j ts 0) = RInt f x (nth (S i) ts 0) + RInt f (nth (S i) ts 0) (nth j ts 0)).
    { symmetry. apply (RInt_Chasles (V := R_CompleteNormedModule)); apply ex_RInt_cont; try lra; intros t Ht; apply FC; lra. }
    rewrite CH.
    set (t0 := nth 0 ts 0) in *. set (ti := nth i ts 0) in *. set (tS := nth (S i) ts 0) in *. set (tj := nth j ts 0) in *.
    set (mi := nth i ms 0) in *. set (mS := nth (S i) ms 0) in *. set (mj := nth j ms 0) in *.
    set (R1 := RInt f ti tS) in *. set (R2 := RInt f x tS) in *. set (R3 := RInt f tS tj) in *.
    set (N := 10 ^ 9) in *. clearbody R1 R2 R3 N.
    assert (D : 0 < tS - ti) by lra.
    set (q := (tS - x) / (tS - ti)).
    assert (q1 : 0 <= q <= 1).
    { unfold q. split; [apply Rmult_le_pos; [lra|left; apply Rinv_0_lt_compat; lra]|].
      apply Rmult_le_reg_r with (tS - ti); [lra|]. unfold Rdiv. rewrite Rmult_assoc, Rinv_l by lra. lra. }
    replace (mi + (mS - mi) / (tS - ti) * (x - ti)) with (mS - q * (mS - mi)) by (unfold q; field; lra).
    assert (A : Rabs (mS - mi) <= (N * B + e) * (tS - ti)).
    { apply Rabs_le_between in G2. apply Rabs_le_between in I1. apply Rabs_le.
      assert (T : N * R1 <= N * (B * (tS - ti))) by (apply Rmult_le_compat_l; lra).
      assert (T' : N * - (B * (tS - ti)) <= N * R1) by (apply Rmult_le_compat_l; lra).
      lra. }
    assert (Q : Rabs (q * (mS - mi)) <= (N * B + e) * h).
    { rewrite Rabs_mult, (Rabs_pos_eq q) by lra.
      assert (0 <= (N * B + e)) by (assert (0 <= N * B) by (apply Rmult_le_pos; lra); lra).
      apply Rle_trans with (1 * ((N * B + e) * (tS - ti))).
      - apply Rmult_le_compat; [lra|apply Rabs_pos|lra|exact A].
      - rewrite Rmult_1_l. apply Rmult_le_compat_l; [assumption|exact Sp]. }
    assert (W : Rabs (N * R2) <= N * B * h).
    { rewrite Rabs_mult, (Rabs_pos_eq N) by lra. rewrite Rmult_assoc. apply Rmult_le_compat_l; [lra|].
      eapply Rle_trans; [exact I2|]. apply Rmult_le_compat_l; lra. }
    assert (E : e * (tj - tS) <= e * (tj - t0)) by (apply Rmult_le_compat_l; lra).
    apply Rabs_le_between in G1. apply Rabs_le_between in Q. apply Rabs_le_between in W. apply Rabs_le. lra.
Qed.

Lemma fstar_refine (f : R -> R) (ts ms : list R) e B h tau : length ts = length ms -> increasing ts -> 0 < tau ->
  0 <= e -> 0 <= B -> 0 <= h ->
  (forall t, nth 0 ts 0 <= t <= nth (length ts - 1) ts 0 -> continuous f t) ->
  (forall t, nth 0 ts 0 <= t <= nth (length ts - 1) ts 0 -> 0 <= f t <= B) ->
  spacing h ts -> grows_by_integral f ts ms e ->
  exists fs, compute_fstar (map Fin ts) (map Fin ms) (Fin tau) = map Fin fs /\ length fs = length ts /\
  recent_mean f ts fs tau ((e * (nth (length ts - 1) ts 0 - nth 0 ts 0) + (2 * 10 ^ 9 * B + e) * h) / tau / 10 ^ 9).
Proof.
  intros HL Hinc Ht He HB Hh FC FB HS HG.
  assert (FA : forall t, nth 0 ts 0 <= t <= nth (length ts - 1) ts 0 -> Rabs (f t) <= B).
  { intros t Q. specialize (FB t Q). rewrite Rabs_pos_eq; lra. }
  set (v := fun j => match jnp_interp (Fin (nth j ts 0 - tau)) (map Fin ts) (map Fin ms) with Fin r => r | _ => 0 end).
  assert (Hv : forall j, (j < length ts)%nat ->
     jnp_interp (Fin (nth j ts 0 - tau)) (map Fin ts) (map Fin ms) = Fin (v j) /\
     Rabs (nth j ms 0 - v j - 10 ^ 9 * RInt f (Rmax (nth 0 ts 0) (nth j ts 0 - tau)) (nth j ts 0))
     <= e * (nth j ts 0 - nth 0 ts 0) + (2 * 10 ^ 9 * B + e) * h).
  { intros j Hj. destruct (low_mass f ts ms e B h j (nth j ts 0 - tau) HL Hinc He HB Hh FC FA HS HG Hj ltac:(lra)) as (w & Ew & Hw).
    unfold v. rewrite Ew. auto. }
  assert (P9 : 0 < 10 ^ 9) by (apply pow_lt; lra).
  exists (map (fun j => Rmax 0 ((nth j ms 0 - v j) / tau / 10 ^ 9)) (seq 0 (length ts))).
  split; [|split].
  - apply Fin_ext_nth.
    + unfold compute_fstar. len.
    + intros j Hj. destruct (Hv j Hj) as [Ev _]. unfold compute_fstar.
      set (g := fun f0 : xr => _).
      rewrite (nth_map g _ j NaN) by len.
      rewrite (map2_nth _ _ _ j NaN NaN) by len.
      rewrite (nth_map _ (map Fin ts) j NaN) by len.
      rewrite !nth_Fin by lia. cbn [xsub xadd xopp]. unfold Rminus in Ev. rewrite Ev.
      cbn [xadd xopp]. rewrite !xdiv_fin by lra. unfold g, Rminus.
      destruct (Rlt_le_dec 0 ((nth j ms 0 + - v j) / tau / 10 ^ 9)) as [k|k].
      * replace (Fin 0 <? _)%X with true by (symmetry; apply xlt_fin; exact k). f_equal. rewrite Rmax_right; lra.
      * replace (Fin 0 <? _)%X with false by (symmetry; apply xlt_fin_false; exact k). f_equal. rewrite Rmax_left; lra.
  - rewrite map_length, seq_length. reflexivity.
  - intros j Hj. rewrite (nth_map _ (seq 0 (length ts)) j 0%nat) by (rewrite seq_length; exact Hj).
    rewrite seq_nth by exact Hj. cbn [Nat.add].
    destruct (Hv j Hj) as [_ Bv].
    assert (INI : nth 0 ts 0 <= nth j ts 0) by (apply increasing_nth; [exact Hinc|lia|lia]).
    assert (INL : nth j ts 0 <= nth (length ts - 1) ts 0) by (apply increasing_nth; [exact Hinc|lia|lia]).
    assert (M : Rmax (nth 0 ts 0) (nth j ts 0 - tau) <= nth j ts 0) by (apply Rmax_lub; lra).
    assert (M0 : nth 0 ts 0 <= Rmax (nth 0 ts 0) (nth j ts 0 - tau)) by apply Rmax_l.
    assert (IP : 0 <= RInt f (Rmax (nth 0 ts 0) (nth j ts 0 - tau)) (nth j ts 0)).
    { apply RInt_ge_0; [exact M| |].
      - apply ex_RInt_cont; [exact M|]. intros t Q. apply FC. lra.
      - intros t Q. apply FB. lra. }
    set (I := RInt _ _ _) in *. set (y := nth j ms 0 - v j) in *.
    assert (E : e * (nth j ts 0 - nth 0 ts 0) <= e * (nth (length ts - 1) ts 0 - nth 0 ts 0)) by (apply Rmult_le_compat_l; lra).
    set (W := e * (nth (length ts - 1) ts 0 - nth 0 ts 0) + (2 * 10 ^ 9 * B + e) * h) in *.
    assert (K : Rabs (y / tau / 10 ^ 9 - I / tau) <= W / tau / 10 ^ 9).
    { replace (y / tau / 10 ^ 9 - I / tau) with ((y - 10 ^ 9 * I) / tau / 10 ^ 9) by (field; lra).
      unfold Rdiv. rewrite !Rabs_mult, !Rabs_inv, (Rabs_pos_eq tau), (Rabs_pos_eq (10 ^ 9)) by lra.
      apply Rmult_le_compat_r; [left; apply Rinv_0_lt_compat; lra|].
      apply Rmult_le_compat_r; [left; apply Rinv_0_lt_compat; lra|]. unfold W. lra. }
    assert (I0 : 0 <= I / tau) by (apply Rmult_le_pos; [exact IP|left; apply Rinv_0_lt_compat; lra]).
    eapply Rle_trans; [|exact K]. unfold Rmax. destruct (Rle_dec 0 (y / tau / 10 ^ 9)) as [k|k]; [lra|].
    unfold Rabs. do 2 destruct Rcase_abs; lra.
Qed.

Lemma bounded_on (f : R -> R) a b : (forall t, a <= t <= b -> continuous f t) ->
  exists B, 0 <= B /\ forall t, a <= t <= b -> f t <= B.
Proof.
  intros FC. destruct (Rle_lt_dec a b) as [H|H].
  - destruct (continuity_ab_maj f a b H) as (c & Hc & _).
    { intros t Ht. apply continuity_pt_filterlim, FC, Ht. }
    exists (Rmax 0 (f c)). split; [apply Rmax_l|]. intros t Ht. eapply Rle_trans; [apply Hc, Ht|apply Rmax_r].
  - exists 0. split; [lra|]. intros t Ht. lra.
Qed.

Section Conv.
Variable log_mah_kern : MahParams xr -> xr -> xr -> xr.

Lemma spacing_le h h' ts : h <= h' -> spacing h ts -> spacing h' ts.
Proof. intros H S i Hi. specialize (S i Hi). lra. Qed.

Lemma fstar_converges p mah lgt0 fb m a b tau : 0 < a -> 0 < tau -> (forall t, a <= t <= b -> continuous m t) ->
  forall eps, 0 < eps -> exists h, 0 < h /\
  forall ts, halo_history log_mah_kern mah lgt0 m ts -> increasing ts -> Forall (fun t => a <= t <= b) ts -> spacing h ts ->
  exists sfh smh fs,
    calc_sfh_singlegal_smh log_mah_kern (map_d Fin p) mah (map Fin ts) lgt0 (Fin fb) = Some (map Fin sfh, map Fin smh) /\
    compute_fstar (map Fin ts) (map Fin smh) (Fin tau) = map Fin fs /\ length fs = length ts /\
    recent_mean (fun t => sfr_spec p fb (m t) t) ts fs tau eps.
Proof.
  intros Ha Ht Hm eps Hep. set (f := fun t => sfr_spec p fb (m t) t).
  assert (FC : forall t, a <= t <= b -> continuous f t) by (intros t Q; apply sfr_continuous; [lra|apply Hm, Q]).
  destruct (bounded_on f a b FC) as (B & HB & FB).
  assert (P9 : 0 < 10 ^ 9) by (apply pow_lt; lra).
  set (g := eps * tau * 10 ^ 9 / 2).
  assert (Hg : 0 < g) by (unfold g; apply Rmult_lt_0_compat; [apply Rmult_lt_0_compat; [apply Rmult_lt_0_compat|]|]; lra).
  set (L := Rabs (b - a) + 1). assert (HL : 1 <= L) by (unfold L; pose proof (Rabs_pos (b - a)); lra).
  set (e := g / L). assert (He : 0 < e) by (apply Rdiv_lt_0_compat; lra).
  destruct (smh_converges log_mah_kern p mah lgt0 fb m a b Ha Hm e He) as (h1 & Hh1 & HC).
  set (D := 2 * 10 ^ 9 * B + e).
  assert (HD : 0 < D) by (unfold D; assert (0 <= 2 * 10 ^ 9 * B) by (apply Rmult_le_pos; lra); lra).
  set (h2 := g / D). assert (Hh2 : 0 < h2) by (apply Rdiv_lt_0_compat; lra).
  exists (Rmin h1 h2). split; [apply Rmin_glb_lt; assumption|].
  intros ts HH Hinc HF HS.
  destruct (HC ts HH Hinc HF (spacing_le _ _ ts (Rmin_l h1 h2) HS)) as (sfh & smh & E & EL & G).
  assert (IN : forall t, (0 < length ts)%nat -> nth 0 ts 0 <= t <= nth (length ts - 1) ts 0 -> a <= t <= b).
  { intros t Hn Q. pose proof (Forall_nth0 _ ts 0 HF Hn). pose proof (Forall_nth0 _ ts (length ts - 1) HF ltac:(lia)). simpl in *. lra. }
  destruct ts as [|t0 ts'].
  { exists sfh, smh, []. split; [exact E|]. destruct smh; [|discriminate EL].
    split; [reflexivity|]. split; [reflexivity|]. intros j Hj. simpl in Hj. lia. }
  set (ts := t0 :: ts') in *.
  assert (Hn : (0 < length ts)%nat) by (simpl; lia).
  destruct (fstar_refine f ts smh e B h2 tau (eq_sym EL) Hinc Ht (Rlt_le _ _ He) HB (Rlt_le _ _ Hh2)) as (fs & F1 & F2 & F3).
  - intros t Q. apply FC, IN; assumption.
  - intros t Q. split; [|apply FB, IN; assumption]. unfold f. pose proof (sfr_spec_floor p fb (m t) t).
    assert (0 < 1 / 10 ^ 14) by (apply Rdiv_lt_0_compat; [lra|apply pow_lt; lra]). lra.
  - exact (spacing_le _ _ ts (Rmin_r h1 h2) HS).
  - exact G.
  - exists sfh, smh, fs. split; [exact E|]. split; [exact F1|]. split; [exact F2|].
    intros j Hj. eapply Rle_trans; [apply (F3 j Hj)|].
    assert (W : nth (length ts - 1) ts 0 - nth 0 ts 0 <= L).
    { assert (T : nth 0 ts 0 <= nth (length ts - 1) ts 0) by (apply increasing_nth; [exact Hinc|lia|lia]).
      pose proof (IN (nth 0 ts 0) Hn ltac:(lra)). pose proof (IN (nth (length ts - 1) ts 0) Hn ltac:(lra)).
      unfold L. pose proof (Rle_abs (b - a)). lra. }
    assert (W1 : e * (nth (length ts - 1) ts 0 - nth 0 ts 0) <= g).
    { apply Rle_trans with (e * L); [apply Rmult_le_compat_l; lra|]. unfold e. right. field. lra. }
    assert (W2 : D * h2 = g) by (unfold h2; field; lra).
    fold D. rewrite W2.
    apply Rle_trans with ((g + g) / tau / 10 ^ 9).
    + apply Rmult_le_compat_r; [left; apply Rinv_0_lt_compat; lra|].
      apply Rmult_le_compat_r; [left; apply Rinv_0_lt_compat; lra|]. lra.
    + unfold g. right. field. lra.
Qed.
End Conv.

Lemma some_eq {A} (a b : A) : Some a = Some b -> a = b.
Proof. intros H. injection H as H. exact H. Qed.

(** between the times of the table the average is not that of the tabulated history *)
Lemma fstar_between_refuted : exists ts ss mass fs, increasing (1 / 1000 :: ts) /\
  cumulative_mstar_formed (map Fin ts) (map Fin ss) = Some (map Fin mass) /\
  compute_fstar (map Fin ts) (map Fin mass) (Fin 1) = map Fin fs /\
  nth 0 ts 0 <= nth 2 ts 0 - 1 /\
  nth 2 fs 0 = 3 /\ RInt (pwl ((1 / 1000, 1 / 10 ^ 14) :: combine ts ss)) (nth 2 ts 0 - 1) (nth 2 ts 0) / 1 = 7 / 2.
Proof.
  assert (PP : Forall (fun s => 0 <= s) [1; 2; 4]) by (repeat apply Forall_cons; try apply Forall_nil; lra).
  destruct (fstar_bounds [1; 2; 4] [1; 2; 4] 1 eq_refl ltac:(simpl; lra) ltac:(lra) PP) as (mass & fs & E & F & L & _).
  exists [1; 2; 4], [1; 2; 4], mass, fs. split; [simpl; lra|]. split; [exact E|]. split; [exact F|]. clear PP.
  rewrite cumulative_fin in E by reflexivity. apply some_eq in E.
  assert (M : massR [1; 2; 4] [1; 2; 4] = mass).
  { apply map_Fin_inj. exact E. }
  subst mass. split; [simpl; lra|]. split.
  - assert (N : nth 2 (compute_fstar (map Fin [1; 2; 4]) (map Fin (massR [1; 2; 4] [1; 2; 4])) (Fin 1)) NaN = Fin (nth 2 fs 0)).
    { rewrite F. apply nth_Fin. simpl in L. lia. }
    destruct (jnp_interp_fin 3 [1; 2; 4] (massR [1; 2; 4] [1; 2; 4])) as (v & Ev & _ & _ & Vi);
      [rewrite massR_length; reflexivity|simpl; lia|simpl; lra|].
    specialize (Vi 1%nat ltac:(simpl; lia) ltac:(simpl; lra)).
    unfold massR, cumR in Ev, Vi, N. cbn [map combine fold_right nth] in Ev, Vi, N.
    unfold compute_fstar in N. cbn [map map2 nth] in N.
    cbn [xsub xadd xopp] in N. replace (4 + - (1)) with 3 in N by lra. rewrite Ev in N.
    cbn [xadd xopp] in N. rewrite !xdiv_fin in N by lra.
    match type of N with context [xlt (Fin 0) (Fin ?y)] => replace y with 3 in N by (rewrite Vi; unfold T_BIRTH_MIN_R, SFR_MIN_R; field) end.
    replace (Fin 0 <? Fin 3)%X with true in N by (symmetry; apply xlt_fin; lra). injection N as N. lra.
  - cbn [nth]. replace (4 - 1) with 3 by lra.
    rewrite (RInt_ext _ (fun t => t)).
    + assert (K : RInt (fun t => t) 3 4 = 7 / 2); [|rewrite K; field].
      apply is_RInt_unique. replace (7 / 2) with (minus ((fun t => t ^ 2 / 2) 4) ((fun t => t ^ 2 / 2) 3)) by (unfold minus, plus, opp; simpl; field).
      apply (is_RInt_derive (fun t : R => t ^ 2 / 2) (fun t : R => t)).
      * intros x _. auto_derive; [exact I|field].
      * intros x _. apply (ex_derive_continuous (V := R_NormedModule)). auto_derive. exact I.
    + intros x Hx. rewrite Rmin_left, Rmax_right in Hx by lra. cbn [combine pwl].
      destruct (Rle_dec x 1); [lra|]. destruct (Rle_dec x 2); [lra|]. destruct (Rle_dec x 4); [match goal with |- @eq _ ?a ?b => change (@eq R a b) end; field|lra].
Qed.

(** A rate growing with time, with its exact masses. *)
Lemma fstar_error_example : length [1; 2; 4] = length (map (fun t => 10 ^ 9 * (t ^ 2 / 2)) [1; 2; 4]) /\
  (forall t, 1 <= t <= 4 -> continuous (fun t : R => t) t) /\ (forall t, 1 <= t <= 4 -> 0 <= t <= 4) /\
  spacing 2 [1; 2; 4] /\ grows_by_integral (fun t : R => t) [1; 2; 4] (map (fun t => 10 ^ 9 * (t ^ 2 / 2)) [1; 2; 4]) 0.
Proof.
  split; [reflexivity|]. split; [intros t _; apply continuous_id|]. split; [intros; lra|]. split.
  - intros i Hi. simpl in Hi. destruct i as [|[|i]]; simpl; lra || lia.
  - intros i j Hij Hj. rewrite (nth_map _ [1; 2; 4] i 0) by lia. rewrite (nth_map _ [1; 2; 4] j 0) by lia.
    set (a := nth i [1; 2; 4] 0). set (b := nth j [1; 2; 4] 0).
    assert (E : RInt (fun t : R => t) a b = b ^ 2 / 2 - a ^ 2 / 2).
    { apply is_RInt_unique. apply (is_RInt_derive (fun t : R => t ^ 2 / 2) (fun t : R => t)).
      - intros x _. auto_derive; [exact I|field].
      - intros x _. apply continuous_id. }
    rewrite E. match goal with |- Rabs ?e <= _ => replace e with 0 by ring end. rewrite Rabs_R0. lra.
Qed.
