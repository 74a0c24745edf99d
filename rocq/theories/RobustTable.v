(** How far the rounding of a fit table moves the histories computed from it. *)
From Coq Require Import Reals List Lra Lia ZArith.
From Flocq Require Import Core.Core Relative.
From Verif Require Import XReal XFacts RealFacts ModelUtils ModelKernels ModelSfh ModelLoad ModelIO SpecCore SpecFit SpecIO SpecSymmetry SpecRobust SpecFloat32
  TableProofs RobustProofs.
Import List ListNotations.
Open Scope R_scope.

Lemma ln10_3 : ln 10 < 3.
Proof.
  rewrite <- (ln_exp 3). apply ln_increasing; [lra|].
  replace 3 with (1/2 + 1/2 + (1/2 + 1/2) + (1/2 + 1/2)) by lra. rewrite !exp_plus.
  pose proof (exp_ineq1_le (1/2)) as E. set (x := exp (1/2)) in *. assert (X : 3/2 <= x) by lra.
  assert (X2 : 9/4 <= x * x) by nra. assert (X4 : 81/16 <= (x * x) * (x * x)) by nra. nra.
Qed.

Lemma roundtrip f4 r B y : single f4 -> Rabs r <= B -> B <= 16 -> printed (f4 (Fin r)) y ->
  exists r', y = Fin r' /\ Rabs (r' - r) <= 55 / 10 ^ 7 * B + 1 / 10 ^ 30.
Proof.
  intros S HB B16 P. destruct (S r ltac:(lra)) as (a & Ea & Ha). rewrite Ea in P. destruct P as (b & -> & Hb). exists b. split; [reflexivity|].
  assert (A : Rabs a <= Rabs r + Rabs (a - r)) by (replace a with (r + (a - r)) at 1 by ring; apply Rabs_triang).
  assert (T : Rabs (b - r) <= Rabs (b - a) + Rabs (a - r)) by (replace (b - r) with ((b - a) + (a - r)) by ring; apply Rabs_triang).
  pose proof (Rabs_pos r). lra.
Qed.

Lemma max_le a b c : a <= c -> b <= c -> Rmax a b <= c.
Proof. intros. apply Rmax_lub; assumption. Qed.

Lemma shift_printed p q X Y : in_bounds p -> 0 <= X -> Y <= X + 1 / 1000 ->
  Rabs (d_lgmcrit q - d_lgmcrit p) <= 55 / 10 ^ 7 * (27 / 2) + 1 / 10 ^ 30 ->
  Rabs (d_lgy_at_mcrit q - d_lgy_at_mcrit p) <= 55 / 10 ^ 7 * 12 + 1 / 10 ^ 30 ->
  Rabs (d_indx_lo q - d_indx_lo p) <= 55 / 10 ^ 7 * 5 + 1 / 10 ^ 30 ->
  Rabs (d_indx_hi q - d_indx_hi p) <= 55 / 10 ^ 7 * 5 + 1 / 10 ^ 30 ->
  Rabs (d_lg_qt q - d_lg_qt p) <= 55 / 10 ^ 7 * 2 + 1 / 10 ^ 30 ->
  Rabs (d_qlglgdt q - d_qlglgdt p) <= 55 / 10 ^ 7 * 3 + 1 / 10 ^ 30 ->
  Rabs (d_lg_drop q - d_lg_drop p) <= 55 / 10 ^ 7 * 3 + 1 / 10 ^ 30 ->
  Rabs (d_lg_rejuv q - d_lg_rejuv p) <= 55 / 10 ^ 7 * 3 + 1 / 10 ^ 30 ->
  total_shift p q 0 Y <= printed_shift p X.
Proof.
  intros B X0 HY H1 H2 H3 H4 H5 H6 H7 H8. unfold total_shift, printed_shift.
  unfold in_bounds in B.
  assert (K : steepest (d_indx_lo p) (d_indx_hi p) <= 15 / 2).
  { unfold steepest. rewrite (Rabs_right (d_indx_lo p)) by lra. rewrite (Rabs_left (d_indx_hi p)) by lra. rewrite Rabs_left by lra.
    assert (Rmax (d_indx_lo p) (- d_indx_hi p) <= 5) by (apply max_le; lra). lra. }
  assert (K0 : 0 <= steepest (d_indx_lo p) (d_indx_hi p)).
  { unfold steepest. pose proof (Rmax_l (Rabs (d_indx_lo p)) (Rabs (d_indx_hi p))). pose proof (Rabs_pos (d_indx_lo p)). pose proof (Rabs_pos (d_indx_hi p - d_indx_lo p)). lra. }
  assert (D : 0 <= Rabs (d_lg_drop p) + Rabs (d_lg_rejuv p - d_lg_drop p) <= 6).
  { rewrite (Rabs_left (d_lg_drop p)) by lra. rewrite Rabs_right by lra. lra. }
  set (d := Rabs (d_lg_drop p) + Rabs (d_lg_rejuv p - d_lg_drop p)) in *.
  assert (P : 0 < / pow10R (d_qlglgdt p)) by (apply Rinv_0_lt_compat; unfold pow10R; apply exp_pos).
  set (w := / pow10R (d_qlglgdt p)) in *.
  pose proof ln10_3 as L3. assert (L0 : 0 < ln 10) by (rewrite <- ln_1; apply ln_increasing; lra).
  assert (T1 : steepest (d_indx_lo p) (d_indx_hi p) * Rabs (d_lgmcrit q - d_lgmcrit p) <= 15 / 2 * (55 / 10 ^ 7 * (27 / 2) + 1 / 10 ^ 30))
    by (apply Rmult_le_compat; [exact K0|apply Rabs_pos|exact K|exact H1]).
  set (mx := Rmax (Rabs (d_indx_lo q - d_indx_lo p)) (Rabs (d_indx_hi q - d_indx_hi p))).
  assert (M1 : mx <= 55 / 10 ^ 7 * 5 + 1 / 10 ^ 30) by (apply max_le; assumption).
  assert (M0 : 0 <= mx) by (eapply Rle_trans; [apply Rabs_pos|apply Rmax_l]).
  assert (T2 : mx * Y <= (55 / 10 ^ 7 * 5 + 1 / 10 ^ 30) * (X + 1 / 1000)).
  { apply Rle_trans with (mx * (X + 1 / 1000)); [apply Rmult_le_compat_l; assumption|apply Rmult_le_compat_r; lra]. }
  assert (T3 : Rmax (Rabs (d_lg_drop q - d_lg_drop p)) (Rabs (d_lg_rejuv q - d_lg_rejuv p)) <= 55 / 10 ^ 7 * 3 + 1 / 10 ^ 30) by (apply max_le; assumption).
  assert (T4 : 35 / 8 * d * w * Rabs (d_lg_qt q - d_lg_qt p) <= 35 / 8 * 6 * w * (55 / 10 ^ 7 * 2 + 1 / 10 ^ 30)).
  { apply Rmult_le_compat; [repeat apply Rmult_le_pos; lra|apply Rabs_pos| |exact H5].
    apply Rmult_le_compat_r; [lra|]. lra. }
  assert (T5 : 35 / 27 * ln 10 * d * Rabs (d_qlglgdt q - d_qlglgdt p) <= 35 / 27 * 3 * 6 * (55 / 10 ^ 7 * 3 + 1 / 10 ^ 30)).
  { apply Rmult_le_compat; [repeat apply Rmult_le_pos; lra|apply Rabs_pos| |exact H6].
    apply Rmult_le_compat; [apply Rmult_le_pos; lra|lra|lra|lra]. }
  fold mx. unfold Rdiv in *. fold w. lra.
Qed.

(** The parameters read from an entry, and the history they give. *)
Lemma entry_params f4 id p loss s e : single f4 -> in_bounds p -> entry_for f4 id (Some (map_d Fin p, loss, s)) e ->
  exists q, e_params e = map_d Fin q /\
  forall X Y, 0 <= X -> Y <= X + 1 / 1000 -> total_shift p q 0 Y <= printed_shift p X /\ Rabs (d_lgmcrit q - d_lgmcrit p) <= 1 / 1000.
Proof.
  intros S B (_ & F & _). pose proof B as B'. unfold in_bounds in B'.
  destruct (e_params e) as [a1 a2 a3 a4 a5 a6 a7 a8]. unfold params_list, map_d in F.
  cbn [map d_lgmcrit d_lgy_at_mcrit d_indx_lo d_indx_hi d_lg_qt d_qlglgdt d_lg_drop d_lg_rejuv] in F.
  inversion F as [|? ? ? ? P1 F1]; subst. inversion F1 as [|? ? ? ? P2 F2]; subst. inversion F2 as [|? ? ? ? P3 F3]; subst.
  inversion F3 as [|? ? ? ? P4 F4]; subst. inversion F4 as [|? ? ? ? P5 F5]; subst. inversion F5 as [|? ? ? ? P6 F6]; subst.
  inversion F6 as [|? ? ? ? P7 F7]; subst. inversion F7 as [|? ? ? ? P8 F8]; subst.
  destruct (roundtrip f4 (d_lgmcrit p) (27 / 2) _ S ltac:(apply Rabs_le; lra) ltac:(lra) P1) as (b1 & -> & H1).
  destruct (roundtrip f4 (d_lgy_at_mcrit p) 12 _ S ltac:(apply Rabs_le; lra) ltac:(lra) P2) as (b2 & -> & H2).
  destruct (roundtrip f4 (d_indx_lo p) 5 _ S ltac:(apply Rabs_le; lra) ltac:(lra) P3) as (b3 & -> & H3).
  destruct (roundtrip f4 (d_indx_hi p) 5 _ S ltac:(apply Rabs_le; lra) ltac:(lra) P4) as (b4 & -> & H4).
  destruct (roundtrip f4 (d_lg_qt p) 2 _ S ltac:(apply Rabs_le; lra) ltac:(lra) P5) as (b5 & -> & H5).
  destruct (roundtrip f4 (d_qlglgdt p) 3 _ S ltac:(apply Rabs_le; lra) ltac:(lra) P6) as (b6 & -> & H6).
  destruct (roundtrip f4 (d_lg_drop p) 3 _ S ltac:(apply Rabs_le; lra) ltac:(lra) P7) as (b7 & -> & H7).
  destruct (roundtrip f4 (d_lg_rejuv p) 3 _ S ltac:(apply Rabs_le; lra) ltac:(lra) P8) as (b8 & -> & H8).
  exists (mkDiffstar b1 b2 b3 b4 b5 b6 b7 b8). split; [reflexivity|]. intros X Y X0 HY. split.
  - apply shift_printed; assumption.
  - cbn [d_lgmcrit]. lra.
Qed.

Lemma F2_weaken {A B} (P Q : A -> B -> Prop) l r : (forall a b, P a b -> Q a b) -> Forall2 P l r -> Forall2 Q l r.
Proof. intros H F. induction F; constructor; auto. Qed.

Lemma table_history f4 ranks : single f4 -> ranks <> [] -> Forall (fun gs => (2 <= List.length gs)%nat) ranks ->
  exists es, collate (map (rank_file f4) ranks) = Some (fit_table es) /\
  Forall2 (fun g e => forall p loss flag lmk mah ts lgt0 fb m X, snd g = Some (map_d Fin p, loss, flag) -> in_bounds p ->
    halo_history lmk mah lgt0 m ts -> increasing (1 / 1000 :: ts) -> 0 <= fb -> (forall t, In t ts -> Rabs (m t - d_lgmcrit p) <= X) ->
    exists s M s' M',
      calc_sfh_singlegal_smh lmk (map_d Fin p) mah (map Fin ts) lgt0 (Fin fb) = Some (map Fin s, map Fin M) /\
      calc_sfh_singlegal_smh lmk (e_params e) mah (map Fin ts) lgt0 (Fin fb) = Some (map Fin s', map Fin M') /\
      length s = length ts /\ length M = length ts /\ length s' = length ts /\ length M' = length ts /\
      forall i, (i < length ts)%nat -> 0 < nth i s 0 /\ 0 < nth i M 0 /\
        within (printed_shift p X) (nth i s 0) (nth i s' 0) /\ within (printed_shift p X) (nth i M 0) (nth i M' 0))
    (List.concat ranks) es.
Proof.
  intros S N L2. destruct (collate_spec f4 ranks N L2) as (es & E & F). exists es. split; [exact E|].
  eapply F2_weaken; [|exact F]. intros [id o] e Q p loss flag lmk mah ts lgt0 fb m X Hg B H I Hf HX.
  cbn [fst snd] in *. subst o. destruct (entry_params f4 id p loss flag e S B Q) as (q & -> & W).
  assert (D : Rabs (d_lgmcrit q - d_lgmcrit p) <= 1 / 1000) by (apply (W 0 0); lra).
  destruct (robust lmk p q mah mah ts lgt0 fb m m 0 (X + 1 / 1000) H H I Hf) as (s & M & s' & M' & V & V' & L1 & L2' & L3 & L4 & R).
  { intros t T. split; [rewrite Rminus_diag_eq by reflexivity; rewrite Rabs_R0; lra|].
    replace (m t - d_lgmcrit q) with ((m t - d_lgmcrit p) + - (d_lgmcrit q - d_lgmcrit p)) by ring.
    eapply Rle_trans; [apply Rabs_triang|]. rewrite Rabs_Ropp. specialize (HX t T). lra. }
  exists s, M, s', M'. do 6 (split; [assumption|]). intros i Hi. destruct (R i Hi) as (P1 & P2 & W1 & W2).
  assert (X0 : 0 <= X) by (eapply Rle_trans; [apply Rabs_pos|apply (HX _ (nth_In ts 0 Hi))]).
  destruct (W X (X + 1 / 1000) X0 ltac:(lra)) as [W0 _].
  split; [exact P1|]. split; [exact P2|]. split; eapply within_more; eauto; lra.
Qed.

Lemma printed_small p X : in_bounds p -> -1 <= d_qlglgdt p -> X <= 3 -> printed_shift p X < 5 / 1000.
Proof.
  intros _ Q HX. unfold printed_shift.
  assert (P : / 10 <= pow10R (d_qlglgdt p)).
  { unfold pow10R. replace (/ 10) with (exp (-1 * ln 10)).
    - assert (L0 : 0 < ln 10) by (rewrite <- ln_1; apply ln_increasing; lra).
      destruct (Rle_lt_or_eq_dec _ _ Q) as [H|H]; [left; apply exp_increasing; nra|right; rewrite <- H; reflexivity].
    - replace (-1 * ln 10) with (- ln 10) by ring. rewrite exp_Ropp, exp_ln by lra. reflexivity. }
  assert (I : / pow10R (d_qlglgdt p) <= 10).
  { rewrite <- (Rinv_inv 10). apply Rinv_le_contravar; lra. }
  unfold Rdiv in *. lra.
Qed.

Lemma table_one_percent f4 ranks : single f4 -> ranks <> [] -> Forall (fun gs => (2 <= List.length gs)%nat) ranks ->
  exists es, collate (map (rank_file f4) ranks) = Some (fit_table es) /\
  Forall2 (fun g e => forall p loss flag lmk mah ts lgt0 fb m, snd g = Some (map_d Fin p, loss, flag) -> in_bounds p -> -1 <= d_qlglgdt p ->
    halo_history lmk mah lgt0 m ts -> increasing (1 / 1000 :: ts) -> 0 <= fb -> (forall t, In t ts -> Rabs (m t - d_lgmcrit p) <= 3) ->
    exists s M s' M',
      calc_sfh_singlegal_smh lmk (map_d Fin p) mah (map Fin ts) lgt0 (Fin fb) = Some (map Fin s, map Fin M) /\
      calc_sfh_singlegal_smh lmk (e_params e) mah (map Fin ts) lgt0 (Fin fb) = Some (map Fin s', map Fin M') /\
      length s = length ts /\ length M = length ts /\ length s' = length ts /\ length M' = length ts /\
      forall i, (i < length ts)%nat -> 0 < nth i s 0 /\ 0 < nth i M 0 /\
        within (5 / 1000) (nth i s 0) (nth i s' 0) /\ within (5 / 1000) (nth i M 0) (nth i M' 0))
    (List.concat ranks) es.
Proof.
  intros S N L2. destruct (table_history f4 ranks S N L2) as (es & E & F). exists es. split; [exact E|].
  eapply F2_weaken; [|exact F]. intros g e W p loss flag lmk mah ts lgt0 fb m Hg B Q H I Hf HX.
  destruct (W p loss flag lmk mah ts lgt0 fb m 3 Hg B H I Hf HX) as (s & M & s' & M' & V & V' & L1 & L2' & L3 & L4 & R).
  exists s, M, s', M'. do 6 (split; [assumption|]). intros i Hi. destruct (R i Hi) as (P1 & P2 & W1 & W2).
  pose proof (printed_small p 3 B Q ltac:(lra)). split; [exact P1|]. split; [exact P2|]. split; eapply within_more; eauto; lra.
Qed.

(** Rounding to the nearest binary32 number is such a rounding. *)
Definition to_single (x : xr) : xr := match x with Fin r => Fin (near32 r) | _ => x end.
Lemma to_single_ok : single to_single.
Proof.
  intros y _. exists (near32 y). split; [reflexivity|].
  destruct (error_N_FLT radix2 (-149) 24 eq_refl (fun x => negb (Z.even x)) y) as (e & h & He & Hh & _ & E).
  change (round radix2 (FLT_exp (-149) 24) ZnearestE y) with (near32 y) in E. rewrite E.
  replace (y * (1 + e) + h - y) with (y * e + h) by ring.
  apply Rle_trans with (1 := Rabs_triang _ _). rewrite Rabs_mult. apply Rplus_le_compat.
  - unfold Rdiv. apply Rmult_le_compat; auto using Rabs_pos; [apply Rle_refl|]. apply Rle_trans with (1 := He). simpl. lra.
  - apply Rle_trans with (1 := Hh). change (bpow radix2 (-149)) with (/ IZR (Z.pow_pos 2 149)).
    replace (Z.pow_pos 2 149) with 713623846352979940529142984724747568191373312%Z by reflexivity. lra.
Qed.
