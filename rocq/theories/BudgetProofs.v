(** Stars formed against baryons, and the specific rates a table of times can hold. *)
From Coq Require Import Reals List Lra Lia.
From Verif Require Import XReal XFacts RealFacts ModelUtils ModelKernels ModelSfh SpecCore SpecSymmetry
  SigmoidProofs IntegralProofs SfhProofs DtProofs.
Import List ListNotations.
Open Scope R_scope.

Lemma cum_le B l : forall a fa c i, increasing (a :: map fst l) -> fa <= B -> (i < length l)%nat ->
  (forall j, (j <= i)%nat -> snd (nth j l (0, 0)) <= B) -> nth i (cumR a fa c l) 0 <= c + (fst (nth i l (0, 0)) - a) * B.
Proof.
  induction l as [|[b fb] l IH]; intros a fa c i I F L H; [cbn in L; lia|].
  cbn [map fst increasing] in I. destruct I as [I1 I2]. pose proof (H 0%nat ltac:(lia)) as H0. cbn in H0.
  assert (S9 : (b - a) * (fb + fa) / 2 <= (b - a) * B).
  { unfold Rdiv. rewrite Rmult_assoc. apply Rmult_le_compat_l; [lra|]. lra. }
  destruct i as [|i]; cbn [cumR nth fst]; [lra|].
  eapply Rle_trans; [apply (IH b fb _ i)|].
  - exact I2.
  - exact H0.
  - cbn in L; lia.
  - intros j J. exact (H (S j) ltac:(lia)).
  - lra.
Qed.
Lemma cum_step l : forall a fa c i, increasing (a :: map fst l) -> 0 <= fa -> 0 <= c -> Forall (fun p => 0 < snd p) l -> (i < length l)%nat ->
  (fst (nth i l (0, 0)) - nth i (a :: map fst l) 0) * snd (nth i l (0, 0)) / 2 <= nth i (cumR a fa c l) 0 /\
  (0 < fa -> (fst (nth i l (0, 0)) - nth i (a :: map fst l) 0) * snd (nth i l (0, 0)) / 2 < nth i (cumR a fa c l) 0).
Proof.
  induction l as [|[b fb] l IH]; intros a fa c i I F C P L; [cbn in L; lia|].
  cbn [map fst increasing] in I. destruct I as [I1 I2]. apply Forall_cons_iff in P as [P0 P]. cbn in P0.
  assert (S9 : 0 <= (b - a) * fa) by (apply Rmult_le_pos; lra).
  assert (S1 : 0 < (b - a) * fb) by (apply Rmult_lt_0_compat; lra).
  destruct i as [|i]; cbn [cumR nth fst snd map].
  - split; [lra|]. intros FP. assert (0 < (b - a) * fa) by (apply Rmult_lt_0_compat; lra). lra.
  - destruct (IH b fb (c + (b - a) * (fb + fa) / 2) i I2) as [A B]; [lra|lra|exact P|cbn in L; lia|].
    cbn [nth map] in A, B. split; [exact A|]. intros _. apply B, P0.
Qed.

Section S.
Variable lmk : MahParams xr -> xr -> xr -> xr.
Variables (p : DiffstarParams R) (mah : MahParams xr) (ts : list R) (lgt0 : xr) (fb : R) (m : R -> R).
Hypothesis H : halo_history lmk mah lgt0 m ts.
Hypothesis I : increasing (1 / 1000 :: ts).
Let s := map (fun t => sfr_spec p fb (m t) t) ts.

Lemma s_nth i : (i < length ts)%nat -> nth i s 0 = sfr_spec p fb (m (nth i ts 0)) (nth i ts 0).
Proof. intros L. unfold s. rewrite (nth_indep _ 0 (sfr_spec p fb (m 0) 0)) by (rewrite map_length; exact L). exact (map_nth (fun t => sfr_spec p fb (m t) t) ts 0 i). Qed.
Lemma mass_nth i : (i < length ts)%nat -> nth i (massR ts s) 0 = nth i (cumR T_BIRTH_MIN_R SFR_MIN_R 0 (combine ts s)) 0 * 10 ^ 9.
Proof.
  intros L. unfold massR. rewrite (nth_indep _ 0 ((fun m => m * 10 ^ 9) 0)) by (rewrite map_length, cumR_length, combine_length; unfold s; rewrite map_length; lia).
  exact (map_nth (fun m => m * 10 ^ 9) _ 0 i).
Qed.
Lemma pair_nth i : (i < length ts)%nat -> nth i (combine ts s) (0, 0) = (nth i ts 0, nth i s 0).
Proof. intros L. apply combine_nth. unfold s. rewrite map_length. reflexivity. Qed.

Lemma first_mass : (0 < length ts)%nat -> nth 0 (cumR T_BIRTH_MIN_R SFR_MIN_R 0 (combine ts s)) 0 = (nth 0 ts 0 - 1 / 1000) * (nth 0 s 0 + 1 / 10 ^ 14) / 2.
Proof. unfold s. clear. destruct ts as [|t0 r]; cbn [length]; [lia|]. intros _. cbn [map combine cumR nth]. unfold T_BIRTH_MIN_R, SFR_MIN_R. field. Qed.

Lemma quench_le_1 t : d_lg_drop p <= d_lg_rejuv p -> d_lg_rejuv p <= 0 ->
  quench_spec (d_lg_qt p) (pow10R (d_qlglgdt p)) (d_lg_drop p) (d_lg_rejuv p) (log10R t) <= 1.
Proof. intros A B. apply (quench_spec_range _ _ _ _ _ (pow10_pos _) A B). Qed.

Lemma budget : d_indx_hi p <= 0 -> 0 <= d_indx_lo p -> d_lg_drop p <= d_lg_rejuv p -> d_lg_rejuv p <= 0 -> 0 <= fb ->
  (forall t t', In t ts -> In t' ts -> t <= t' -> m t <= m t') ->
  exists M, calc_sfh_singlegal_smh lmk (map_d Fin p) mah (map Fin ts) lgt0 (Fin fb) = Some (map Fin s, map Fin M) /\ length M = length ts /\
  forall i, (i < length ts)%nat -> let t := nth i ts 0 in
    nth i M 0 <= 10 ^ 9 * t * Rmax (1 / 10 ^ 14) (fb * pow10R (m t) * pow10R (d_lgy_at_mcrit p + Rmax (d_indx_lo p) (- d_indx_hi p) / 27)) /\
    (t * pow10R (9 + d_lgy_at_mcrit p + Rmax (d_indx_lo p) (- d_indx_hi p) / 27) <= 1 -> t / 10 ^ 5 <= fb * pow10R (m t) ->
     nth i M 0 <= fb * pow10R (m t)).
Proof.
  intros A1 A2 A3 A4 F G. exists (massR ts s). split; [apply calc_sfh_smh_value, H|].
  assert (LS : length s = length ts) by apply map_length. split; [apply massR_length; symmetry; exact LS|].
  intros i L t. set (K := Rmax (d_indx_lo p) (- d_indx_hi p) / 27).
  set (B := Rmax (1 / 10 ^ 14) (fb * pow10R (m t) * pow10R (d_lgy_at_mcrit p + K))).
  assert (B0 : 1 / 10 ^ 14 <= B) by apply Rmax_l.
  assert (T0 : 1 / 1000 < t) by (apply increasing_head_lt; assumption).
  assert (E : nth i (massR ts s) 0 <= 10 ^ 9 * t * B).
  { rewrite mass_nth by exact L.
    pose proof (cum_le B (combine ts s) T_BIRTH_MIN_R SFR_MIN_R 0 i) as Q.
    rewrite map_fst_combine in Q by (symmetry; exact LS). rewrite pair_nth in Q by exact L. cbn [fst] in Q. fold t in Q.
    assert (Q' : nth i (cumR T_BIRTH_MIN_R SFR_MIN_R 0 (combine ts s)) 0 <= 0 + (t - T_BIRTH_MIN_R) * B).
    { apply Q; [exact I|exact B0|rewrite combine_length; lia|]. intros j J. rewrite pair_nth by lia. cbn [snd]. rewrite s_nth by lia.
      unfold sfr_spec. apply Rmax_lub; [exact B0|]. eapply Rle_trans; [|apply Rmax_r].
      set (tj := nth j ts 0). pose proof (quench_le_1 tj A3 A4) as Q1. pose proof (quench_spec_pos (d_lg_qt p) (pow10R (d_qlglgdt p)) (d_lg_drop p) (d_lg_rejuv p) (log10R tj)) as Q0.
      set (q := quench_spec _ _ _ _ _) in *.
      assert (M1 : m tj <= m t).
      { apply G; [apply nth_In; lia|apply nth_In; exact L|]. unfold tj, t. destruct (Nat.eq_dec j i) as [->|N]; [lra|]. left. apply (increasing_nth_lt ts); [apply (increasing_tail _ _ I)|lia|exact L]. }
      pose proof (pow10_le _ _ M1) as P1. pose proof (pow10_le _ _ (eff_upper p (m tj) A1 A2)) as P2. fold K in P2.
      pose proof (pow10_pos (m tj)). pose proof (pow10_pos (eff_spec p (m tj))).
      unfold ms_spec. assert (MS : 0 <= fb * pow10R (m tj) * pow10R (eff_spec p (m tj))) by (apply Rmult_le_pos; [apply Rmult_le_pos|]; lra).
      apply Rle_trans with (1 * (fb * pow10R (m tj) * pow10R (eff_spec p (m tj)))); [apply Rmult_le_compat_r; lra|]. rewrite Rmult_1_l.
      apply Rmult_le_compat; [apply Rmult_le_pos; lra|lra| |exact P2]. apply Rmult_le_compat_l; lra. }
    unfold T_BIRTH_MIN_R in *. assert (0 <= 1 / 1000 * B) by (apply Rmult_le_pos; lra). lra. }
  split; [exact E|]. intros C D. eapply Rle_trans; [exact E|]. unfold B, Rmax at 1. destruct (Rle_dec _ _) as [_|_]; [|lra].
  replace (9 + d_lgy_at_mcrit p + K) with (9 + (d_lgy_at_mcrit p + K)) in C by ring. rewrite pow10_plus in C.
  assert (P9 : pow10R 9 = 10 ^ 9) by (replace 9 with (1+1+1+1+1+1+1+1+1) by ring; rewrite !pow10_plus, pow10_1; ring). rewrite P9 in C.
  set (g := fb * pow10R (m t)) in *. set (e := pow10R (d_lgy_at_mcrit p + K)) in *.
  assert (G0 : 0 <= g) by (apply Rmult_le_pos; [exact F|left; apply pow10_pos]).
  replace (10 ^ 9 * t * (g * e)) with (g * (t * (10 ^ 9 * e))) by ring. rewrite <- (Rmult_1_r g) at 2. apply Rmult_le_compat_l; assumption.
Qed.

(** ** Specific rates *)
Lemma ssfr_step : exists M, calc_sfh_singlegal_smh lmk (map_d Fin p) mah (map Fin ts) lgt0 (Fin fb) = Some (map Fin s, map Fin M) /\ length M = length ts /\
  forall i, (i < length ts)%nat -> 0 < nth i M 0 /\ nth i s 0 / nth i M 0 < 2 / (10 ^ 9 * (nth i ts 0 - nth i (1 / 1000 :: ts) 0)) /\
    (i = 0%nat -> 1 / (10 ^ 9 * (nth 0 ts 0 - 1 / 1000)) <= nth 0 s 0 / nth 0 M 0).
Proof.
  exists (massR ts s). split; [apply calc_sfh_smh_value, H|].
  assert (LS : length s = length ts) by apply map_length. split; [apply massR_length; symmetry; exact LS|]. intros i L.
  assert (P : Forall (fun q => 0 < snd q) (combine ts s)).
  { apply Forall_snd_combine. unfold s. rewrite Forall_map, Forall_forall. intros t _. pose proof (sfr_spec_floor p fb (m t) t). lra. }
  assert (S0 : 0 < nth i s 0) by (rewrite s_nth by exact L; pose proof (sfr_spec_floor p fb (m (nth i ts 0)) (nth i ts 0)); lra).
  destruct (cum_step (combine ts s) T_BIRTH_MIN_R SFR_MIN_R 0 i) as [_ Q].
  - rewrite map_fst_combine by (symmetry; exact LS). exact I.
  - unfold SFR_MIN_R. lra.
  - lra.
  - exact P.
  - rewrite combine_length. lia.
  - rewrite map_fst_combine, pair_nth in Q by (try (symmetry; exact LS); exact L). cbn [fst snd] in Q. specialize (Q ltac:(unfold SFR_MIN_R; lra)).
    change T_BIRTH_MIN_R with (1 / 1000) in Q at 1. rewrite mass_nth by exact L. set (c := nth i (cumR _ _ _ _) 0) in *.
    assert (D : 0 < nth i ts 0 - nth i (1 / 1000 :: ts) 0).
    { assert (nth i (1 / 1000 :: ts) 0 < nth (S i) (1 / 1000 :: ts) 0); [|cbn [nth] in *; lra]. apply (increasing_nth_lt (1 / 1000 :: ts) I); [lia|cbn; lia]. }
    set (d := nth i ts 0 - nth i (1 / 1000 :: ts) 0) in *.
    assert (C0 : 0 < c) by (assert (0 < d * nth i s 0) by (apply Rmult_lt_0_compat; assumption); lra).
    split; [lra|]. split.
    + apply Rmult_lt_reg_r with (c * 10 ^ 9 * (10 ^ 9 * d)); [repeat apply Rmult_lt_0_compat; lra|].
      replace (nth i s 0 / (c * 10 ^ 9) * (c * 10 ^ 9 * (10 ^ 9 * d))) with (2 * 10 ^ 9 * (d * nth i s 0 / 2)) by (field; lra).
      replace (2 / (10 ^ 9 * d) * (c * 10 ^ 9 * (10 ^ 9 * d))) with (2 * 10 ^ 9 * c) by (field; lra). lra.
    + intros E0. subst i. rewrite mass_nth, first_mass by exact L. unfold d in D. cbn [nth] in D.
      assert (SF : 1 / 10 ^ 14 <= nth 0 s 0) by (rewrite s_nth by exact L; apply sfr_spec_floor).
      set (u := nth 0 ts 0 - 1 / 1000) in *.
      set (v := nth 0 s 0) in *. apply Rmult_le_reg_r with (10 ^ 9 * u * (v + 1 / 10 ^ 14)); [repeat apply Rmult_lt_0_compat; lra|].
      replace (1 / (10 ^ 9 * u) * (10 ^ 9 * u * (v + 1 / 10 ^ 14))) with (v + 1 / 10 ^ 14) by (field; lra).
      replace (v / (u * (v + 1 / 10 ^ 14) / 2 * 10 ^ 9) * (10 ^ 9 * u * (v + 1 / 10 ^ 14))) with (2 * v) by (field; lra). lra.
Qed.
End S.

Lemma budget_broken mah lgt0 : exists ms q, DEFAULT_MS_PARAMS = map_ms Fin ms /\ DEFAULT_Q_PARAMS_UNQUENCHED = map_q Fin q /\
  forall fb, 0 < fb -> exists s M1 M2,
    calc_sfh_singlegal_smh (steady 12) (map_d Fin (join_params ms q)) mah [Fin 1; Fin (138 / 10)] lgt0 (Fin fb) = Some (s, [Fin M1; Fin M2]) /\
    5 / 4 * (fb * pow10R 12) < M2.
Proof.
  pose (ts := [1; 138 / 10]). assert (TT : Forall (fun t => 0 < t) ts) by (repeat constructor; lra).
  assert (HH : halo_history (steady 12) mah lgt0 (fun _ => 12) ts).
  { unfold halo_history. eapply Forall_impl; [|exact TT]. intros t Ht. split; [exact Ht|reflexivity]. }
  assert (T2 : Forall (fun t => t <= 138 / 10) ts) by (repeat constructor; lra).
  exists (mkMS 12 (-10) 1 (-1)), (bounded_qR (mkQ 5 5 5 5)). split; [reflexivity|]. split; [apply unquenched_value|].
  intros fb F. set (p := join_params (mkMS 12 (-10) 1 (-1)) (bounded_qR (mkQ 5 5 5 5))).
  destruct (unquenched_inert (steady 12) (mkMS 12 (-10) 1 (-1)) mah ts lgt0 fb (fun _ => 12) HH T2) as (q & Eq & V).
  assert (Q : q = bounded_qR (mkQ 5 5 5 5)).
  { rewrite unquenched_value in Eq. destruct q as [a b c d]. unfold map_q in Eq. injection Eq as A B C D.
    subst a b c d. reflexivity. }
  subst q. fold p in V. rewrite (calc_sfh_value (steady 12) p mah ts lgt0 fb (fun _ => 12) HH) in V.
  pose proof (calc_sfh_smh_value (steady 12) p mah ts lgt0 fb (fun _ => 12) HH) as E. cbv zeta in E.
  assert (G : forall t, In t ts -> fb * pow10R 12 / 10 ^ 10 <= sfr_spec p fb 12 t).
  { assert (MS : ms_spec p fb 12 = fb * pow10R 12 / 10 ^ 10).
    { unfold ms_spec. change 12 with (d_lgmcrit p) at 2. rewrite eff_at_mcrit. change (d_lgy_at_mcrit p) with (-10).
      replace (-10) with (- (1 + 1 + 1 + 1 + 1 + 1 + 1 + 1 + 1 + 1)) by ring. rewrite pow10_opp, !pow10_plus, pow10_1. field. }
    unfold ts in V |- *. cbn [map] in V. injection V as V1 V2. rewrite MS in V1, V2.
    intros t [<-|[<-|[]]]; [rewrite V1|rewrite V2]; apply Rmax_r. }
  unfold ts in E, G. do 3 eexists. split; [exact E|].
  cbn [cumR combine map]. unfold T_BIRTH_MIN_R, SFR_MIN_R.
  pose proof (G 1 ltac:(left; reflexivity)) as G1. pose proof (G (138 / 10) ltac:(right; left; reflexivity)) as G2.
  pose proof (pow10_pos 12) as P12. assert (P : 0 < fb * pow10R 12) by (apply Rmult_lt_0_compat; assumption). lra.
Qed.
