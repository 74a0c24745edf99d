(** Gas model. *)
From Coq Require Import Reals Lra Lia List Bool Arith.
From Coquelicot Require Import Coquelicot.
From Verif Require Import XReal XFacts RealFacts ModelUtils ModelKernels ModelSfh SpecCore
  IntegralProofs SfhProofs PopProofs DtProofs TriweightProofs QuenchProofs.
Import List ListNotations.
Open Scope R_scope.

Lemma sub_maps (l m : list R) :
  map2 xsub (map Fin l) (map Fin m) = map Fin (map2 Rminus l m).
Proof. apply map2_map_fin. reflexivity. Qed.

Section S.
Variable log_mah_kern : MahParams xr -> xr -> xr -> xr.
Variable mah_singlehalo : MahParams xr -> list xr -> xr -> list xr * list xr.

Lemma mgas_same_sfh p mah ts lgt0 fb G :
  calc_mgas_singlegal log_mah_kern mah_singlehalo p mah ts lgt0 fb = Some G ->
  calc_sfh_singlegal_smh log_mah_kern p mah ts lgt0 fb = Some (g_sfh G, g_smh G).
Proof.
  unfold calc_mgas_singlegal, calc_sfh_singlegal_smh.
  destruct (mah_singlehalo mah ts lgt0) as [dmh lm].
  destruct (cumulative_mstar_formed ts _) as [smh|]; [|discriminate].
  destruct (cumulative_mstar_formed ts _) as [mi|]; [|discriminate].
  destruct (jax_get_dt_array ts); [|discriminate].
  destruct (jax_get_dt_array _); [|discriminate].
  intros H. injection H as <-. reflexivity.
Qed.

Lemma mgas_value p mah ts lgt0 fb m dmh : (3 <= length ts)%nat -> increasing ts ->
  halo_history log_mah_kern mah lgt0 m ts ->
  fst (mah_singlehalo mah (map Fin ts) lgt0) = map Fin dmh -> length dmh = length ts ->
  let s := map (fun t => sfr_spec p fb (m t) t) ts in
  let inst := massR ts (map (Rmult fb) dmh) in
  let gas := map2 Rminus inst (massR ts s) in
  calc_mgas_singlegal log_mah_kern mah_singlehalo (map_d Fin p) mah (map Fin ts) lgt0 (Fin fb)
  = Some (mkGas (map Fin s) (map Fin (massR ts s))
       (map Fin (map2 (fun a b => a / b / 10 ^ 9) (dtR gas) (dtR ts))) (map Fin gas)).
Proof.
  intros Hn Hinc H Hd Ld s inst gas. unfold calc_mgas_singlegal.
  destruct (mah_singlehalo mah (map Fin ts) lgt0) as [d lm]. cbn [fst] in Hd. subst d.
  pose proof (calc_sfh_value log_mah_kern p mah ts lgt0 fb m H) as E. unfold calc_sfh_singlegal in E. rewrite E.
  rewrite cumulative_fin by (rewrite map_length; reflexivity). fold s.
  rewrite map_map. cbn [xmul]. rewrite <- (map_map (Rmult fb) Fin).
  rewrite cumulative_fin by (rewrite map_length; auto). fold inst.
  rewrite sub_maps. fold gas.
  assert (Lg : length gas = length ts).
  { unfold gas, inst, s. rewrite map2_length, !massR_length; rewrite ?map_length; auto. apply Nat.min_id. }
  rewrite !jax_dt_fin by lia. f_equal. f_equal.
  assert (Hpos : Forall (fun x => 0 < x) (dtR ts)).
  { destruct (dt_arrays ts Hn) as (d & _ & E2 & _ & _ & _ & P).
    rewrite np_dt_fin in E2 by lia. injection E2 as E2. apply map_Fin_inj in E2. subst d. apply P, Hinc. }
  revert Hpos. generalize (dtR ts) as d2. generalize (dtR gas) as d1.
  induction d1 as [|a d1 IH]; intros [|b d2] Hp; cbn [map map2]; auto.
  inversion Hp; subst. rewrite !xdiv_fin by (try apply Rgt_not_eq; try lra; apply pow_lt; lra).
  f_equal. apply IH. assumption.
Qed.

Lemma mgas_balance p mah ts lgt0 fb m dmh : (3 <= length ts)%nat -> increasing (1 / 1000 :: ts) ->
  halo_history log_mah_kern mah lgt0 m ts ->
  fst (mah_singlehalo mah (map Fin ts) lgt0) = map Fin dmh -> length dmh = length ts ->
  exists sfh smh dmg mg,
  calc_mgas_singlegal log_mah_kern mah_singlehalo (map_d Fin p) mah (map Fin ts) lgt0 (Fin fb)
  = Some (mkGas (map Fin sfh) (map Fin smh) (map Fin dmg) (map Fin mg)) /\
  calc_sfh_singlegal_smh log_mah_kern (map_d Fin p) mah (map Fin ts) lgt0 (Fin fb)
  = Some (map Fin sfh, map Fin smh) /\
  length mg = length ts /\ length dmg = length ts /\
  forall i, (i < length ts)%nat ->
    nth i mg 0 + nth i smh 0
    = 10 ^ 9 * RInt (pwl ((1 / 1000, 1 / 10 ^ 14) :: combine ts (map (Rmult fb) dmh))) (1 / 1000) (nth i ts 0).
Proof.
  intros Hn Hinc H Hd Ld. do 4 eexists.
  pose proof (mgas_value p mah ts lgt0 fb m dmh Hn (increasing_tail _ _ Hinc) H Hd Ld) as V. cbv zeta in V.
  split; [exact V|]. split; [apply mgas_same_sfh in V; exact V|].
  assert (L1 : length (massR ts (map (Rmult fb) dmh)) = length ts) by (apply massR_length; rewrite map_length; auto).
  assert (L2 : length (massR ts (map (fun t => sfr_spec p fb (m t) t) ts)) = length ts)
    by (apply massR_length; rewrite map_length; auto).
  split; [rewrite map2_length, L1, L2; lia|].
  split; [rewrite map2_length, !dtR_length, map2_length, L1, L2; lia|].
  intros i Hi. rewrite (map2_nth _ _ _ i 0 0) by lia.
  replace (_ - _ + _) with (nth i (massR ts (map (Rmult fb) dmh)) 0) by ring.
  apply massR_integral; auto. rewrite map_length; auto.
Qed.

Lemma nth_edge_diff (t : list R) i : (0 < i)%nat -> (i < length t - 1)%nat ->
  dt_edge t (S i) - dt_edge t i = (nth (S i) t 0 - nth (i - 1) t 0) / 2.
Proof.
  intros H1 H2. rewrite !edge_mid by lia. replace (S i - 1)%nat with i by lia. lra.
Qed.

Lemma dmgas_slopes p mah ts lgt0 fb m dmh : (3 <= length ts)%nat -> increasing ts ->
  halo_history log_mah_kern mah lgt0 m ts ->
  fst (mah_singlehalo mah (map Fin ts) lgt0) = map Fin dmh -> length dmh = length ts ->
  exists sfh smh dmg mg,
  calc_mgas_singlegal log_mah_kern mah_singlehalo (map_d Fin p) mah (map Fin ts) lgt0 (Fin fb)
  = Some (mkGas (map Fin sfh) (map Fin smh) (map Fin dmg) (map Fin mg)) /\
  length dmg = length ts /\
  (forall i, (0 < i)%nat -> (i < length ts - 1)%nat ->
     nth i dmg 0 = (nth (S i) mg 0 - nth (i - 1) mg 0) / (nth (S i) ts 0 - nth (i - 1) ts 0) / 10 ^ 9) /\
  (nth 0 dmg 0 = (nth 1 mg 0 - nth 0 mg 0) / (nth 1 ts 0 - nth 0 ts 0) / 10 ^ 9) /\
  (forall a b, mg = map (fun t => a * t + b) ts -> Forall (fun x => x = a / 10 ^ 9) dmg).
Proof.
  intros Hn Hinc H Hd Ld. do 4 eexists.
  pose proof (mgas_value p mah ts lgt0 fb m dmh Hn Hinc H Hd Ld) as V. cbv zeta in V.
  split; [exact V|]. clear V.
  assert (L1 : length (massR ts (map (Rmult fb) dmh)) = length ts) by (apply massR_length; rewrite map_length; auto).
  assert (L2 : length (massR ts (map (fun t => sfr_spec p fb (m t) t) ts)) = length ts)
    by (apply massR_length; rewrite map_length; auto).
  set (gas := map2 Rminus _ _).
  assert (Lg : length gas = length ts) by (unfold gas; rewrite map2_length, L1, L2; lia).
  split; [rewrite map2_length, !dtR_length, Lg; lia|].
  assert (T9 : 10 ^ 9 <> 0) by (apply Rgt_not_eq, pow_lt; lra).
  pose proof (increasing_nth_lt ts Hinc) as M.
  assert (Hne : forall i, (i < length ts)%nat -> dt_edge ts (S i) - dt_edge ts i <> 0).
  { intros i Hi. pose proof (edge_lt ts i ltac:(lia) Hinc Hi). lra. }
  assert (N : forall i, (i < length ts)%nat ->
     nth i (map2 (fun a b => a / b / 10 ^ 9) (dtR gas) (dtR ts)) 0
     = (dt_edge gas (S i) - dt_edge gas i) / (dt_edge ts (S i) - dt_edge ts i) / 10 ^ 9).
  { intros i Hi. rewrite (map2_nth _ _ _ i 0 0) by (rewrite dtR_length; lia).
    rewrite !dtR_nth by lia. reflexivity. }
  split; [|split].
  - intros i Hi1 Hi2. rewrite N by lia. rewrite !nth_edge_diff by lia.
    assert (nth (i - 1) ts 0 < nth (S i) ts 0) by (apply M; lia). field; repeat split; try exact T9; lra.
  - rewrite N by lia. rewrite !edge_0, !edge_mid by lia. cbn [Nat.sub].
    assert (nth 0 ts 0 < nth 1 ts 0) by (apply M; lia).
    replace ((nth 0 gas 0 + nth 1 gas 0) / 2 - (nth 0 gas 0 - (nth 1 gas 0 - nth 0 gas 0) / 2))
      with (nth 1 gas 0 - nth 0 gas 0) by field.
    replace ((nth 0 ts 0 + nth 1 ts 0) / 2 - (nth 0 ts 0 - (nth 1 ts 0 - nth 0 ts 0) / 2))
      with (nth 1 ts 0 - nth 0 ts 0) by field. reflexivity.
  - intros a b Eg. apply Forall_forall. intros x Hx. apply (In_nth _ _ 0) in Hx as (i & Hi & <-).
    rewrite map2_length, !dtR_length, Lg in Hi. rewrite N by lia.
    rewrite Eg, !edge_affine by lia. pose proof (Hne i ltac:(lia)). field; repeat split; try exact T9; lra.
Qed.
End S.

(** Negative gas mass: a halo of mass 10^12 t (t in Gyr), which accretes a constant
    1000 Msun/yr. *)
Definition linear_halo (_ : MahParams xr) (t _ : xr) : xr := xlog10 (Fin (10 ^ 12) * t)%X.
Definition linear_halo_rate (_ : MahParams xr) (ts : list xr) (_ : xr) : list xr * list xr :=
  (map (fun _ => Fin (10 ^ 3)) ts, map (fun t => xlog10 (Fin (10 ^ 12) * t)%X) ts).
Definition p_greedy : DiffstarParams R :=
  mkDiffstar 12 (- 17 / 2) 1 (-1) (19 / 10) (-1) (-1) (- 1 / 2).
Definition mah_any : MahParams xr := mkMah (Fin 12) (Fin 0) (Fin 2) (Fin 1) (Fin 14).

Lemma pow10_IZR n : pow10R (INR n) = 10 ^ n.
Proof.
  induction n as [|n IH]; [exact pow10_0|].
  rewrite S_INR, pow10_plus, pow10_1, IH. simpl. ring.
Qed.

Lemma log10_pow n : log10R (10 ^ n) = INR n.
Proof. rewrite <- pow10_IZR. apply log10_pow10. Qed.

Lemma mgas_negative : in_bounds p_greedy /\
  exists sfh smh dmg mg,
    calc_mgas_singlegal linear_halo linear_halo_rate (map_d Fin p_greedy) mah_any
      (map Fin [1; 2; 3]) LGT0 FB = Some (mkGas (map Fin sfh) (map Fin smh) (map Fin dmg) (map Fin mg))
    /\ nth 0 mg 0 < 0.
Proof.
  split; [unfold in_bounds, p_greedy; simpl; lra|].
  assert (HH : halo_history linear_halo mah_any LGT0 (fun t => log10R (10 ^ 12 * t)) [1; 2; 3]).
  { unfold halo_history. repeat apply Forall_cons; try apply Forall_nil; (split; [lra|]);
      unfold linear_halo; cbn [xmul]; apply xlog10_fin; apply Rmult_lt_0_compat; try lra; apply pow_lt; lra. }
  pose proof (mgas_value linear_halo linear_halo_rate p_greedy mah_any [1; 2; 3] LGT0 (156 / 1000) _ [10 ^ 3; 10 ^ 3; 10 ^ 3]
    ltac:(simpl; lia) ltac:(simpl; lra) HH eq_refl eq_refl) as V. cbv zeta in V.
  do 4 eexists. split; [exact V|]. clear V HH.
  cbn [map combine massR cumR nth map2].
  unfold massR. cbn [map combine cumR nth map2]. unfold T_BIRTH_MIN_R, SFR_MIN_R.
  assert (HS : 156 / 1000 * 10 ^ 3 < sfr_spec p_greedy (156 / 1000) (log10R (10 ^ 12 * 1)) 1).
  { rewrite Rmult_1_r, log10_pow. unfold sfr_spec.
    eapply Rlt_le_trans; [|apply Rmax_r].
    rewrite quench_spec_before; [|apply pow10_pos|].
    - rewrite Rmult_1_l. unfold ms_spec.
      assert (Ee : eff_spec p_greedy (INR 12) = - 17 / 2).
      { replace (INR 12) with (d_lgmcrit p_greedy) by (simpl; lra). apply eff_at_mcrit. }
      rewrite Ee, pow10_IZR.
      assert (pow10R (- 17 / 2) > / 10 ^ 9).
      { assert (A : pow10R (-9) < pow10R (- 17 / 2)) by (apply pow10_lt; lra).
        replace (pow10R (-9)) with (/ 10 ^ 9) in A; [exact A|].
        rewrite <- (pow10_IZR 9). symmetry. apply Rmult_eq_reg_r with (pow10R (INR 9)); [|apply Rgt_not_eq, pow10_pos].
        rewrite <- pow10_plus, Rinv_l by (apply Rgt_not_eq, pow10_pos).
        replace (-9 + INR 9) with 0 by (simpl; lra). apply pow10_0. }
      assert (P12 : 0 < 10 ^ 12) by (apply pow_lt; lra).
      replace (156 / 1000 * 10 ^ 3) with (156 / 1000 * 10 ^ 12 * / 10 ^ 9) by (field; apply pow_nonzero; lra).
      apply Rmult_lt_compat_l; [lra|exact H].
    - cbn [p_greedy d_lg_qt d_qlglgdt]. rewrite log10_1.
      assert (pow10R (-1) <= 1) by (rewrite <- pow10_0; apply pow10_le; lra). lra. }
  set (S := sfr_spec _ _ _ _) in *. assert (P9 : 0 < 10 ^ 9) by (apply pow_lt; lra).
  set (P := 10 ^ 9) in *. set (e := 1 / 10 ^ 14) in *.
  replace (_ - _) with (P * ((1 - 1 / 1000) / 2 * (156 / 1000 * 10 ^ 3 - S))) by field.
  assert ((1 - 1 / 1000) / 2 * (156 / 1000 * 10 ^ 3 - S) < 0) by lra. nra.
Qed.
