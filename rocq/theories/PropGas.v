(** Properties of the gas model: C07, C19-C21. *)
From Coq Require Import Reals Lra Lia List.
From Coquelicot Require Import Coquelicot.
From Verif Require Import XReal ModelUtils ModelKernels ModelSfh SpecCore PopProofs GasProofs.
Import List ListNotations.
Open Scope R_scope.

(** C07 *)
Theorem C07_mgas_galpop_rows : forall log_mah_kern mah_singlehalo n p mah ts lgt0 fb G,
  cols_len_d n p -> cols_len_mah n mah ->
  calc_mgas_galpop log_mah_kern mah_singlehalo p mah ts lgt0 fb = Some G ->
  length (g_sfh G) = n /\ length (g_smh G) = n /\ length (g_dmgash G) = n /\ length (g_mgash G) = n /\
  forall i, (i < n)%nat ->
    calc_mgas_singlegal log_mah_kern mah_singlehalo (gal_d p i) (gal_mah mah i) ts lgt0 fb
    = Some (mkGas (nth i (g_sfh G) []) (nth i (g_smh G) []) (nth i (g_dmgash G) []) (nth i (g_mgash G) [])).
Proof. exact mgas_galpop_rows. Qed.
Print Assumptions C07_mgas_galpop_rows.

Theorem C07_mgas_galpop_total : forall log_mah_kern mah_singlehalo n p mah ts lgt0 fb,
  cols_len_d n p -> cols_len_mah n mah -> (3 <= length ts)%nat ->
  (forall i, (i < n)%nat -> length (fst (mah_singlehalo (gal_mah mah i) ts lgt0)) = length ts) ->
  exists G, calc_mgas_galpop log_mah_kern mah_singlehalo p mah ts lgt0 fb = Some G.
Proof. exact mgas_galpop_total. Qed.
Print Assumptions C07_mgas_galpop_total.

Example C07_hyp : let c := [Fin 1; Fin 2] in let ts := [Fin 1; Fin 2; Fin 3] in
  cols_len_d 2 (mkDiffstar c c c c c c c c) /\ cols_len_mah 2 (mkMah c c c c c) /\
  (forall i, length (fst (linear_halo_rate (gal_mah (mkMah c c c c c) i) ts LGT0)) = length ts).
Proof. cbv. repeat split. Qed.

(** C19 *)
Theorem C19_gas_balance : forall log_mah_kern mah_singlehalo p mah ts lgt0 fb m dmh,
  (3 <= length ts)%nat -> increasing (1 / 1000 :: ts) ->
  halo_history log_mah_kern mah lgt0 m ts ->
  fst (mah_singlehalo mah (map Fin ts) lgt0) = map Fin dmh -> length dmh = length ts ->
  exists sfh smh dmg mg,
  calc_mgas_singlegal log_mah_kern mah_singlehalo (map_d Fin p) mah (map Fin ts) lgt0 (Fin fb)
  = Some (mkGas (map Fin sfh) (map Fin smh) (map Fin dmg) (map Fin mg)) /\
  calc_sfh_singlegal_smh log_mah_kern (map_d Fin p) mah (map Fin ts) lgt0 (Fin fb)
  = Some (map Fin sfh, map Fin smh) /\
  length mg = length ts /\ length dmg = length ts /\
  forall i, (i < length ts)%nat ->
    nth i mg 0 + nth i smh 0
    = 10 ^ 9 * RInt (pwl ((1 / 1000, 1 / 10 ^ 14) :: combine ts (map (Rmult fb) dmh))) (1 / 1000) (nth i ts 0).
Proof. exact mgas_balance. Qed.
Print Assumptions C19_gas_balance.

Theorem C19_same_sfh : forall log_mah_kern mah_singlehalo p mah ts lgt0 fb G,
  calc_mgas_singlegal log_mah_kern mah_singlehalo p mah ts lgt0 fb = Some G ->
  calc_sfh_singlegal_smh log_mah_kern p mah ts lgt0 fb = Some (g_sfh G, g_smh G).
Proof. exact mgas_same_sfh. Qed.
Print Assumptions C19_same_sfh.

(** C20 *)
Theorem C20_dmgas_slopes : forall log_mah_kern mah_singlehalo p mah ts lgt0 fb m dmh,
  (3 <= length ts)%nat -> increasing ts ->
  halo_history log_mah_kern mah lgt0 m ts ->
  fst (mah_singlehalo mah (map Fin ts) lgt0) = map Fin dmh -> length dmh = length ts ->
  exists sfh smh dmg mg,
  calc_mgas_singlegal log_mah_kern mah_singlehalo (map_d Fin p) mah (map Fin ts) lgt0 (Fin fb)
  = Some (mkGas (map Fin sfh) (map Fin smh) (map Fin dmg) (map Fin mg)) /\
  length dmg = length ts /\
  (forall i, (0 < i)%nat -> (i < length ts - 1)%nat ->
     nth i dmg 0 = (nth (S i) mg 0 - nth (i - 1) mg 0) / (nth (S i) ts 0 - nth (i - 1) ts 0) / 10 ^ 9) /\
  (nth 0 dmg 0 = (nth 1 mg 0 - nth 0 mg 0) / (nth 1 ts 0 - nth 0 ts 0) / 10 ^ 9) /\
  (forall a b, mg = map (fun t => a * t + b) ts -> Forall (fun x => x = a / 10 ^ 9) dmg).
Proof. exact dmgas_slopes. Qed.
Print Assumptions C20_dmgas_slopes.

Example C19_C20_hyp :
  fst (linear_halo_rate mah_any (map Fin [1; 2; 3]) LGT0) = map Fin [10 ^ 3; 10 ^ 3; 10 ^ 3].
Proof. reflexivity. Qed.

(** C21: the remaining gas mass can be negative. *)
Theorem C21_gas_negative_refuted : in_bounds p_greedy /\
  exists sfh smh dmg mg,
    calc_mgas_singlegal linear_halo linear_halo_rate (map_d Fin p_greedy) mah_any
      (map Fin [1; 2; 3]) LGT0 FB = Some (mkGas (map Fin sfh) (map Fin smh) (map Fin dmg) (map Fin mg))
    /\ nth 0 mg 0 < 0.
Proof. exact mgas_negative. Qed.
Print Assumptions C21_gas_negative_refuted.
