(** Properties of how far errors of the inputs move a history: C141. *)
From Coq Require Import Reals Lra Lia.
From Coq Require Import List.
From Verif Require Import XReal RealFacts ModelUtils ModelKernels ModelSfh SpecCore SpecSymmetry SpecRobust SymmetryProofs RobustProofs.
Import List ListNotations.
Open Scope R_scope.

(** C141: changes of the halo history and of the parameters move the star formation and mass histories by at most [total_shift] dex. *)
Theorem C141_shift : forall lmk p q mah mah' ts lgt0 fb m m' e X, halo_history lmk mah lgt0 m ts -> halo_history lmk mah' lgt0 m' ts ->
  increasing (1 / 1000 :: ts) -> 0 <= fb ->
  (forall t, In t ts -> Rabs (m' t - m t) <= e /\ Rabs (m' t - d_lgmcrit q) <= X) ->
  exists s M s' M',
    calc_sfh_singlegal_smh lmk (map_d Fin p) mah (map Fin ts) lgt0 (Fin fb) = Some (map Fin s, map Fin M) /\
    calc_sfh_singlegal_smh lmk (map_d Fin q) mah' (map Fin ts) lgt0 (Fin fb) = Some (map Fin s', map Fin M') /\
    length s = length ts /\ length M = length ts /\ length s' = length ts /\ length M' = length ts /\
    forall i, (i < length ts)%nat -> 0 < nth i s 0 /\ 0 < nth i M 0 /\
      within (total_shift p q e X) (nth i s 0) (nth i s' 0) /\ within (total_shift p q e X) (nth i M 0) (nth i M' 0).
Proof. exact robust. Qed.
Print Assumptions C141_shift.

(** C141: for parameters in bounds an error of the halo mass is amplified at most 8.5 times. *)
Theorem C141_halo_error : forall lmk p mah mah' ts lgt0 fb m m' e, halo_history lmk mah lgt0 m ts -> halo_history lmk mah' lgt0 m' ts ->
  increasing (1 / 1000 :: ts) -> 0 <= fb -> in_bounds p -> (forall t, In t ts -> Rabs (m' t - m t) <= e) ->
  exists s M s' M',
    calc_sfh_singlegal_smh lmk (map_d Fin p) mah (map Fin ts) lgt0 (Fin fb) = Some (map Fin s, map Fin M) /\
    calc_sfh_singlegal_smh lmk (map_d Fin p) mah' (map Fin ts) lgt0 (Fin fb) = Some (map Fin s', map Fin M') /\
    length s = length ts /\ length M = length ts /\ length s' = length ts /\ length M' = length ts /\
    forall i, (i < length ts)%nat -> within (17 / 2 * e) (nth i s 0) (nth i s' 0) /\ within (17 / 2 * e) (nth i M 0) (nth i M' 0).
Proof. exact robust_halo. Qed.
Print Assumptions C141_halo_error.

(** C141: when both indices are [k] the rate changes by exactly [1 + k] dex per dex of halo mass. *)
Theorem C141_power_law : forall lmk p mah mah' ts lgt0 fb m m' k, halo_history lmk mah lgt0 m ts -> halo_history lmk mah' lgt0 m' ts ->
  d_indx_lo p = k -> d_indx_hi p = k ->
  exists s s', calc_sfh_singlegal lmk (map_d Fin p) mah (map Fin ts) lgt0 (Fin fb) = map Fin s /\
    calc_sfh_singlegal lmk (map_d Fin p) mah' (map Fin ts) lgt0 (Fin fb) = map Fin s' /\ length s = length ts /\ length s' = length ts /\
    forall i, (i < length ts)%nat -> 1 / 10 ^ 14 < nth i s 0 -> 1 / 10 ^ 14 < nth i s' 0 ->
      nth i s' 0 = pow10R ((1 + k) * (m' (nth i ts 0) - m (nth i ts 0))) * nth i s 0.
Proof. exact robust_sharp. Qed.
Print Assumptions C141_power_law.

(** Two galaxies that differ in critical mass, quenching and indices, in halos 0.1 dex apart. *)
Example C141_hyp : let q := mkDiffstar (121 / 10) (-10) (11 / 10) (-1) (9 / 10) (-11 / 10) (-1) (-2 / 5) in let ts := [1; 5; 10] in
  in_bounds usual /\ in_bounds q /\ increasing (1 / 1000 :: ts) /\
  let halo := fun (h : MahParams xr) (_ _ : xr) => logm0 h in
  let h m := mkMah (Fin m) NaN NaN NaN NaN in
  halo_history halo (h 12) NaN (fun _ => 12) ts /\ halo_history halo (h (121 / 10)) NaN (fun _ => 121 / 10) ts /\
  forall t, In t ts -> Rabs (121 / 10 - 12) <= 1 / 10 /\ Rabs (121 / 10 - d_lgmcrit q) <= 0.
Proof.
  cbv zeta. unfold in_bounds, usual. cbn [d_lgmcrit d_lgy_at_mcrit d_indx_lo d_indx_hi d_lg_qt d_qlglgdt d_lg_drop d_lg_rejuv].
  split; [lra|]. split; [lra|]. split; [cbn; lra|].
  split; [repeat constructor; lra|]. split; [repeat constructor; lra|]. intros t _. split; apply Rabs_le; lra.
Qed.
