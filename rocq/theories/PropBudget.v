(** Properties of the stars formed against the baryons available and of the specific rates
    a table of times can hold: C139, C140. *)
From Coq Require Import Reals Lra Lia ZArith String.
From Coq Require Import List Bool.
From Verif Require Import XReal RealFacts ModelUtils ModelKernels ModelSfh ModelPop ModelHist ModelTargets SpecCore SpecPop SpecHist SpecTargets SpecBudget ModelPopGrad
  PopProofs CholeskyProofs PopParamProofs GradTop PopGradDemo SpecSymmetry SymmetryProofs BudgetProofs BudgetPop BudgetLoss.
Import List ListNotations.
Open Scope string_scope.
Open Scope list_scope.
Open Scope R_scope.

(** C139: a galaxy in a halo that never shrinks forms at most its highest rate times its age; it stays
    within the baryons of its halo when age times highest efficiency is at most one. *)
Theorem C139_budget : forall lmk p mah ts lgt0 fb m, halo_history lmk mah lgt0 m ts -> increasing (1 / 1000 :: ts) ->
  d_indx_hi p <= 0 -> 0 <= d_indx_lo p -> d_lg_drop p <= d_lg_rejuv p -> d_lg_rejuv p <= 0 -> 0 <= fb ->
  (forall t t', In t ts -> In t' ts -> t <= t' -> m t <= m t') ->
  exists M, calc_sfh_singlegal_smh lmk (map_d Fin p) mah (map Fin ts) lgt0 (Fin fb)
      = Some (map Fin (map (fun t => sfr_spec p fb (m t) t) ts), map Fin M) /\ length M = length ts /\
  forall i, (i < length ts)%nat -> let t := nth i ts 0 in
    nth i M 0 <= 10 ^ 9 * t * Rmax (1 / 10 ^ 14) (fb * pow10R (m t) * pow10R (d_lgy_at_mcrit p + Rmax (d_indx_lo p) (- d_indx_hi p) / 27)) /\
    (t * pow10R (9 + d_lgy_at_mcrit p + Rmax (d_indx_lo p) (- d_indx_hi p) / 27) <= 1 -> t / 10 ^ 5 <= fb * pow10R (m t) ->
     nth i M 0 <= fb * pow10R (m t)).
Proof. exact budget. Qed.
Print Assumptions C139_budget.

(** C139: with the default main-sequence parameters and no quenching, a halo of 10^12 solar masses forms over
    5/4 of its baryons by 13.8 Gyr. *)
Theorem C139_within_baryons_refuted : forall mah lgt0, exists ms q, DEFAULT_MS_PARAMS = map_ms Fin ms /\ DEFAULT_Q_PARAMS_UNQUENCHED = map_q Fin q /\
  forall fb, 0 < fb -> exists s M1 M2,
    calc_sfh_singlegal_smh (steady 12) (map_d Fin (join_params ms q)) mah [Fin 1; Fin (138 / 10)] lgt0 (Fin fb) = Some (s, [Fin M1; Fin M2]) /\
    5 / 4 * (fb * pow10R 12) < M2.
Proof. exact budget_broken. Qed.
Print Assumptions C139_within_baryons_refuted.

Example C139_hyp : let p := mkDiffstar 12 (-11) 1 (-1) 1 (-1) (-1) (-1 / 2) in let ts := [1; 5; 8] in let fb := 1 / 10 in
  halo_history (steady 12) (mkMah NaN NaN NaN NaN NaN) NaN (fun _ => 12) ts /\ increasing (1 / 1000 :: ts) /\
  d_indx_hi p <= 0 /\ 0 <= d_indx_lo p /\ d_lg_drop p <= d_lg_rejuv p /\ d_lg_rejuv p <= 0 /\ 0 <= fb /\
  8 * pow10R (9 + d_lgy_at_mcrit p + Rmax (d_indx_lo p) (- d_indx_hi p) / 27) <= 1 /\ 8 / 10 ^ 5 <= fb * pow10R 12.
Proof.
  cbv zeta. cbn [d_indx_hi d_indx_lo d_lg_drop d_lg_rejuv d_lgy_at_mcrit]. split; [apply steady_history; repeat constructor; lra|].
  split; [simpl; lra|]. do 5 (split; [lra|]). split.
  - replace (Rmax 1 (- -1)) with 1 by (rewrite Rmax_left; lra). apply Rle_trans with (8 * pow10R (-1)).
    + apply Rmult_le_compat_l; [lra|]. apply pow10_le. lra.
    + replace (-1) with (- (1)) by ring. rewrite pow10_opp, pow10_1. lra.
  - assert (10 <= pow10R 12) by (rewrite <- pow10_1 at 1; apply pow10_le; lra). lra.
Qed.

(** C140: whatever the galaxy, no returned sSFR reaches twice one over the time since the previous entry; the first
    is between one and two over its time. *)
Theorem C140_rate_limit : forall lmk p mah ts lgt0 fb m, halo_history lmk mah lgt0 m ts -> increasing (1 / 1000 :: ts) ->
  exists M, let s := map (fun t => sfr_spec p fb (m t) t) ts in
  calc_sfh_singlegal_smh lmk (map_d Fin p) mah (map Fin ts) lgt0 (Fin fb) = Some (map Fin s, map Fin M) /\ length M = length ts /\
  forall i, (i < length ts)%nat -> 0 < nth i M 0 /\ nth i s 0 / nth i M 0 < 2 / (10 ^ 9 * (nth i ts 0 - nth i (1 / 1000 :: ts) 0)) /\
    (i = 0%nat -> 1 / (10 ^ 9 * (nth 0 ts 0 - 1 / 1000)) <= nth 0 s 0 / nth 0 M 0).
Proof. exact ssfr_step. Qed.
Print Assumptions C140_rate_limit.

(** C140: every sSFR of a simulated population is between 1e-12 and the limit of its last time step. *)
Theorem C140_population_limit : forall (key : Type) split uniform mvn lmk, splits_ok split -> mvn_ok mvn ->
  forall p P n tobs z lgt0 fb, holds "" p P -> pop_in_bounds P -> slopes_nonzero P -> sim_ok lmk lgt0 n tobs z ->
  exists X Y W, tobs_tables key split uniform mvn lmk p z lgt0 (Fin fb) = Some (map Fin X, map Fin Y, map Fin W) /\
    length X = (2 * n)%nat /\ length Y = (2 * n)%nat /\ length W = (2 * n)%nat /\ Forall (fun y => -12 <= y <= ssfr_limit tobs) Y.
Proof. exact tables_limit. Qed.
Print Assumptions C140_population_limit.

(** C140: sSFR bins more than three mean widths above the limit or below 1e-12 are never predicted to hold galaxies. *)
Theorem C140_unreachable_bins : forall (key : Type) split uniform mvn lmk, splits_ok split -> mvn_ok mvn ->
  forall E1 E2 u p P zs lgt0 fb Wt idx ids r j, increasing E1 -> (2 <= length E1)%nat -> increasing E2 -> (j < length E2 - 1)%nat ->
  get_bounded_diffstarpop_params u = Some p -> holds "" p P -> pop_in_bounds P -> slopes_nonzero P ->
  Forall (fun z => exists n tobs, sim_ok lmk lgt0 n tobs z /\
    (ssfr_limit tobs + 3 * mean_bin E2 <= nth j E2 0 \/ nth (S j) E2 0 <= -12 - 3 * mean_bin E2)) zs ->
  mstar_ssfr_kern_tobs key split uniform mvn lmk u zs lgt0 (Fin fb)
    (mkSsfr (map (map Fin) (lows (grid [E1; E2]))) (map (map Fin) (highs (grid [E1; E2]))) (map Fin E1) (map Fin E2) (map (map Fin) Wt) idx ids) = Some r ->
  forall z t, no_signal (nth j (nth t (nth z r []) []) NaN).
Proof. exact prediction_dead. Qed.
Print Assumptions C140_unreachable_bins.

(** C140: a target with galaxies in such a bin cannot be fitted: the loss stays above a fixed positive number. *)
Theorem C140_loss_floor : forall (key : Type) split uniform mvn lmk, splits_ok split -> mvn_ok mvn ->
  forall E1 E2 u p P zs lgt0 fb Wt idx ids target v j z t, increasing E1 -> (2 <= length E1)%nat -> increasing E2 -> (j < length E2 - 1)%nat ->
  get_bounded_diffstarpop_params u = Some p -> holds "" p P -> pop_in_bounds P -> slopes_nonzero P ->
  Forall (fun z => exists n tobs, sim_ok lmk lgt0 n tobs z /\
    (ssfr_limit tobs + 3 * mean_bin E2 <= nth j E2 0 \/ nth (S j) E2 0 <= -12 - 3 * mean_bin E2)) zs ->
  loss_mstar_ssfr_kern_tobs key split uniform mvn lmk u zs lgt0 (Fin fb)
    (mkSsfr (map (map Fin) (lows (grid [E1; E2]))) (map (map Fin) (highs (grid [E1; E2]))) (map Fin E1) (map Fin E2) (map (map Fin) Wt) idx ids)
    (map (map (map Fin)) target) = Some (Fin v) ->
  (z < length target)%nat -> (t < length (nth z target []))%nat -> (j < length (nth t (nth z target []) []))%nat ->
  1000 * (nth j (nth t (nth z target []) []) 0) ^ 2 / INR (length (List.concat (List.concat target))) <= v.
Proof. exact loss_floor. Qed.
Print Assumptions C140_loss_floor.

(** C140: of the 29 sSFR bins of the measured targets these are the lowest two and, for galaxies seen at 13.8 Gyr, the top three. *)
Theorem C140_empty_bins : exists E, LOGSSFR_BINS_PDF = map Fin E /\ increasing E /\ length E = 30%nat /\
  (forall j, (26 <= j < 29)%nat -> ssfr_limit (138 / 10) + 3 * mean_bin E <= nth j E 0) /\
  (forall j, (j < 2)%nat -> nth (S j) E 0 <= -12 - 3 * mean_bin E).
Proof. exact today_bins. Qed.
Print Assumptions C140_empty_bins.

Example C140_hyp : splits_ok demo_split /\ mvn_ok (mvn_of demo_normal) /\
  increasing (1 / 1000 :: obs_times (138 / 10)) /\
  exists U P, get_bounded_diffstarpop_params (pop_u_params U) = Some (pop_params P) /\ holds "" (pop_params P) P /\ pop_in_bounds P /\ slopes_nonzero P /\
  let c := [Fin 12; Fin 13] in
  sim_ok ex_lmk NaN 2 (138 / 10) (mkZPop unit (mkMah c c c c c) c [-1; 7]%Z c c c tt (Fin (138 / 10))).
Proof.
  split; [exact demo_split_ok|]. split; [exact (mvn_of_ok _ demo_normal_ok)|]. split; [apply PopLossProofs.obs_times_incr; lra|].
  destruct default_in_bounds as (P & U & _ & HB & HS & _ & HP). exists U, P. split; [exact HP|]. split; [apply holds_params|]. split; [exact HB|]. split; [exact HS|].
  cbv zeta. exists [12; 13], [12; 13], [12; 13], [12; 13], [12; 13].
  repeat (split; [reflexivity|]). split; [lra|]. repeat (split; [reflexivity|]). split; [repeat split|].
  intros i _. exists (fun _ => 45 / 4). apply demo_history. lra.
Qed.
