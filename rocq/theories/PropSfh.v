(** Properties of the star formation history functions: C01-C08, C11, C13. *)
From Coq Require Import Reals Lra Lia List.
From Coquelicot Require Import Coquelicot.
From Verif Require Import XReal ModelUtils ModelKernels ModelSfh SpecCore
  IntegralProofs SfhProofs PopProofs GasProofs.
Import List ListNotations.
Open Scope R_scope.

(** A halo of mass 10^12 t meets the halo hypothesis used below. *)
Example halo_history_inhabited :
  halo_history linear_halo mah_any LGT0 (fun t => log10R (10 ^ 12 * t)) [1; 5 / 2; 13] /\
  increasing (1 / 1000 :: [1; 5 / 2; 13]).
Proof.
  split; [|simpl; lra].
  unfold halo_history. repeat apply Forall_cons; try apply Forall_nil; (split; [lra|]);
    unfold linear_halo; cbn [xmul]; apply XFacts.xlog10_fin; apply Rmult_lt_0_compat; try lra; apply pow_lt; lra.
Qed.

(** C01 *)
Theorem C01_sfr_value : forall log_mah_kern p mah ts lgt0 fb m,
  halo_history log_mah_kern mah lgt0 m ts ->
  calc_sfh_singlegal log_mah_kern (map_d Fin p) mah (map Fin ts) lgt0 (Fin fb)
  = map Fin (map (fun t => sfr_spec p fb (m t) t) ts).
Proof. exact calc_sfh_value. Qed.
Print Assumptions C01_sfr_value.

Theorem C01_sfr_floor : forall log_mah_kern p mah ts lgt0 fb m,
  halo_history log_mah_kern mah lgt0 m ts ->
  exists s, calc_sfh_singlegal log_mah_kern (map_d Fin p) mah (map Fin ts) lgt0 (Fin fb) = map Fin s
    /\ length s = length ts /\ Forall (fun x => 1 / 10 ^ 14 <= x) s.
Proof. exact calc_sfh_floor. Qed.
Print Assumptions C01_sfr_floor.

(** C02 *)
Theorem C02_smh_is_integral : forall log_mah_kern p mah ts lgt0 fb m,
  halo_history log_mah_kern mah lgt0 m ts -> increasing (1 / 1000 :: ts) ->
  exists sfh smh,
    calc_sfh_singlegal_smh log_mah_kern (map_d Fin p) mah (map Fin ts) lgt0 (Fin fb)
      = Some (map Fin sfh, map Fin smh) /\
    length sfh = length ts /\ length smh = length ts /\
    forall i, (i < length ts)%nat ->
      nth i smh 0 = 10 ^ 9 * RInt (pwl ((1 / 1000, 1 / 10 ^ 14) :: combine ts sfh)) (1 / 1000) (nth i ts 0).
Proof. exact smh_is_integral. Qed.
Print Assumptions C02_smh_is_integral.

(** C02: asking for stellar mass does not change the SFH (any inputs). *)
Theorem C02_same_sfh : forall log_mah_kern p mah ts lgt0 fb,
  exists smh, calc_sfh_singlegal_smh log_mah_kern p mah ts lgt0 fb
  = Some (calc_sfh_singlegal log_mah_kern p mah ts lgt0 fb, smh) /\ length smh = length ts.
Proof. exact smh_same_sfh. Qed.
Print Assumptions C02_same_sfh.

(** C03 *)
Theorem C03_smh_increasing : forall log_mah_kern p mah ts lgt0 fb m,
  halo_history log_mah_kern mah lgt0 m ts -> increasing (1 / 1000 :: ts) ->
  exists sfh smh,
    calc_sfh_singlegal_smh log_mah_kern (map_d Fin p) mah (map Fin ts) lgt0 (Fin fb)
      = Some (map Fin sfh, map Fin smh) /\
    length smh = length ts /\ increasing smh /\ Forall (fun x => 0 < x) smh.
Proof. exact smh_increasing. Qed.
Print Assumptions C03_smh_increasing.

(** C04: any tables, finite or not. *)
Theorem C04_smh_causal : forall k ts ss mass, cumulative_mstar_formed ts ss = Some mass ->
  cumulative_mstar_formed (firstn k ts) (firstn k ss) = Some (firstn k mass).
Proof. exact cumulative_causal. Qed.
Print Assumptions C04_smh_causal.

Example C04_hyp : exists mass, cumulative_mstar_formed [Fin 1; Fin 2] [Fin 3; NaN] = Some mass.
Proof. eexists. reflexivity. Qed.

(** C05: any inputs, finite or not. *)
Theorem C05_sfh_pointwise : forall log_mah_kern p mah ts lgt0 fb idx,
  Forall (fun i => (i < length ts)%nat) idx ->
  calc_sfh_singlegal log_mah_kern p mah (map (fun i => nth i ts NaN) idx) lgt0 fb
  = map (fun i => nth i (calc_sfh_singlegal log_mah_kern p mah ts lgt0 fb) NaN) idx.
Proof. exact calc_sfh_select. Qed.
Print Assumptions C05_sfh_pointwise.

Example C05_hyp : Forall (fun i => (i < length [Fin 1; Fin 2; Fin 3])%nat) [2; 0; 0]%nat.
Proof. repeat constructor. Qed.

(** C06 *)
Theorem C06_galpop_sfh : forall log_mah_kern n p mah ts lgt0 fb, cols_len_d n p -> cols_len_mah n mah ->
  calc_sfh_galpop log_mah_kern p mah ts lgt0 fb
  = Some (map (fun i => calc_sfh_singlegal log_mah_kern (gal_d p i) (gal_mah mah i) ts lgt0 fb) (seq 0 n)).
Proof. exact galpop_eq. Qed.
Print Assumptions C06_galpop_sfh.

Theorem C06_galpop_smh : forall log_mah_kern n p mah ts lgt0 fb, cols_len_d n p -> cols_len_mah n mah ->
  exists sfh smh, calc_sfh_galpop_smh log_mah_kern p mah ts lgt0 fb = Some (sfh, smh) /\
    calc_sfh_galpop log_mah_kern p mah ts lgt0 fb = Some sfh /\
    length sfh = n /\ length smh = n /\
    forall i, (i < n)%nat ->
      length (nth i sfh []) = length ts /\
      calc_sfh_singlegal_smh log_mah_kern (gal_d p i) (gal_mah mah i) ts lgt0 fb
      = Some (nth i sfh [], nth i smh []).
Proof. exact galpop_smh_eq. Qed.
Print Assumptions C06_galpop_smh.

Theorem C06_galpop_accepts_iff : forall log_mah_kern p mah ts lgt0 fb,
  calc_sfh_galpop log_mah_kern p mah ts lgt0 fb <> None
  <-> exists n, cols_len_d n p /\ cols_len_mah n mah.
Proof. exact galpop_some_iff. Qed.
Print Assumptions C06_galpop_accepts_iff.

Example C06_hyp :
  let c := [Fin 1; Fin 2] in
  cols_len_d 2 (mkDiffstar c c c c c c c c) /\ cols_len_mah 2 (mkMah c c c c c).
Proof. cbv. repeat split. Qed.

(** C08 *)
Theorem C08_fb_monotone : forall log_mah_kern p mah ts lgt0 fb1 fb2 m,
  halo_history log_mah_kern mah lgt0 m ts -> increasing (1 / 1000 :: ts) -> fb1 <= fb2 ->
  exists s1 s2 m1 m2,
    calc_sfh_singlegal_smh log_mah_kern (map_d Fin p) mah (map Fin ts) lgt0 (Fin fb1)
      = Some (map Fin s1, map Fin m1) /\
    calc_sfh_singlegal_smh log_mah_kern (map_d Fin p) mah (map Fin ts) lgt0 (Fin fb2)
      = Some (map Fin s2, map Fin m2) /\
    Forall2 Rle s1 s2 /\ Forall2 Rle m1 m2.
Proof. exact fb_monotone. Qed.
Print Assumptions C08_fb_monotone.

Theorem C08_fb_linear : forall log_mah_kern p mah t lgt0 fb c m s1 s2,
  0 < t -> log_mah_kern mah (Fin t) lgt0 = Fin m ->
  calc_sfh_singlegal log_mah_kern (map_d Fin p) mah [Fin t] lgt0 (Fin fb) = [Fin s1] ->
  calc_sfh_singlegal log_mah_kern (map_d Fin p) mah [Fin t] lgt0 (Fin (c * fb)) = [Fin s2] ->
  1 / 10 ^ 14 < s1 -> 1 / 10 ^ 14 < s2 -> s2 = c * s1.
Proof. exact fb_linear. Qed.
Print Assumptions C08_fb_linear.

(** C11 *)
Theorem C11_quenching_never_raises : forall log_mah_kern p mah ts lgt0 fb m, in_bounds p -> 0 <= fb ->
  halo_history log_mah_kern mah lgt0 m ts ->
  exists s, calc_sfh_singlegal log_mah_kern (map_d Fin p) mah (map Fin ts) lgt0 (Fin fb) = map Fin s /\
  Forall2 (fun x t => x <= Rmax (1 / 10 ^ 14) (ms_spec p fb (m t))) s ts.
Proof. exact sfr_le_ms. Qed.
Print Assumptions C11_quenching_never_raises.

Theorem C11_no_effect_before_onset : forall log_mah_kern (p p' : DiffstarParams R) mah ts lgt0 fb m,
  same_onset p p' ->
  halo_history log_mah_kern mah lgt0 m ts ->
  Forall (fun t => t <= pow10R (d_lg_qt p - pow10R (d_qlglgdt p) / 2)) ts ->
  calc_sfh_singlegal log_mah_kern (map_d Fin p) mah (map Fin ts) lgt0 (Fin fb)
  = calc_sfh_singlegal log_mah_kern (map_d Fin p') mah (map Fin ts) lgt0 (Fin fb).
Proof. exact sfr_before_onset. Qed.
Print Assumptions C11_no_effect_before_onset.

(** With lg_qt = 1 and qlglgdt = 0 the onset is at 10^(1/2) Gyr > 1 Gyr. *)
Example C11_hyp : 1 <= pow10R (1 - pow10R 0 / 2).
Proof. rewrite RealFacts.pow10_0. rewrite <- RealFacts.pow10_0 at 1. apply RealFacts.pow10_le. lra. Qed.

(** C13 *)
Theorem C13_unquenched_inert : forall log_mah_kern ms mah ts lgt0 fb m,
  halo_history log_mah_kern mah lgt0 m ts -> Forall (fun t => t <= 138 / 10) ts ->
  exists q : QParams R, DEFAULT_Q_PARAMS_UNQUENCHED = map_q Fin q /\
  calc_sfh_singlegal log_mah_kern (map_d Fin (join_params ms q)) mah (map Fin ts) lgt0 (Fin fb)
  = map (fun t => Fin (Rmax (1 / 10 ^ 14) (ms_spec (join_params ms q) fb (m t)))) ts.
Proof. exact unquenched_inert. Qed.
Print Assumptions C13_unquenched_inert.
