(** Properties of single-precision star formation histories: C117 and C118. *)
From Coq Require Import Reals Lra Lia List Bool String QArith ZArith.
From Flocq Require Import Core.Core IEEE754.BinarySingleNaN.
From Verif Require Import XReal ModelKernels ModelFloat ModelFloatTw ModelFloatSfh SpecCore SpecFloat32 SpecFloatTw SpecFloatSfh
  FloatDemo FloatTwTop FloatSfhTop.
Import ListNotations.
Open Scope R_scope.

(** C117: however it is compiled, every rate is finite, at least the smallest rate, and close to the exact one. *)
Theorem C117_rates_single : forall st s pw lg m p fb ts,
  sigmoid_range s -> sigmoid_accurate s -> power_good pw -> log_accurate lg -> params32 p -> history_input fb m ts ->
  List.length (calc_sfh_singlegal32 st s pw lg m p ts fb) = List.length ts /\
  forall k, (k < List.length ts)%nat ->
    let y := nth k (calc_sfh_singlegal32 st s pw lg m p ts fb) B754_nan in
    let t := nth k ts B754_nan in
    let Y := sfr_spec (numbers p) (B2R fb) (B2R (m t)) (B2R t) in
    is_finite y = true /\ near32 (1 / 10 ^ 14) <= B2R y /\ Rabs (B2R y - Y) <= sfr_tolerance p * Y.
Proof. exact rates32. Qed.
Print Assumptions C117_rates_single.

(** C117: a starved galaxy gets the smallest rate, which is below 1e-14. *)
Theorem C117_starved_single : forall st s pw lg m p fb t,
  sigmoid_range s -> sigmoid_accurate s -> power_good pw -> log_accurate lg ->
  params32 p -> within32 (/ 100) 1 fb -> within32 (/ 2000) 1024 t -> within32 0 17 (m t) ->
  quench_spec (B2R (d_lg_qt p)) (Rpower 10 (B2R (d_qlglgdt p))) (B2R (d_lg_drop p)) (B2R (d_lg_rejuv p)) (log10R (B2R t))
    * ms_spec (numbers p) (B2R fb) (B2R (m t)) <= 9 / 10 ^ 15 ->
  exists y, calc_sfh_singlegal32 st s pw lg m p [t] fb = [y] /\ is_finite y = true /\ B2R y = near32 (1 / 10 ^ 14) /\ B2R y < 1 / 10 ^ 14.
Proof. exact starving. Qed.
Print Assumptions C117_starved_single.

Example C117_hyp : sigmoid_range round_sigmoid /\ sigmoid_accurate round_sigmoid /\ power_good round_power /\ log_accurate round_log10 /\
  params32 demo_galaxy /\ history_input demo_fb demo_halo demo_ts /\ params32 starved_galaxy /\
  forall t, within32 (/ 2000) 1024 t ->
  quench_spec (B2R (d_lg_qt starved_galaxy)) (Rpower 10 (B2R (d_qlglgdt starved_galaxy))) (B2R (d_lg_drop starved_galaxy)) (B2R (d_lg_rejuv starved_galaxy)) (log10R (B2R t))
    * ms_spec (numbers starved_galaxy) (B2R (lit32 (1 # 64))) (B2R (small_halo t)) <= 9 / 10 ^ 15.
Proof.
  exact (conj round_sigmoid_range (conj round_sigmoid_accurate (conj round_power_good (conj round_log10_ok (conj demo_galaxy_ok
    (conj demo_history_ok (conj starved_galaxy_ok starved_small))))))).
Qed.

(** C118: the masses formed are finite, do not decrease, and are close to the exact trapezoids of the exact rates. *)
Theorem C118_masses_single : forall st s pw lg m p fb ts,
  sigmoid_range s -> sigmoid_accurate s -> power_good pw -> log_accurate lg -> params32 p -> history_input fb m ts ->
  exists sfh smh, calc_sfh_smh_singlegal32 st s pw lg m p ts fb = Some (sfh, smh) /\
    List.length sfh = List.length ts /\ List.length smh = List.length ts /\
    forall k, (k < List.length ts)%nat ->
      is_finite (nth k smh B754_nan) = true /\ 0 <= B2R (nth k smh B754_nan) /\
      ((S k < List.length ts)%nat -> B2R (nth k smh B754_nan) <= B2R (nth (S k) smh B754_nan)) /\
      Rabs (B2R (nth k smh B754_nan) - mass_spec p fb m ts k)
        <= (sfr_tolerance p + INR (k + 8) / 2 ^ 22) * mass_spec p fb m ts k + / 2 ^ 70.
Proof. exact history32. Qed.
Print Assumptions C118_masses_single.

(** C118: whatever the unbounded parameters, infinite ones included, nothing overflows or turns into NaN. *)
Theorem C118_any_parameters : forall st s pw lg m fused u fb ts,
  sigmoid_range s -> sigmoid_accurate s -> power_good pw -> log_accurate lg -> all_eight number u -> history_input fb m ts ->
  let p := get_bounded_diffstar_params32 s fused u in
  exists sfh smh, calc_sfh_smh_singlegal32 st s pw lg m p ts fb = Some (sfh, smh) /\
    List.length sfh = List.length ts /\ List.length smh = List.length ts /\
    forall k, (k < List.length ts)%nat ->
      is_finite (nth k sfh B754_nan) = true /\ near32 (1 / 10 ^ 14) <= B2R (nth k sfh B754_nan) /\
      Rabs (B2R (nth k sfh B754_nan) - rate p fb m ts (S k)) <= / 16 * rate p fb m ts (S k) /\
      is_finite (nth k smh B754_nan) = true /\ 0 <= B2R (nth k smh B754_nan) /\
      ((S k < List.length ts)%nat -> B2R (nth k smh B754_nan) <= B2R (nth (S k) smh B754_nan)).
Proof. exact any_rates. Qed.
Print Assumptions C118_any_parameters.

Example C118_hyp : params32 demo_galaxy /\ history_input demo_fb demo_halo demo_ts /\ all_eight number demo_u.
Proof. exact (conj demo_galaxy_ok (conj demo_history_ok demo_u_ok)). Qed.
