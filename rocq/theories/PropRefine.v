(** Properties of star formation histories on finer and finer time tables, and of the
    directions in which the parameters move them: C127, C128. *)
From Coq Require Import Reals Lra Lia List.
From Coquelicot Require Import Coquelicot.
From Verif Require Import XReal RealFacts ModelUtils ModelKernels ModelSfh SpecCore SpecRefine
  SfhProofs GasProofs RefineProofs DirectionProofs RefineExamples.
Import List ListNotations.
Open Scope R_scope.

(** C127: on fine enough tables the stellar mass grows by the integral of the star formation
    rate, as closely as one likes. *)
Theorem C127_converges : forall log_mah_kern p mah lgt0 fb (m : R -> R) a b, 0 < a -> (forall t, a <= t <= b -> continuous m t) ->
  forall eps, 0 < eps -> exists h, 0 < h /\
  forall ts, halo_history log_mah_kern mah lgt0 m ts -> increasing ts -> Forall (fun t => a <= t <= b) ts -> spacing h ts ->
  exists sfh smh,
    calc_sfh_singlegal_smh log_mah_kern (map_d Fin p) mah (map Fin ts) lgt0 (Fin fb) = Some (map Fin sfh, map Fin smh) /\
    length smh = length ts /\
    grows_by_integral (fun t => sfr_spec p fb (m t) t) ts smh eps.
Proof. exact smh_converges. Qed.
Print Assumptions C127_converges.

(** C127: for rates with a bounded second derivative the error falls with the square of the spacing. *)
Theorem C127_second_order : forall (f f1 f2 : R -> R) K a b h ts,
  (forall t, a <= t <= b -> is_derive f t (f1 t)) -> (forall t, a <= t <= b -> is_derive f1 t (f2 t)) ->
  (forall t, a <= t <= b -> Rabs (f2 t) <= K) ->
  increasing ts -> Forall (fun t => a <= t <= b) ts -> spacing h ts ->
  exists mass, cumulative_mstar_formed (map Fin ts) (map Fin (map f ts)) = Some (map Fin mass) /\
    length mass = length ts /\ grows_by_integral f ts mass (10 ^ 9 * (K * h ^ 2 / 12)).
Proof. exact mass_second_order. Qed.
Print Assumptions C127_second_order.

(** A halo of mass 10^12 t on a table of spacing 10.5; its logarithm is continuous. *)
Example C127_hyp : (forall t, 1 <= t <= 13 -> continuous (fun t => log10R (10 ^ 12 * t)) t) /\
  halo_history linear_halo mah_any LGT0 (fun t => log10R (10 ^ 12 * t)) [1; 5 / 2; 13] /\
  increasing [1; 5 / 2; 13] /\ Forall (fun t => 1 <= t <= 13) [1; 5 / 2; 13] /\ spacing (21 / 2) [1; 5 / 2; 13].
Proof. exact refine_example. Qed.
(** For the rate t^2 the bound is attained: from 2 to 4 Gyr the table gains 20e9, the integral is 56/3 e9. *)
Example C127_sharp : (forall t, 1 <= t <= 4 -> is_derive (fun t => t ^ 2) t (2 * t)) /\ (forall t, 1 <= t <= 4 -> is_derive (fun t => 2 * t) t 2) /\
  exists mass, cumulative_mstar_formed (map Fin [1; 2; 4]) (map Fin (map (fun t => t ^ 2) [1; 2; 4])) = Some (map Fin mass) /\
  nth 2 mass 0 - nth 1 mass 0 - 10 ^ 9 * RInt (fun t => t ^ 2) 2 4 = 10 ^ 9 * (2 * 2 ^ 2 / 12) * (4 - 2).
Proof. exact sharp_example. Qed.

(** C128: no smaller efficiency, no deeper drop, no lower final level and more favourable power
    laws never lower a star formation rate or a stellar mass. *)
Theorem C128_no_less : forall log_mah_kern p p' mah ts lgt0 fb m, 0 <= fb ->
  halo_history log_mah_kern mah lgt0 m ts -> increasing (1 / 1000 :: ts) -> forms_no_less (map m ts) p p' ->
  exists s1 s2 m1 m2,
    calc_sfh_singlegal_smh log_mah_kern (map_d Fin p) mah (map Fin ts) lgt0 (Fin fb) = Some (map Fin s1, map Fin m1) /\
    calc_sfh_singlegal_smh log_mah_kern (map_d Fin p') mah (map Fin ts) lgt0 (Fin fb) = Some (map Fin s2, map Fin m2) /\
    Forall2 Rle s1 s2 /\ Forall2 Rle m1 m2.
Proof. exact no_less. Qed.
Print Assumptions C128_no_less.

(** C128: below the critical mass, a larger critical mass lowers both. *)
Theorem C128_lgmcrit_below : forall log_mah_kern p p' mah ts lgt0 fb m, 0 <= fb ->
  halo_history log_mah_kern mah lgt0 m ts -> increasing (1 / 1000 :: ts) -> differ_in_lgmcrit p p' ->
  d_indx_hi p <= d_indx_lo p -> 0 <= d_indx_lo p + d_indx_hi p ->
  d_lgmcrit p <= d_lgmcrit p' -> Forall (fun t => m t <= d_lgmcrit p) ts ->
  exists s1 s2 m1 m2,
    calc_sfh_singlegal_smh log_mah_kern (map_d Fin p') mah (map Fin ts) lgt0 (Fin fb) = Some (map Fin s1, map Fin m1) /\
    calc_sfh_singlegal_smh log_mah_kern (map_d Fin p) mah (map Fin ts) lgt0 (Fin fb) = Some (map Fin s2, map Fin m2) /\
    Forall2 Rle s1 s2 /\ Forall2 Rle m1 m2.
Proof. exact lgmcrit_below. Qed.
Print Assumptions C128_lgmcrit_below.

(** C128: above the critical mass, a larger critical mass raises both. *)
Theorem C128_lgmcrit_above : forall log_mah_kern p p' mah ts lgt0 fb m, 0 <= fb ->
  halo_history log_mah_kern mah lgt0 m ts -> increasing (1 / 1000 :: ts) -> differ_in_lgmcrit p p' ->
  d_indx_hi p <= d_indx_lo p -> d_indx_lo p + d_indx_hi p <= 0 ->
  d_lgmcrit p <= d_lgmcrit p' -> Forall (fun t => d_lgmcrit p' <= m t) ts ->
  exists s1 s2 m1 m2,
    calc_sfh_singlegal_smh log_mah_kern (map_d Fin p) mah (map Fin ts) lgt0 (Fin fb) = Some (map Fin s1, map Fin m1) /\
    calc_sfh_singlegal_smh log_mah_kern (map_d Fin p') mah (map Fin ts) lgt0 (Fin fb) = Some (map Fin s2, map Fin m2) /\
    Forall2 Rle s1 s2 /\ Forall2 Rle m1 m2.
Proof. exact lgmcrit_above. Qed.
Print Assumptions C128_lgmcrit_above.

(** C128: raising the efficiency by d dex multiplies a rate above the floor by 10^d. *)
Theorem C128_lgy_scales : forall log_mah_kern (p p' : DiffstarParams R) mah t lgt0 fb d m s1 s2,
  p' = mkDiffstar (d_lgmcrit p) (d_lgy_at_mcrit p + d) (d_indx_lo p) (d_indx_hi p)
         (d_lg_qt p) (d_qlglgdt p) (d_lg_drop p) (d_lg_rejuv p) ->
  0 < t -> log_mah_kern mah (Fin t) lgt0 = Fin m ->
  calc_sfh_singlegal log_mah_kern (map_d Fin p) mah [Fin t] lgt0 (Fin fb) = [Fin s1] ->
  calc_sfh_singlegal log_mah_kern (map_d Fin p') mah [Fin t] lgt0 (Fin fb) = [Fin s2] ->
  1 / 10 ^ 14 < s1 -> 1 / 10 ^ 14 < s2 -> s2 = pow10R d * s1.
Proof. exact lgy_scales. Qed.
Print Assumptions C128_lgy_scales.

(** C128: a later quenching time can lower the rate. *)
Theorem C128_later_quenching_refuted : in_bounds early /\ in_bounds late /\
  exists log_mah_kern mah lgt0 t s1 s2, 0 < t /\
  calc_sfh_singlegal log_mah_kern (map_d Fin early) mah [Fin t] lgt0 (Fin (1 / 10)) = [Fin s1] /\
  calc_sfh_singlegal log_mah_kern (map_d Fin late) mah [Fin t] lgt0 (Fin (1 / 10)) = [Fin s2] /\
  s2 < s1.
Proof. exact later_quenching_lowers. Qed.
Print Assumptions C128_later_quenching_refuted.

(** Five parameters move, in the halo of mass 10^12 t, which is above and below the critical
    masses 12 and 14. *)
Example C128_hyp : increasing (1 / 1000 :: [1; 5 / 2; 13]) /\
  forms_no_less (map (fun t => log10R (10 ^ 12 * t)) [1; 5 / 2; 13]) early (mkDiffstar 12 (-9) 2 (-1 / 2) (1 / 2) (-1) (-1) (-1 / 2)) /\
  differ_in_lgmcrit (mkDiffstar 14 (-10) 1 (-1) (1 / 2) (-1) (-2) (-1)) (mkDiffstar 15 (-10) 1 (-1) (1 / 2) (-1) (-2) (-1)) /\
  Forall (fun t => log10R (10 ^ 12 * t) <= 14) [1; 5 / 2; 13] /\
  differ_in_lgmcrit (mkDiffstar 11 (-10) 1 (-1) (1 / 2) (-1) (-2) (-1)) early /\
  Forall (fun t => 12 <= log10R (10 ^ 12 * t)) [1; 5 / 2; 13].
Proof. exact direction_example. Qed.
