(** Properties of the population scaling relations: C103-C105. *)
From Coq Require Import Reals Lra List Bool String QArith ZArith.
From Verif Require Import XReal ModelUtils ModelKernels ModelSfh ModelPopTables ModelPop SpecPop SpecScaling SpecClose
  PopParamProofs ScalingProofs ScalingTop TightScaling.
Import ListNotations.
Open Scope R_scope.

(** C103: what each of the 88 parameters does. *)
Theorem C103_relations : forall p P m tp mu mh gy, holds "" p P -> pop_in_bounds P -> slopes_nonzero P ->
  diffstarpop_means_covs p (Fin m) (Fin tp) (Fin mu) (Fin mh) (Fin gy) = Some (mkMC
    (Fin (frac "cen" P m tp)) (Fin (frac_sat P m tp mu mh gy))
    (map Fin (mean_ms P m)) (map Fin (mean_q P m tp))
    (uncorrelated (std_ms "mseq" P m)) (uncorrelated (std_ms "qseq" P m)) (uncorrelated (std_q P m))).
Proof. exact relations. Qed.
Print Assumptions C103_relations.

(** C103: the means that follow a kept line are on the straight line, stopped one percent of the way from the bounds to
    the anchor, up to 1/6000 of the distance from the lower bound to the anchor. *)
Theorem C103_kept_close : forall p P m tp mu mh gy, holds "" p P -> pop_in_bounds P -> slopes_nonzero P ->
  exists mc, diffstarpop_means_covs p (Fin m) (Fin tp) (Fin mu) (Fin mh) (Fin gy) = Some mc /\
    let close xs := fun e : nat * string * (R * R) => let '(i, name, (lo, hi)) := e in
      exists x, nth i xs NaN = Fin x /\ Rabs (x - stopped_line P name lo hi m) <= (P (name ++ "_int")%string - lo) / 6000 in
    Forall (close (mu_mseq mc)) stopped_mseq /\ Forall (close (mu_qseq mc)) stopped_qseq.
Proof. exact means_stopped. Qed.
Print Assumptions C103_kept_close.

(** C103: the means that follow a bent relation are on the broken line with slopes [lo] and [hi] through the turning
    point, up to a ninth of the change of slope. *)
Theorem C103_bent_close : forall p P m tp mu mh gy, holds "" p P -> pop_in_bounds P -> slopes_nonzero P ->
  exists mc, diffstarpop_means_covs p (Fin m) (Fin tp) (Fin mu) (Fin mh) (Fin gy) = Some mc /\
    let close xs := fun e : nat * string => let (i, name) := e in
      exists x, nth i xs NaN = Fin x /\ Rabs (x - broken_line P name m) <= Rabs (P (name ++ "_hi")%string - P (name ++ "_lo")%string) / 9 in
    Forall (close (mu_mseq mc)) broken_mseq /\ Forall (close (mu_qseq mc)) broken_qseq.
Proof. exact means_bent. Qed.
Print Assumptions C103_bent_close.

Example C103_hyp : exists p P, calibration params_diffstarfits_mgash_tng = Some p /\
  holds "" p P /\ pop_in_bounds P /\ slopes_nonzero P.
Proof.
  destruct (table_good params_diffstarfits_mgash_tng) as (p & H1 & H2 & H3 & H4); [simpl; tauto|].
  exists p. eexists. eauto.
Qed.

(** C104: the distributions the parameters are drawn from, and the random keys used. *)
Theorem C104_draws : forall key (split : key -> nat -> list key) uniform mvn
    p P m tp upid mu mh gy k k1 k2 k3 k4 a b c d a' b' c' d' e f g h,
  holds "" p P -> pop_in_bounds P -> slopes_nonzero P ->
  split k 4%nat = [k1; k2; k3; k4] ->
  mvn k1 (map Fin (mean_ms P m)) (uncorrelated (std_ms "mseq" P m)) = [a; b; c; d] ->
  mvn k2 (map Fin (firstn 4 (mean_q P m tp))) (uncorrelated (std_ms "qseq" P m)) = [a'; b'; c'; d'] ->
  mvn k3 (map Fin (skipn 4 (mean_q P m tp))) (uncorrelated (std_q P m)) = [e; f; g; h] ->
  let fq := Fin (frac_of upid P m tp mu mh gy) in
  let u_ms := mkDiffstar a b c d (Fin 5) (Fin 5) (Fin 5) (Fin 5) in
  let u_q := mkDiffstar a' b' c' d' e f g h in
  mc_diffstar_u_params_singlegal key split uniform mvn p (Fin m) (Fin tp) upid (Fin mu) (Fin mh) (Fin gy) k
    = Some (u_ms, u_q, fq, xlt (uniform k4) fq) /\
  mc_diffstar_params_singlegal key split uniform mvn p (Fin m) (Fin tp) upid (Fin mu) (Fin mh) (Fin gy) k
    = Some (get_bounded_diffstar_params u_ms, get_bounded_diffstar_params u_q, fq, xlt (uniform k4) fq).
Proof. exact @draws. Qed.
Print Assumptions C104_draws.

(** A generator that returns the means, with keys numbered by splitting. *)
Example C104_hyp : forall P m tp,
  let split := fun (k : list nat) n => map (fun i => i :: k) (seq 0 n) in
  let mvn := fun (k : list nat) (mean : list xr) (cov : list (list xr)) => mean in
  split [7%nat] 4%nat = [[0; 7]; [1; 7]; [2; 7]; [3; 7]]%nat /\
  mvn [0; 7]%nat (map Fin (mean_ms P m)) (uncorrelated (std_ms "mseq" P m))
    = [Fin (bent P "mean_ulgm_mseq" m); Fin (bent P "mean_ulgy_mseq" m);
       Fin (line_in P "mean_ul_mseq" (-3) 5 m); Fin (line_in P "mean_uh_mseq" (-5) 3 m)] /\
  List.length (mvn [2; 7]%nat (map Fin (skipn 4 (mean_q P m tp))) (uncorrelated (std_q P m))) = 4%nat.
Proof. intros. repeat split. Qed.

(** C105: the quenched fraction rises with halo mass where the floor is below the ceiling,
    falls where it is above, and is constant where they agree. *)
Theorem C105_fraction_vs_mass : forall p P m1 m2 tp mu mh gy mc1 mc2,
  holds "" p P -> pop_in_bounds P -> slopes_nonzero P -> m1 < m2 ->
  diffstarpop_means_covs p (Fin m1) (Fin tp) (Fin mu) (Fin mh) (Fin gy) = Some mc1 ->
  diffstarpop_means_covs p (Fin m2) (Fin tp) (Fin mu) (Fin mh) (Fin gy) = Some mc2 ->
  exists c1 c2 s1 s2, mc_frac_cen mc1 = Fin c1 /\ mc_frac_cen mc2 = Fin c2 /\ mc_frac_sat mc1 = Fin s1 /\ mc_frac_sat mc2 = Fin s2 /\
    (frac_floor "cen" P tp < P "frac_quench_cen_yhi"%string -> c1 < c2) /\
    (P "frac_quench_cen_yhi"%string < frac_floor "cen" P tp -> c2 < c1) /\
    (frac_floor "cen" P tp = P "frac_quench_cen_yhi"%string -> c1 = c2) /\
    (frac_floor "sat" P tp < P "frac_quench_sat_yhi"%string -> s1 < s2) /\
    (P "frac_quench_sat_yhi"%string < frac_floor "sat" P tp -> s2 < s1) /\
    (frac_floor "sat" P tp = P "frac_quench_sat_yhi"%string -> s1 = s2).
Proof. exact fraction_vs_mass. Qed.
Print Assumptions C105_fraction_vs_mass.

(** C105: seven of the ten published tables: the central quenched fraction rises with halo
    mass at every peak time. *)
Theorem C105_published_rise : forall t m1 m2 tp mu mh gy, In t tables_rising -> m1 < m2 ->
  exists p mc1 mc2 c1 c2, calibration t = Some p /\
    diffstarpop_means_covs p (Fin m1) (Fin tp) (Fin mu) (Fin mh) (Fin gy) = Some mc1 /\
    diffstarpop_means_covs p (Fin m2) (Fin tp) (Fin mu) (Fin mh) (Fin gy) = Some mc2 /\
    mc_frac_cen mc1 = Fin c1 /\ mc_frac_cen mc2 = Fin c2 /\ c1 < c2.
Proof. exact published_rise. Qed.
Print Assumptions C105_published_rise.

(** C105: the other three: it falls with halo mass for every halo that peaked in the first
    3 Gyr (refutes "more massive centrals are more often quenched"). *)
Theorem C105_rises_with_mass_refuted : forall t m1 m2 tp mu mh gy, In t tables_falling -> tp <= 3 -> m1 < m2 ->
  exists p mc1 mc2 c1 c2, calibration t = Some p /\
    diffstarpop_means_covs p (Fin m1) (Fin tp) (Fin mu) (Fin mh) (Fin gy) = Some mc1 /\
    diffstarpop_means_covs p (Fin m2) (Fin tp) (Fin mu) (Fin mh) (Fin gy) = Some mc2 /\
    mc_frac_cen mc1 = Fin c1 /\ mc_frac_cen mc2 = Fin c2 /\ c2 < c1.
Proof. exact published_fall. Qed.
Print Assumptions C105_rises_with_mass_refuted.

Example C105_hyp : In params_diffstarpopfits_mgash_tng tables_rising /\ In params_diffstarfits_mgash_tng tables_falling /\
  (List.length tables_rising + List.length tables_falling = List.length CALIBRATIONS)%nat.
Proof. simpl. tauto. Qed.
