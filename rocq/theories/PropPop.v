(** Properties of the population model (diffstarpop): C29-C44. *)
From Coq Require Import Reals Lra Lia String QArith Qreals ZArith.
From Coquelicot Require Import Coquelicot.
From Coq Require Import List Bool.
From Verif Require Import XReal ModelUtils ModelKernels ModelSfh ModelPopTables ModelPop SpecCore SpecPop
  PopParamProofs PopKernelProofs MatrixProofs PopMcProofs.
Import List ListNotations.
Open Scope R_scope.

(** The shipped default calibration meets the hypotheses used below: its fields are named
    as published, its values are in bounds and its slopes are non-zero. *)
Example default_meets_hypotheses : exists p P, DEFAULT_DIFFSTARPOP_PARAMS = Some p /\
  holds "" p P /\ pop_in_bounds P /\ slopes_nonzero P.
Proof.
  destruct default_in_bounds as (P & U & H1 & H2 & H3 & _). exists (pop_params P), P.
  repeat split; auto. apply holds_params.
Qed.
Example zero_u_params_hold : holds "u_" (pop_u_params (fun _ => 0)) (fun _ => 0).
Proof. apply holds_u_params. Qed.

(** C29 *)
Theorem C29_pop_bounded_in_bounds : forall u U, holds "u_" u U -> exists P,
  get_bounded_diffstarpop_params u = Some (pop_params P) /\ pop_in_bounds P.
Proof. exact pop_bounded_in_bounds. Qed.
Print Assumptions C29_pop_bounded_in_bounds.

(** C29: parameter by parameter, increasing and onto the published interval. *)
Theorem C29_pop_bounded_coordinatewise : exists f : string -> R -> R,
  (forall u U, holds "u_" u U ->
     get_bounded_diffstarpop_params u = Some (pop_params (fun n => f n (U n)))) /\
  (forall n lo hi, In (n, (lo, hi)) POP_BOUNDS ->
     (forall x, Q2R lo < f n x < Q2R hi) /\
     (forall x y, x < y -> f n x < f n y) /\
     (forall y, Q2R lo < y < Q2R hi -> exists x, f n x = y)).
Proof. exact pop_bounded_coordinatewise. Qed.
Print Assumptions C29_pop_bounded_coordinatewise.

(** C30 *)
Theorem C30_unbounded_bounded : forall u U p, holds "u_" u U ->
  get_bounded_diffstarpop_params u = Some p ->
  get_unbounded_diffstarpop_params p = Some (pop_u_params U).
Proof. exact pop_roundtrip_u. Qed.
Print Assumptions C30_unbounded_bounded.

Theorem C30_bounded_unbounded : forall p P, holds "" p P -> pop_in_bounds P -> exists U,
  get_unbounded_diffstarpop_params p = Some (pop_u_params U) /\
  get_bounded_diffstarpop_params (pop_u_params U) = Some (pop_params P).
Proof. exact pop_unbounded_finite. Qed.
Print Assumptions C30_bounded_unbounded.

(** C31 *)
Theorem C31_clipped_line_bounds : forall x0 y0 m ylo yhi, m <> 0 -> ylo < y0 < yhi ->
  exists f : R -> R,
    (forall x, smoothly_clipped_line (Fin x) (Fin x0) (Fin y0) (Fin m) (Fin ylo) (Fin yhi) = Fin (f x)) /\
    (forall x, ylo < f x < yhi + (y0 - ylo) / 6000) /\
    (y0 - ylo <= 60 * (yhi - y0) -> forall x, f x <= yhi) /\
    (y0 - ylo < 60 * (yhi - y0) -> forall x, f x < yhi).
Proof. exact clipped_line_bounds. Qed.
Print Assumptions C31_clipped_line_bounds.

Example C31_hyp : (-1/2 <> 0) /\ 0 < 1 < 2 /\ 1 - 0 < 60 * (2 - 1).
Proof. lra. Qed.

(** C32: the upper bound is crossed by every line whose anchor is close enough to it. *)
Theorem C32_clipped_line_overshoot_refuted : forall x0 y0 m ylo yhi, m <> 0 -> ylo < y0 < yhi ->
  120 * (yhi - y0) < y0 - ylo -> exists x y,
  smoothly_clipped_line (Fin x) (Fin x0) (Fin y0) (Fin m) (Fin ylo) (Fin yhi) = Fin y /\ yhi < y.
Proof. exact clipped_line_overshoot. Qed.
Print Assumptions C32_clipped_line_overshoot_refuted.

Example C32_hyp : (1 <> 0) /\ 0 < 399/100 < 4 /\ 120 * (4 - 399/100) < 399/100 - 0.
Proof. lra. Qed.

Theorem C32_zero_slope_refuted : forall x x0 y0 ylo yhi, ylo < y0 < yhi ->
  smoothly_clipped_line (Fin x) (Fin x0) (Fin y0) (Fin 0) (Fin ylo) (Fin yhi) = NaN.
Proof. exact clipped_line_zero_slope. Qed.
Print Assumptions C32_zero_slope_refuted.

(** C32: an unbounded slope parameter equal to 0 makes a mean NaN at every halo mass. *)
Theorem C32_zero_u_slope_refuted : forall u U m tp mu mh gy,
  holds "u_" u U -> U "mean_ul_mseq_slp"%string = 0 ->
  exists p mc, get_bounded_diffstarpop_params u = Some p /\
    diffstarpop_means_covs p (Fin m) (Fin tp) (Fin mu) (Fin mh) (Fin gy) = Some mc /\
    nth 2 (mu_mseq mc) (Fin 0) = NaN.
Proof. exact zero_u_slope. Qed.
Print Assumptions C32_zero_u_slope_refuted.

(** C33 *)
Theorem C33_covariances_positive_definite : forall p P m tp mu mh gy,
  holds "" p P -> pop_in_bounds P -> slopes_nonzero P ->
  exists mc, diffstarpop_means_covs p (Fin m) (Fin tp) mu mh gy = Some mc /\
    positive_definite 4 (cov_mseq_ms mc) /\ positive_definite 4 (cov_qseq_ms mc) /\
    positive_definite 4 (cov_qseq_q mc) /\
    (exists a, mu_mseq mc = map Fin a /\ List.length a = 4%nat) /\
    (exists a, mu_qseq mc = map Fin a /\ List.length a = 8%nat).
Proof. exact covariances_pd. Qed.
Print Assumptions C33_covariances_positive_definite.

(** C33: the matrices are diagonal; every scatter exceeds 0.01 and is below its published
    maximum (1, 1, 3, 3 and 1/2, 1, 2, 2 dex) up to one part in 6000. *)
Theorem C33_scatter_bounds : forall p P m tp mu mh gy, holds "" p P -> pop_in_bounds P -> slopes_nonzero P ->
  exists mc s1 s2 s3, diffstarpop_means_covs p (Fin m) (Fin tp) mu mh gy = Some mc /\
    cov_mseq_ms mc = real_matrix 4 (fun i j => if Nat.eqb i j then s1 i ^ 2 else 0) /\
    cov_qseq_ms mc = real_matrix 4 (fun i j => if Nat.eqb i j then s2 i ^ 2 else 0) /\
    cov_qseq_q mc = real_matrix 4 (fun i j => if Nat.eqb i j then s3 i ^ 2 else 0) /\
    forall i, (i < 4)%nat ->
      1/100 < s1 i < nth i [1; 1; 3; 3] 0 * (1 + 1/6000) /\
      1/100 < s2 i < nth i [1; 1; 3; 3] 0 * (1 + 1/6000) /\
      1/100 < s3 i < nth i [1/2; 1; 2; 2] 0 * (1 + 1/6000).
Proof. exact covariances_diag. Qed.
Print Assumptions C33_scatter_bounds.

(** C34 *)
Theorem C34_quenched_fractions : forall p P m tp mu mh gy, holds "" p P -> pop_in_bounds P ->
  exists mc fc fs,
    diffstarpop_means_covs p (Fin m) (Fin tp) (Fin mu) (Fin mh) (Fin gy) = Some mc /\
    mc_frac_cen mc = Fin fc /\ mc_frac_sat mc = Fin fs /\ 0 < fc < 1 /\ 0 < fs < 1.
Proof. exact quenched_fractions. Qed.
Print Assumptions C34_quenched_fractions.

(** C35: the satellite fraction exceeds its value long before infall and grows with the
    time since infall. *)
Theorem C35_satellite_boost : forall p P m tp mu mh, holds "" p P -> pop_in_bounds P ->
  exists (base : R) (fs : R -> R),
    (forall gy, exists mc, diffstarpop_means_covs p (Fin m) (Fin tp) (Fin mu) (Fin mh) (Fin gy) = Some mc /\
                           mc_frac_sat mc = Fin (fs gy)) /\
    0 < base < 1 /\
    (forall gy, base < fs gy < 1) /\
    (forall g1 g2, g1 < g2 -> fs g1 < fs g2) /\
    (forall gy, gy <= -5 -> fs gy - base <= / (1 + 5 * (-5 - gy))).
Proof. exact satellite_boost. Qed.
Print Assumptions C35_satellite_boost.

Theorem C35_qprob_sat_ge : forall p P mu mh q, holds "" p P -> pop_in_bounds P -> 0 <= q <= 1 ->
  exists s ws f, vmap (getattr p) SATQ_NAMES = Some ws /\ nt_make SATQ_NAMES ws = Some s /\
    (forall gy, get_qprob_sat s (Fin mu) (Fin mh) (Fin gy) (Fin q) = Fin (f gy)) /\
    (forall gy, q <= f gy <= 1) /\ (forall g1 g2, g1 <= g2 -> f g1 <= f g2).
Proof. exact qprob_sat_ge. Qed.
Print Assumptions C35_qprob_sat_ge.

(** C35: with the shipped defaults a satellite can be less quenched than a central of the
    same halo mass and peak time. *)
Theorem C35_satellite_ge_central_refuted : exists p m tp mu mh gy mc fc fs,
  DEFAULT_DIFFSTARPOP_PARAMS = Some p /\
  diffstarpop_means_covs p (Fin m) (Fin tp) (Fin mu) (Fin mh) (Fin gy) = Some mc /\
  mc_frac_cen mc = Fin fc /\ mc_frac_sat mc = Fin fs /\ fs < fc - 5 / 100.
Proof. exact satellite_below_central. Qed.
Print Assumptions C35_satellite_ge_central_refuted.

(** C36: any inputs, any random number generator. *)
Theorem C36_cen_is_upid_m1 : forall key split uniform mvn p m tp mu mh gy (k : key),
  (forall n, In n SATQ_NAMES -> getattr p n <> None) ->
  mc_diffstar_u_params_singlegal_cen key split uniform mvn p m tp k
  = mc_diffstar_u_params_singlegal key split uniform mvn p m tp (-1)%Z mu mh gy k.
Proof. exact @cen_is_upid_m1. Qed.
Print Assumptions C36_cen_is_upid_m1.

Theorem C36_upid_switch : forall key split uniform mvn p m tp upid mu mh gy (k : key) ms q f b,
  mc_diffstar_u_params_singlegal key split uniform mvn p m tp upid mu mh gy k = Some (ms, q, f, b) ->
  exists mc, diffstarpop_means_covs p m tp mu mh gy = Some mc /\
    (upid = (-1)%Z -> f = mc_frac_cen mc) /\ (upid <> (-1)%Z -> f = mc_frac_sat mc) /\
    b = xlt (uniform (nth 3 (split k 4%nat) k)) f.
Proof. exact @upid_switch. Qed.
Print Assumptions C36_upid_switch.

(** C36: the switch only affects the quenched fraction and flag. *)
Theorem C36_upid_same_params : forall key split uniform mvn p m tp upid upid' mu mh gy (k : key) ms q f b,
  mc_diffstar_u_params_singlegal key split uniform mvn p m tp upid mu mh gy k = Some (ms, q, f, b) ->
  exists f' b', mc_diffstar_u_params_singlegal key split uniform mvn p m tp upid' mu mh gy k
    = Some (ms, q, f', b').
Proof. exact @upid_same_params. Qed.
Print Assumptions C36_upid_same_params.

(** A random number generator meeting the contracts: keys are numbers, the normal draw
    returns its mean. *)
Example contracts_inhabited :
  splits_ok (fun k n => map (fun i => (10 * k + i)%nat) (seq 0 n)) /\
  mvn_ok (fun (_ : nat) (mean : list xr) (_ : list (list xr)) => mean).
Proof.
  split.
  - intros k n. now rewrite map_length, seq_length.
  - intros k mean cov _. now exists mean.
Qed.

(** C37 *)
Theorem C37_draws_in_bounds : forall (key : Type) split uniform mvn, splits_ok split -> mvn_ok mvn ->
  forall p P m tp upid mu mh gy (k : key), holds "" p P -> pop_in_bounds P -> slopes_nonzero P ->
  exists pms pq f b,
    mc_diffstar_params_singlegal key split uniform mvn p (Fin m) (Fin tp) upid (Fin mu) (Fin mh) (Fin gy) k
    = Some (map_d Fin pms, map_d Fin pq, Fin f, b) /\
    in_bounds pms /\ in_bounds pq /\ 0 < f < 1.
Proof. exact @draws_in_bounds. Qed.
Print Assumptions C37_draws_in_bounds.

Theorem C37_population_draws_in_bounds : forall (key : Type) split uniform mvn, splits_ok split -> mvn_ok mvn ->
  forall p P n m tp upid mu mh gy (k : key), holds "" p P -> pop_in_bounds P -> slopes_nonzero P ->
  List.length m = n -> List.length tp = n -> List.length upid = n ->
  List.length mu = n -> List.length mh = n -> List.length gy = n ->
  exists ms q f b,
    mc_diffstar_params_galpop key split uniform mvn p (map Fin m) (map Fin tp) upid
      (map Fin mu) (map Fin mh) (map Fin gy) k = Some (ms, q, f, b) /\
    cols_len_d n ms /\ cols_len_d n q /\ List.length f = n /\ List.length b = n /\
    forall i, (i < n)%nat -> exists pms pq r, gal_d ms i = map_d Fin pms /\ gal_d q i = map_d Fin pq /\
      nth i f NaN = Fin r /\ in_bounds pms /\ in_bounds pq /\ 0 < r < 1.
Proof. exact @pop_draws_in_bounds. Qed.
Print Assumptions C37_population_draws_in_bounds.

(** C38 *)
Theorem C38_flag_iff_below : forall key split uniform mvn p m tp upid mu mh gy (k : key) ms q f b u,
  mc_diffstar_params_singlegal key split uniform mvn p m tp upid mu mh gy k = Some (ms, q, Fin f, b) ->
  uniform (nth 3 (split k 4%nat) k) = Fin u -> (b = true <-> u < f).
Proof. exact @p_single_flag. Qed.
Print Assumptions C38_flag_iff_below.

Theorem C38_flag_probability : forall (key : Type) (split : key -> nat -> list key) mvn,
  splits_ok split -> mvn_ok mvn ->
  forall p P m tp upid mu mh gy k, holds "" p P -> pop_in_bounds P -> slopes_nonzero P ->
  exists pms pq f (flag : R -> bool),
    (forall u, mc_diffstar_params_singlegal key split (fun _ => Fin u) mvn p (Fin m) (Fin tp) upid
                 (Fin mu) (Fin mh) (Fin gy) k = Some (pms, pq, Fin f, flag u)) /\
    is_RInt (fun u => if flag u then 1 else 0) 0 1 f.
Proof. exact flag_probability. Qed.
Print Assumptions C38_flag_probability.

(** C39 *)
Theorem C39_galpop_u_params : forall (key : Type) split uniform mvn, splits_ok split ->
  forall n p m tp upid mu mh gy (k : key) ms q f b, pop_args n m tp upid mu mh gy ->
  mc_diffstar_u_params_galpop key split uniform mvn p m tp upid mu mh gy k = Some (ms, q, f, b) ->
  cols_len_d n ms /\ cols_len_d n q /\ List.length f = n /\ List.length b = n /\
  forall i, (i < n)%nat ->
    mc_diffstar_u_params_singlegal key split uniform mvn p (nth i m NaN) (nth i tp NaN) (nth i upid 0%Z)
      (nth i mu NaN) (nth i mh NaN) (nth i gy NaN) (nth i (split k n) k)
    = Some (gal_d ms i, gal_d q i, nth i f NaN, nth i b false).
Proof. exact @u_pop_inv. Qed.
Print Assumptions C39_galpop_u_params.

Theorem C39_galpop_params : forall (key : Type) split uniform mvn, splits_ok split ->
  forall n p m tp upid mu mh gy (k : key) ms q f b, pop_args n m tp upid mu mh gy ->
  mc_diffstar_params_galpop key split uniform mvn p m tp upid mu mh gy k = Some (ms, q, f, b) ->
  cols_len_d n ms /\ cols_len_d n q /\ List.length f = n /\ List.length b = n /\
  forall i, (i < n)%nat ->
    mc_diffstar_params_singlegal key split uniform mvn p (nth i m NaN) (nth i tp NaN) (nth i upid 0%Z)
      (nth i mu NaN) (nth i mh NaN) (nth i gy NaN) (nth i (split k n) k)
    = Some (gal_d ms i, gal_d q i, nth i f NaN, nth i b false).
Proof. exact @p_pop_inv. Qed.
Print Assumptions C39_galpop_params.

(** C39: the population draw succeeds whenever every galaxy's own draw does. *)
Theorem C39_galpop_total : forall (key : Type) split uniform mvn, splits_ok split ->
  forall n p m tp upid mu mh gy (k : key), pop_args n m tp upid mu mh gy ->
  (forall i, (i < n)%nat ->
    mc_diffstar_params_singlegal key split uniform mvn p (nth i m NaN) (nth i tp NaN) (nth i upid 0%Z)
      (nth i mu NaN) (nth i mh NaN) (nth i gy NaN) (nth i (split k n) k) <> None) ->
  exists ms q f b, mc_diffstar_params_galpop key split uniform mvn p m tp upid mu mh gy k = Some (ms, q, f, b).
Proof. exact @p_pop_total. Qed.
Print Assumptions C39_galpop_total.

Example C39_hyp : pop_args 2 [Fin 12; Fin 13] [Fin 5; Fin 6] [(-1)%Z; 7%Z] [Fin 0; NaN] [Fin 13; NaN] [Fin 1; NaN].
Proof. repeat split. Qed.

(** C40 *)
Theorem C40_sfh_singlegal : forall key split uniform mvn log_mah_kern p mah m upid mu mh gy (k : key) ts lgt0 fb r,
  mc_diffstar_sfh_singlegal key split uniform mvn log_mah_kern p mah m upid mu mh gy k ts lgt0 fb = Some r ->
  mc_diffstar_params_singlegal key split uniform mvn p m (t_peak mah) upid mu mh gy k
    = Some (diffstar_params_ms r, diffstar_params_q r, frac_q r, mc_is_q r) /\
  sfh_ms r = calc_sfh_singlegal log_mah_kern (diffstar_params_ms r) mah ts lgt0 fb /\
  sfh_q r = calc_sfh_singlegal log_mah_kern (diffstar_params_q r) mah ts lgt0 fb.
Proof. exact @sfh_single_consistent. Qed.
Print Assumptions C40_sfh_singlegal.

Theorem C40_sfh_galpop : forall (key : Type) split uniform mvn log_mah_kern, splits_ok split ->
  forall n p mah m upid mu mh gy (k : key) ts lgt0 fb r, cols_len_mah n mah ->
  pop_args n m (t_peak mah) upid mu mh gy ->
  mc_diffstar_sfh_galpop key split uniform mvn log_mah_kern p mah m upid mu mh gy k ts lgt0 fb = Some r ->
  cols_len_d n (diffstar_params_ms r) /\ cols_len_d n (diffstar_params_q r) /\
  List.length (sfh_ms r) = n /\ List.length (sfh_q r) = n /\
  List.length (frac_q r) = n /\ List.length (mc_is_q r) = n /\
  calc_sfh_galpop log_mah_kern (diffstar_params_ms r) mah ts lgt0 fb = Some (sfh_ms r) /\
  calc_sfh_galpop log_mah_kern (diffstar_params_q r) mah ts lgt0 fb = Some (sfh_q r) /\
  forall i, (i < n)%nat ->
    mc_diffstar_sfh_singlegal key split uniform mvn log_mah_kern p (gal_mah mah i) (nth i m NaN)
      (nth i upid 0%Z) (nth i mu NaN) (nth i mh NaN) (nth i gy NaN) (nth i (split k n) k) ts lgt0 fb
    = Some (mkMCDiffstar (gal_d (diffstar_params_ms r) i) (gal_d (diffstar_params_q r) i)
              (nth i (sfh_ms r) []) (nth i (sfh_q r) []) (nth i (frac_q r) NaN) (nth i (mc_is_q r) false)).
Proof. exact @s_pop_inv. Qed.
Print Assumptions C40_sfh_galpop.

Theorem C40_sfh_galpop_total : forall (key : Type) split uniform mvn log_mah_kern, splits_ok split ->
  forall n p mah m upid mu mh gy (k : key) ts lgt0 fb, cols_len_mah n mah ->
  pop_args n m (t_peak mah) upid mu mh gy ->
  (forall i, (i < n)%nat ->
    mc_diffstar_params_singlegal key split uniform mvn p (nth i m NaN) (nth i (t_peak mah) NaN) (nth i upid 0%Z)
      (nth i mu NaN) (nth i mh NaN) (nth i gy NaN) (nth i (split k n) k) <> None) ->
  exists r, mc_diffstar_sfh_galpop key split uniform mvn log_mah_kern p mah m upid mu mh gy k ts lgt0 fb = Some r.
Proof. exact @s_pop_total. Qed.
Print Assumptions C40_sfh_galpop_total.

(** C40: main-sequence draws carry the unquenched defaults... *)
Theorem C40_main_sequence_unquenched : forall (key : Type) split uniform mvn, splits_ok split -> mvn_ok mvn ->
  forall p P m tp upid mu mh gy (k : key), holds "" p P -> pop_in_bounds P -> slopes_nonzero P ->
  exists pms pq f b,
    mc_diffstar_params_singlegal key split uniform mvn p (Fin m) (Fin tp) upid (Fin mu) (Fin mh) (Fin gy) k
    = Some (map_d Fin pms, pq, f, b) /\
    map_q Fin (slice_q pms) = DEFAULT_Q_PARAMS_UNQUENCHED /\ -1/100 < d_lg_drop pms < 0.
Proof. exact @ms_barely_quenched. Qed.
Print Assumptions C40_main_sequence_unquenched.

(** ... so that their SFR follows the main sequence to within 0.01 dex at all times. *)
Theorem C40_main_sequence_sfr : forall (key : Type) split uniform mvn log_mah_kern, splits_ok split -> mvn_ok mvn ->
  forall p P m tp upid mu mh gy (k : key) mah ts lgt0 fb h,
  holds "" p P -> pop_in_bounds P -> slopes_nonzero P -> halo_history log_mah_kern mah lgt0 h ts -> 0 <= fb ->
  exists pms pq f b sfr,
    mc_diffstar_params_singlegal key split uniform mvn p (Fin m) (Fin tp) upid (Fin mu) (Fin mh) (Fin gy) k
    = Some (map_d Fin pms, pq, f, b) /\
    calc_sfh_singlegal log_mah_kern (map_d Fin pms) mah (map Fin ts) lgt0 (Fin fb) = map Fin sfr /\
    List.length sfr = List.length ts /\
    forall i, (i < List.length ts)%nat ->
      pow10R (-1/100) * ms_spec pms fb (h (nth i ts 0)) <= nth i sfr 0
      <= Rmax (1 / 10 ^ 14) (ms_spec pms fb (h (nth i ts 0))).
Proof. exact @ms_sfr_lower. Qed.
Print Assumptions C40_main_sequence_sfr.

(** C41 *)
Theorem C41_select_params : forall n p1 p0 mask, cols_len_d n p1 -> cols_len_d n p0 -> List.length mask = n ->
  exists r, mc_select_diffstar_params p1 p0 mask = Some r /\ cols_len_d n r /\
    forall i, (i < n)%nat -> gal_d r i = if nth i mask false then gal_d p1 i else gal_d p0 i.
Proof. exact select_spec. Qed.
Print Assumptions C41_select_params.

Example C41_hyp : cols_len_d 2 (map_d (fun x => [Fin x; Fin (x + 1)]) (mkDiffstar 1 2 3 4 5 6 7 8)).
Proof. repeat split. Qed.

(** C42 *)
Theorem C42_override : forall A (varied defaults : list (string * A)), NoDup (map fst varied) ->
  incl (map fst varied) (map fst defaults) ->
  exists q, get_all_params_from_varied varied defaults = Some q /\ map fst q = map fst defaults /\
    (forall n, In n (map fst defaults) ->
       assoc n q = match assoc n varied with Some v => Some v | None => assoc n defaults end).
Proof. exact @varied_override. Qed.
Print Assumptions C42_override.

Theorem C42_unknown_name : forall A (varied defaults : list (string * A)) n,
  In n (map fst varied) -> ~ In n (map fst defaults) ->
  get_all_params_from_varied varied defaults = None.
Proof. exact @varied_unknown. Qed.
Print Assumptions C42_unknown_name.

Theorem C42_all_u_params : forall varied : list (string * xr), NoDup (map fst varied) ->
  incl (map fst varied) (map (fun n => ("u_" ++ n)%string) pop_names) ->
  exists d q, DEFAULT_DIFFSTARPOP_U_PARAMS = Some d /\ get_all_diffstarpop_u_params varied = Some q /\
    map fst q = map (fun n => ("u_" ++ n)%string) pop_names /\
    (forall n, In n pop_names ->
       assoc ("u_" ++ n)%string q = match assoc ("u_" ++ n)%string varied with
                          | Some v => Some v | None => assoc ("u_" ++ n)%string d end).
Proof. exact all_u_params_override. Qed.
Print Assumptions C42_all_u_params.

Example C42_hyp : let varied := [("u_mean_ul_mseq_slp"%string, Fin 3)] in NoDup (map fst varied) /\
  incl (map fst varied) (map (fun n => ("u_" ++ n)%string) pop_names).
Proof.
  split; [repeat constructor; intros []|].
  intros n [<-|[]]. apply (in_map (fun n => ("u_" ++ n)%string) _ "mean_ul_mseq_slp"%string).
  assert (T : existsb (String.eqb "mean_ul_mseq_slp") pop_names = true) by (vm_compute; reflexivity).
  apply existsb_exists in T as (s & T1 & T2). apply String.eqb_eq in T2. now subst.
Qed.

(** C43 *)
Theorem C43_cov_corr_roundtrip : forall n (S : nat -> nat -> R), (forall i, (i < n)%nat -> 0 < S i i) ->
  exists C : nat -> nat -> R,
    correlation_from_covariance (real_matrix n S) = real_matrix n C /\
    (forall i, (i < n)%nat -> C i i = 1) /\
    ((forall i j, S i j = S j i) -> forall i j, C i j = C j i) /\
    covariance_from_correlation (real_matrix n C) (map (fun i => Fin (sqrt (S i i))) (seq 0 n))
    = real_matrix n S.
Proof. exact cov_corr_roundtrip. Qed.
Print Assumptions C43_cov_corr_roundtrip.

Theorem C43_corr_cov_roundtrip : forall n (C : nat -> nat -> R) (s : nat -> R),
  (forall i, (i < n)%nat -> C i i = 1 /\ 0 < s i) ->
  exists S, covariance_from_correlation (real_matrix n C) (map (fun i => Fin (s i)) (seq 0 n)) = real_matrix n S /\
    (forall i, (i < n)%nat -> S i i = s i ^ 2) /\
    correlation_from_covariance (real_matrix n S) = real_matrix n C.
Proof. exact corr_cov_roundtrip. Qed.
Print Assumptions C43_corr_cov_roundtrip.

Example C43_hyp : forall i, (i < 3)%nat -> (fun i j : nat => if Nat.eqb i j then 1 else 1/2) i i = 1 /\ 0 < INR i + 2.
Proof. intros i _. cbv beta. rewrite Nat.eqb_refl. split; auto. assert (H := pos_INR i). lra. Qed.

(** C44 *)
Theorem C44_calibrations_in_bounds : forall t, In t CALIBRATIONS -> exists P U,
  calibration t = Some (pop_params P) /\ pop_in_bounds P /\ slopes_nonzero P /\
  get_unbounded_diffstarpop_params (pop_params P) = Some (pop_u_params U) /\
  get_bounded_diffstarpop_params (pop_u_params U) = Some (pop_params P).
Proof. exact calibrations_in_bounds. Qed.
Print Assumptions C44_calibrations_in_bounds.

Theorem C44_default_in_bounds : exists P U,
  DEFAULT_DIFFSTARPOP_PARAMS = Some (pop_params P) /\ pop_in_bounds P /\ slopes_nonzero P /\
  DEFAULT_DIFFSTARPOP_U_PARAMS = Some (pop_u_params U) /\
  get_bounded_diffstarpop_params (pop_u_params U) = Some (pop_params P).
Proof. exact default_in_bounds. Qed.
Print Assumptions C44_default_in_bounds.

Example C44_hyp : List.length CALIBRATIONS = 10%nat.
Proof. reflexivity. Qed.
