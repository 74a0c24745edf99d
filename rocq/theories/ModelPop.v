(** Model of diffstar/diffstarpop: utils.py, param_utils.py, kernels/*.py and
    mc_diffstarpop_mgash.py.  Definitions only.
    Paths are relative to /repo/diffstar/diffstarpop. *)
From Coq Require Import Reals List Bool ZArith QArith String.
From Coq Require Import Qreals.
From Verif Require Import XReal ModelUtils ModelKernels ModelSfh ModelPopTables.
Import ListNotations.
Open Scope R_scope.

(** ** Python namedtuples *)

(** A namedtuple: field names with values, in order. *)
Definition nt (A : Type) := list (string * A).
Definition fields {A} (p : nt A) : list string := map fst p.
Definition values {A} (p : nt A) : list A := map snd p.

(** getattr; AttributeError is [None]. *)
Fixpoint getattr {A} (p : nt A) (name : string) : option A :=
  match p with
  | [] => None
  | (k, v) :: rest => if String.eqb name k then Some v else getattr rest name
  end.
(** [p.name] on a tuple built by the module itself, whose fields are known: a missing
    field poisons with NaN instead of raising. *)
Definition attr (p : nt xr) (name : string) : xr :=
  match getattr p name with Some v => v | None => NaN end.
(** [cls._make(values)] / [cls( *values)]: TypeError on a wrong count. *)
Definition nt_make {A} (names : list string) (vals : list A) : option (nt A) :=
  if Nat.eqb (List.length names) (List.length vals) then Some (combine names vals) else None.
(** [cls( **kw)]: TypeError on a missing or an unexpected name; the values in field order. *)
Definition nt_kwargs {A} (names : list string) (kw : nt A) : option (list A) :=
  if forallb (fun k => existsb (String.eqb k) names) (fields kw)
  then vmap (getattr kw) names else None.
(** [p._replace( **kw)]: ValueError on an unexpected name. *)
Fixpoint nt_set {A} (p : nt A) (name : string) (v : A) : option (nt A) :=
  match p with
  | [] => None
  | (k, w) :: rest =>
      if String.eqb name k then Some ((k, v) :: rest)
      else match nt_set rest name v with Some r => Some ((k, w) :: r) | None => None end
  end.
Fixpoint nt_replace {A} (p : nt A) (kw : nt A) : option (nt A) :=
  match kw with
  | [] => Some p
  | (k, v) :: rest => match nt_set p k v with Some p' => nt_replace p' rest | None => None end
  end.

Definition Q2X (q : Q) : xr := Fin (Q2R q).
Definition QQ2X (b : Q * Q) : xr * xr := (Q2X (fst b), Q2X (snd b)).
Definition u_name (n : string) : string := ("u_" ++ n)%string.

(** ** utils.py: [_sigmoid] (12-35) and [_inverse_sigmoid] (38-41) are the same text as in
    diffstar/utils.py; [sigmoid] and [inverse_sigmoid] are used for both. *)

(** utils.py:86-95 [_tw_cuml_lax_kern] *)
Definition tw_cuml_lax_kern (x m h : xr) : xr :=
  let z := ((x - m) / h)%X in
  let val := tw_poly z in
  let val := if (z <? Fin (-3))%X then Fin 0 else val in
  if (Fin 3 <? z)%X then Fin 1 else val.

(** utils.py:98-105 [_tw_bin_weight_lax_kern] *)
Definition tw_bin_weight_lax_kern (x sig lo hi : xr) : xr :=
  let a := tw_cuml_lax_kern x lo sig in
  let b := tw_cuml_lax_kern x hi sig in
  (a - b)%X.

(** *** Square matrices as lists of rows *)
Definition matrix := list (list xr).
Definition ent (A : matrix) (i j : nat) : xr := at_ (nth i A []) j.
Definition mk_matrix (n : nat) (f : nat -> nat -> xr) : matrix :=
  map (fun i => map (fun j => f i j) (seq 0 n)) (seq 0 n).
(** jnp.diag of a vector, jnp.diag of a matrix, jnp.outer, jnp.dot, M.T *)
Definition diag_of (v : list xr) : matrix :=
  mk_matrix (List.length v) (fun i j => if Nat.eqb i j then at_ v i else Fin 0).
Definition diag_part (A : matrix) : list xr := map (fun i => ent A i i) (seq 0 (List.length A)).
Definition outer (v w : list xr) : matrix := map (fun a => map (fun b => a * b)%X w) v.
Definition mat_dot (A B : matrix) : matrix :=
  let n := List.length A in
  mk_matrix n (fun i j => xsum (map (fun k => ent A i k * ent B k j)%X (seq 0 n))).
Definition mat_T (A : matrix) : matrix := mk_matrix (List.length A) (fun i j => ent A j i).
Definition mat_map2 (f : xr -> xr -> xr) (A B : matrix) : matrix := map2 (map2 f) A B.

(** utils.py:111-129 [correlation_from_covariance] *)
Definition correlation_from_covariance (cov : matrix) : matrix :=
  let v := map xsqrt (diag_part cov) in
  let outer_v := outer v v in
  let corr := mat_map2 xdiv cov outer_v in
  mat_map2 (fun c r => if xeq c (Fin 0) then Fin 0 else r) cov corr.

(** utils.py:132-151 [covariance_from_correlation] *)
Definition covariance_from_correlation (corr : matrix) (evals : list xr) : matrix :=
  let D := diag_of evals in
  mat_dot (mat_dot D corr) D.

(** utils.py:154-201 [smoothly_clipped_line] *)
Definition smoothly_clipped_line (x x0 y0 m y_lo y_hi : xr) : xr :=
  let x_lo := ((y_lo - y0) / m + x0)%X in
  let x_hi := ((y_hi - y0) / m + x0)%X in
  let dx_lo := (x0 - x_lo)%X in
  let dx_hi := (x_hi - x0)%X in
  let eps_lo := (dx_lo / Fin 100)%X in
  let eps_hi := (dx_hi / Fin 100)%X in
  let xc_lo := (x_lo + eps_lo)%X in
  let xc_hi := (x_hi - eps_hi)%X in
  let y_lo_bound := (y0 + m * (xc_lo - x0))%X in
  let y_hi_bound := (y0 + m * (xc_hi - x0))%X in
  let CLIPPING_K := (Fin 20 / eps_lo)%X in
  let y_unclipped := (y0 + m * (x - x0))%X in
  let y_clipped_from_below := sigmoid x xc_lo CLIPPING_K y_lo_bound y_unclipped in
  sigmoid x xc_hi CLIPPING_K y_clipped_from_below y_hi_bound.

(** ** kernels/sfh_pdf_mgash.py *)

(** 255 [QseqParams] field names, 259-260 [QseqUParams] field names *)
Definition QSEQ_NAMES : list string := map fst SFH_PDF_QUENCH_PDICT.
Definition QSEQ_UNAMES : list string := map u_name QSEQ_NAMES.
(** 256 *)
Definition SFH_PDF_QUENCH_PARAMS : nt xr := map (fun kv => (fst kv, Q2X (snd kv))) SFH_PDF_QUENCH_PDICT.
(** 257: keyword construction orders the bounds by the field names of [QseqParams]. *)
Definition SFH_PDF_QUENCH_PBOUNDS : option (list (xr * xr)) :=
  match nt_kwargs QSEQ_NAMES SFH_PDF_QUENCH_BOUNDS_PDICT with
  | Some bs => Some (map QQ2X bs)
  | None => None
  end.
(** 262-263 [BOUNDING_VALS.name]: a pair of floats *)
Definition BOUNDING_VALS (name : string) : xr * xr :=
  match getattr BOUNDING_VALS_PDICT name with Some b => QQ2X b | None => (NaN, NaN) end.

(** 21, 24 *)
Definition LGM_X0 : xr := Fin (125 / 10).
Definition BOUNDING_K : xr := Fin (1 / 10).

(** 266-268 [line_model] *)
Definition line_model (x y0 m : xr) (b : xr * xr) : xr :=
  smoothly_clipped_line x LGM_X0 y0 m (fst b) (snd b).

(** 271-274 [_sig_slope] *)
Definition sig_slope (x xtp ytp x0 slope_k lo hi : xr) : xr :=
  let slope := sigmoid x x0 slope_k lo hi in
  (ytp + slope * (x - xtp))%X.

(** 277-280 [Mcrit_model] *)
Definition Mcrit_model (x xtp ytp lo hi : xr) : xr :=
  sig_slope x xtp ytp xtp (Fin 3) lo hi.

(** 306-318 [_delta_uqt] *)
Definition delta_uqt (p : nt xr) (logmp0 tpeak : xr) : xr :=
  let delta_uqt_vs_tpeak :=
    sigmoid tpeak (attr p "delta_uqt_x0") (attr p "delta_uqt_k")
            (attr p "delta_uqt_ylo") (attr p "delta_uqt_yhi") in
  let delta_uqt_vs_logmp0 := ((logmp0 - Fin (125 / 10)) * attr p "delta_uqt_slope")%X in
  (delta_uqt_vs_tpeak + delta_uqt_vs_logmp0)%X.

(** 321-354 [_get_mean_u_params_mseq] *)
Definition get_mean_u_params_mseq (p : nt xr) (logmp0 : xr) : list xr :=
  let ulgm := Mcrit_model logmp0 (attr p "mean_ulgm_mseq_xtp") (attr p "mean_ulgm_mseq_ytp")
                (attr p "mean_ulgm_mseq_lo") (attr p "mean_ulgm_mseq_hi") in
  let ulgy := Mcrit_model logmp0 (attr p "mean_ulgy_mseq_xtp") (attr p "mean_ulgy_mseq_ytp")
                (attr p "mean_ulgy_mseq_lo") (attr p "mean_ulgy_mseq_hi") in
  let ul := line_model logmp0 (attr p "mean_ul_mseq_int") (attr p "mean_ul_mseq_slp")
                (BOUNDING_VALS "mean_ul") in
  let uh := line_model logmp0 (attr p "mean_uh_mseq_int") (attr p "mean_uh_mseq_slp")
                (BOUNDING_VALS "mean_uh") in
  [ulgm; ulgy; ul; uh].

(** 357-420 [_get_mean_u_params_qseq] *)
Definition get_mean_u_params_qseq (p : nt xr) (logmp0 tpeak : xr) : list xr :=
  let ulgm := Mcrit_model logmp0 (attr p "mean_ulgm_qseq_xtp") (attr p "mean_ulgm_qseq_ytp")
                (attr p "mean_ulgm_qseq_lo") (attr p "mean_ulgm_qseq_hi") in
  let ulgy := Mcrit_model logmp0 (attr p "mean_ulgy_qseq_xtp") (attr p "mean_ulgy_qseq_ytp")
                (attr p "mean_ulgy_qseq_lo") (attr p "mean_ulgy_qseq_hi") in
  let ul := line_model logmp0 (attr p "mean_ul_qseq_int") (attr p "mean_ul_qseq_slp")
                (BOUNDING_VALS "mean_ul") in
  let uh := line_model logmp0 (attr p "mean_uh_qseq_int") (attr p "mean_uh_qseq_slp")
                (BOUNDING_VALS "mean_uh") in
  let _uqt := Mcrit_model logmp0 (attr p "mean_uqt_xtp") (attr p "mean_uqt_ytp")
                (attr p "mean_uqt_lo") (attr p "mean_uqt_hi") in
  let uqt := (_uqt + delta_uqt p logmp0 tpeak)%X in
  let uqs := line_model logmp0 (attr p "mean_uqs_int") (attr p "mean_uqs_slp")
                (BOUNDING_VALS "mean_uqs") in
  let udrop := line_model logmp0 (attr p "mean_udrop_int") (attr p "mean_udrop_slp")
                (BOUNDING_VALS "mean_udrop") in
  let urej := line_model logmp0 (attr p "mean_urej_int") (attr p "mean_urej_slp")
                (BOUNDING_VALS "mean_urej") in
  [ulgm; ulgy; ul; uh; uqt; uqs; udrop; urej].

(** 423-456 [_get_cov_params_mseq_ms_block]: diagonals, off-diagonals *)
Definition get_cov_params_mseq_ms_block (p : nt xr) (logmp0 : xr) : list xr * list xr :=
  let std_ulgm := line_model logmp0 (attr p "std_ulgm_mseq_int") (attr p "std_ulgm_mseq_slp")
                    (BOUNDING_VALS "std_ulgm") in
  let std_ulgy := line_model logmp0 (attr p "std_ulgy_mseq_int") (attr p "std_ulgy_mseq_slp")
                    (BOUNDING_VALS "std_ulgy") in
  let std_ul := line_model logmp0 (attr p "std_ul_mseq_int") (attr p "std_ul_mseq_slp")
                    (BOUNDING_VALS "std_ul") in
  let std_uh := line_model logmp0 (attr p "std_uh_mseq_int") (attr p "std_uh_mseq_slp")
                    (BOUNDING_VALS "std_uh") in
  ([std_ulgm; std_ulgy; std_ul; std_uh], zeros 6).

(** 459-492 [_get_cov_params_qseq_ms_block] *)
Definition get_cov_params_qseq_ms_block (p : nt xr) (logmp0 : xr) : list xr * list xr :=
  let std_ulgm := line_model logmp0 (attr p "std_ulgm_qseq_int") (attr p "std_ulgm_qseq_slp")
                    (BOUNDING_VALS "std_ulgm") in
  let std_ulgy := line_model logmp0 (attr p "std_ulgy_qseq_int") (attr p "std_ulgy_qseq_slp")
                    (BOUNDING_VALS "std_ulgy") in
  let std_ul := line_model logmp0 (attr p "std_ul_qseq_int") (attr p "std_ul_qseq_slp")
                    (BOUNDING_VALS "std_ul") in
  let std_uh := line_model logmp0 (attr p "std_uh_qseq_int") (attr p "std_uh_qseq_slp")
                    (BOUNDING_VALS "std_uh") in
  ([std_ulgm; std_ulgy; std_ul; std_uh], zeros 6).

(** 495-529 [_get_cov_params_qseq_q_block] *)
Definition get_cov_params_qseq_q_block (p : nt xr) (logmp0 : xr) : list xr * list xr :=
  let std_uqt := line_model logmp0 (attr p "std_uqt_int") (attr p "std_uqt_slp")
                    (BOUNDING_VALS "std_uqt") in
  let std_uqs := line_model logmp0 (attr p "std_uqs_int") (attr p "std_uqs_slp")
                    (BOUNDING_VALS "std_uqs") in
  let std_udrop := line_model logmp0 (attr p "std_udrop_int") (attr p "std_udrop_slp")
                    (BOUNDING_VALS "std_udrop") in
  let std_urej := line_model logmp0 (attr p "std_urej_int") (attr p "std_urej_slp")
                    (BOUNDING_VALS "std_urej") in
  ([std_uqt; std_uqs; std_udrop; std_urej], zeros 6).

(** diffmah.utils.get_cholesky_from_params (external): lower-triangular matrix of size [n]
    whose diagonal is the first [n] entries, followed by the rows of the strict lower
    triangle. *)
Definition get_cholesky_from_params (n : nat) (x : list xr) : matrix :=
  mk_matrix n (fun i j =>
    if Nat.eqb i j then at_ x i
    else if Nat.ltb j i then at_ x (n + (i * (i - 1)) / 2 + j)
    else Fin 0).

(** 532-562: the three covariance functions have this same body *)
Definition covariance_block (diags_offdiags : list xr * list xr) : matrix :=
  let '(diags, off_diags) := diags_offdiags in
  let n := List.length diags in
  let ones := repeat (Fin 1) n in
  let x := ones ++ off_diags in
  let M := get_cholesky_from_params n x in
  let corr_matrix := mat_map2 (fun a b => if xeq a (Fin 0) then b else a) M (mat_T M) in
  covariance_from_correlation corr_matrix diags.
Definition get_covariance_mseq_ms_block p logmp0 := covariance_block (get_cov_params_mseq_ms_block p logmp0).
Definition get_covariance_qseq_q_block p logmp0 := covariance_block (get_cov_params_qseq_q_block p logmp0).
Definition get_covariance_qseq_ms_block p logmp0 := covariance_block (get_cov_params_qseq_ms_block p logmp0).

(** 565-590 [_frac_quench_cen] *)
Definition frac_quench_cen (p : nt xr) (logmp0 tpeak : xr) : xr :=
  let fquench_x0 := sigmoid tpeak (attr p "frac_quench_cen_x0_tpeak") (attr p "frac_quench_cen_k_tpeak")
       (attr p "frac_quench_cen_x0_ylotpeak") (attr p "frac_quench_cen_x0_yhitpeak") in
  let frac_quench_cen_ylo := sigmoid tpeak (attr p "frac_quench_cen_x0_tpeak") (attr p "frac_quench_cen_k_tpeak")
       (attr p "frac_quench_cen_ylo_ylotpeak") (attr p "frac_quench_cen_ylo_yhitpeak") in
  sigmoid logmp0 fquench_x0 (attr p "frac_quench_cen_k") frac_quench_cen_ylo (attr p "frac_quench_cen_yhi").

(** 593-618 [_frac_quench_sat] *)
Definition frac_quench_sat (p : nt xr) (logmp0 tpeak : xr) : xr :=
  let fquench_x0 := sigmoid tpeak (attr p "frac_quench_sat_x0_tpeak") (attr p "frac_quench_sat_k_tpeak")
       (attr p "frac_quench_sat_x0_ylotpeak") (attr p "frac_quench_sat_x0_yhitpeak") in
  let frac_quench_sat_ylo := sigmoid tpeak (attr p "frac_quench_sat_x0_tpeak") (attr p "frac_quench_sat_k_tpeak")
       (attr p "frac_quench_sat_ylo_ylotpeak") (attr p "frac_quench_sat_ylo_yhitpeak") in
  sigmoid logmp0 fquench_x0 (attr p "frac_quench_sat_k") frac_quench_sat_ylo (attr p "frac_quench_sat_yhi").

(** 283-303 [_sfh_pdf_scalar_kernel] *)
Record MeansCovs := mkMC {
  mc_frac_cen : xr; mc_frac_sat : xr; mu_mseq : list xr; mu_qseq : list xr;
  cov_mseq_ms : matrix; cov_qseq_ms : matrix; cov_qseq_q : matrix }.
Definition sfh_pdf_scalar_kernel (p : nt xr) (logmp0 tpeak : xr) : MeansCovs :=
  mkMC (frac_quench_cen p logmp0 tpeak) (frac_quench_sat p logmp0 tpeak)
       (get_mean_u_params_mseq p logmp0) (get_mean_u_params_qseq p logmp0 tpeak)
       (get_covariance_mseq_ms_block p logmp0) (get_covariance_qseq_ms_block p logmp0)
       (get_covariance_qseq_q_block p logmp0).

(** 621-634 [_get_p_from_u_p_scalar], [_get_u_p_from_p_scalar] *)
Definition get_p_from_u_p_scalar (u_p : xr) (b : xr * xr) : xr :=
  let '(lo, hi) := b in
  let p0 := (Fin (1 / 2) * (lo + hi))%X in
  sigmoid u_p p0 BOUNDING_K lo hi.
Definition get_u_p_from_p_scalar (p : xr) (b : xr * xr) : xr :=
  let '(lo, hi) := b in
  let p0 := (Fin (1 / 2) * (lo + hi))%X in
  inverse_sigmoid p p0 BOUNDING_K lo hi.

(** 641-657 [get_bounded_sfh_pdf_params], [get_unbounded_sfh_pdf_params] *)
Definition get_bounded_sfh_pdf_params (u : nt xr) : option (nt xr) :=
  match vmap (getattr u) QSEQ_UNAMES, SFH_PDF_QUENCH_PBOUNDS with
  | Some us, Some bs => nt_make QSEQ_NAMES (map2 get_p_from_u_p_scalar us bs)
  | _, _ => None
  end.
Definition get_unbounded_sfh_pdf_params (p : nt xr) : option (nt xr) :=
  match vmap (getattr p) QSEQ_NAMES, SFH_PDF_QUENCH_PBOUNDS with
  | Some ps, Some bs => nt_make QSEQ_UNAMES (map2 get_u_p_from_p_scalar ps bs)
  | _, _ => None
  end.

(** ** kernels/satquenchpop_model.py *)

(** 20-32 *)
Definition SATQ_NAMES : list string := map fst DEFAULT_SATQUENCHPOP_PDICT.
Definition DEFAULT_SATQUENCHPOP_PARAMS : nt xr :=
  map (fun kv => (fst kv, Q2X (snd kv))) DEFAULT_SATQUENCHPOP_PDICT.
(** 50 *)
Definition SATQUENCHPOP_PBOUNDS : option (list (xr * xr)) :=
  match nt_kwargs SATQ_NAMES SATQUENCHPOP_PBOUNDS_PDICT with
  | Some bs => Some (map QQ2X bs)
  | None => None
  end.
(** 52-53 *)
Definition SATQ_UNAMES : list string := map u_name SATQ_NAMES.
(** 11-13 *)
Definition DEFAULT_Q_SPEED : xr := Fin 5.
Definition DEFAULT_LGMH_K : xr := Fin 5.
Definition LGMU_SPEED : xr := Fin 2.

(** 83-108 [_qprob_hi_vs_sub_host_mass] *)
Definition qprob_hi_vs_sub_host_mass (s : nt xr) (lgmu_infall logmhost_infall : xr) : xr :=
  let qprob_hi_mh_lo := sigmoid lgmu_infall (attr s "qphi_lgmu_crit") LGMU_SPEED
                          (attr s "lgmu_lo_mh_lo") (attr s "lgmu_hi_mh_lo") in
  let qprob_hi_mh_hi := sigmoid lgmu_infall (attr s "qphi_lgmu_crit") LGMU_SPEED
                          (attr s "lgmu_lo_mh_hi") (attr s "lgmu_hi_mh_hi") in
  sigmoid logmhost_infall (attr s "qp_lgmh_crit") DEFAULT_LGMH_K qprob_hi_mh_lo qprob_hi_mh_hi.

(** 111-121 [_satquench_kernel] *)
Definition satquench_kernel (gyr_since_infall t_delay qprob_hi : xr) : xr :=
  sigmoid gyr_since_infall t_delay DEFAULT_Q_SPEED (Fin 0) qprob_hi.

(** 124-133 [_t_delay_vs_logmhost] *)
Definition t_delay_vs_logmhost (s : nt xr) (logmhost_infall : xr) : xr :=
  sigmoid logmhost_infall (attr s "td_lgmhc") DEFAULT_LGMH_K (attr s "td_mlo") (attr s "td_mhi").

(** 68-80 [predict_sat_frac_delta_qprob] *)
Definition predict_sat_frac_delta_qprob (s : nt xr) (lgmu_infall logmhost_infall gyr_since_infall : xr) : xr :=
  let qprob_hi := qprob_hi_vs_sub_host_mass s lgmu_infall logmhost_infall in
  let t_delay := t_delay_vs_logmhost s logmhost_infall in
  satquench_kernel gyr_since_infall t_delay qprob_hi.

(** 56-65 [get_qprob_sat] *)
Definition get_qprob_sat (s : nt xr) (lgmu_infall logmhost_infall gyr_since_infall qprob_cen : xr) : xr :=
  let frac_delta_qprob := predict_sat_frac_delta_qprob s lgmu_infall logmhost_infall gyr_since_infall in
  let delta_qprob := (frac_delta_qprob * (Fin 1 - qprob_cen))%X in
  (qprob_cen + delta_qprob)%X.

(** 136-147 [_get_bounded_satq_param], [_get_unbounded_satq_param] *)
Definition get_bounded_satq_param (u_param : xr) (b : xr * xr) : xr :=
  let '(lo, hi) := b in
  let mid := (Fin (1 / 2) * (lo + hi))%X in
  sigmoid u_param mid (Fin (1 / 10)) lo hi.
Definition get_unbounded_satq_param (param : xr) (b : xr * xr) : xr :=
  let '(lo, hi) := b in
  let mid := (Fin (1 / 2) * (lo + hi))%X in
  inverse_sigmoid param mid (Fin (1 / 10)) lo hi.

(** 155-170 [get_bounded_satquenchpop_params], [get_unbounded_satquenchpop_params] *)
Definition get_bounded_satquenchpop_params (u : nt xr) : option (nt xr) :=
  match vmap (getattr u) SATQ_UNAMES, SATQUENCHPOP_PBOUNDS with
  | Some us, Some bs => nt_make SATQ_NAMES (map2 get_bounded_satq_param us bs)
  | _, _ => None
  end.
Definition get_unbounded_satquenchpop_params (p : nt xr) : option (nt xr) :=
  match vmap (getattr p) SATQ_NAMES, SATQUENCHPOP_PBOUNDS with
  | Some ps, Some bs => nt_make SATQ_UNAMES (map2 get_unbounded_satq_param ps bs)
  | _, _ => None
  end.

(** ** kernels/defaults_mgash.py *)

(** 22-24: dict.update of disjoint names *)
Definition DIFFSTARPOP_NAMES : list string :=
  map fst (dict_update SFH_PDF_QUENCH_PDICT DEFAULT_SATQUENCHPOP_PDICT).
(** 26-28 *)
Definition DEFAULT_DIFFSTARPOP_PARAMS : option (nt xr) :=
  nt_make DIFFSTARPOP_NAMES (values SFH_PDF_QUENCH_PARAMS ++ values DEFAULT_SATQUENCHPOP_PARAMS).
(** 32-33 *)
Definition DIFFSTARPOP_UNAMES : list string := map u_name DIFFSTARPOP_NAMES.

(** 36-50 [get_bounded_diffstarpop_params] *)
Definition get_bounded_diffstarpop_params (u : nt xr) : option (nt xr) :=
  match vmap (getattr u) QSEQ_UNAMES with
  | Some us =>
    match nt_make QSEQ_UNAMES us with
    | Some u_sfh =>
      match get_bounded_sfh_pdf_params u_sfh, vmap (getattr u) SATQ_UNAMES with
      | Some sfh_pdf_cens_params, Some us2 =>
        match nt_make SATQ_UNAMES us2 with
        | Some u_satq =>
          match get_bounded_satquenchpop_params u_satq with
          | Some satq => nt_make DIFFSTARPOP_NAMES (values sfh_pdf_cens_params ++ values satq)
          | None => None
          end
        | None => None
        end
      | _, _ => None
      end
    | None => None
    end
  | None => None
  end.

(** 53-68 [get_unbounded_diffstarpop_params] *)
Definition get_unbounded_diffstarpop_params (p : nt xr) : option (nt xr) :=
  match vmap (getattr p) QSEQ_NAMES with
  | Some ps =>
    match nt_make QSEQ_NAMES ps with
    | Some p_sfh =>
      match get_unbounded_sfh_pdf_params p_sfh, vmap (getattr p) SATQ_NAMES with
      | Some u_sfh_pdf_params, Some ps2 =>
        match nt_make SATQ_NAMES ps2 with
        | Some p_satq =>
          match get_unbounded_satquenchpop_params p_satq with
          | Some u_satq => nt_make DIFFSTARPOP_UNAMES (values u_sfh_pdf_params ++ values u_satq)
          | None => None
          end
        | None => None
        end
      | _, _ => None
      end
    | None => None
    end
  | None => None
  end.

(** 71-73 *)
Definition DEFAULT_DIFFSTARPOP_U_PARAMS : option (nt xr) :=
  match DEFAULT_DIFFSTARPOP_PARAMS with
  | Some p => get_unbounded_diffstarpop_params p
  | None => None
  end.

(** kernels/params/params_*.py: every calibration file builds
    [DiffstarPopParams( *SFH_PDF_QUENCH_PARAMS, *DEFAULT_SATQUENCHPOP_PARAMS)] by position
    from its own dictionary. *)
Definition calibration (sfh_pdict : list (string * Q)) : option (nt xr) :=
  nt_make DIFFSTARPOP_NAMES
    (map (fun kv => Q2X (snd kv)) sfh_pdict ++ values DEFAULT_SATQUENCHPOP_PARAMS).
(** kernels/params/params_diffstarfits_mgash.py, params_diffstarpopfits_mgash.py: the ten
    published dictionaries *)
Definition CALIBRATIONS : list (list (string * Q)) := [
  params_diffstarfits_mgash_smdpl_dr1_nomerging; params_diffstarfits_mgash_smdpl_dr1;
  params_diffstarfits_mgash_tng; params_diffstarfits_mgash_galacticus_in_situ;
  params_diffstarfits_mgash_galacticus_in_plus_ex_situ;
  params_diffstarpopfits_mgash_smdpl_dr1_nomerging; params_diffstarpopfits_mgash_smdpl_dr1;
  params_diffstarpopfits_mgash_tng; params_diffstarpopfits_mgash_galacticus_in_situ;
  params_diffstarpopfits_mgash_galacticus_in_plus_ex_situ ].

(** ** param_utils.py *)

(** 10-28 [get_all_params_from_varied] *)
Definition get_all_params_from_varied {A} (varied defaults : nt A) : option (nt A) :=
  nt_replace defaults varied.

(** 31-54 [get_all_diffstarpop_u_params] *)
Definition get_all_diffstarpop_u_params (varied : nt xr) : option (nt xr) :=
  match DEFAULT_DIFFSTARPOP_U_PARAMS with
  | Some defaults =>
    match get_all_params_from_varied varied defaults with
    | Some p => nt_make (fields defaults) (values p)
    | None => None
    end
  | None => None
  end.

(** jnp.where on equal-shape vectors *)
Definition where_ (mask : list bool) (a b : list xr) : option (list xr) :=
  if (Nat.eqb (List.length mask) (List.length a) && Nat.eqb (List.length mask) (List.length b))%bool
  then Some (map2 (fun (m : bool) (ab : xr * xr) => if m then fst ab else snd ab) mask (combine a b))
  else None.

(** 57-86 [mc_select_diffstar_params] *)
Definition mc_select_diffstar_params (p1 p0 : DiffstarParams (list xr)) (mc_is_1 : list bool)
  : option (DiffstarParams (list xr)) :=
  match where_ mc_is_1 (d_lgmcrit p1) (d_lgmcrit p0),
        where_ mc_is_1 (d_lgy_at_mcrit p1) (d_lgy_at_mcrit p0),
        where_ mc_is_1 (d_indx_lo p1) (d_indx_lo p0),
        where_ mc_is_1 (d_indx_hi p1) (d_indx_hi p0),
        where_ mc_is_1 (d_lg_qt p1) (d_lg_qt p0),
        where_ mc_is_1 (d_qlglgdt p1) (d_qlglgdt p0),
        where_ mc_is_1 (d_lg_drop p1) (d_lg_drop p0),
        where_ mc_is_1 (d_lg_rejuv p1) (d_lg_rejuv p0) with
  | Some a, Some b, Some c, Some d, Some e, Some f, Some g, Some h =>
      Some (mkDiffstar a b c d e f g h)
  | _, _, _, _, _, _, _, _ => None
  end.

(** ** kernels/diffstarpop_mgash.py and mc_diffstarpop_mgash.py *)

(** mc_diffstarpop_mgash.py:13-24 [MCDiffstar] *)
Record MCDiffstar (P S F B : Type) := mkMCDiffstar {
  diffstar_params_ms : P; diffstar_params_q : P; sfh_ms : S; sfh_q : S; frac_q : F; mc_is_q : B }.
Arguments mkMCDiffstar {P S F B}. Arguments diffstar_params_ms {P S F B}.
Arguments diffstar_params_q {P S F B}. Arguments sfh_ms {P S F B}. Arguments sfh_q {P S F B}.
Arguments frac_q {P S F B}. Arguments mc_is_q {P S F B}.

Section Random.

(** jax.random as an oracle *)
Variable key : Type.
Variable jran_split : key -> nat -> list key.
Variable jran_uniform : key -> xr.
Variable jran_mvn : key -> list xr -> matrix -> list xr.
(** diffmah *)
Variable log_mah_kern : MahParams xr -> xr -> xr -> xr.

(** diffstarpop_mgash.py:89-114 [_diffstarpop_means_covs] *)
Definition diffstarpop_means_covs (p : nt xr)
    (logmp0 tpeak lgmu_infall logmhost_infall gyr_since_infall : xr) : option MeansCovs :=
  match vmap (getattr p) QSEQ_NAMES, vmap (getattr p) SATQ_NAMES with
  | Some vs, Some ws =>
    match nt_make QSEQ_NAMES vs, nt_make SATQ_NAMES ws with
    | Some sfh_p, Some satq_p =>
      let mc := sfh_pdf_scalar_kernel sfh_p logmp0 tpeak in
      let sat := get_qprob_sat satq_p lgmu_infall logmhost_infall gyr_since_infall (mc_frac_sat mc) in
      Some (mkMC (mc_frac_cen mc) sat (mu_mseq mc) (mu_qseq mc)
                 (cov_mseq_ms mc) (cov_qseq_ms mc) (cov_qseq_q mc))
    | _, _ => None
    end
  | _, _ => None
  end.

(** diffstarpop_mgash.py:117-124 [_diffstarpop_means_covs_cen] *)
Definition diffstarpop_means_covs_cen (p : nt xr) (logmp0 tpeak : xr) : option MeansCovs :=
  match vmap (getattr p) QSEQ_NAMES with
  | Some vs =>
    match nt_make QSEQ_NAMES vs with
    | Some sfh_p => Some (sfh_pdf_scalar_kernel sfh_p logmp0 tpeak)
    | None => None
    end
  | None => None
  end.

(** One drawn galaxy: (u_params_ms, u_params_q, frac_quench, mc_is_quenched_sequence) *)
Definition draw := (DiffstarParams xr * DiffstarParams xr * xr * bool)%type.

Definition unpack_d (r : list xr) : option (DiffstarParams xr) :=
  match unpack_ms (firstn 4 r), unpack_q (skipn 4 r) with
  | Some ms, Some q => Some (join_params ms q)
  | _, _ => None
  end.

(** diffstarpop_mgash.py:18-86 [mc_diffstar_u_params_singlegal_kernel] (and the wrapper
    mc_diffstarpop_mgash.py:225-250 [mc_diffstar_u_params_singlegal], which returns its
    result unchanged) *)
Definition mc_diffstar_u_params_singlegal (p : nt xr) (logmp0 tpeak : xr) (upid : Z)
    (lgmu_infall logmhost_infall gyr_since_infall : xr) (ran_key : key) : option draw :=
  match diffstarpop_means_covs p logmp0 tpeak lgmu_infall logmhost_infall gyr_since_infall with
  | Some mc =>
    let frac_quench := if Z.eqb upid (-1) then mc_frac_cen mc else mc_frac_sat mc in
    let mu_qseq_ms_block := firstn 4 (mu_qseq mc) in
    let mu_qseq_q_block := skipn 4 (mu_qseq mc) in
    match jran_split ran_key 4 with
    | [ms_key_ms_block; q_key_ms_block; q_key_q_block; frac_q_key] =>
      let u_params_mseq_ms_block := jran_mvn ms_key_ms_block (mu_mseq mc) (cov_mseq_ms mc) in
      let u_params_qseq_ms_block := jran_mvn q_key_ms_block mu_qseq_ms_block (cov_qseq_ms mc) in
      let u_params_qseq_q_block := jran_mvn q_key_q_block mu_qseq_q_block (cov_qseq_q mc) in
      let u_params_q := firstn 4 u_params_qseq_ms_block ++ u_params_qseq_q_block in
      let dq := DEFAULT_Q_U_PARAMS_UNQUENCHED in
      let u_params_ms := firstn 4 u_params_mseq_ms_block
                         ++ [lg_qt dq; qlglgdt dq; lg_drop dq; lg_rejuv dq] in
      match unpack_d u_params_q, unpack_d u_params_ms with
      | Some uq, Some ums =>
        let uran := jran_uniform frac_q_key in
        let mc_is_quenched_sequence := (uran <? frac_quench)%X in
        Some (ums, uq, frac_quench, mc_is_quenched_sequence)
      | _, _ => None
      end
    | _ => None
    end
  | None => None
  end.

(** diffstarpop_mgash.py:127-181 [mc_diffstar_u_params_singlegal_kernel_cen] *)
Definition mc_diffstar_u_params_singlegal_cen (p : nt xr) (logmp0 tpeak : xr) (ran_key : key)
  : option draw :=
  match diffstarpop_means_covs_cen p logmp0 tpeak with
  | Some mc =>
    let frac_quench := mc_frac_cen mc in
    let mu_qseq_ms_block := firstn 4 (mu_qseq mc) in
    let mu_qseq_q_block := skipn 4 (mu_qseq mc) in
    match jran_split ran_key 4 with
    | [ms_key_ms_block; q_key_ms_block; q_key_q_block; frac_q_key] =>
      let u_params_mseq_ms_block := jran_mvn ms_key_ms_block (mu_mseq mc) (cov_mseq_ms mc) in
      let u_params_qseq_ms_block := jran_mvn q_key_ms_block mu_qseq_ms_block (cov_qseq_ms mc) in
      let u_params_qseq_q_block := jran_mvn q_key_q_block mu_qseq_q_block (cov_qseq_q mc) in
      let u_params_q := firstn 4 u_params_qseq_ms_block ++ u_params_qseq_q_block in
      let dq := DEFAULT_Q_U_PARAMS_UNQUENCHED in
      let u_params_ms := firstn 4 u_params_mseq_ms_block
                         ++ [lg_qt dq; qlglgdt dq; lg_drop dq; lg_rejuv dq] in
      match unpack_d u_params_q, unpack_d u_params_ms with
      | Some uq, Some ums =>
        let uran := jran_uniform frac_q_key in
        let mc_is_quenched_sequence := (uran <? frac_quench)%X in
        Some (ums, uq, frac_quench, mc_is_quenched_sequence)
      | _, _ => None
      end
    | _ => None
    end
  | None => None
  end.

(** mc_diffstarpop_mgash.py:145-219 [mc_diffstar_params_singlegal] *)
Definition mc_diffstar_params_singlegal (p : nt xr) (logmp0 tpeak : xr) (upid : Z)
    (lgmu_infall logmhost_infall gyr_since_infall : xr) (ran_key : key) : option draw :=
  match mc_diffstar_u_params_singlegal p logmp0 tpeak upid lgmu_infall logmhost_infall
          gyr_since_infall ran_key with
  | Some (u_params_ms, u_params_qseq, frac_q, mc_is_q) =>
    let diffstar_params_q := get_bounded_diffstar_params u_params_qseq in
    let diffstar_params_ms := get_bounded_diffstar_params u_params_ms in
    Some (diffstar_params_ms, diffstar_params_q, frac_q, mc_is_q)
  | None => None
  end.

(** mc_diffstarpop_mgash.py:27-142 [mc_diffstar_sfh_singlegal] *)
Definition mc_diffstar_sfh_singlegal (p : nt xr) (mah : MahParams xr) (logmp0 : xr) (upid : Z)
    (lgmu_infall logmhost_infall gyr_since_infall : xr) (ran_key : key) (tarr : list xr) (lgt0 fb : xr)
  : option (MCDiffstar (DiffstarParams xr) (list xr) xr bool) :=
  let tpeak := t_peak mah in
  match mc_diffstar_params_singlegal p logmp0 tpeak upid lgmu_infall logmhost_infall
          gyr_since_infall ran_key with
  | Some (pms, pq, fq, isq) =>
    let sms := calc_sfh_singlegal log_mah_kern pms mah tarr lgt0 fb in
    let sq := calc_sfh_singlegal log_mah_kern pq mah tarr lgt0 fb in
    Some (mkMCDiffstar pms pq sms sq fq isq)
  | None => None
  end.

(** Stacking the per-galaxy tuples returned by [vmap] into a tuple of columns. *)
Definition stack_d (l : list (DiffstarParams xr)) : DiffstarParams (list xr) :=
  mkDiffstar (map d_lgmcrit l) (map d_lgy_at_mcrit l) (map d_indx_lo l) (map d_indx_hi l)
             (map d_lg_qt l) (map d_qlglgdt l) (map d_lg_drop l) (map d_lg_rejuv l).
Definition stack_draws (l : list draw) : DiffstarParams (list xr) * DiffstarParams (list xr) * list xr * list bool :=
  (stack_d (map (fun d => fst (fst (fst d))) l), stack_d (map (fun d => snd (fst (fst d))) l),
   map (fun d => snd (fst d)) l, map (fun d => snd d) l).

(** vmap over seven leading axes; unequal sizes raise. *)
Definition zip6 (a b : list xr) (c : list Z) (d e f : list xr) (k : list key)
  : option (list (xr * xr * Z * xr * xr * xr * key)) :=
  let n := List.length a in
  if (Nat.eqb (List.length b) n && Nat.eqb (List.length c) n && Nat.eqb (List.length d) n
      && Nat.eqb (List.length e) n && Nat.eqb (List.length f) n && Nat.eqb (List.length k) n)%bool
  then Some (combine (combine (combine (combine (combine (combine a b) c) d) e) f) k)
  else None.

(** mc_diffstarpop_mgash.py:258-283 [mc_diffstar_u_params_galpop] *)
Definition mc_diffstar_u_params_galpop (p : nt xr) (logmp0 tpeak : list xr) (upid : list Z)
    (lgmu_infall logmhost_infall gyr_since_infall : list xr) (ran_key : key)
  : option (DiffstarParams (list xr) * DiffstarParams (list xr) * list xr * list bool) :=
  let ngals := List.length logmp0 in
  let ran_keys := jran_split ran_key ngals in
  match zip6 logmp0 tpeak upid lgmu_infall logmhost_infall gyr_since_infall ran_keys with
  | Some gals =>
    match vmap (fun g => let '(m, tp, up, mu, mh, gy, k) := g in
                         mc_diffstar_u_params_singlegal p m tp up mu mh gy k) gals with
    | Some draws => Some (stack_draws draws)
    | None => None
    end
  | None => None
  end.

Definition cols_d (p : DiffstarParams (list xr)) : list (list xr) :=
  cols_ms (slice_ms p) ++ cols_q (slice_q p).

(** mc_diffstarpop_mgash.py:286 [get_bounded_diffstar_params_galpop] *)
Definition get_bounded_diffstar_params_galpop (u : DiffstarParams (list xr))
  : option (DiffstarParams (list xr)) :=
  match rows (cols_d u) with
  | Some rs =>
    match vmap unpack_d rs with
    | Some us => Some (stack_d (map get_bounded_diffstar_params us))
    | None => None
    end
  | None => None
  end.

(** mc_diffstarpop_mgash.py:289-366 [mc_diffstar_params_galpop] *)
Definition mc_diffstar_params_galpop (p : nt xr) (logmp0 tpeak : list xr) (upid : list Z)
    (lgmu_infall logmhost_infall gyr_since_infall : list xr) (ran_key : key)
  : option (DiffstarParams (list xr) * DiffstarParams (list xr) * list xr * list bool) :=
  match mc_diffstar_u_params_galpop p logmp0 tpeak upid lgmu_infall logmhost_infall
          gyr_since_infall ran_key with
  | Some (u_ms, u_q, fq, isq) =>
    match get_bounded_diffstar_params_galpop u_ms, get_bounded_diffstar_params_galpop u_q with
    | Some pms, Some pq => Some (pms, pq, fq, isq)
    | _, _ => None
    end
  | None => None
  end.

(** mc_diffstarpop_mgash.py:369-476 [mc_diffstar_sfh_galpop] *)
Definition mc_diffstar_sfh_galpop (p : nt xr) (mah : MahParams (list xr)) (logmp0 : list xr)
    (upid : list Z) (lgmu_infall logmhost_infall gyr_since_infall : list xr) (ran_key : key)
    (tarr : list xr) (lgt0 fb : xr)
  : option (MCDiffstar (DiffstarParams (list xr)) (list (list xr)) (list xr) (list bool)) :=
  let tpeak := t_peak mah in
  match mc_diffstar_params_galpop p logmp0 tpeak upid lgmu_infall logmhost_infall
          gyr_since_infall ran_key with
  | Some (pms, pq, fq, isq) =>
    match calc_sfh_galpop log_mah_kern pms mah tarr lgt0 fb,
          calc_sfh_galpop log_mah_kern pq mah tarr lgt0 fb with
    | Some sms, Some sq => Some (mkMCDiffstar pms pq sms sq fq isq)
    | _, _ => None
    end
  | None => None
  end.

End Random.
