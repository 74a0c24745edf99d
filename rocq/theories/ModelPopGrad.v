(** Model of the gradients JAX computes for the population losses:
    diffstarpop/loss_kernels/mstar_ssfr_loss_mgash_anyz.py:188-197 [loss_mstar_kern_tobs_grad_wrapper],
    335-346 [loss_mstar_ssfr_kern_tobs_grad_wrapper], 453-464 [loss_mstar_ssfr_sat_kern_tobs_grad_wrapper],
    488-500 [loss_combined_wrapper], 515-528 [loss_combined_3loss_wrapper].

    As in ModelGrad, a number carries its derivatives with respect to the 88 unbounded parameters.
    Each function below is the function of the same name in ModelPop or ModelHist with the derivative
    rule of every operation added.  Galaxies are reached by index instead of being stacked into columns. *)
From Coq Require Import Reals List Bool ZArith QArith String.
From Verif Require Import XReal ModelUtils ModelKernels ModelSfh ModelPopTables ModelPop ModelHist ModelFit ModelGrad.
Import ListNotations.
Open Scope R_scope.

Declare Scope dual_scope.
Delimit Scope dual_scope with D.
Bind Scope dual_scope with dual.
Infix "+" := dadd : dual_scope.
Infix "-" := dsub : dual_scope.
Infix "*" := dmul : dual_scope.
Infix "/" := ddiv : dual_scope.

(** lax.sqrt: g * (0.5 / ans) *)
Definition dsqrt (x : dual) : dual := (xsqrt (fst x), fun i => snd x i * (Fin (1 / 2) / xsqrt (fst x)))%X.
Definition dprod (l : list dual) : dual := fold_right dmul (dc (Fin 1)) l.
Definition dF (r : R) : dual := dc (Fin r).

(** ** jax.random.multivariate_normal with the default method: the lower Cholesky factor of the
    covariance times a vector of standard normals, added to the mean.  The factor is computed row by
    row; its derivative is that of this computation, which is the derivative of the factor. *)
Section Cholesky.
Variable A : Type.
Variable zero : A.
Variables add sub mul div : A -> A -> A.
Variable sqrt_ : A -> A.
Definition dotp (a b : list A) : A := fold_right add zero (map2 mul a b).
Definition chol_row (row : list A) (Ls : list (list A)) : list A :=
  let acc := fold_left (fun acc Lj =>
      let j := List.length acc in
      acc ++ [div (sub (nth j row zero) (dotp acc (firstn j Lj))) (nth j Lj zero)]) Ls [] in
  acc ++ [sqrt_ (sub (nth (List.length Ls) row zero) (dotp acc acc))].
Definition cholesky (M : list (list A)) : list (list A) := fold_left (fun Ls row => Ls ++ [chol_row row Ls]) M [].
Definition cholesky_draw (mean : list A) (cov : list (list A)) (z : list A) : list A :=
  map2 (fun m L => add m (dotp L z)) mean (cholesky cov).
End Cholesky.
Definition xcholesky_draw := cholesky_draw xr (Fin 0) xadd xsub xmul xdiv xsqrt.
Definition dcholesky_draw := cholesky_draw dual (dF 0) dadd dsub dmul ddiv dsqrt.
(** the value-level draw, from standard normals [normal key n] *)
Definition mvn_of {key : Type} (normal : key -> nat -> list xr) (k : key) (mean : list xr) (cov : matrix) : list xr :=
  xcholesky_draw mean cov (normal k (List.length mean)).

(** ** Parameters *)
Definition dattr (p : nt dual) (name : string) : dual :=
  match getattr p name with Some v => v | None => dc NaN end.

(** kernels/sfh_pdf_mgash.py:621-627, satquenchpop_model.py:136-140 *)
Definition dget_p_from_u_p_scalar (u_p : dual) (b : xr * xr) : dual :=
  let '(lo, hi) := b in
  dsigmoid u_p (dc (Fin (1 / 2) * (lo + hi))%X) (dc BOUNDING_K) (dc lo) (dc hi).
Definition dget_bounded_satq_param (u_param : dual) (b : xr * xr) : dual :=
  let '(lo, hi) := b in
  dsigmoid u_param (dc (Fin (1 / 2) * (lo + hi))%X) (dc (Fin (1 / 10))) (dc lo) (dc hi).
(** kernels/defaults_mgash.py:36-50 *)
Definition dget_bounded_diffstarpop_params (u : nt dual) : option (nt dual) :=
  match vmap (getattr u) QSEQ_UNAMES, vmap (getattr u) SATQ_UNAMES, SFH_PDF_QUENCH_PBOUNDS, SATQUENCHPOP_PBOUNDS with
  | Some us, Some us2, Some bs, Some bs2 =>
      nt_make DIFFSTARPOP_NAMES (map2 dget_p_from_u_p_scalar us bs ++ map2 dget_bounded_satq_param us2 bs2)
  | _, _, _, _ => None
  end.

(** ** diffstarpop/utils.py:154-201, kernels/sfh_pdf_mgash.py *)
Definition dsmoothly_clipped_line (x x0 : xr) (y0 m : dual) (y_lo y_hi : xr) : dual :=
  (let x_lo := (dc y_lo - y0) / m + dc x0 in
  let x_hi := (dc y_hi - y0) / m + dc x0 in
  let dx_lo := dc x0 - x_lo in
  let dx_hi := x_hi - dc x0 in
  let eps_lo := dx_lo / dF 100 in
  let eps_hi := dx_hi / dF 100 in
  let xc_lo := x_lo + eps_lo in
  let xc_hi := x_hi - eps_hi in
  let y_lo_bound := y0 + m * (xc_lo - dc x0) in
  let y_hi_bound := y0 + m * (xc_hi - dc x0) in
  let CLIPPING_K := dF 20 / eps_lo in
  let y_unclipped := y0 + m * (dc x - dc x0) in
  let y_clipped_from_below := dsigmoid (dc x) xc_lo CLIPPING_K y_lo_bound y_unclipped in
  dsigmoid (dc x) xc_hi CLIPPING_K y_clipped_from_below y_hi_bound)%D.
Definition dline_model (x : xr) (y0 m : dual) (b : xr * xr) : dual :=
  dsmoothly_clipped_line x LGM_X0 y0 m (fst b) (snd b).
Definition dMcrit_model (x : xr) (xtp ytp lo hi : dual) : dual :=
  let slope := dsigmoid (dc x) xtp (dF 3) lo hi in
  (ytp + slope * (dc x - xtp))%D.
Definition ddelta_uqt (p : nt dual) (logmp0 tpeak : xr) : dual :=
  (dsigmoid (dc tpeak) (dattr p "delta_uqt_x0") (dattr p "delta_uqt_k") (dattr p "delta_uqt_ylo") (dattr p "delta_uqt_yhi")
   + (dc logmp0 - dF (125 / 10)) * dattr p "delta_uqt_slope")%D.

Definition dget_mean_u_params_mseq (p : nt dual) (logmp0 : xr) : list dual :=
  [dMcrit_model logmp0 (dattr p "mean_ulgm_mseq_xtp") (dattr p "mean_ulgm_mseq_ytp")
     (dattr p "mean_ulgm_mseq_lo") (dattr p "mean_ulgm_mseq_hi");
   dMcrit_model logmp0 (dattr p "mean_ulgy_mseq_xtp") (dattr p "mean_ulgy_mseq_ytp")
     (dattr p "mean_ulgy_mseq_lo") (dattr p "mean_ulgy_mseq_hi");
   dline_model logmp0 (dattr p "mean_ul_mseq_int") (dattr p "mean_ul_mseq_slp") (BOUNDING_VALS "mean_ul");
   dline_model logmp0 (dattr p "mean_uh_mseq_int") (dattr p "mean_uh_mseq_slp") (BOUNDING_VALS "mean_uh")].
Definition dget_mean_u_params_qseq (p : nt dual) (logmp0 tpeak : xr) : list dual :=
  [dMcrit_model logmp0 (dattr p "mean_ulgm_qseq_xtp") (dattr p "mean_ulgm_qseq_ytp")
     (dattr p "mean_ulgm_qseq_lo") (dattr p "mean_ulgm_qseq_hi");
   dMcrit_model logmp0 (dattr p "mean_ulgy_qseq_xtp") (dattr p "mean_ulgy_qseq_ytp")
     (dattr p "mean_ulgy_qseq_lo") (dattr p "mean_ulgy_qseq_hi");
   dline_model logmp0 (dattr p "mean_ul_qseq_int") (dattr p "mean_ul_qseq_slp") (BOUNDING_VALS "mean_ul");
   dline_model logmp0 (dattr p "mean_uh_qseq_int") (dattr p "mean_uh_qseq_slp") (BOUNDING_VALS "mean_uh");
   dadd (dMcrit_model logmp0 (dattr p "mean_uqt_xtp") (dattr p "mean_uqt_ytp") (dattr p "mean_uqt_lo") (dattr p "mean_uqt_hi"))
     (ddelta_uqt p logmp0 tpeak);
   dline_model logmp0 (dattr p "mean_uqs_int") (dattr p "mean_uqs_slp") (BOUNDING_VALS "mean_uqs");
   dline_model logmp0 (dattr p "mean_udrop_int") (dattr p "mean_udrop_slp") (BOUNDING_VALS "mean_udrop");
   dline_model logmp0 (dattr p "mean_urej_int") (dattr p "mean_urej_slp") (BOUNDING_VALS "mean_urej")].

(** standard deviations of the three blocks *)
Definition dstds_mseq_ms (p : nt dual) (logmp0 : xr) : list dual :=
  [dline_model logmp0 (dattr p "std_ulgm_mseq_int") (dattr p "std_ulgm_mseq_slp") (BOUNDING_VALS "std_ulgm");
   dline_model logmp0 (dattr p "std_ulgy_mseq_int") (dattr p "std_ulgy_mseq_slp") (BOUNDING_VALS "std_ulgy");
   dline_model logmp0 (dattr p "std_ul_mseq_int") (dattr p "std_ul_mseq_slp") (BOUNDING_VALS "std_ul");
   dline_model logmp0 (dattr p "std_uh_mseq_int") (dattr p "std_uh_mseq_slp") (BOUNDING_VALS "std_uh")].
Definition dstds_qseq_ms (p : nt dual) (logmp0 : xr) : list dual :=
  [dline_model logmp0 (dattr p "std_ulgm_qseq_int") (dattr p "std_ulgm_qseq_slp") (BOUNDING_VALS "std_ulgm");
   dline_model logmp0 (dattr p "std_ulgy_qseq_int") (dattr p "std_ulgy_qseq_slp") (BOUNDING_VALS "std_ulgy");
   dline_model logmp0 (dattr p "std_ul_qseq_int") (dattr p "std_ul_qseq_slp") (BOUNDING_VALS "std_ul");
   dline_model logmp0 (dattr p "std_uh_qseq_int") (dattr p "std_uh_qseq_slp") (BOUNDING_VALS "std_uh")].
Definition dstds_qseq_q (p : nt dual) (logmp0 : xr) : list dual :=
  [dline_model logmp0 (dattr p "std_uqt_int") (dattr p "std_uqt_slp") (BOUNDING_VALS "std_uqt");
   dline_model logmp0 (dattr p "std_uqs_int") (dattr p "std_uqs_slp") (BOUNDING_VALS "std_uqs");
   dline_model logmp0 (dattr p "std_udrop_int") (dattr p "std_udrop_slp") (BOUNDING_VALS "std_udrop");
   dline_model logmp0 (dattr p "std_urej_int") (dattr p "std_urej_slp") (BOUNDING_VALS "std_urej")].

(** 532-562: the correlation matrix is constant *)
Definition dent (A : list (list dual)) (i j : nat) : dual := dat (nth i A []) j.
Definition dmk_matrix (n : nat) (f : nat -> nat -> dual) : list (list dual) :=
  map (fun i => map (fun j => f i j) (seq 0 n)) (seq 0 n).
Definition dmat_dot (A B : list (list dual)) : list (list dual) :=
  let n := List.length A in
  dmk_matrix n (fun i j => dsum (map (fun k => dmul (dent A i k) (dent B k j)) (seq 0 n))).
Definition dcovariance_block (diags : list dual) : list (list dual) :=
  let n := List.length diags in
  let M := get_cholesky_from_params n (repeat (Fin 1) n ++ zeros 6) in
  let corr_matrix := mat_map2 (fun a b => if xeq a (Fin 0) then b else a) M (mat_T M) in
  let D := dmk_matrix n (fun i j => if Nat.eqb i j then dat diags i else dF 0) in
  dmat_dot (dmat_dot D (map (map dc) corr_matrix)) D.

Definition dfrac_quench_cen (p : nt dual) (logmp0 tpeak : xr) : dual :=
  let fquench_x0 := dsigmoid (dc tpeak) (dattr p "frac_quench_cen_x0_tpeak") (dattr p "frac_quench_cen_k_tpeak")
       (dattr p "frac_quench_cen_x0_ylotpeak") (dattr p "frac_quench_cen_x0_yhitpeak") in
  let frac_quench_cen_ylo := dsigmoid (dc tpeak) (dattr p "frac_quench_cen_x0_tpeak") (dattr p "frac_quench_cen_k_tpeak")
       (dattr p "frac_quench_cen_ylo_ylotpeak") (dattr p "frac_quench_cen_ylo_yhitpeak") in
  dsigmoid (dc logmp0) fquench_x0 (dattr p "frac_quench_cen_k") frac_quench_cen_ylo (dattr p "frac_quench_cen_yhi").
Definition dfrac_quench_sat (p : nt dual) (logmp0 tpeak : xr) : dual :=
  let fquench_x0 := dsigmoid (dc tpeak) (dattr p "frac_quench_sat_x0_tpeak") (dattr p "frac_quench_sat_k_tpeak")
       (dattr p "frac_quench_sat_x0_ylotpeak") (dattr p "frac_quench_sat_x0_yhitpeak") in
  let frac_quench_sat_ylo := dsigmoid (dc tpeak) (dattr p "frac_quench_sat_x0_tpeak") (dattr p "frac_quench_sat_k_tpeak")
       (dattr p "frac_quench_sat_ylo_ylotpeak") (dattr p "frac_quench_sat_ylo_yhitpeak") in
  dsigmoid (dc logmp0) fquench_x0 (dattr p "frac_quench_sat_k") frac_quench_sat_ylo (dattr p "frac_quench_sat_yhi").

(** ** kernels/satquenchpop_model.py *)
Definition dget_qprob_sat (s : nt dual) (lgmu_infall logmhost_infall gyr_since_infall : xr) (qprob_cen : dual) : dual :=
  let qprob_hi_mh_lo := dsigmoid (dc lgmu_infall) (dattr s "qphi_lgmu_crit") (dc LGMU_SPEED)
                          (dattr s "lgmu_lo_mh_lo") (dattr s "lgmu_hi_mh_lo") in
  let qprob_hi_mh_hi := dsigmoid (dc lgmu_infall) (dattr s "qphi_lgmu_crit") (dc LGMU_SPEED)
                          (dattr s "lgmu_lo_mh_hi") (dattr s "lgmu_hi_mh_hi") in
  let qprob_hi := dsigmoid (dc logmhost_infall) (dattr s "qp_lgmh_crit") (dc DEFAULT_LGMH_K) qprob_hi_mh_lo qprob_hi_mh_hi in
  let t_delay := dsigmoid (dc logmhost_infall) (dattr s "td_lgmhc") (dc DEFAULT_LGMH_K) (dattr s "td_mlo") (dattr s "td_mhi") in
  let frac_delta_qprob := dsigmoid (dc gyr_since_infall) t_delay (dc DEFAULT_Q_SPEED) (dF 0) qprob_hi in
  (qprob_cen + frac_delta_qprob * (dF 1 - qprob_cen))%D.

(** ** sumstats/diffndhist.py:9-31, on one bin *)
Definition dtw_cuml_lax_kern (x : dual) (m h : xr) : dual := djax_tw (ddiv (dsub x (dc m)) (dc h)).
Definition dtw_bin_weight_lax_kern (x : dual) (sig lo hi : xr) : dual :=
  dsub (dtw_cuml_lax_kern x lo sig) (dtw_cuml_lax_kern x hi sig).
Definition dtw_bin_weight_vmap (x : list dual) (sig lo hi : list xr) : option (list dual) :=
  if same_len x sig && same_len x lo && same_len x hi then
    Some (map (fun a => let '(x, s, l, h) := a in dtw_bin_weight_lax_kern x s l h)
              (combine (combine (combine x sig) lo) hi))
  else None.
Definition dtw_ndhist_weighted_sum_kern (nddata : list dual) (ndsig : list xr) (y : dual) (ndlo ndhi : list xr) : option dual :=
  match dtw_bin_weight_vmap nddata ndsig ndlo ndhi with
  | Some ws => Some (dmul (dprod ws) y)
  | None => None
  end.
Definition dtw_ndhist_weighted_kern (nddata : list (list dual)) (ndsig : list (list xr)) (y : list dual) (ndlo ndhi : list xr)
  : option dual :=
  if same_len nddata ndsig && same_len nddata y then
    option_map dsum
      (vmap (fun a => let '(x, s, y) := a in dtw_ndhist_weighted_sum_kern x s y ndlo ndhi)
            (combine (combine nddata ndsig) y))
  else None.
Definition dtw_ndhist_weighted (nddata : list (list dual)) (ndsig : list (list xr)) (ydata : list dual)
    (ndbins_lo ndbins_hi : list (list xr)) : option (list dual) :=
  if same_len ndbins_lo ndbins_hi then
    vmap (fun b => dtw_ndhist_weighted_kern nddata ndsig ydata (fst b) (snd b)) (combine ndbins_lo ndbins_hi)
  else None.

(** ** loss_kernels/mstar_ssfr_loss_mgash_anyz.py *)
Definition dnormalise (l : list dual) : list dual := map (fun w => ddiv w (dsum l)) l.
(** 93-114 *)
Definition dcompute_diff_histograms_mstar_atmobs_z (logmstar_bins : list xr) (log_smh_table weight : list dual)
  : option (list dual) :=
  let sigma := map (fun z => xmean (diff_ logmstar_bins) + z)%X (zeros (len log_smh_table)) in
  match dtw_ndhist_weighted (map (fun x => [x]) log_smh_table) (col sigma) weight
          (col (init_ logmstar_bins)) (col (tail_ logmstar_bins)) with
  | Some wcounts => Some (dnormalise wcounts)
  | None => None
  end.
(** 213-235 *)
Definition dcompute_diff_histograms_mstar_ssfr_atz (log_smh_table log_ssfr_table weight : list dual)
    (ndbins_lo ndbins_hi : list (list xr)) (logmstar_bins logssfr_bins : list xr) : option (list dual) :=
  let n_halos := len log_smh_table in
  let sigma_mstar := map (fun z => xmean (diff_ logmstar_bins) + z)%X (zeros n_halos) in
  let sigma_ssfr := map (fun z => xmean (diff_ logssfr_bins) + z)%X (zeros n_halos) in
  match pairs2 sigma_mstar sigma_ssfr, same_len log_smh_table log_ssfr_table with
  | Some ndsig, true =>
    match dtw_ndhist_weighted (map2 (fun x y => [x; y]) log_smh_table log_ssfr_table) ndsig weight ndbins_lo ndbins_hi with
    | Some wcounts => Some (dnormalise wcounts)
    | None => None
    end
  | _, _ => None
  end.
(** 32-35 *)
Definition dmse (pred : list dual) (target : list xr) : option dual :=
  if same_len pred target then
    Some (dmean (map (fun d => dpown d 2) (map2 (fun a b => dsub a (dc b)) pred target)))
  else None.
Definition dmse2 (pred : list (list dual)) (target : list (list xr)) : option dual :=
  if forallb (fun b => b) (map2 Nat.eqb (shape2 pred) (shape2 target)) && same_len pred target
  then dmse (List.concat pred) (List.concat target) else None.
Definition dmse3 (pred : list (list (list dual))) (target : list (list (list xr))) : option dual :=
  if forallb (fun b => b) (map2 Nat.eqb (shape2 pred) (shape2 target)) && same_len pred target
  then dmse2 (List.concat pred) (List.concat target) else None.
(** 314-323 *)
Definition dreshape2 (nms nsf : nat) (l : list dual) : option (list (list dual)) :=
  if Nat.eqb (len l) (nms * nsf) then Some (chunks nms nsf l) else None.
Definition dtake_matrix (nms nsf : nat) (ps : list (list (list dual))) (i : nat) : list (list dual) :=
  nth i ps (repeat (repeat (dc NaN) nsf) nms).
Definition dweighted_sum_matrices (nms nsf : nat) (ms : list (list (list dual))) (ws : list xr) : list (list dual) :=
  map (fun a => map (fun b => dsum (map2 (fun m w => dmul (dent m a b) (dc w)) ms ws)) (seq 0 nsf)) (seq 0 nms).
Definition dconditional_pdfs (nms nsf : nat) (ps : list (list (list dual)))
    (nmhalo_pdf : list (list xr)) (indx_pdf : list (list nat)) (target_mstar_ids : list nat)
  : option (list (list (list dual))) :=
  if same_len nmhalo_pdf indx_pdf then
    vmap (fun zi => let '(w, idx) := zi in
      if same_len w idx then
        let pdfs := dweighted_sum_matrices nms nsf (map (dtake_matrix nms nsf ps) idx) w in
        let pdfs := map (fun i => nth i pdfs (repeat (dc NaN) nsf)) target_mstar_ids in
        Some (map dnormalise pdfs)
      else None) (combine nmhalo_pdf indx_pdf)
  else None.

Section PopGrad.
Variable key : Type.
Variable jran_split : key -> nat -> list key.
(** jax.random.normal(key, (n,)) *)
Variable jran_normal : key -> nat -> list xr.
Variable log_mah_kern : MahParams xr -> xr -> xr -> xr.

Definition dunpack_d (r : list dual) : option (DiffstarParams dual) :=
  match r with [a; b; c; d; e; f; g; h] => Some (mkDiffstar a b c d e f g h) | _ => None end.

(** kernels/diffstarpop_mgash.py:18-114: main-sequence and quenched parameters and quenched fraction *)
Definition dmc_diffstar_u_params_singlegal (p : nt dual) (logmp0 tpeak : xr) (upid : Z)
    (lgmu_infall logmhost_infall gyr_since_infall : xr) (ran_key : key)
  : option (DiffstarParams dual * DiffstarParams dual * dual) :=
  let frac_quench_cen := dfrac_quench_cen p logmp0 tpeak in
  let frac_quench_sat := dget_qprob_sat p lgmu_infall logmhost_infall gyr_since_infall (dfrac_quench_sat p logmp0 tpeak) in
  let mu_qseq := dget_mean_u_params_qseq p logmp0 tpeak in
  let frac_quench := dwhere (Z.eqb upid (-1)) frac_quench_cen frac_quench_sat in
  match jran_split ran_key 4 with
  | [ms_key_ms_block; q_key_ms_block; q_key_q_block; frac_q_key] =>
    let draw k mu stds := dcholesky_draw mu (dcovariance_block stds) (map dc (jran_normal k (List.length mu))) in
    let u_params_mseq_ms_block := draw ms_key_ms_block (dget_mean_u_params_mseq p logmp0) (dstds_mseq_ms p logmp0) in
    let u_params_qseq_ms_block := draw q_key_ms_block (firstn 4 mu_qseq) (dstds_qseq_ms p logmp0) in
    let u_params_qseq_q_block := draw q_key_q_block (skipn 4 mu_qseq) (dstds_qseq_q p logmp0) in
    let dq := DEFAULT_Q_U_PARAMS_UNQUENCHED in
    match dunpack_d (firstn 4 u_params_mseq_ms_block ++ map dc [lg_qt dq; qlglgdt dq; lg_drop dq; lg_rejuv dq]),
          dunpack_d (firstn 4 u_params_qseq_ms_block ++ u_params_qseq_q_block) with
    | Some u_params_ms, Some u_params_q => Some (u_params_ms, u_params_q, frac_quench)
    | _, _ => None
    end
  | _ => None
  end.

(** sfh_model.py:18-76; final SFR and mass at the observed time *)
Definition dfinal (u : DiffstarParams dual) (mah : MahParams xr) (tarr : list xr) (lgt0 fb : xr) : option (dual * dual) :=
  let p := dget_bounded_diffstar_params u in
  let sfh := map (fun t => dsfh_singlegal_scalar log_mah_kern t mah (slice_ms p) (slice_q p) lgt0 fb) tarr in
  match dcumulative_mstar_formed tarr sfh with
  | Some smh => Some (last sfh (dc NaN), last smh (dc NaN))
  | None => None
  end.

Definition mah_of (m : MahParams (list xr)) (i : nat) : MahParams xr :=
  mkMah (at_ (logm0 m) i) (at_ (logtc m) i) (at_ (early_index m) i) (at_ (late_index m) i) (at_ (t_peak m) i).

(** 140-169, 267-303 *)
Definition dtobs_tables (p : nt dual) (z : ZPop key) (lgt0 fb : xr) : option (list dual * list dual * list dual) :=
  let n := List.length (z_logmp0 _ z) in
  let tarr := tobs_grid (z_tobs _ z) in
  let ran_keys := jran_split (z_key _ z) n in
  match zip6 key (z_logmp0 _ z) (t_peak (z_mah _ z)) (z_upid _ z) (z_lgmu_infall _ z) (z_logmhost_infall _ z)
          (z_gyr_since_infall _ z) ran_keys with
  | Some gals =>
    match vmap (fun g => let '(m, tp, up, mu, mh, gy, k) := g in dmc_diffstar_u_params_singlegal p m tp up mu mh gy k) gals with
    | Some draws =>
      let final_of (pick : DiffstarParams dual * DiffstarParams dual * dual -> DiffstarParams dual) :=
        vmap (fun id : nat * _ => dfinal (pick (snd id)) (mah_of (z_mah _ z) (fst id)) tarr lgt0 fb) (combine (seq 0 n) draws) in
      match final_of (fun d => fst (fst d)), final_of (fun d => snd (fst d)) with
      | Some ms, Some q =>
        let all := ms ++ q in
        let log_smh := map (fun sm => dlog10 (snd sm)) all in
        let log_ssfrh := map (fun sm => dmax (dsub (dlog10 (fst sm)) (dlog10 (snd sm))) (dF (-12))) all in
        let weight_ms := map (fun d => dmul (dF 1) (dsub (dF 1) (snd d))) draws in
        let weight_q := map (fun d => dmul (dF 1) (snd d)) draws in
        Some (log_smh, log_ssfrh, weight_ms ++ weight_q)
      | _, _ => None
      end
    | None => None
    end
  | None => None
  end.

(** 123-185 *)
Definition dloss_mstar (u : nt dual) (d : MstarLossData key) : option dual :=
  match dget_bounded_diffstarpop_params u with
  | Some p =>
    match vmap (fun z => match dtobs_tables p z (ml_lgt0 _ d) (ml_fb _ d) with
                   | Some (log_smh, _, weight) => dcompute_diff_histograms_mstar_atmobs_z (ml_bins _ d) log_smh weight
                   | None => None end) (ml_zs _ d) with
    | Some pred => option_map (fun l => dmul l (dF 1000)) (dmse2 pred (ml_target _ d))
    | None => None
    end
  | None => None
  end.

(** 244-332, 362-450 *)
Definition dloss_ssfr (u : nt dual) (d : SsfrLossData key) : option dual :=
  match dget_bounded_diffstarpop_params u with
  | Some p =>
    let s := sl_data _ d in
    let nms := (len (s_mbins s) - 1)%nat in
    let nsf := (len (s_sbins s) - 1)%nat in
    match vmap (fun z => match dtobs_tables p z (sl_lgt0 _ d) (sl_fb _ d) with
            | Some (log_smh, log_ssfrh, weight) =>
              match dcompute_diff_histograms_mstar_ssfr_atz log_smh log_ssfrh weight (s_lo s) (s_hi s) (s_mbins s) (s_sbins s) with
              | Some h => dreshape2 nms nsf h
              | None => None
              end
            | None => None end) (sl_zs _ d) with
    | Some ps =>
      match dconditional_pdfs nms nsf ps (s_nmhalo s) (s_indx s) (s_ids s) with
      | Some pred => option_map (fun l => dmul l (dF 1000)) (dmse3 pred (sl_target _ d))
      | None => None
      end
    | None => None
    end
  | None => None
  end.

(** value_and_grad with respect to the named tuple made of [flat_uparams]; [jnp.array(grads)] lists the
    derivatives in field order *)
Definition value_and_grad (loss : nt dual -> option dual) (flat_uparams : list xr) : option (xr * list xr) :=
  let n := List.length flat_uparams in
  match nt_make DIFFSTARPOP_UNAMES (map2 dvar (seq 0 n) flat_uparams) with
  | Some u => match loss u with Some l => Some (fst l, map (snd l) (seq 0 n)) | None => None end
  | None => None
  end.

(** 191-197, 338-346, 456-464 *)
Definition loss_mstar_kern_tobs_grad_wrapper (flat_uparams : list xr) (d : MstarLossData key) :=
  value_and_grad (fun u => dloss_mstar u d) flat_uparams.
Definition loss_mstar_ssfr_kern_tobs_grad_wrapper (flat_uparams : list xr) (d : SsfrLossData key) :=
  value_and_grad (fun u => dloss_ssfr u d) flat_uparams.
(** 480-500 *)
Definition loss_combined_wrapper (flat_uparams : list xr) (dm : MstarLossData key) (dc : SsfrLossData key) :=
  value_and_grad (fun u => match dloss_ssfr u dc, dloss_mstar u dm with
                           | Some a, Some b => Some (dadd a b) | _, _ => None end) flat_uparams.
(** 502-528 *)
Definition loss_combined_3loss_wrapper (flat_uparams : list xr) (dm : MstarLossData key) (dc ds : SsfrLossData key) :=
  value_and_grad (fun u => match dloss_ssfr u dc, dloss_ssfr u ds, dloss_mstar u dm with
                           | Some cen, Some sat, Some m => Some (dadd (dadd cen m) sat) | _, _, _ => None end) flat_uparams.
End PopGrad.
