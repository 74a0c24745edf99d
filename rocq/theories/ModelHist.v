(** Model of the smooth histograms (diffstarpop/sumstats) and of the population losses
    (diffstarpop/loss_kernels/mstar_ssfr_loss_mgash_anyz.py).  Definitions only.

    Simplifications: 2-D arrays are lists of rows; arguments stacked along the redshift
    axis are a list of records, one per redshift; [jnp.take] is modelled for non-negative
    indices (out of range fills NaN); operands of [_mse] must have equal shapes. *)
From Coq Require Import Reals List Bool ZArith String.
From Verif Require Import XReal ModelUtils ModelKernels ModelSfh ModelPop.
Import ListNotations.
Open Scope R_scope.

Definition len {A} (l : list A) : nat := List.length l.
Definition same_len {A B} (l : list A) (m : list B) : bool := Nat.eqb (len l) (len m).

(** jnp.prod, jnp.mean *)
Definition xprod (l : list xr) : xr := fold_right xmul (Fin 1) l.
Definition xmean (l : list xr) : xr := (xsum l / Fin (INR (len l)))%X.

(** ** sumstats/diffndhist.py; [_tw_cuml_lax_kern] (9-20) and [_tw_bin_weight_lax_kern]
    (23-31) are the same text as in diffstarpop/utils.py (ModelPop) *)

(** 36, vmap over the dimensions *)
Definition tw_bin_weight_vmap (x sig lo hi : list xr) : option (list xr) :=
  if same_len x sig && same_len x lo && same_len x hi then
    Some (map (fun a => let '(x, s, l, h) := a in tw_bin_weight_lax_kern x s l h)
              (combine (combine (combine x sig) lo) hi))
  else None.

(** 38-46 *)
Definition tw_ndhist_kern (nddata ndsig ndlo ndhi : list xr) : option xr :=
  option_map xprod (tw_bin_weight_vmap nddata ndsig ndlo ndhi).

(** 50, 53-58 *)
Definition tw_ndhist_sumkern (nddata ndsig : list (list xr)) (ndlo ndhi : list xr) : option xr :=
  if same_len nddata ndsig then
    option_map xsum (vmap (fun a => tw_ndhist_kern (fst a) (snd a) ndlo ndhi) (combine nddata ndsig))
  else None.

(** 62, 65-94 *)
Definition tw_ndhist (nddata ndsig ndbins_lo ndbins_hi : list (list xr)) : option (list xr) :=
  if same_len ndbins_lo ndbins_hi then
    vmap (fun b => tw_ndhist_sumkern nddata ndsig (fst b) (snd b)) (combine ndbins_lo ndbins_hi)
  else None.

(** 97-105 *)
Definition tw_ndhist_weighted_sum_kern (nddata ndsig : list xr) (y : xr) (ndlo ndhi : list xr) : option xr :=
  match tw_bin_weight_vmap nddata ndsig ndlo ndhi with
  | Some ws => let w := xprod ws in Some (w * y)%X
  | None => None
  end.

(** 109-120 *)
Definition tw_ndhist_weighted_kern (nddata ndsig : list (list xr)) (y : list xr) (ndlo ndhi : list xr) : option xr :=
  if same_len nddata ndsig && same_len nddata y then
    option_map xsum
      (vmap (fun a => let '(x, s, y) := a in tw_ndhist_weighted_sum_kern x s y ndlo ndhi)
            (combine (combine nddata ndsig) y))
  else None.

(** 123-165 *)
Definition tw_ndhist_weighted (nddata ndsig : list (list xr)) (ydata : list xr)
    (ndbins_lo ndbins_hi : list (list xr)) : option (list xr) :=
  if same_len ndbins_lo ndbins_hi then
    vmap (fun b => tw_ndhist_weighted_kern nddata ndsig ydata (fst b) (snd b)) (combine ndbins_lo ndbins_hi)
  else None.

(** x.reshape((-1, 1)) *)
Definition col (l : list xr) : list (list xr) := map (fun x => [x]) l.

(** ** sumstats/smhm.py:9-43 [compute_smhm].  [ydata] has shape (n, 1) there; the size-one
    axis is summed with the others and is dropped here. *)
Definition compute_smhm (logmh logsm sigma logmh_bins : list xr) : option (list xr) :=
  let nddata := col logmh in
  let ndsig := col sigma in
  let ndbins_lo := col (init_ logmh_bins) in
  let ndbins_hi := col (tail_ logmh_bins) in
  match tw_ndhist_weighted nddata ndsig logsm ndbins_lo ndbins_hi,
        tw_ndhist_weighted nddata ndsig (map (fun _ => Fin 1) logsm) ndbins_lo ndbins_hi with
  | Some wndhist, Some wcounts => Some (map2 xdiv wndhist wcounts)
  | _, _ => None
  end.

(** ** loss_kernels/mstar_ssfr_loss_mgash_anyz.py.  [tw_ndhist_weighted] is imported from
    diffsky there; the repository's own copy is used in its place. *)

(** 32-35 *)
Definition mse (pred target : list xr) : option xr :=
  if same_len pred target then
    let diff := map2 xsub pred target in
    Some (xmean (map (fun d => xpown d 2) diff))
  else None.
Definition shape2 {A} (l : list (list A)) : list nat := map len l.
Definition mse2 (pred target : list (list xr)) : option xr :=
  if forallb (fun b => b) (map2 Nat.eqb (shape2 pred) (shape2 target)) && same_len pred target
  then mse (List.concat pred) (List.concat target) else None.
Definition mse3 (pred target : list (list (list xr))) : option xr :=
  if forallb (fun b => b) (map2 Nat.eqb (shape2 pred) (shape2 target)) && same_len pred target
  then mse2 (List.concat pred) (List.concat target) else None.

(** 26, 43, 67: jnp.logspace(-1, jnp.log10(tobs), N_TIMES) *)
Definition N_TIMES : nat := 20.
Definition logspace (start stop : xr) (num : nat) : list xr :=
  map (fun i => xpow10 (start + Fin (INR i) * ((stop - start) / Fin (INR (num - 1))))%X) (seq 0 num).
Definition tobs_grid (tobs : xr) : list xr := logspace (Fin (-1)) (xlog10 tobs) N_TIMES.

(** 38-48 [_calculate_obs_data_kern] *)
Definition calculate_obs_data (tobs : xr) (sfh_ms sfh_q : list (list xr)) : option (list xr * list xr) :=
  let tarr := tobs_grid tobs in
  match cumulative_mstar_formed_galpop tarr sfh_ms, cumulative_mstar_formed_galpop tarr sfh_q with
  | Some smh_ms, Some smh_q => Some (map last_ smh_ms, map last_ smh_q)
  | _, _ => None
  end.

(** 93-114 [compute_diff_histograms_mstar_atmobs_z] *)
Definition compute_diff_histograms_mstar_atmobs_z (logmstar_bins log_smh_table weight : list xr)
  : option (list xr) :=
  let n_halos := len log_smh_table in
  let nddata := col log_smh_table in
  let sigma := map (fun z => xmean (diff_ logmstar_bins) + z)%X (zeros n_halos) in
  let ndsig := col sigma in
  let ndbins_lo := col (init_ logmstar_bins) in
  let ndbins_hi := col (tail_ logmstar_bins) in
  match tw_ndhist_weighted nddata ndsig weight ndbins_lo ndbins_hi with
  | Some wcounts => Some (map (fun w => w / xsum wcounts)%X wcounts)
  | None => None
  end.

(** 213-235 [compute_diff_histograms_mstar_ssfr_atz] *)
Definition pairs2 (a b : list xr) : option (list (list xr)) :=
  if same_len a b then Some (map2 (fun x y => [x; y]) a b) else None.
Definition compute_diff_histograms_mstar_ssfr_atz (log_smh_table log_ssfr_table weight : list xr)
    (ndbins_lo ndbins_hi : list (list xr)) (logmstar_bins logssfr_bins : list xr) : option (list xr) :=
  let n_halos := len log_smh_table in
  let sigma_mstar := map (fun z => xmean (diff_ logmstar_bins) + z)%X (zeros n_halos) in
  let sigma_ssfr := map (fun z => xmean (diff_ logssfr_bins) + z)%X (zeros n_halos) in
  match pairs2 sigma_mstar sigma_ssfr, pairs2 log_smh_table log_ssfr_table with
  | Some ndsig, Some nddata =>
    match tw_ndhist_weighted nddata ndsig weight ndbins_lo ndbins_hi with
    | Some wcounts => Some (map (fun w => w / xsum wcounts)%X wcounts)
    | None => None
    end
  | _, _ => None
  end.

(** 314-323: the part of [mstar_ssfr_kern_tobs] after the histograms.  [a.reshape((-1, nms,
    nsf))]: *)
Fixpoint chunks {A} (n k : nat) (l : list A) : list (list A) :=
  match n with
  | O => []
  | S n => firstn k l :: chunks n k (skipn k l)
  end.
Definition reshape2 (nms nsf : nat) (l : list xr) : option (list (list xr)) :=
  if Nat.eqb (len l) (nms * nsf) then Some (chunks nms nsf l) else None.
(** jnp.take along the leading axis of a stack of matrices, and along the rows of one *)
Definition nan_matrix (nms nsf : nat) : list (list xr) := repeat (repeat NaN nsf) nms.
Definition take_matrix (nms nsf : nat) (ps : list (list (list xr))) (i : nat) : list (list xr) :=
  nth i ps (nan_matrix nms nsf).
Definition take_row (nsf : nat) (p : list (list xr)) (i : nat) : list xr := nth i p (repeat NaN nsf).
(** einsum "zmab,zm->zab", one redshift *)
Definition weighted_sum_matrices (nms nsf : nat) (ms : list (list (list xr))) (ws : list xr) : list (list xr) :=
  map (fun a => map (fun b => xsum (map2 (fun m w => ent m a b * w)%X ms ws)) (seq 0 nsf)) (seq 0 nms).
(** 319-322 *)
Definition conditional_pdfs (nms nsf : nat) (ps : list (list (list xr)))
    (nmhalo_pdf : list (list xr)) (indx_pdf : list (list nat)) (target_mstar_ids : list nat)
  : option (list (list (list xr))) :=
  if same_len nmhalo_pdf indx_pdf then
    vmap (fun zi => let '(w, idx) := zi in
      if same_len w idx then
        let pdfs := weighted_sum_matrices nms nsf (map (take_matrix nms nsf ps) idx) w in
        let pdfs := map (take_row nsf pdfs) target_mstar_ids in
        Some (map (fun row => map (fun x => x / xsum row)%X row) pdfs)
      else None) (combine nmhalo_pdf indx_pdf)
  else None.

(** jnp.clip(x, lo, None) *)
Definition clip_lo (lo x : xr) : xr := xmax x lo.

Section Losses.
Variable key : Type.
Variable jran_split : key -> nat -> list key.
Variable jran_uniform : key -> xr.
Variable jran_mvn : key -> list xr -> matrix -> list xr.
Variable log_mah_kern : MahParams xr -> xr -> xr -> xr.

(** The galaxies simulated at one redshift *)
Record ZPop := mkZPop { z_mah : MahParams (list xr); z_logmp0 : list xr; z_upid : list Z;
  z_lgmu_infall : list xr; z_logmhost_infall : list xr; z_gyr_since_infall : list xr;
  z_key : key; z_tobs : xr }.

(** 54-81 [_mc_diffstar_sfh_galpop_vmap_kern] *)
Definition mc_sfh_at_tobs (p : nt xr) (z : ZPop) (lgt0 fb : xr) :=
  mc_diffstar_sfh_galpop key jran_split jran_uniform jran_mvn log_mah_kern p (z_mah z) (z_logmp0 z)
    (z_upid z) (z_lgmu_infall z) (z_logmhost_infall z) (z_gyr_since_infall z) (z_key z)
    (tobs_grid (z_tobs z)) lgt0 fb.

(** 140-169, 267-303: simulated log stellar mass, clipped log sSFR and weight, main
    sequence galaxies first *)
Definition tobs_tables (p : nt xr) (z : ZPop) (lgt0 fb : xr) : option (list xr * list xr * list xr) :=
  match mc_sfh_at_tobs p z lgt0 fb with
  | Some res =>
    match calculate_obs_data (z_tobs z) (sfh_ms res) (sfh_q res) with
    | Some (smh_ms_tobs, smh_q_tobs) =>
      let sfh_ms_tobs := map last_ (sfh_ms res) in
      let sfh_q_tobs := map last_ (sfh_q res) in
      let log_sfh_ms := map xlog10 sfh_ms_tobs in
      let log_sfh_q := map xlog10 sfh_q_tobs in
      let log_smh_ms := map xlog10 smh_ms_tobs in
      let log_smh_q := map xlog10 smh_q_tobs in
      let log_ssfrh_ms := map (clip_lo (Fin (-12))) (map2 xsub log_sfh_ms log_smh_ms) in
      let log_ssfrh_q := map (clip_lo (Fin (-12))) (map2 xsub log_sfh_q log_smh_q) in
      let weight_q := map2 xmul (map (fun _ => Fin 1) log_sfh_q) (frac_q res) in
      let weight_ms := map2 xmul (map (fun _ => Fin 1) log_sfh_ms) (map (fun f => Fin 1 - f)%X (frac_q res)) in
      Some (log_smh_ms ++ log_smh_q, log_ssfrh_ms ++ log_ssfrh_q, weight_ms ++ weight_q)
    | None => None
    end
  | None => None
  end.

(** 123-177 [mstar_kern_tobs] *)
Definition mstar_kern_tobs (u_params : nt xr) (zs : list ZPop) (lgt0 fb : xr) (logmstar_bins : list xr)
  : option (list (list xr)) :=
  match get_bounded_diffstarpop_params u_params with
  | Some p =>
    vmap (fun z => match tobs_tables p z lgt0 fb with
                   | Some (log_smh, _, weight) => compute_diff_histograms_mstar_atmobs_z logmstar_bins log_smh weight
                   | None => None end) zs
  | None => None
  end.

(** 180-185 *)
Definition loss_mstar_kern_tobs u_params zs lgt0 fb logmstar_bins (target_mstar_pdf : list (list xr)) : option xr :=
  match mstar_kern_tobs u_params zs lgt0 fb logmstar_bins with
  | Some pred => option_map (fun l => l * Fin 1000)%X (mse2 pred target_mstar_pdf)
  | None => None
  end.

(** 244-323 [mstar_ssfr_kern_tobs]; 362-441 [mstar_ssfr_sat_kern_tobs] is the same text *)
Record SsfrData := mkSsfr { s_lo : list (list xr); s_hi : list (list xr); s_mbins : list xr; s_sbins : list xr;
  s_nmhalo : list (list xr); s_indx : list (list nat); s_ids : list nat }.
Definition mstar_ssfr_kern_tobs (u_params : nt xr) (zs : list ZPop) (lgt0 fb : xr) (d : SsfrData)
  : option (list (list (list xr))) :=
  match get_bounded_diffstarpop_params u_params with
  | Some p =>
    let nms := (len (s_mbins d) - 1)%nat in
    let nsf := (len (s_sbins d) - 1)%nat in
    match vmap (fun z => match tobs_tables p z lgt0 fb with
            | Some (log_smh, log_ssfrh, weight) =>
              match compute_diff_histograms_mstar_ssfr_atz log_smh log_ssfrh weight (s_lo d) (s_hi d)
                      (s_mbins d) (s_sbins d) with
              | Some h => reshape2 nms nsf h
              | None => None
              end
            | None => None end) zs with
    | Some ps => conditional_pdfs nms nsf ps (s_nmhalo d) (s_indx d) (s_ids d)
    | None => None
    end
  | None => None
  end.

(** 326-332, 444-450 *)
Definition loss_mstar_ssfr_kern_tobs u_params zs lgt0 fb d (target_data : list (list (list xr))) : option xr :=
  match mstar_ssfr_kern_tobs u_params zs lgt0 fb d with
  | Some pred => option_map (fun l => l * Fin 1000)%X (mse3 pred target_data)
  | None => None
  end.

Record MstarLossData := mkML { ml_zs : list ZPop; ml_lgt0 : xr; ml_fb : xr; ml_bins : list xr; ml_target : list (list xr) }.
Record SsfrLossData := mkSL { sl_zs : list ZPop; sl_lgt0 : xr; sl_fb : xr; sl_data : SsfrData; sl_target : list (list (list xr)) }.
Definition loss_mstar (u : nt xr) (d : MstarLossData) : option xr :=
  loss_mstar_kern_tobs u (ml_zs d) (ml_lgt0 d) (ml_fb d) (ml_bins d) (ml_target d).
Definition loss_ssfr (u : nt xr) (d : SsfrLossData) : option xr :=
  loss_mstar_ssfr_kern_tobs u (sl_zs d) (sl_lgt0 d) (sl_fb d) (sl_data d) (sl_target d).

(** 480-485 *)
Definition loss_combined_kern u (dm : MstarLossData) (dc : SsfrLossData) : option xr :=
  match loss_ssfr u dc, loss_mstar u dm with
  | Some a, Some b => Some (a + b)%X
  | _, _ => None
  end.

(** 502-512 *)
Definition loss_combined_3loss_kern u (dm : MstarLossData) (dc ds : SsfrLossData) : option xr :=
  match loss_ssfr u dc, loss_ssfr u ds, loss_mstar u dm with
  | Some cen, Some sat, Some m => Some (cen + m + sat)%X
  | _, _, _ => None
  end.

(** 200-205 [get_pred_mstar_data_wrapper].  [_make] of a wrong number of values raises. *)
Definition get_pred_mstar_data_wrapper (flat_uparams : list xr) zs lgt0 fb bins : option (list (list xr)) :=
  match nt_make DIFFSTARPOP_UNAMES flat_uparams with
  | Some u => mstar_kern_tobs u zs lgt0 fb bins
  | None => None
  end.
End Losses.
