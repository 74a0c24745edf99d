(** Model of the prediction wrappers of the population losses,
    diffstarpop/loss_kernels/mstar_ssfr_loss_mgash_anyz.py:200-205, 349-354, 467-472, and of the
    parameter transforms of arrays of galaxies, kernels/main_sequence_kernels.py:108-123 and
    kernels/quenching_kernels.py:140-149, 163-166, 189-202. *)
From Coq Require Import Reals List String.
From Verif Require Import XReal ModelUtils ModelKernels ModelSfh ModelPop ModelHist ModelFit.
Import ListNotations.

Section Wrappers.
Variable key : Type.
Variable split : key -> nat -> list key.
Variable uniform : key -> xr.
Variable mvn : key -> list xr -> matrix -> list xr.
Variable log_mah_kern : MahParams xr -> xr -> xr -> xr.

(** ** 200-205 [get_pred_mstar_data_wrapper] on the loss data, whose last entry is not read *)
Definition get_pred_mstar (flat_uparams : list xr) (d : MstarLossData key) : option (list (list xr)) :=
  get_pred_mstar_data_wrapper key split uniform mvn log_mah_kern flat_uparams
    (ml_zs key d) (ml_lgt0 key d) (ml_fb key d) (ml_bins key d).

(** ** 349-354 [get_pred_mstar_ssfr_data_wrapper]; 467-472 [get_pred_mstar_ssfr_sat_data_wrapper] is
    the same text over [mstar_ssfr_sat_kern_tobs], which is the same text as [mstar_ssfr_kern_tobs] *)
Definition get_pred_mstar_ssfr_data_wrapper (flat_uparams : list xr) (d : SsfrLossData key)
  : option (list (list (list xr))) :=
  match nt_make DIFFSTARPOP_UNAMES flat_uparams with
  | Some u => mstar_ssfr_kern_tobs key split uniform mvn log_mah_kern u
                (sl_zs key d) (sl_lgt0 key d) (sl_fb key d) (sl_data key d)
  | None => None
  end.
End Wrappers.

(** ** main_sequence_kernels.py:108-123: one row per galaxy.  Unpacking a row of a length other
    than four raises. *)
Definition get_bounded_sfr_params_galpop_kern (ms_params : list xr) : option (list xr) :=
  option_map (fun u => ms_array (get_bounded_sfr_params u)) (ms_make ms_params).
Definition get_unbounded_sfr_params_galpop_kern (u_ms_params : list xr) : option (list xr) :=
  option_map (fun p => ms_array (get_unbounded_sfr_params p)) (ms_make u_ms_params).
Definition get_bounded_sfr_params_vmap : list (list xr) -> option (list (list xr)) :=
  vmap get_bounded_sfr_params_galpop_kern.
Definition get_unbounded_sfr_params_vmap : list (list xr) -> option (list (list xr)) :=
  vmap get_unbounded_sfr_params_galpop_kern.

(** ** quenching_kernels.py:189-202 *)
Definition get_bounded_q_params_galpop_kern (q_params : list xr) : option (list xr) :=
  option_map (fun u => q_array (get_bounded_q_params u)) (q_make q_params).
Definition get_unbounded_q_params_galpop_kern (u_q_params : list xr) : option (list xr) :=
  option_map (fun p => q_array (get_unbounded_q_params p)) (q_make u_q_params).
Definition get_bounded_q_params_vmap : list (list xr) -> option (list (list xr)) :=
  vmap get_bounded_q_params_galpop_kern.
Definition get_unbounded_q_params_vmap : list (list xr) -> option (list (list xr)) :=
  vmap get_unbounded_q_params_galpop_kern.

(** ** quenching_kernels.py:140-149, 163-166 *)
Definition get_bounded_lg_drop (u_lg_drop : xr) : xr := sigmoid_b u_lg_drop (lg_drop Q_SIG).
Definition get_unbounded_lg_drop (lg_drop_ : xr) : xr := inverse_sigmoid_b lg_drop_ (lg_drop Q_SIG).
Definition get_bounded_qt (u_lg_qt : xr) : xr := sigmoid_b u_lg_qt (lg_qt Q_SIG).
