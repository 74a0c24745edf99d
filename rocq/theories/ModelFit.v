(** Model of the fitting code: diffstar/fitting_helpers/diffstar_fitting_helpers.py and
    diffstar/fitting_helpers/utils.py.  Definitions only.

    Simplifications: float32 storage is exact; [loss_data] is a record; the gradient, scipy's
    L-BFGS-B, NumPy's global random state and the Adam update are arbitrary functions. *)
From Coq Require Import Reals List Bool ZArith String.
From Verif Require Import XReal ModelUtils ModelKernels ModelSfh ModelPop ModelHist.
Import ListNotations.
Open Scope R_scope.

(** ** NumPy reductions *)
(** np.clip(x, lo, hi) *)
Definition np_clip (x lo hi : xr) : xr := xmin (xmax x lo) hi.
(** arr.max(), np.min: NaN propagates; an empty array raises *)
Definition np_max (l : list xr) : option xr :=
  match l with [] => None | a :: l => Some (fold_left xmax l a) end.
Definition np_min (l : list xr) : option xr :=
  match l with [] => None | a :: l => Some (fold_left xmin l a) end.
(** np.argmin / np.argmax: first occurrence of the extreme value; a NaN counts as extreme *)
Fixpoint argbest (better : xr -> xr -> bool) (best : nat) (v : xr) (i : nat) (l : list xr) : nat :=
  match l with
  | [] => best
  | a :: l => if negb (isnan v) && (isnan a || better a v) then argbest better i a (S i) l
              else argbest better best v (S i) l
  end.
Definition np_argmin (l : list xr) : option nat :=
  match l with [] => None | a :: l => Some (argbest xlt 0 a 1 l) end.
Definition np_argmax (l : list xr) : option nat :=
  match l with [] => None | a :: l => Some (argbest xgt 0 a 1 l) end.
(** np.isnan(l).all() *)
Definition all_nan (l : list xr) : bool := forallb isnan l.
(** np.nanargmin: NaNs are replaced by inf, then argmin; raises when all are NaN (or the
    array is empty) *)
Definition np_nanargmin (l : list xr) : option nat :=
  if all_nan l then None else np_argmin (map (fun x => if isnan x then PInf else x) l).
(** np.nanmin of a list with at least one number *)
Definition np_nanmin (l : list xr) : option xr := np_min (filter (fun x => negb (isnan x)) l).

(** ** Parameter arrays *)
Definition ms_array {A} (p : MSParams A) : list A := [lgmcrit p; lgy_at_mcrit p; indx_lo p; indx_hi p].
Definition q_array {A} (p : QParams A) : list A := [lg_qt p; qlglgdt p; lg_drop p; lg_rejuv p].
Definition d_array {A} (p : DiffstarParams A) : list A := ms_array (slice_ms p) ++ q_array (slice_q p).
(** [_make] raises unless given as many values as fields *)
Definition ms_make {A} (l : list A) : option (MSParams A) :=
  match l with [a; b; c; d] => Some (mkMS a b c d) | _ => None end.
Definition q_make {A} (l : list A) : option (QParams A) :=
  match l with [a; b; c; d] => Some (mkQ a b c d) | _ => None end.
Definition d_make {A} (l : list A) : option (DiffstarParams A) :=
  match l with [a; b; c; d; e; f; g; h] => Some (mkDiffstar a b c d e f g h) | _ => None end.

(** ** diffstar_fitting_helpers.py *)
(** 25-29 *)
Definition T_FIT_MIN : xr := Fin 1.
Definition DLOGM_CUT : xr := Fin (35 / 10).
Definition MIN_MASS_CUT : xr := Fin 7.
Definition FSTAR_TIME_DELAY : xr := Fin 1.
Definition SSFRH_FLOOR : xr := Fin (1 / 10 ^ 12).

(** boolean-mask assignment [arr[mask] = v] *)
Definition set_where (mask : list bool) (v : xr) (arr : list xr) : list xr :=
  map2 (fun b a => if b : bool then v else a) mask arr.

(** 158-184 [get_weights] *)
Definition get_weights (t_table log_smah_sim log_fstar_sim : list xr)
    (fstar_tdelay dlogm_cut t_fit_min mass_fit_min : xr) : option (list xr * list xr) :=
  match log_smah_sim with
  | [] => None (* IndexError *)
  | _ =>
    let final := last_ log_smah_sim in
    let a := (final - Fin (1 / 2))%X in
    let mass_fit_min := if xlt mass_fit_min a then mass_fit_min else a in
    if same_len t_table log_smah_sim && same_len t_table log_fstar_sim then
      let mask := map (fun s => xgt s (final - dlogm_cut)%X) log_smah_sim in
      let mask := map2 andb mask (map (fun s => xgt s mass_fit_min) log_smah_sim) in
      let mask := map2 andb mask (map (fun t => xge t t_fit_min) t_table) in
      let weight := map (fun _ => Fin 1) t_table in
      let weight := set_where (map negb mask) (Fin (10 ^ 10)) weight in
      let weight := set_where (map (fun s => xlt (final - s)%X (Fin (1 / 10))) log_smah_sim) (Fin (1 / 2)) weight in
      match np_max log_fstar_sim with
      | Some fmax =>
        let wf := map (fun _ => Fin 1) t_table in
        let wf := set_where (map negb mask) (Fin (10 ^ 10)) wf in
        let wf := set_where (map (fun s => xlt (fmax - s)%X (Fin (1 / 10))) log_fstar_sim) (Fin (1 / 2)) wf in
        let wf := set_where (map (fun w => xeq w (Fin (-10))) wf) (Fin (10 ^ 10)) wf in
        let wf := set_where (map (fun t => xlt t (fstar_tdelay + Fin (1 / 100))%X) t_table) (Fin (10 ^ 10)) wf in
        Some (weight, wf)
      | None => None
      end
    else None
  end.

(** 137-151 *)
Record LossData := mkLD { ld_t : list xr; ld_mah : MahParams xr; ld_mstar : list xr; ld_logmstar : list xr;
  ld_sfh : list xr; ld_logfstar : list xr; ld_tdelay : xr; ld_floor : xr; ld_w : list xr; ld_wf : list xr;
  ld_lgtmax : xr; ld_lgt0 : xr; ld_fb : xr }.

Section Fit.
Variable log_mah_kern : MahParams xr -> xr -> xr -> xr.
Variable mah_singlehalo : MahParams xr -> list xr -> xr -> list xr * list xr.

(** 116-124: main-sequence part of the initial guess *)
Definition init_ms (logmp0 : xr) : option (list xr) :=
  let ms := ms_array DEFAULT_MS_PARAMS in
  let ms := upd ms 0 (np_clip (Fin (3 / 10) * (logmp0 - Fin 11) + Fin (114 / 10)) (Fin 11) (Fin 13))%X in
  let ms := upd ms 1 (np_clip (Fin (2 / 10) * (logmp0 - Fin 11) - Fin (97 / 10)) (Fin (-105 / 10)) (Fin (-92 / 10)))%X in
  let ms := upd ms 2 (np_clip (Fin (7 / 10) * (logmp0 - Fin 11) - Fin (3 / 10)) (Fin (2 / 10)) (Fin 3))%X in
  match ms_make ms with
  | Some ms => Some (ms_array (get_unbounded_sfr_params ms))
  | None => None
  end.
(** 127-129: the quenching parameters computed from the halo mass *)
Definition q_from_mass (logmp0 : xr) : list xr :=
  let q := q_array DEFAULT_Q_PARAMS in
  let q := upd q 0 (np_clip (Fin (-1 / 2) * (logmp0 - Fin 11) + Fin (15 / 10)) (Fin (7 / 10)) (Fin (15 / 10)))%X in
  upd q 2 (Fin (-2)).
(** 130-131: overwritten by [_make(DEFAULT_Q_PARAMS)] *)
Definition init_q (logmp0 : xr) : option (list xr) :=
  let varied_q_params := q_from_mass logmp0 in
  match q_make (q_array DEFAULT_Q_PARAMS) with
  | Some varied_q_params => Some (q_array (get_unbounded_q_params varied_q_params))
  | None => None
  end.
(** 123, 132 *)
Definition init_err : list xr :=
  [Fin (1 / 2); Fin (1 / 2); Fin 1; Fin 1] ++ [Fin (3 / 10); Fin (1 / 2); Fin (3 / 10); Fin (3 / 10)].

(** 75-155 [get_loss_data_default] *)
Definition get_loss_data_default (t_table sfh_table : list xr) (mah_params : MahParams xr)
    (dlogm_cut t_fit_min mass_fit_min fstar_tdelay ssfrh_floor lgt0 fb : xr)
  : option ((list xr * list xr) * LossData) :=
  let sfh_target := map (fun s => np_clip s SFR_MIN PInf) sfh_table in
  match cumulative_mstar_formed t_table sfh_table with
  | None => None
  | Some mstar_target =>
    let logmstar_target := map xlog10 mstar_target in
    let fstar_table := compute_fstar t_table mstar_target fstar_tdelay in
    let ssfrh_table := map2 xdiv fstar_table mstar_target in
    let ssfrh_target := map (fun s => np_clip s ssfrh_floor PInf) ssfrh_table in
    let fstar_target := map2 xmul ssfrh_target mstar_target in
    match np_max fstar_target with
    | None => None
    | Some m =>
      let fstar_target_min := (m / Fin 1000)%X in
      let fstar_target := map (fun f => if xlt f fstar_target_min then fstar_target_min else f) fstar_target in
      let log_fstar_target := map xlog10 fstar_target in
      let lgt_table := map xlog10 t_table in
      let log_mah := snd (mah_singlehalo mah_params t_table lgt0) in
      let logmp0 := last_ log_mah in
      match get_weights t_table logmstar_target log_fstar_target fstar_tdelay dlogm_cut t_fit_min mass_fit_min,
            np_argmax log_fstar_target, init_ms logmp0, init_q logmp0 with
      | Some (weight, weight_fstar), Some imax, Some u_ms, Some u_q =>
        let lgt_fstar_max := at_ lgt_table imax in
        Some ((u_ms ++ u_q, init_err),
              mkLD t_table mah_params mstar_target logmstar_target sfh_target log_fstar_target fstar_tdelay
                ssfrh_floor weight weight_fstar lgt_fstar_max lgt0 fb)
      | _, _, _, _ => None
      end
    end
  end.

(** 187-235 [loss_default_clipssfrh] *)
Definition loss_default_clipssfrh (u_params : list xr) (d : LossData) : option xr :=
  match d_make u_params with
  | None => None
  | Some sfh_u_params =>
    let sfh_params := get_bounded_diffstar_params sfh_u_params in
    match calc_sfh_singlegal_smh log_mah_kern sfh_params (ld_mah d) (ld_t d) (ld_lgt0 d) (ld_fb d) with
    | None => None
    | Some (sfh_table, mstar_table) =>
      let fstar := compute_fstar (ld_t d) mstar_table (ld_tdelay d) in
      let lo := map (fun m => m * (ld_floor d / Fin 10))%X mstar_table in
      let fstar := map2 (fun f l => np_clip f l PInf) fstar lo in
      let sfh_table := map2 (fun s l => np_clip s l PInf) sfh_table lo in
      let log_fstar := map xlog10 fstar in
      let logsm_table := map xlog10 mstar_table in
      let sfr_res := map2 xdiv (map (fun x => Fin (10 ^ 8) * x)%X (map2 xsub sfh_table (ld_sfh d))) (ld_mstar d) in
      let sfr_res := map (fun r => np_clip r (Fin (-1)) (Fin 1)) sfr_res in
      let sq l := map (fun x => xpown x 2) l in
      let loss := (Fin 30 * xmean (sq (map2 xdiv (map2 xsub logsm_table (ld_logmstar d)) (ld_w d))))%X in
      let loss := (loss + xmean (sq (map2 xdiv (map2 xsub log_fstar (ld_logfstar d)) (ld_wf d))))%X in
      let loss := (loss + xmean (sq (map2 xdiv sfr_res (ld_w d))))%X in
      let loss := (loss + Fin (1 / 2) * xpown (last_ (map2 xsub log_fstar (ld_logfstar d))) 2)%X in
      let loss := (loss + sigmoid (d_lg_qt sfh_params - ld_lgtmax d) (Fin 0) (Fin 50) (Fin 100) (Fin 0))%X in
      Some loss
    end
  end.
End Fit.

(** ** utils.py *)
Section Optimizers.
(** NumPy's global random state and [np.random.normal(loc, scale)] *)
Variable rng : Type.
Variable normal : rng -> list xr -> list xr -> list xr * rng.
(** [loss_func(., loss_data)] and its gradient *)
Variable loss_func : list xr -> xr.
Variable loss_func_deriv : list xr -> list xr.
(** scipy.optimize.minimize(method="L-BFGS-B"): (res.x, res.fun, res.success) *)
Variable minimize : list xr -> list xr * xr * bool.

(** 61-81 [return_random_pinit] *)
Definition any_nan (l : list xr) : bool := existsb isnan l.
Fixpoint redraw (fuel : nat) (s : rng) (p_init : list xr * list xr) (p : list xr) (isnan : bool)
  : list xr * bool * rng :=
  match fuel with
  | O => (p, isnan, s)
  | S fuel =>
    if isnan then
      let '(p, s) := normal s (fst p_init) (snd p_init) in
      redraw fuel s p_init p (any_nan (loss_func_deriv p))
    else (p, isnan, s)
  end.
Definition return_random_pinit (s : rng) (p_init : list xr * list xr) : list xr * bool * rng :=
  let '(p, s) := normal s (fst p_init) (snd p_init) in
  let isnan := any_nan (loss_func_deriv p) in
  if isnan then redraw 1000 s p_init p isnan else (p, isnan, s).

(** 84-180 [minimizer_wrapper]; the three lists are one list of triples *)
Definition attempt_result : Type := list xr * xr * Z.
Definition losses (l : list attempt_result) : list xr := map (fun a => snd (fst a)) l.

(** 138-168; fuel is [max_iter - iter_id] *)
Fixpoint restarts (fuel : nat) (s : rng) (p_init : list xr * list xr) (loss_tol : xr)
    (acc : list attempt_result) (loss_best_current : xr) : option (list attempt_result * rng) :=
  match fuel with
  | O => Some (acc, s)
  | S fuel =>
    if xgt loss_best_current loss_tol then
      let '(p_init_run, isnan, s) := return_random_pinit s p_init in
      if isnan then
        let acc := acc ++ [(fst p_init, Fin (99999 / 100), (-1)%Z)] in
        match np_min (losses acc) with
        | Some m => restarts fuel s p_init loss_tol acc m
        | None => None
        end
      else
        let '(x, f, _) := minimize p_init_run in
        let acc := acc ++ [(x, f, 1%Z)] in
        if all_nan (losses acc) then restarts fuel s p_init loss_tol acc PInf
        else match np_nanmin (losses acc) with
             | Some m => restarts fuel s p_init loss_tol acc m
             | None => None
             end
    else Some (acc, s)
  end.

Definition minimizer_wrapper (s : rng) (p_init : list xr * list xr) (loss_tol : xr) (max_iter : nat)
  : option (attempt_result * rng) :=
  match restarts max_iter s p_init loss_tol [] PInf with
  | None => None
  | Some (l, s) =>
    if all_nan (losses l) then Some ((fst p_init, Fin (99999 / 100), (-1)%Z), s)
    else match np_nanargmin (losses l) with
         | Some i => match nth_error l i with Some a => Some (a, s) | None => None end
         | None => None
         end
  end.

(** Adam (jax.example_libraries.optimizers.adam): one state machine per step size *)
Variable opt_state : Type.
Variable opt_init : xr -> list xr -> opt_state.
Variable opt_update : xr -> nat -> list xr -> opt_state -> opt_state.
Variable get_params : opt_state -> list xr.

Definition all_finite (l : list xr) : bool := forallb isfinite l.

(** 258-330 [_jax_adam_wrapper]: (best params, best loss, loss_arr, params_arr).  [k] counts
    the remaining steps, [istep = n_step - k]. *)
Definition adam_result : Type := list xr * xr * list xr * list (list xr).
Fixpoint adam_loop (k istep : nat) (step_size : xr) (st : opt_state) (loss_arr : list xr)
    (params_arr : list (list xr)) : option adam_result :=
  match k with
  | O =>
    match np_nanargmin loss_arr with
    | Some indx_best =>
      Some (nth indx_best params_arr [], at_ loss_arr indx_best, loss_arr, params_arr)
    | None => None
    end
  | S k =>
    let p := get_params st in
    let loss := loss_func p in
    let grads := loss_func_deriv p in
    if negb (all_finite p) || negb (isfinite loss) || negb (all_finite grads) then
      if Nat.ltb 0 istep then
        match np_nanargmin (firstn istep loss_arr) with
        | Some indx_best =>
          Some (nth indx_best params_arr [], at_ loss_arr indx_best, firstn istep loss_arr, firstn istep params_arr)
        | None => None
        end
      else Some (p, Fin (99999 / 100), firstn istep loss_arr, firstn istep params_arr)
    else
      adam_loop k (S istep) step_size (opt_update step_size istep grads st)
        (upd loss_arr istep loss) (upd params_arr istep p)
  end.
Definition jax_adam_wrapper (params_init : list xr) (n_step : nat) (step_size : xr) : option adam_result :=
  adam_loop n_step 0 step_size (opt_init step_size params_init)
    (map (fun z => z - Fin 1)%X (zeros n_step)) (repeat (zeros (len params_init)) n_step).

(** 183-255 [jax_adam_wrapper_v2] *)
Fixpoint warmup (n : nat) (p_init : list xr) (warmup_n_step : nat) (step_size : xr) : option (list xr) :=
  match n with
  | O => Some p_init
  | S n => match jax_adam_wrapper p_init warmup_n_step step_size with
           | Some (p, _, _, _) => warmup n p warmup_n_step step_size
           | None => None
           end
  end.
Definition jax_adam_wrapper_v2 (params_init : list xr) (n_step n_warmup : nat) (step_size : xr)
    (warmup_n_step : nat) (warmup_step_size : option xr) : option (adam_result * Z) :=
  let warmup_step_size := match warmup_step_size with None => (Fin 5 * step_size)%X | Some w => w end in
  match warmup n_warmup params_init warmup_n_step warmup_step_size with
  | None => None
  | Some p_init =>
    let p0 := if all_finite p_init then p_init else params_init in
    match jax_adam_wrapper p0 n_step step_size with
    | Some res =>
      let '(_, _, loss_arr, _) := res in
      Some (res, if Nat.ltb (len loss_arr) n_step then 0%Z else 1%Z)
    | None => None
    end
  end.

(** 10-58 [minimizer]; [args] are the extra positional arguments, which Python binds to
    [n_warmup] although it is also given by keyword: TypeError *)
Definition minimizer (p_init : list xr) (nstep : nat) (args : list xr) : option attempt_result :=
  let '(x, f, success) := minimize p_init in
  if negb success then
    match args with
    | _ :: _ => None
    | [] =>
      match jax_adam_wrapper_v2 p_init nstep 2 (Fin (1 / 100)) 50 None with
      | Some (p, l, _, _, fit_terminates) => Some (p, l, if Z.eqb fit_terminates 0 then (-1)%Z else 0%Z)
      | None => None
      end
    end
  else Some (x, f, 1%Z).
End Optimizers.

(** ** diffstar_fitting_helpers.py:35-72 [diffstar_fitter] *)
Section Fitter.
Variable log_mah_kern : MahParams xr -> xr -> xr -> xr.
Variable mah_singlehalo : MahParams xr -> list xr -> xr -> list xr * list xr.
Variable rng : Type.
Variable normal : rng -> list xr -> list xr -> list xr * rng.
Variable loss_grad : LossData -> list xr -> list xr.
Variable minimize : (list xr -> option xr) -> (list xr -> list xr) -> list xr -> list xr * xr * bool.

Definition diffstar_fitter (s : rng) (t_table sfh_table : list xr) (mah_params : MahParams xr)
    (dlogm_cut t_fit_min mass_fit_min fstar_tdelay ssfrh_floor lgt0 fb : xr)
  : option (DiffstarParams xr * xr * Z * rng) :=
  match get_loss_data_default mah_singlehalo t_table sfh_table mah_params dlogm_cut t_fit_min
          mass_fit_min fstar_tdelay ssfrh_floor lgt0 fb with
  | None => None
  | Some (u_p_init_and_err, loss_data) =>
    let loss_func := fun u => loss_default_clipssfrh log_mah_kern u loss_data in
    match minimizer_wrapper rng normal (loss_grad loss_data) (minimize loss_func (loss_grad loss_data))
            s u_p_init_and_err (Fin (1 / 10)) 10 with
    | None => None
    | Some ((varied_u_p_best, loss_best, success), s) =>
      match d_make varied_u_p_best with
      | Some u_p_best => Some (get_bounded_diffstar_params u_p_best, loss_best, success, s)
      | None => None
      end
    end
  end.
End Fitter.
