(** Properties of the fitting helpers: C50-C57, C68-C71. *)
From Coq Require Import Reals Lra Lia ZArith List Bool.
From Verif Require Import XReal ModelUtils ModelKernels ModelSfh ModelPop ModelHist ModelFit SpecCore SpecHist SpecFit
  FitProofs OptProofs FitTopProofs TightFit.
Import List ListNotations.
Open Scope R_scope.

(** C50: the initial guess is finite, in bounds, and a clamped linear function of halo mass. *)
Theorem C50_initial_guess : forall msh ts ss mah dlogm tmin mmin tau floor lgt0 fb mp,
  fit_input ts ss tau floor -> last (snd (msh mah (map Fin ts) lgt0)) NaN = Fin mp ->
  exists u d, get_loss_data_default msh (map Fin ts) (map Fin ss) mah (Fin dlogm) (Fin tmin) (Fin mmin) (Fin tau) (Fin floor) lgt0 fb
    = Some ((map Fin (params_list u), map Fin [1 / 2; 1 / 2; 1; 1; 3 / 10; 1 / 2; 3 / 10; 3 / 10]), d) /\
    get_bounded_diffstar_params (map_d Fin u) = map_d Fin (guess_spec mp) /\ in_bounds (guess_spec mp).
Proof. exact initial_guess. Qed.
Print Assumptions C50_initial_guess.

(** C50: what the fit is asked to match: mass formed, averaged SFR floored twice, SFR floored
    at 1e-14, time of the first peak of the averaged SFR. *)
Theorem C50_loss_data : forall msh ts ss mah dlogm tmin mmin tau floor lgt0 fb mp,
  fit_input ts ss tau floor -> last (snd (msh mah (map Fin ts) lgt0)) NaN = Fin mp ->
  exists mass f w wf k u,
    cumulative_mstar_formed (map Fin ts) (map Fin ss) = Some (map Fin mass) /\
    compute_fstar (map Fin ts) (map Fin mass) (Fin tau) = map Fin f /\
    Forall (fun m => 0 < m) mass /\
    let lf := map log10R (fstar_target floor f mass) in
    weights_ok tau dlogm tmin mmin ts (map log10R mass) lf w wf /\ first_max lf k /\
    get_loss_data_default msh (map Fin ts) (map Fin ss) mah (Fin dlogm) (Fin tmin) (Fin mmin) (Fin tau) (Fin floor) lgt0 fb
    = Some (u, mkLD (map Fin ts) mah (map Fin mass) (map Fin (map log10R mass)) (map Fin (map (fun s => Rmax s (1 / 10 ^ 14)) ss))
              (map Fin lf) (Fin tau) (Fin floor) (map Fin w) (map Fin wf) (Fin (log10R (nth k ts 0))) lgt0 fb).
Proof. exact loss_data_fields. Qed.
Print Assumptions C50_loss_data.

Example C50_hyp : fit_input [1; 5; 13] [1; 2; 0] 1 (1 / 10 ^ 12) /\
  last (snd ((fun (_ : MahParams xr) (t : list xr) (_ : xr) => (t, t)) (mkMah NaN NaN NaN NaN NaN) (map Fin [1; 5; 13]) NaN)) NaN = Fin 13.
Proof.
  split; [|reflexivity]. split; [discriminate|]. split; [reflexivity|]. split; [simpl; lra|]. split; [repeat constructor; lra|].
  split; [lra|]. apply Rdiv_lt_0_compat; [lra|]. apply pow_lt; lra.
Qed.

(** C51: the quenching half of the guess does not depend on anything. *)
Theorem C51_quench_guess_constant : forall msh t s mah a b c tau floor lgt0 fb u e d,
  get_loss_data_default msh t s mah a b c tau floor lgt0 fb = Some ((u, e), d) ->
  exists v1 v2 v3 v4, skipn 4 u = map Fin [v1; v2; v3; v4] /\
   get_bounded_q_params (mkQ (Fin v1) (Fin v2) (Fin v3) (Fin v4))
     = mkQ (Fin 1) (Fin (-50725 / 100000)) (Fin (-101773 / 100000)) (Fin (-212307 / 1000000)).
Proof. exact quench_guess_constant. Qed.
Print Assumptions C51_quench_guess_constant.

(** C51: the quenching time computed from the halo mass is the one used only at mass 10^12. *)
Theorem C51_mass_dependent_guess_refuted : forall msh t s mah a b c tau floor lgt0 fb u e d mp,
  get_loss_data_default msh t s mah a b c tau floor lgt0 fb = Some ((u, e), d) ->
  last (snd (msh mah t lgt0)) NaN = Fin mp ->
  exists v1 v2 v3 v4, skipn 4 u = map Fin [v1; v2; v3; v4] /\
    (nth 0 (q_from_mass (last_ (snd (msh mah t lgt0)))) NaN = lg_qt (get_bounded_q_params (mkQ (Fin v1) (Fin v2) (Fin v3) (Fin v4))) <-> mp = 12).
Proof. exact guess_not_from_mass. Qed.
Print Assumptions C51_mass_dependent_guess_refuted.

Example C51_hyp : exists u e d,
  get_loss_data_default (fun _ t _ => (t, t)) (map Fin [1; 5; 13]) (map Fin [1; 2; 0]) (mkMah NaN NaN NaN NaN NaN)
    DLOGM_CUT T_FIT_MIN MIN_MASS_CUT FSTAR_TIME_DELAY SSFRH_FLOOR NaN NaN = Some ((u, e), d).
Proof.
  destruct (initial_guess (fun _ t _ => (t, t)) [1; 5; 13] [1; 2; 0] (mkMah NaN NaN NaN NaN NaN) (35 / 10) 1 7 1 (1 / 10 ^ 12) NaN NaN 13
    (proj1 C50_hyp) eq_refl) as (u & d & H & _). do 3 eexists. exact H.
Qed.

(** C52: weights. *)
Theorem C52_weights : forall ts ls lf tau dlogm tmin mmin, ts <> [] -> length ls = length ts -> length lf = length ts ->
  exists w wf, get_weights (map Fin ts) (map Fin ls) (map Fin lf) (Fin tau) (Fin dlogm) (Fin tmin) (Fin mmin)
    = Some (map Fin w, map Fin wf) /\ weights_ok tau dlogm tmin mmin ts ls lf w wf.
Proof. exact weights_spec. Qed.
Print Assumptions C52_weights.

Theorem C52_weight_values : forall tau dlogm tmin mmin ts ls lf w wf i, length ls = length ts -> length lf = length ts ->
  get_weights (map Fin ts) (map Fin ls) (map Fin lf) (Fin tau) (Fin dlogm) (Fin tmin) (Fin mmin) = Some (map Fin w, map Fin wf) ->
  (i < length ts)%nat ->
  (nth i w 0 = 1 / 2 <-> last ls 0 - nth i ls 0 < 1 / 10) /\
  (nth i w 0 = 10 ^ 10 <-> 1 / 10 <= last ls 0 - nth i ls 0 /\ ~ in_cut dlogm tmin mmin (last ls 0) (nth i ls 0) (nth i ts 0)) /\
  (nth i w 0 = 1 / 2 \/ nth i w 0 = 1 \/ nth i w 0 = 10 ^ 10).
Proof. exact weight_values_returned. Qed.
Print Assumptions C52_weight_values.

Example C52_hyp : exists w wf, get_weights (map Fin [1 / 2; 5; 13]) (map Fin [8; 9; 10]) (map Fin [0; 1; 1]) (Fin 1) (Fin (35 / 10)) (Fin 1) (Fin 7) = Some (map Fin w, map Fin wf) /\
  weights_ok 1 (35 / 10) 1 7 [1 / 2; 5; 13] [8; 9; 10] [0; 1; 1] w wf.
Proof. exact (C52_weights [1 / 2; 5; 13] [8; 9; 10] [0; 1; 1] 1 (35 / 10) 1 7 ltac:(discriminate) eq_refl eq_refl). Qed.

(** C52: a snapshot earlier than the first fitted time can have the highest weight. *)
Theorem C52_early_snapshots_excluded_refuted : exists ts ss i w,
  fit_input ts ss 1 (1 / 10 ^ 12) /\ (i < length ts)%nat /\ nth i ts 0 < 1 /\ w = 1 / 2 /\
  forall msh mah lgt0 fb mp, last (snd (msh mah (map Fin ts) lgt0)) NaN = Fin mp ->
  exists u d, get_loss_data_default msh (map Fin ts) (map Fin ss) mah DLOGM_CUT T_FIT_MIN MIN_MASS_CUT FSTAR_TIME_DELAY SSFRH_FLOOR lgt0 fb = Some (u, d) /\
    nth i (ld_w d) NaN = Fin w.
Proof. exact early_snapshot_weighted. Qed.
Print Assumptions C52_early_snapshots_excluded_refuted.

(** C53: value of the loss. *)
Theorem C53_loss_value : forall lmk u ts mah M LM S LF tau floor W WF lq lgt0 fb h,
  ts <> [] -> increasing (1 / 1000 :: ts) -> halo_history lmk mah lgt0 h ts ->
  length M = length ts -> length LM = length ts -> length S = length ts -> length LF = length ts ->
  length W = length ts -> length WF = length ts ->
  Forall (fun x => 0 < x) M -> Forall (fun x => 0 < x) W -> Forall (fun x => 0 < x) WF -> 0 < tau -> 0 < floor ->
  exists p s m f,
    get_bounded_diffstar_params (map_d Fin u) = map_d Fin p /\ in_bounds p /\
    calc_sfh_singlegal_smh lmk (map_d Fin p) mah (map Fin ts) lgt0 (Fin fb) = Some (map Fin s, map Fin m) /\
    compute_fstar (map Fin ts) (map Fin m) (Fin tau) = map Fin f /\
    length s = length ts /\ length m = length ts /\ length f = length ts /\ Forall (fun x => 0 < x) m /\
    loss_default_clipssfrh lmk (map Fin (params_list u))
      (mkLD (map Fin ts) mah (map Fin M) (map Fin LM) (map Fin S) (map Fin LF) (Fin tau) (Fin floor) (map Fin W) (map Fin WF) (Fin lq) lgt0 (Fin fb))
    = Some (Fin (fit_loss floor s m f S M LM LF W WF (d_lg_qt p) lq)).
Proof. exact loss_value. Qed.
Print Assumptions C53_loss_value.

Example C53_hyp : halo_history (fun _ _ _ => Fin 12) (mkMah NaN NaN NaN NaN NaN) NaN (fun _ => 12) [1; 5; 13] /\ increasing (1 / 1000 :: [1; 5; 13]).
Proof. split; [repeat constructor; lra|simpl; lra]. Qed.

(** C53: at least the prior; equal to it exactly when every residual vanishes. *)
Theorem C53_loss_ge_prior : forall lmk u ts mah M LM S LF tau floor W WF lgt0 fb h,
  ts <> [] -> increasing (1 / 1000 :: ts) -> halo_history lmk mah lgt0 h ts ->
  length M = length ts -> length LM = length ts -> length S = length ts -> length LF = length ts ->
  length W = length ts -> length WF = length ts ->
  Forall (fun x => 0 < x) M -> Forall (fun x => 0 < x) W -> Forall (fun x => 0 < x) WF -> 0 < tau -> 0 < floor ->
  forall lq, exists p l,
    get_bounded_diffstar_params (map_d Fin u) = map_d Fin p /\
    loss_default_clipssfrh lmk (map Fin (params_list u))
      (mkLD (map Fin ts) mah (map Fin M) (map Fin LM) (map Fin S) (map Fin LF) (Fin tau) (Fin floor) (map Fin W) (map Fin WF) (Fin lq) lgt0 (Fin fb)) = Some (Fin l) /\
    0 < prior (d_lg_qt p) lq < 100 /\ prior (d_lg_qt p) lq <= l.
Proof. exact loss_vs_prior. Qed.
Print Assumptions C53_loss_ge_prior.

Theorem C53_loss_zero_residuals : forall lmk u ts mah M LM S LF tau floor W WF lgt0 fb h,
  ts <> [] -> increasing (1 / 1000 :: ts) -> halo_history lmk mah lgt0 h ts ->
  length M = length ts -> length LM = length ts -> length S = length ts -> length LF = length ts ->
  length W = length ts -> length WF = length ts ->
  Forall (fun x => 0 < x) M -> Forall (fun x => 0 < x) W -> Forall (fun x => 0 < x) WF -> 0 < tau -> 0 < floor ->
  forall lq, exists p s m f l,
    get_bounded_diffstar_params (map_d Fin u) = map_d Fin p /\
    calc_sfh_singlegal_smh lmk (map_d Fin p) mah (map Fin ts) lgt0 (Fin fb) = Some (map Fin s, map Fin m) /\
    compute_fstar (map Fin ts) (map Fin m) (Fin tau) = map Fin f /\
    loss_default_clipssfrh lmk (map Fin (params_list u))
      (mkLD (map Fin ts) mah (map Fin M) (map Fin LM) (map Fin S) (map Fin LF) (Fin tau) (Fin floor) (map Fin W) (map Fin WF) (Fin lq) lgt0 (Fin fb)) = Some (Fin l) /\
    (l = prior (d_lg_qt p) lq <-> forall i, (i < length ts)%nat ->
       log10R (nth i m 0) = nth i LM 0 /\
       log10R (Rmax (nth i f 0) (nth i m 0 * (floor / 10))) = nth i LF 0 /\
       Rmax (nth i s 0) (nth i m 0 * (floor / 10)) = nth i S 0).
Proof. exact loss_is_prior. Qed.
Print Assumptions C53_loss_zero_residuals.

(** C53: the same galaxy is penalised more the later the target peaks, by less than 100; later quenching is
    penalised less. *)
Theorem C53_prior_decreasing : forall lmk u ts mah M LM S LF tau floor W WF lgt0 fb h,
  ts <> [] -> increasing (1 / 1000 :: ts) -> halo_history lmk mah lgt0 h ts ->
  length M = length ts -> length LM = length ts -> length S = length ts -> length LF = length ts ->
  length W = length ts -> length WF = length ts ->
  Forall (fun x => 0 < x) M -> Forall (fun x => 0 < x) W -> Forall (fun x => 0 < x) WF -> 0 < tau -> 0 < floor ->
  forall lq lq', lq < lq' -> exists l l',
    loss_default_clipssfrh lmk (map Fin (params_list u))
      (mkLD (map Fin ts) mah (map Fin M) (map Fin LM) (map Fin S) (map Fin LF) (Fin tau) (Fin floor) (map Fin W) (map Fin WF) (Fin lq) lgt0 (Fin fb)) = Some (Fin l) /\
    loss_default_clipssfrh lmk (map Fin (params_list u))
      (mkLD (map Fin ts) mah (map Fin M) (map Fin LM) (map Fin S) (map Fin LF) (Fin tau) (Fin floor) (map Fin W) (map Fin WF) (Fin lq') lgt0 (Fin fb)) = Some (Fin l') /\ l < l' < l + 100 /\
    forall x y, x < y -> prior y lq < prior x lq.
Proof. exact loss_vs_peak. Qed.
Print Assumptions C53_prior_decreasing.

(** C53: for every history the fitter accepts and every real parameter vector, the loss is a
    number, and positive. *)
Theorem C53_loss_positive : forall lmk msh ts ss mah dlogm tmin mmin tau floor lgt0 fb mp h,
  fit_input ts ss tau floor -> last (snd (msh mah (map Fin ts) lgt0)) NaN = Fin mp -> halo_history lmk mah lgt0 h ts ->
  exists init d lgtmax,
    get_loss_data_default msh (map Fin ts) (map Fin ss) mah (Fin dlogm) (Fin tmin) (Fin mmin) (Fin tau) (Fin floor) lgt0 (Fin fb) = Some (init, d) /\
    forall u, exists p v, get_bounded_diffstar_params (map_d Fin u) = map_d Fin p /\
      loss_default_clipssfrh lmk (map Fin (params_list u)) d = Some (Fin v) /\
      0 < prior (d_lg_qt p) lgtmax <= v.
Proof. exact fit_loss_end_to_end. Qed.
Print Assumptions C53_loss_positive.

(** C54: the restart loop. *)
Theorem C54_best_attempt : forall rng normal grad minimize p_init (s : rng) tol max_iter, exists l s' res,
  minimizer_wrapper rng normal grad minimize s p_init (Fin tol) max_iter = Some (res, s') /\
  attempts rng normal grad minimize p_init s l s' /\ (length l <= max_iter)%nat /\
  ((length l < max_iter)%nat -> stop_reason p_init (Fin tol) l) /\
  (forall l1 a l2, l = l1 ++ a :: l2 -> over (Fin tol) l1) /\
  ((forall a, In a l -> snd (fst a) = NaN) -> res = (fst p_init, Fin (99999 / 100), (-1)%Z)) /\
  ((exists a, In a l /\ xlt (snd (fst a)) PInf = true) ->
     exists k, best_index (losses l) k /\ nth_error l k = Some res) /\
  (l <> [] -> (exists a, In a l /\ snd (fst a) <> NaN) -> In res l).
Proof. exact wrapper_spec. Qed.
Print Assumptions C54_best_attempt.

(** C54: with only NaN and infinite losses, a NaN loss is returned and called a success. *)
Theorem C54_never_nan_refuted : exists (normal : nat -> list xr -> list xr -> list xr * nat) grad minimize pi p s' l,
  minimizer_wrapper nat normal grad minimize 0%nat pi (Fin (1 / 10)) 2 = Some ((p, NaN, 1%Z), s') /\
  attempts nat normal grad minimize pi 0%nat l s' /\ exists a, In a l /\ snd (fst a) <> NaN.
Proof. exact nan_loss_returned. Qed.
Print Assumptions C54_never_nan_refuted.

(** C54: a placeholder for a failed start can be preferred to a converged minimisation. *)
Theorem C54_converged_preferred_refuted : exists (normal : nat -> list xr -> list xr -> list xr * nat) grad minimize pi s' x,
  minimizer_wrapper nat normal grad minimize 0%nat pi (Fin (1 / 10)) 2 = Some ((fst pi, Fin (99999 / 100), (-1)%Z), s') /\
  attempts nat normal grad minimize pi 0%nat [(fst pi, Fin (99999 / 100), (-1)%Z); (x, Fin 5000, 1%Z)] s' /\
  forall p, minimize p = (x, Fin 5000, true).
Proof. exact placeholder_wins. Qed.
Print Assumptions C54_converged_preferred_refuted.

(** C55: the loop can give up after two of ten attempts, both above tolerance, though the next
    attempt would have had loss zero. *)
Theorem C55_early_exit_refuted : exists (normal : nat -> list xr -> list xr -> list xr * nat) grad minimize pi s' s'' l x,
  minimizer_wrapper nat normal grad minimize 0%nat pi (Fin (1 / 10)) 10 = Some ((fst pi, Fin (99999 / 100), (-1)%Z), s') /\
  attempts nat normal grad minimize pi 0%nat l s' /\ length l = 2%nat /\ over (Fin (1 / 10)) l /\
  attempts nat normal grad minimize pi s' [(x, Fin 0, 1%Z)] s''.
Proof. exact early_exit. Qed.
Print Assumptions C55_early_exit_refuted.

(** C56: drawing a starting point. *)
Theorem C56_random_start : forall rng normal grad p_init (s : rng) p flag s',
  return_random_pinit rng normal grad s p_init = (p, flag, s') -> start_drawn rng normal grad p_init s p flag s'.
Proof. exact random_pinit. Qed.
Print Assumptions C56_random_start.

Theorem C56_finite_gradient_refuted : exists (normal : nat -> list xr -> list xr -> list xr * nat) grad pi p s',
  return_random_pinit nat normal grad 0%nat pi = (p, false, s') /\ In PInf (grad p).
Proof. exact infinite_gradient_accepted. Qed.
Print Assumptions C56_finite_gradient_refuted.

(** C57: one Adam run. *)
Theorem C57_adam_run : forall loss grad opt_state opt_init opt_update get_params step p0 nmax, (0 < nmax)%nat -> exists n r,
  jax_adam_wrapper loss grad opt_state opt_init opt_update get_params p0 nmax step = Some r /\
  steps_run loss grad opt_state opt_init opt_update get_params step p0 nmax n /\
  adam_outcome loss grad opt_state opt_init opt_update get_params step p0 n r.
Proof. exact adam_spec. Qed.
Print Assumptions C57_adam_run.

Theorem C57_no_steps_raises : forall loss grad opt_state opt_init opt_update get_params step p0,
  jax_adam_wrapper loss grad opt_state opt_init opt_update get_params p0 0 step = None.
Proof. exact adam_zero. Qed.
Print Assumptions C57_no_steps_raises.

(** C57: with warmup; the success flag says whether every step of the final run was taken. *)
Theorem C57_adam_warmup : forall loss grad opt_state opt_init opt_update get_params p nstep nw step wn ws, (0 < nstep)%nat ->
  nw = 0%nat \/ (0 < wn)%nat ->
  exists r ft q n, jax_adam_wrapper_v2 loss grad opt_state opt_init opt_update get_params p nstep nw step wn ws = Some (r, ft) /\
    final_start loss grad opt_state opt_init opt_update get_params wn (match ws with Some w => w | None => (Fin 5 * step)%X end) nw p q /\
    steps_run loss grad opt_state opt_init opt_update get_params step q nstep n /\
    adam_outcome loss grad opt_state opt_init opt_update get_params step q n r /\
    ((ft = 1%Z /\ n = nstep) \/ (ft = 0%Z /\ (n < nstep)%nat)).
Proof. exact v2_spec. Qed.
Print Assumptions C57_adam_warmup.

Example C57_runs : steps_run (fun p => at_ p 0) (fun _ => [Fin 1]) (list xr) (fun _ p => p) (fun _ i _ p => if Nat.eqb i 2 then [NaN] else p) (fun p => p)
  (Fin 1) [Fin 3] 5 3.
Proof.
  split; [lia|]. split.
  - intros k Hk. destruct k as [|[|[|k]]]; [| | |lia]; (split; [repeat constructor|split; [reflexivity|repeat constructor]]).
  - intros _ (H & _). inversion H. discriminate.
Qed.

(** C68: [minimizer] reports 1 exactly for scipy's own success; otherwise the fallback's
    outcome. *)
Theorem C68_scipy_success : forall loss grad opt_state opt_init opt_update get_params minimize p nstep args x f,
  minimize p = (x, f, true) ->
  minimizer loss grad minimize opt_state opt_init opt_update get_params p nstep args = Some (x, f, 1%Z).
Proof. exact minimizer_scipy. Qed.
Print Assumptions C68_scipy_success.

Theorem C68_adam_fallback : forall loss grad opt_state opt_init opt_update get_params minimize p nstep x f,
  (0 < nstep)%nat -> minimize p = (x, f, false) ->
  exists pb lb c q n ls ps, minimizer loss grad minimize opt_state opt_init opt_update get_params p nstep [] = Some (pb, lb, c) /\
    final_start loss grad opt_state opt_init opt_update get_params 50%nat (Fin (5 / 100)) 2%nat p q /\
    steps_run loss grad opt_state opt_init opt_update get_params (Fin (1 / 100)) q nstep n /\
    adam_outcome loss grad opt_state opt_init opt_update get_params (Fin (1 / 100)) q n (pb, lb, ls, ps) /\
    ((c = 0%Z /\ n = nstep) \/ (c = (-1)%Z /\ (n < nstep)%nat)).
Proof. exact minimizer_adam. Qed.
Print Assumptions C68_adam_fallback.

(** C68: extra positional arguments, advertised by the signature, crash the fallback. *)
Theorem C68_extra_args_refuted : forall loss grad opt_state opt_init opt_update get_params minimize p nstep a args x f,
  minimize p = (x, f, false) ->
  minimizer loss grad minimize opt_state opt_init opt_update get_params p nstep (a :: args) = None.
Proof. exact minimizer_args. Qed.
Print Assumptions C68_extra_args_refuted.

Example C68_hyp : (fun p : list xr => (p, Fin 1, false)) [Fin 2] = ([Fin 2], Fin 1, false). Proof. reflexivity. Qed.

(** C69: Adam, with or without warmup, never returns a loss above that of a good start. *)
Theorem C69_adam_improves : forall loss grad opt_state opt_init opt_update get_params,
  (forall step p, get_params (opt_init step p) = p) ->
  forall step p nmax, (0 < nmax)%nat -> good loss grad p ->
  exists pb ls ps, jax_adam_wrapper loss grad opt_state opt_init opt_update get_params p nmax step = Some (pb, loss pb, ls, ps) /\
    good loss grad pb /\ xlt (loss p) (loss pb) = false.
Proof. exact adam_improves. Qed.
Print Assumptions C69_adam_improves.

Theorem C69_warmup_improves : forall loss grad opt_state opt_init opt_update get_params,
  (forall step p, get_params (opt_init step p) = p) ->
  forall p nstep nw step wn ws, (0 < nstep)%nat -> (0 < wn)%nat -> good loss grad p ->
  exists pb ls ps ft, jax_adam_wrapper_v2 loss grad opt_state opt_init opt_update get_params p nstep nw step wn ws
    = Some ((pb, loss pb, ls, ps), ft) /\ good loss grad pb /\ xlt (loss p) (loss pb) = false.
Proof. exact v2_improves. Qed.
Print Assumptions C69_warmup_improves.

Example C69_hyp : good (fun p => at_ p 0) (fun _ => [Fin 1]) [Fin 3].
Proof. split; [repeat constructor|split; [reflexivity|repeat constructor]]. Qed.

(** C70: fed an exact model history, the true parameters never reach the smallest possible
    loss; for a galaxy whose last averaged SFR is at most a tenth of the sSFR floor they are at
    least 1/2 above it, which is above the tolerance of 0.1. *)
Theorem C70_truth_is_optimal_refuted : forall lmk msh ts mah dlogm tmin mmin tau floor lgt0 fb mp h p,
  ts <> [] -> increasing (1 / 1000 :: ts) -> 0 < tau -> 0 < floor ->
  last (snd (msh mah (map Fin ts) lgt0)) NaN = Fin mp -> halo_history lmk mah lgt0 h ts -> in_bounds p ->
  exists s m f u init d lgtmax v,
    calc_sfh_singlegal_smh lmk (map_d Fin p) mah (map Fin ts) lgt0 (Fin fb) = Some (map Fin s, map Fin m) /\
    compute_fstar (map Fin ts) (map Fin m) (Fin tau) = map Fin f /\
    get_unbounded_diffstar_params (map_d Fin p) = map_d Fin u /\
    get_loss_data_default msh (map Fin ts) (map Fin s) mah (Fin dlogm) (Fin tmin) (Fin mmin) (Fin tau) (Fin floor) lgt0 (Fin fb) = Some (init, d) /\
    loss_default_clipssfrh lmk (map Fin (params_list u)) d = Some (Fin v) /\
    prior (d_lg_qt p) lgtmax < v /\
    (last f 0 <= floor / 10 * last m 0 -> prior (d_lg_qt p) lgtmax + 1 / 2 <= v).
Proof. exact true_params_loss. Qed.
Print Assumptions C70_truth_is_optimal_refuted.

Example C70_hyp : in_bounds (guess_spec 12) /\
  halo_history (fun _ _ _ => Fin 12) (mkMah NaN NaN NaN NaN NaN) NaN (fun _ => 12) [1; 5; 13] /\
  exists s m f,
  calc_sfh_singlegal_smh (fun _ _ _ => Fin 12) (map_d Fin (guess_spec 12)) (mkMah NaN NaN NaN NaN NaN) (map Fin [1; 5; 13]) NaN (Fin 0)
    = Some (map Fin s, map Fin m) /\
  compute_fstar (map Fin [1; 5; 13]) (map Fin m) (Fin 1) = map Fin f /\ last f 0 <= 1 / 10 ^ 6 / 10 * last m 0.
Proof. split; [apply guess_in_bounds|]. split; [repeat constructor; lra|exact quiet_history]. Qed.

(** C71: the fitter returns in-bounds parameters and a code 1 or -1; code -1 comes with the
    placeholder loss and the initial guess. *)
Theorem C71_fitter : forall lmk msh rng normal loss_grad minimize (s : rng) ts ss mah dlogm tmin mmin tau floor lgt0 fb mp,
  fit_input ts ss tau floor -> last (snd (msh mah (map Fin ts) lgt0)) NaN = Fin mp ->
  (forall L g x, exists v f ok, minimize L g x = (map Fin (params_list v), f, ok)) ->
  exists p lb c s', diffstar_fitter lmk msh rng normal loss_grad minimize s (map Fin ts) (map Fin ss) mah (Fin dlogm) (Fin tmin) (Fin mmin)
      (Fin tau) (Fin floor) lgt0 fb = Some (map_d Fin p, lb, c, s') /\ in_bounds p /\
    ((c = 1%Z /\ exists init d start u ok,
        get_loss_data_default msh (map Fin ts) (map Fin ss) mah (Fin dlogm) (Fin tmin) (Fin mmin) (Fin tau) (Fin floor) lgt0 fb = Some (init, d) /\
        ~ In NaN (loss_grad d start) /\
        minimize (fun u => loss_default_clipssfrh lmk u d) (loss_grad d) start = (map Fin (params_list u), lb, ok) /\
        get_bounded_diffstar_params (map_d Fin u) = map_d Fin p) \/
     (c = (-1)%Z /\ lb = Fin (99999 / 100) /\ p = guess_spec mp)).
Proof. exact fitter_spec. Qed.
Print Assumptions C71_fitter.

Example C71_hyp : forall (L : list xr -> option xr) (g : list xr -> list xr) (x : list xr), exists v f ok,
  (fun _ _ _ => (map Fin (params_list (guess_spec 12)), Fin 1, true)) L g x = (map Fin (params_list v), f, ok).
Proof. intros. exists (guess_spec 12), (Fin 1), true. reflexivity. Qed.
