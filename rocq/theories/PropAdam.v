(** Properties of the Adam optimiser and of the fallback fit that runs it: C124, C125. *)
From Coq Require Import Reals Lra List ZArith.
From Verif Require Import XReal ModelKernels ModelSfh ModelFit ModelGrad ModelAdam SpecCore SpecFit SpecGrad SpecAdam
  SigmoidProofs GradTop AdamProofs AdamFit TightAdam.
Import List ListNotations.
Open Scope R_scope.

(** C124: a fresh optimiser is at its starting point. *)
Theorem C124_start : forall s p, adam_params (adam_init s p) = p.
Proof. exact params_init. Qed.
Print Assumptions C124_start.

(** C124: after any finite gradients every coordinate has moved by its own mean gradients over their root mean squares. *)
Theorem C124_positions : forall s p gs, Forall (fun g => length g = length p) gs ->
  adam_params (adam_updates s (numbered gs) (adam_init (Fin s) (map Fin p))) = map Fin (map (fun j => adam_position s (nth j p 0) (column j gs)) (seq 0 (length p))).
Proof. exact run_positions. Qed.
Print Assumptions C124_positions.

(** C124: the first step has nearly the step size, whatever the size of the gradient. *)
Theorem C124_first_step : forall s p g, length g = length p -> exists x,
  adam_params (adam_update (Fin s) 0 (map Fin g) (adam_init (Fin s) (map Fin p))) = map Fin x /\ length x = length p /\
  forall j, (j < length p)%nat -> nth j x 0 = nth j p 0 - s * nth j g 0 / (Rabs (nth j g 0) + 1 / 10 ^ 8).
Proof. exact first_update. Qed.
Print Assumptions C124_first_step.

(** C124: no update moves a coordinate by as much as 7.28 steps. *)
Theorem C124_bounded : forall s p st i g, 0 < s -> adam_reached s p st -> length g = length p -> exists x y,
  adam_params st = map Fin x /\ adam_params (adam_update (Fin s) i (map Fin g) st) = map Fin y /\ length x = length p /\ length y = length p /\
  forall j, (j < length p)%nat -> Rabs (nth j y 0 - nth j x 0) < 728 / 100 * s.
Proof. exact update_bounded. Qed.
Print Assumptions C124_bounded.

(** C124: a coordinate whose gradient is always zero never moves. *)
Theorem C124_zero_gradient : forall s p l j, Forall (fun ig => length (snd ig) = length p) l -> (j < length p)%nat -> Forall (fun ig => nth j (snd ig) 0 = 0) l ->
  exists x, adam_params (adam_updates s l (adam_init (Fin s) (map Fin p))) = map Fin x /\ nth j x 0 = nth j p 0.
Proof. exact zero_stays. Qed.
Print Assumptions C124_zero_gradient.

(** A second coordinate without a gradient; the first gradients 4 and 0. *)
Example C124_hyp : Forall (fun g : list R => length g = length [1; 2]) [[4; 0]; [0; 0]] /\
  column 0 [[4; 0]; [0; 0]] = [4; 0] /\ decayed (9 / 10) [4; 0] = 36 / 10 /\ recent_mean (9 / 10) [4; 0] = 36 / 19 /\
  adam_reached (1 / 100) [1; 2] (adam_updates (1 / 100) (numbered [[4; 0]; [0; 0]]) (adam_init (Fin (1 / 100)) (map Fin [1; 2]))) /\
  Forall (fun ig => nth 1 (snd ig) 0 = 0) (numbered [[4; 0]; [0; 0]]).
Proof.
  split; [repeat constructor|]. split; [reflexivity|]. split; [unfold decayed, SpecHist.Rsum; cbn; lra|]. split; [unfold recent_mean, decayed, SpecHist.Rsum; cbn; lra|].
  split; [exists (numbered [[4; 0]; [0; 0]]); split; [repeat constructor|reflexivity]|repeat constructor].
Qed.

(** C125: the fallback fit always ends with a loss no larger than at its start and near it. *)
Theorem C125_fallback : forall lmk d h, fit_data lmk d h -> forall minimize u nstep x f, (0 < nstep)%nat ->
  minimize (map Fin (params_list u)) = (x, f, false) ->
  exists u' l l', minimizer (fit_loss_fn lmk d) (fit_grad_fn lmk d) minimize AdamState adam_init adam_update adam_params (map Fin (params_list u)) nstep [] = Some (map Fin (params_list u'), Fin l', 0%Z) /\
    loss_default_clipssfrh lmk (map Fin (params_list u)) d = Some (Fin l) /\ loss_default_clipssfrh lmk (map Fin (params_list u')) d = Some (Fin l') /\ l' <= l /\
    forall j, (j < 8)%nat -> Rabs (nth j (params_list u') 0 - nth j (params_list u) 0) <= 728 / 100 * (49 / 10 + INR (nstep - 1) / 100).
Proof. exact fallback_reach. Qed.
Print Assumptions C125_fallback.

Example C125_hyp : fit_data ex_lmk (ex_fit (156 / 1000)) (fun _ => 45 / 4).
Proof. exact (ex_fit_data _). Qed.

(** C125: started at a galaxy that forms no stars, it only ever makes the quenching time later. *)
Theorem C125_starved : forall lmk d h p u, fit_data lmk d h -> get_bounded_diffstar_params (map_d Fin u) = map_d Fin p -> starving d h p ->
  forall minimize nstep x f, (0 < nstep)%nat -> minimize (map Fin (params_list u)) = (x, f, false) ->
  exists q l, minimizer (fit_loss_fn lmk d) (fit_grad_fn lmk d) minimize AdamState adam_init adam_update adam_params (map Fin (params_list u)) nstep [] =
      Some (map Fin (params_list (set_lg_qt u q)), Fin l, 0%Z) /\ d_lg_qt u <= q.
Proof. exact fallback_starved. Qed.
Print Assumptions C125_starved.

Example C125_starved_hyp : fit_data ex_lmk (ex_fit 0) (fun _ => 45 / 4) /\ exists p, get_bounded_diffstar_params (map_d Fin ex_u) = map_d Fin p /\
  starving (ex_fit 0) (fun _ => 45 / 4) p.
Proof. split; [exact (ex_fit_data _)|]. eexists. split; [exact (bounded_diffstar_fin ex_u)|exact ex_starving]. Qed.
