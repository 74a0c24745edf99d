(** C133: fits started at a galaxy that quenches after the data end. *)
From Coq Require Import Reals List ZArith.
From Verif Require Import XReal ModelKernels ModelSfh ModelFit ModelGrad ModelAdam SpecCore SpecHist SpecFit SpecAdam SpecLate GradTop AdamFit LateFit.
Import List ListNotations.
Open Scope R_scope.

(** C133: the gradient is zero in the width, depth and rejuvenation and negative in the time of quenching. *)
Theorem C133_gradient : forall lmk u ts mah M LM S LF tau floor W WF lq lgt0 fb h p,
  ts <> [] -> increasing (1 / 1000 :: ts) -> halo_history lmk mah lgt0 h ts ->
  length M = length ts -> length LM = length ts -> length S = length ts -> length LF = length ts ->
  length W = length ts -> length WF = length ts ->
  Forall (fun x => 0 < x) M -> Forall (fun x => 0 < x) W -> Forall (fun x => 0 < x) WF -> 0 < tau -> 0 < floor ->
  get_bounded_diffstar_params (map_d Fin u) = map_d Fin p -> quenches_after ts p ->
  exists g0 g1 g2 g3 g, g < 0 /\
    loss_grad_default_clipssfrh lmk (map Fin (params_list u))
      (mkLD (map Fin ts) mah (map Fin M) (map Fin LM) (map Fin S) (map Fin LF) (Fin tau) (Fin floor) (map Fin W) (map Fin WF) (Fin lq) lgt0 (Fin fb))
    = Some (map Fin [g0; g1; g2; g3; g; 0; 0; 0]).
Proof. exact late_gradient. Qed.
Print Assumptions C133_gradient.

(** C133: the fallback fit keeps those three, only ever moves quenching later, and so returns a galaxy
    that forms stars at its main-sequence rate at every time of the table. *)
Theorem C133_never_quenched : forall lmk d h ts fb u p, fit_data lmk d h -> ld_t d = map Fin ts -> ld_fb d = Fin fb ->
  get_bounded_diffstar_params (map_d Fin u) = map_d Fin p -> quenches_after ts p ->
  forall minimize nstep x f, (0 < nstep)%nat -> minimize (map Fin (params_list u)) = (x, f, false) ->
  exists u' p' l, minimizer (fit_loss_fn lmk d) (fit_grad_fn lmk d) minimize AdamState adam_init adam_update adam_params (map Fin (params_list u)) nstep [] =
      Some (map Fin (params_list u'), Fin l, 0%Z) /\
    d_lg_qt u <= d_lg_qt u' /\ d_qlglgdt u' = d_qlglgdt u /\ d_lg_drop u' = d_lg_drop u /\ d_lg_rejuv u' = d_lg_rejuv u /\
    get_bounded_diffstar_params (map_d Fin u') = map_d Fin p' /\ quenches_after ts p' /\
    calc_sfh_singlegal lmk (map_d Fin p') (ld_mah d) (map Fin ts) (ld_lgt0 d) (Fin fb) =
      map (fun t => Fin (Rmax (1 / 10 ^ 14) (ms_spec p' fb (h t)))) ts.
Proof. exact late_fit. Qed.
Print Assumptions C133_never_quenched.

(** C133: two galaxies that differ only in those three, and both quench after the data end, have the same loss. *)
Theorem C133_same_loss : forall lmk d h ts u u' p p', fit_data lmk d h -> ld_t d = map Fin ts ->
  get_bounded_diffstar_params (map_d Fin u) = map_d Fin p -> quenches_after ts p ->
  get_bounded_diffstar_params (map_d Fin u') = map_d Fin p' -> quenches_after ts p' ->
  d_lgmcrit u = d_lgmcrit u' -> d_lgy_at_mcrit u = d_lgy_at_mcrit u' -> d_indx_lo u = d_indx_lo u' -> d_indx_hi u = d_indx_hi u' -> d_lg_qt u = d_lg_qt u' ->
  exists l, loss_default_clipssfrh lmk (map Fin (params_list u)) d = Some (Fin l) /\ loss_default_clipssfrh lmk (map Fin (params_list u')) d = Some (Fin l).
Proof. exact late_loss. Qed.
Print Assumptions C133_same_loss.

Example C133_hyp : fit_data ex_lmk (ex_fit (156 / 1000)) (fun _ => 45 / 4) /\ ld_t (ex_fit (156 / 1000)) = map Fin [1] /\ ld_fb (ex_fit (156 / 1000)) = Fin (156 / 1000) /\
  exists p, get_bounded_diffstar_params (map_d Fin (mkDiffstar (45 / 4) 0 0 0 (21 / 20) (-301 / 200) 0 0)) = map_d Fin p /\ quenches_after [1] p.
Proof.
  split; [exact (ex_fit_data _)|]. split; [reflexivity|]. split; [reflexivity|].
  eexists. split; [exact (SigmoidProofs.bounded_diffstar_fin _)|exact ex_late].
Qed.
