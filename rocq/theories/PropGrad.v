(** Properties of the gradient of the fit loss: C112, C113. *)
From Coq Require Import Reals Lra List.
From Coquelicot Require Import Coquelicot.
From Verif Require Import XReal ModelUtils ModelKernels ModelSfh ModelHist ModelFit ModelGrad SpecCore SpecHist SpecFit SpecGrad
  FitProofs GradTop.
Import List ListNotations.
Open Scope R_scope.

(** C112: eight finite numbers, and away from the cut-offs the derivative of the loss in every direction. *)
Theorem C112_gradient : forall lmk u ts mah M LM S LF tau floor W WF lq lgt0 fb h,
  ts <> [] -> increasing (1 / 1000 :: ts) -> halo_history lmk mah lgt0 h ts ->
  length M = length ts -> length LM = length ts -> length S = length ts -> length LF = length ts ->
  length W = length ts -> length WF = length ts ->
  Forall (fun x => 0 < x) M -> Forall (fun x => 0 < x) W -> Forall (fun x => 0 < x) WF -> 0 < tau -> 0 < floor ->
  let d := mkLD (map Fin ts) mah (map Fin M) (map Fin LM) (map Fin S) (map Fin LF) (Fin tau) (Fin floor) (map Fin W) (map Fin WF) (Fin lq) lgt0 (Fin fb) in
  exists g, length g = 8%nat /\ loss_grad_default_clipssfrh lmk (map Fin (params_list u)) d = Some (map Fin g) /\
    forall L p s m f, (forall w, loss_default_clipssfrh lmk (map Fin (params_list w)) d = Some (Fin (L w))) ->
      get_bounded_diffstar_params (map_d Fin u) = map_d Fin p ->
      calc_sfh_singlegal_smh lmk (map_d Fin p) mah (map Fin ts) lgt0 (Fin fb) = Some (map Fin s, map Fin m) ->
      compute_fstar (map Fin ts) (map Fin m) (Fin tau) = map Fin f ->
      no_cutoff p fb floor h ts s m f S M ->
      forall v, is_derive (fun x => L (move u v x)) 0 (inner g (params_list v)).
Proof. exact loss_gradient. Qed.
Print Assumptions C112_gradient.

(** A star-forming galaxy with no value at a cut-off. *)
Example C112_hyp : halo_history ex_lmk ex_mah (Fin 0) (fun _ => 45 / 4) [1] /\ increasing (1 / 1000 :: [1]) /\ exists p s m f,
  get_bounded_diffstar_params (map_d Fin ex_u) = map_d Fin p /\
  calc_sfh_singlegal_smh ex_lmk (map_d Fin p) ex_mah (map Fin [1]) (Fin 0) (Fin (156 / 1000)) = Some (map Fin s, map Fin m) /\
  compute_fstar (map Fin [1]) (map Fin m) (Fin 1) = map Fin f /\
  no_cutoff p (156 / 1000) (1 / 10 ^ 12) (fun _ => 45 / 4) [1] s m f [0] [10 ^ 12].
Proof. split; [repeat constructor; lra|]. split; [simpl; lra|]. exact ex_no_cutoff. Qed.

(** C112: the gradient test on a starting point never rejects one: the first draw is used. *)
Theorem C112_first_draw_used : forall lmk msh ts ss mah dlogm tmin mmin tau floor lgt0 fb mp h,
  fit_input ts ss tau floor -> last (snd (msh mah (map Fin ts) lgt0)) NaN = Fin mp -> halo_history lmk mah lgt0 h ts ->
  exists init d,
    get_loss_data_default msh (map Fin ts) (map Fin ss) mah (Fin dlogm) (Fin tmin) (Fin mmin) (Fin tau) (Fin floor) lgt0 (Fin fb) = Some (init, d) /\
    forall rng (normal : rng -> list xr -> list xr -> list xr * rng) grad s u s',
      (forall w g, loss_grad_default_clipssfrh lmk w d = Some g -> grad w = g) ->
      normal s (fst init) (snd init) = (map Fin (params_list u), s') ->
      return_random_pinit rng normal grad s init = (map Fin (params_list u), false, s').
Proof. exact first_draw_used. Qed.
Print Assumptions C112_first_draw_used.

(** C113: with every SFR below its floor the gradient vanishes in all parameters but the quenching
    time, where it is negative. *)
Theorem C113_starved_gradient : forall lmk u ts mah M LM S LF tau floor W WF lq lgt0 fb h p,
  ts <> [] -> increasing (1 / 1000 :: ts) -> halo_history lmk mah lgt0 h ts ->
  length M = length ts -> length LM = length ts -> length S = length ts -> length LF = length ts ->
  length W = length ts -> length WF = length ts ->
  Forall (fun x => 0 < x) M -> Forall (fun x => 0 < x) W -> Forall (fun x => 0 < x) WF -> 0 < tau -> 0 < floor ->
  get_bounded_diffstar_params (map_d Fin u) = map_d Fin p ->
  Forall (fun t => sfr_unfloored p fb (h t) t < 1 / 10 ^ 14) ts ->
  exists g, g < 0 /\
    loss_grad_default_clipssfrh lmk (map Fin (params_list u))
      (mkLD (map Fin ts) mah (map Fin M) (map Fin LM) (map Fin S) (map Fin LF) (Fin tau) (Fin floor) (map Fin W) (map Fin WF) (Fin lq) lgt0 (Fin fb))
    = Some (map Fin [0; 0; 0; 0; g; 0; 0; 0]).
Proof. exact starved_gradient. Qed.
Print Assumptions C113_starved_gradient.

Example C113_hyp : exists p, get_bounded_diffstar_params (map_d Fin ex_u) = map_d Fin p /\
  Forall (fun t => sfr_unfloored p 0 (45 / 4) t < 1 / 10 ^ 14) [1; 5; 13].
Proof.
  eexists. split; [exact (SigmoidProofs.bounded_diffstar_fin ex_u)|].
  assert (0 < 1 / 10 ^ 14) by (apply Rdiv_lt_0_compat; [lra|apply pow_lt; lra]).
  repeat constructor; unfold sfr_unfloored, ms_spec; rewrite !Rmult_0_l, Rmult_0_r; assumption.
Qed.
