(** Changes of units, identifiability of the parameters, the peak of the efficiency, and data that cannot be fitted. *)
From Coq Require Import Reals List Lra ZArith.
From Verif Require Import XReal ModelUtils ModelKernels ModelSfh ModelHist ModelFit SpecCore SpecFit SpecSymmetry
  SigmoidProofs SfhProofs FitProofs SymmetryProofs IdentifyProofs EarlyProofs PeakProofs.
Import List ListNotations.
Open Scope R_scope.

(** C134: the critical mass is a unit of halo mass. *)
Theorem C134_mass_units : forall lmk lmk' p mah mah' ts lgt0 lgt0' fb m c,
  halo_history lmk mah lgt0 m ts -> halo_history lmk' mah' lgt0' (fun t => m t + c) ts -> 0 <= c ->
  exists s M s' M',
    calc_sfh_singlegal_smh lmk (map_d Fin p) mah (map Fin ts) lgt0 (Fin fb) = Some (map Fin s, map Fin M) /\
    calc_sfh_singlegal_smh lmk' (map_d Fin (shift_mass c p)) mah' (map Fin ts) lgt0' (Fin fb) = Some (map Fin s', map Fin M') /\
    length s = length ts /\ length s' = length ts /\ length M = length ts /\ length M' = length ts /\
    (forall i, (i < length ts)%nat -> 1 / 10 ^ 14 < nth i s 0 -> nth i s' 0 = pow10R c * nth i s 0) /\
    (Forall (fun x => 1 / 10 ^ 14 < x) s -> forall i, (i < length ts)%nat ->
       nth i M' 0 = pow10R c * nth i M 0 - (pow10R c - 1) * (10 ^ 9 * (nth 0 ts 0 - 1 / 1000) * (1 / 10 ^ 14) / 2)).
Proof. exact mass_units. Qed.
Print Assumptions C134_mass_units.

Example C134_mass_hyp :
  halo_history (steady 12) (mkMah NaN NaN NaN NaN NaN) NaN (fun _ => 12) [1; 5; 13] /\
  halo_history (steady 13) (mkMah NaN NaN NaN NaN NaN) NaN (fun _ => 12 + 1) [1; 5; 13] /\
  Forall (fun x => 1 / 10 ^ 14 < x) (map (fun t => sfr_spec usual (1 / 10) 12 t) [1; 5; 13]).
Proof.
  split; [apply steady_history; repeat constructor; lra|]. split.
  - replace 13 with (12 + 1) at 1 by lra. apply (steady_history (12 + 1)). repeat constructor; lra.
  - repeat constructor; apply usual_bright.
Qed.

(** C134: a galaxy at the floor stays at the floor. *)
Theorem C134_floor_scales_refuted : forall p m c, 0 < c ->
  calc_sfh_singlegal (steady m) (map_d Fin p) (mkMah NaN NaN NaN NaN NaN) [Fin 1] NaN (Fin 0) = [Fin (1 / 10 ^ 14)] /\
  calc_sfh_singlegal (steady (m + c)) (map_d Fin (shift_mass c p)) (mkMah NaN NaN NaN NaN NaN) [Fin 1] NaN (Fin 0) = [Fin (1 / 10 ^ 14)] /\
  1 / 10 ^ 14 <> pow10R c * (1 / 10 ^ 14).
Proof. exact floor_stays. Qed.
Print Assumptions C134_floor_scales_refuted.

(** C134: only the product of the baryon fraction and the efficiency matters. *)
Theorem C134_efficiency_units : forall lmk p mah ts lgt0 fb m c, halo_history lmk mah lgt0 m ts ->
  calc_sfh_singlegal_smh lmk (map_d Fin (shift_efficiency c p)) mah (map Fin ts) lgt0 (Fin (fb / pow10R c))
  = calc_sfh_singlegal_smh lmk (map_d Fin p) mah (map Fin ts) lgt0 (Fin fb).
Proof. exact efficiency_units. Qed.
Print Assumptions C134_efficiency_units.

Theorem C134_loss : forall lmk p ts mah M LM S LF tau floor W WF lq lgt0 fb h c, halo_history lmk mah lgt0 h ts ->
  in_bounds p -> in_bounds (shift_efficiency c p) ->
  exists u u', get_unbounded_diffstar_params (map_d Fin p) = map_d Fin u /\
    get_unbounded_diffstar_params (map_d Fin (shift_efficiency c p)) = map_d Fin u' /\
    loss_default_clipssfrh lmk (map Fin (params_list u')) (mkLD (map Fin ts) mah M LM S LF tau floor W WF lq lgt0 (Fin (fb / pow10R c)))
    = loss_default_clipssfrh lmk (map Fin (params_list u)) (mkLD (map Fin ts) mah M LM S LF tau floor W WF lq lgt0 (Fin fb)).
Proof. exact loss_units_bounded. Qed.
Print Assumptions C134_loss.

Example C134_loss_hyp : in_bounds usual /\ in_bounds (shift_efficiency (1 / 2) usual).
Proof. split; [apply usual_in_bounds|]. unfold in_bounds, shift_efficiency, usual. cbn. lra. Qed.

(** C134: the quenching time is a unit of time. *)
Theorem C134_time_units : forall lmk lmk' p mah mah' ts lgt0 lgt0' fb m m' c,
  halo_history lmk mah lgt0 m ts -> halo_history lmk' mah' lgt0' m' (map (Rmult (pow10R c)) ts) ->
  (forall t, In t ts -> m' (pow10R c * t) = m t) ->
  exists s M M',
    calc_sfh_singlegal_smh lmk (map_d Fin p) mah (map Fin ts) lgt0 (Fin fb) = Some (map Fin s, map Fin M) /\
    calc_sfh_singlegal_smh lmk' (map_d Fin (shift_time c p)) mah' (map Fin (map (Rmult (pow10R c)) ts)) lgt0' (Fin fb) = Some (map Fin s, map Fin M') /\
    length s = length ts /\ length M = length ts /\ length M' = length ts /\
    forall i, (i < length ts)%nat ->
      nth i M' 0 = pow10R c * nth i M 0 + (pow10R c - 1) * (10 ^ 9 * (1 / 1000) * (nth 0 s 0 + 1 / 10 ^ 14) / 2).
Proof. exact time_units. Qed.
Print Assumptions C134_time_units.

Example C134_time_hyp : forall c,
  halo_history (fun _ t _ => t) (mkMah NaN NaN NaN NaN NaN) NaN (fun t => t) [1; 5; 13] /\
  halo_history (fun _ t _ => t / Fin (pow10R c))%X (mkMah NaN NaN NaN NaN NaN) NaN (fun t => t / pow10R c) (map (Rmult (pow10R c)) [1; 5; 13]) /\
  (forall t, In t [1; 5; 13] -> pow10R c * t / pow10R c = t).
Proof.
  intros c. pose proof (RealFacts.pow10_pos c) as P. split; [repeat constructor; lra|]. split.
  - unfold halo_history. cbn [map]. repeat constructor; try (apply Rmult_lt_0_compat; lra); apply XFacts.xdiv_fin; lra.
  - intros t _. field. lra.
Qed.

(** C135: galaxies with different parameters differ somewhere. *)
Theorem C135_identifiable : forall mah lgt0 p p', in_bounds p -> in_bounds p' ->
  (forall m t fb, 0 < t -> 0 < fb ->
     calc_sfh_singlegal (steady m) (map_d Fin p) mah [Fin t] lgt0 (Fin fb) = calc_sfh_singlegal (steady m) (map_d Fin p') mah [Fin t] lgt0 (Fin fb)) ->
  p = p'.
Proof. exact identify. Qed.
Print Assumptions C135_identifiable.

Theorem C135_unbounded_identifiable : forall mah lgt0 u u',
  (forall m t fb, 0 < t -> 0 < fb ->
     calc_sfh_singlegal (steady m) (get_bounded_diffstar_params (map_d Fin u)) mah [Fin t] lgt0 (Fin fb)
     = calc_sfh_singlegal (steady m) (get_bounded_diffstar_params (map_d Fin u')) mah [Fin t] lgt0 (Fin fb)) ->
  u = u'.
Proof. exact identify_unbounded. Qed.
Print Assumptions C135_unbounded_identifiable.

Example C135_hyp : in_bounds usual /\ in_bounds (guess_spec 12) /\ usual <> guess_spec 12.
Proof.
  split; [apply usual_in_bounds|]. split; [apply guess_in_bounds|]. intros H. apply (f_equal d_qlglgdt) in H. cbn in H. lra.
Qed.

(** C135: one halo of constant mass is not enough. *)
Theorem C135_one_halo_refuted : forall p, in_bounds p -> exists p', in_bounds p' /\ d_indx_lo p' <> d_indx_lo p /\
  forall mah lgt0 ts fb, Forall (fun t => 0 < t) ts ->
    calc_sfh_singlegal (steady (d_lgmcrit p)) (map_d Fin p') mah (map Fin ts) lgt0 (Fin fb)
    = calc_sfh_singlegal (steady (d_lgmcrit p)) (map_d Fin p) mah (map Fin ts) lgt0 (Fin fb).
Proof. exact one_halo. Qed.
Print Assumptions C135_one_halo_refuted.

(** C136: a table that starts before 1 Myr has no loss, whatever the parameters. *)
Theorem C136_loss_nan : forall lmk u t ts mah M S LF tau floor WF lq lgt0 fb m l0 w0 LM W,
  halo_history lmk mah lgt0 m (t :: ts) -> t < 1 / 1000 ->
  loss_default_clipssfrh lmk (map Fin (params_list u)) (mkLD (map Fin (t :: ts)) mah M (l0 :: LM) S LF tau floor (w0 :: W) WF lq lgt0 (Fin fb)) = Some NaN.
Proof. exact loss_nan. Qed.
Print Assumptions C136_loss_nan.

Theorem C136_loss_not_finite : forall lmk u t ts mah M S LF tau floor WF lq lgt0 fb m l0 w0 LM W,
  halo_history lmk mah lgt0 m (t :: ts) -> t = 1 / 1000 ->
  exists v, loss_default_clipssfrh lmk (map Fin (params_list u)) (mkLD (map Fin (t :: ts)) mah M (l0 :: LM) S LF tau floor (w0 :: W) WF lq lgt0 (Fin fb)) = Some v /\
    isfinite v = false.
Proof. exact loss_not_finite. Qed.
Print Assumptions C136_loss_not_finite.

(** C136: the fitter gives such a galaxy the initial guess and reports failure, whatever the
    random draws, the gradients and the optimiser. *)
Theorem C136_never_fitted : forall lmk msh rng normal loss_grad minimize (s : rng) t ts ss mah dlogm tmin mmin tau floor lgt0 fb mp h,
  length (t :: ts) = length ss -> t < 1 / 1000 -> halo_history lmk mah lgt0 h (t :: ts) ->
  last (snd (msh mah (map Fin (t :: ts)) lgt0)) NaN = Fin mp ->
  (forall L g x, (forall u, exists v, L (map Fin (params_list u)) = Some v) ->
     exists u v ok, minimize L g x = (map Fin (params_list u), v, ok) /\ L (map Fin (params_list u)) = Some v) ->
  exists s', diffstar_fitter lmk msh rng normal loss_grad minimize s (map Fin (t :: ts)) ss mah dlogm tmin mmin tau floor lgt0 (Fin fb)
    = Some (map_d Fin (guess_spec mp), Fin (99999 / 100), (-1)%Z, s').
Proof. exact never_fitted. Qed.
Print Assumptions C136_never_fitted.

Example C136_hyp :
  halo_history (steady 12) (mkMah NaN NaN NaN NaN NaN) NaN (fun _ => 12) [1 / 2000; 1; 13] /\
  (forall (L : list xr -> option xr) (g : list xr -> list xr) (x : list xr), (forall u, exists v, L (map Fin (params_list u)) = Some v) ->
     exists u v ok, (map Fin (params_list (guess_spec 12)), match L (map Fin (params_list (guess_spec 12))) with Some v => v | None => NaN end, true)
       = (map Fin (params_list u), v, ok) /\ L (map Fin (params_list u)) = Some v).
Proof.
  split; [apply steady_history; repeat constructor; lra|]. intros L g x H. destruct (H (guess_spec 12)) as (v & E).
  exists (guess_spec 12), v, true. rewrite E. split; reflexivity.
Qed.

(** C137: the efficiency has exactly one peak in halo mass, at lgmcrit only for opposite slopes. *)
Theorem C137_efficiency_peak : forall p : DiffstarParams R, 0 < d_indx_lo p -> d_indx_hi p <= 0 -> exists (E : R -> R) mpk,
  (forall m, sfr_eff_plaw (Fin m) (map_ms Fin (slice_ms p)) = Fin (E m)) /\
  (forall m m', m < m' -> m' <= mpk -> E m < E m') /\ (forall m m', m < m' -> mpk <= m -> E m' < E m) /\
  Rabs (mpk - d_lgmcrit p) < 13 / 90 /\ (d_lgmcrit p < mpk <-> 0 < d_indx_lo p + d_indx_hi p) /\
  (mpk < d_lgmcrit p <-> d_indx_lo p + d_indx_hi p < 0) /\ (mpk = d_lgmcrit p <-> d_indx_lo p + d_indx_hi p = 0).
Proof. exact efficiency_peak. Qed.
Print Assumptions C137_efficiency_peak.

(** C137: with indx_hi at most -1 (the default) more massive halos form fewer stars above one mass. *)
Theorem C137_sfr_peak : forall p : DiffstarParams R, -1 < d_indx_lo p -> d_indx_hi p <= -1 -> exists mpk,
  Rabs (mpk - d_lgmcrit p) < 13 / 90 /\ (d_lgmcrit p < mpk <-> -2 < d_indx_lo p + d_indx_hi p) /\
  forall mah lgt0 t fb m m', 0 < t -> 0 <= fb -> m < m' -> exists s s',
    calc_sfh_singlegal (steady m) (map_d Fin p) mah [Fin t] lgt0 (Fin fb) = [Fin s] /\
    calc_sfh_singlegal (steady m') (map_d Fin p) mah [Fin t] lgt0 (Fin fb) = [Fin s'] /\
    (m' <= mpk -> s <= s' /\ (1 / 10 ^ 14 < s' -> s < s')) /\
    (mpk <= m -> s' <= s /\ (1 / 10 ^ 14 < s -> s' < s)).
Proof. exact sfr_peak. Qed.
Print Assumptions C137_sfr_peak.

Example C137_hyp : 0 < d_indx_lo usual /\ d_indx_hi usual <= -1 /\ 1 / 10 ^ 14 < sfr_spec usual (1 / 10) 12 5.
Proof. cbn [usual d_indx_lo d_indx_hi]. split; [lra|]. split; [lra|apply usual_bright]. Qed.

(** C138: a target history with a NaN, or whose mass formed is negative anywhere, is never fitted. *)
Theorem C138_nan_target : forall lmk msh rng normal loss_grad minimize (s : rng) ts ss mah dlogm tmin mmin tau floor lgt0 fb mp h,
  length ts = length ss -> In NaN ss -> halo_history lmk mah lgt0 h ts ->
  last (snd (msh mah (map Fin ts) lgt0)) NaN = Fin mp ->
  (forall L g x, (forall u, exists v, L (map Fin (params_list u)) = Some v) ->
     exists u v ok, minimize L g x = (map Fin (params_list u), v, ok) /\ L (map Fin (params_list u)) = Some v) ->
  exists s', diffstar_fitter lmk msh rng normal loss_grad minimize s (map Fin ts) ss mah dlogm tmin mmin tau floor lgt0 (Fin fb)
    = Some (map_d Fin (guess_spec mp), Fin (99999 / 100), (-1)%Z, s').
Proof. exact nan_target_never_fitted. Qed.
Print Assumptions C138_nan_target.

Theorem C138_negative_mass : forall lmk msh rng normal loss_grad minimize (s : rng) ts ss M r mah dlogm tmin mmin tau floor lgt0 fb mp h,
  cumulative_mstar_formed (map Fin ts) ss = Some M -> In (Fin r) M -> r < 0 -> halo_history lmk mah lgt0 h ts ->
  last (snd (msh mah (map Fin ts) lgt0)) NaN = Fin mp ->
  (forall L g x, (forall u, exists v, L (map Fin (params_list u)) = Some v) ->
     exists u v ok, minimize L g x = (map Fin (params_list u), v, ok) /\ L (map Fin (params_list u)) = Some v) ->
  exists s', diffstar_fitter lmk msh rng normal loss_grad minimize s (map Fin ts) ss mah dlogm tmin mmin tau floor lgt0 (Fin fb)
    = Some (map_d Fin (guess_spec mp), Fin (99999 / 100), (-1)%Z, s').
Proof. exact negative_mass_never_fitted. Qed.
Print Assumptions C138_negative_mass.

Example C138_hyp : In NaN [Fin 1; NaN; Fin 2] /\
  exists a r, cumulative_mstar_formed (map Fin [1; 2]) (map Fin [0; -10]) = Some [Fin a; Fin r] /\ r < 0.
Proof. split; [right; left; reflexivity|exact negative_example]. Qed.
