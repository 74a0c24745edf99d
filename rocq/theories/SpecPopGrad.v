(** What the statements about gradients of the population losses refer to. *)
From Coq Require Import Reals.
From Coquelicot Require Import Coquelicot.
From Coq Require Import List String ZArith.
From Verif Require Import XReal ModelUtils ModelKernels ModelSfh ModelPop ModelHist SpecCore SpecPop SpecHist SpecGrad SpecPopProgram.
Import List ListNotations.
Open Scope R_scope.

(** [jax.random.normal] returns as many finite numbers as asked for. *)
Definition normals_ok {key} (normal : key -> nat -> list xr) : Prop :=
  forall k n, exists z : list R, normal k n = map Fin z /\ length z = n.

(** The 88 parameters [U] moved by [s] in direction [V]. *)
Definition pop_move (U V : string -> R) (s : R) : string -> R := fun n => U n + s * V n.

(** [g] is the gradient of [loss] at the parameters [U]: [loss] is finite around [U] and its derivative in every
    direction [V] is the inner product with [g]. *)
Definition is_gradient (loss : nt xr -> option xr) (U : string -> R) (g : list R) : Prop :=
  forall V, exists f : R -> R, locally 0 (fun s => loss (pop_u_params (pop_move U V s)) = Some (Fin (f s))) /\
    is_derive f 0 (inner g (map V pop_names)).

(** No star formation rate of a halo with diffstar parameters [p] is exactly 1e-14 before flooring. *)
Definition off_sfr_floor lmk lgt0 (fb tobs : R) (mah : MahParams xr) (p : DiffstarParams xr) : Prop :=
  forall P h, p = map_d Fin P -> halo_history lmk mah lgt0 h (obs_times tobs) ->
    Forall (fun t => sfr_unfloored P fb (h t) t <> 1 / 10 ^ 14) (obs_times tobs).
(** The specific star formation rate is not exactly 1e-12 before clipping. *)
Definition off_ssfr_floor (tobs : R) (row : list xr) : Prop :=
  forall s M, obs_row tobs row s M -> ln s / ln 10 - ln M / ln 10 <> -12.

Section S.
Variable key : Type.
Variable split : key -> nat -> list key.
Variable uniform : key -> xr.
Variable mvn : key -> list xr -> list (list xr) -> list xr.
Variable lmk : MahParams xr -> xr -> xr -> xr.
(** [res] is the galaxy population simulated at one redshift. *)
Definition simulated (p : nt xr) (z : ZPop key) (lgt0 : xr) (fb tobs : R) res : Prop :=
  z_tobs key z = Fin tobs /\
  mc_diffstar_sfh_galpop key split uniform mvn lmk p (z_mah key z) (z_logmp0 key z) (z_upid key z) (z_lgmu_infall key z)
    (z_logmhost_infall key z) (z_gyr_since_infall key z) (z_key key z) (map Fin (obs_times tobs)) lgt0 (Fin fb) = Some res.
Definition smooth_sfr (p : nt xr) (lgt0 : xr) (fb : R) (zs : list (ZPop key)) : Prop :=
  Forall (fun z => forall tobs res, simulated p z lgt0 fb tobs res -> forall i, (i < length (z_logmp0 key z))%nat ->
    off_sfr_floor lmk lgt0 fb tobs (gal_mah (z_mah key z) i) (gal_d (diffstar_params_ms res) i) /\
    off_sfr_floor lmk lgt0 fb tobs (gal_mah (z_mah key z) i) (gal_d (diffstar_params_q res) i)) zs.
Definition smooth_ssfr (p : nt xr) (lgt0 : xr) (fb : R) (zs : list (ZPop key)) : Prop :=
  Forall (fun z => forall tobs res, simulated p z lgt0 fb tobs res -> forall i, (i < length (z_logmp0 key z))%nat ->
    off_ssfr_floor tobs (nth i (sfh_ms res) []) /\ off_ssfr_floor tobs (nth i (sfh_q res) [])) zs.
End S.

(** Loss data made of real numbers: well-formed simulated galaxies, at least two increasing bin edges in each dimension, boxes of
    positive area. *)
Definition mstar_data_ok (key : Type) lmk (d : MstarLossData key) (fb : R) : Prop :=
  exists E T, d = mkML key (ml_zs key d) (ml_lgt0 key d) (Fin fb) (map Fin E) (map (map Fin) T) /\
    zs_ok key lmk (ml_lgt0 key d) (ml_zs key d) /\ (2 <= length E)%nat /\ increasing E.
Definition ssfr_data_ok (key : Type) lmk (d : SsfrLossData key) (fb : R) : Prop :=
  exists LO HI Em Es W idx ids T, d = mkSL key (sl_zs key d) (sl_lgt0 key d) (Fin fb)
      (mkSsfr (map (map Fin) LO) (map (map Fin) HI) (map Fin Em) (map Fin Es) (map (map Fin) W) idx ids) (map (map (map Fin)) T) /\
    zs_ok key lmk (sl_lgt0 key d) (sl_zs key d) /\ (2 <= length Em)%nat /\ increasing Em /\ (2 <= length Es)%nat /\ increasing Es /\ cells LO HI.

(** Parameters of the quenched fraction of satellites and of centrals. *)
Definition satellite_names : list string := [
  "frac_quench_sat_x0_tpeak"; "frac_quench_sat_k_tpeak"; "frac_quench_sat_x0_ylotpeak"; "frac_quench_sat_x0_yhitpeak";
  "frac_quench_sat_ylo_ylotpeak"; "frac_quench_sat_ylo_yhitpeak"; "frac_quench_sat_k"; "frac_quench_sat_yhi";
  "qp_lgmh_crit"; "td_lgmhc"; "td_mlo"; "td_mhi"; "qphi_lgmu_crit";
  "lgmu_lo_mh_lo"; "lgmu_hi_mh_lo"; "lgmu_lo_mh_hi"; "lgmu_hi_mh_hi" ]%string.
Definition central_names : list string := [
  "frac_quench_cen_x0_tpeak"; "frac_quench_cen_k_tpeak"; "frac_quench_cen_x0_ylotpeak"; "frac_quench_cen_x0_yhitpeak";
  "frac_quench_cen_ylo_ylotpeak"; "frac_quench_cen_ylo_yhitpeak"; "frac_quench_cen_k"; "frac_quench_cen_yhi" ]%string.
(** The same parameters but for the names [N]. *)
Definition same_but (N : list string) (P P' : string -> R) : Prop := forall n, In n pop_names -> ~ In n N -> P n = P' n.
(** Names [N] the galaxies with host identifiers [upid] do not depend on: satellite names if all are centrals, central
    names if all are satellites. *)
Definition unused (N : list string) (upid : list Z) : Prop :=
  (N = satellite_names /\ Forall (fun u => u = (-1)%Z) upid) \/ (N = central_names /\ Forall (fun u => u <> (-1)%Z) upid).
