(** Model of diffstar/kernels/main_sequence_kernels.py:54-59,
    diffstar/kernels/history_kernel_builders.py, diffstar/sfh_model.py and
    diffstar/mgas_model.py.  The diffmah functions are arguments. *)
From Coq Require Import Reals List.
From Verif Require Import XReal ModelUtils ModelKernels.
Import ListNotations.
Open Scope R_scope.

(** diffmah's DiffmahParams, in field order (external package). *)
Record MahParams (A : Type) :=
  mkMah { logm0 : A; logtc : A; early_index : A; late_index : A; t_peak : A }.
Arguments mkMah {A}. Arguments logm0 {A}. Arguments logtc {A}.
Arguments early_index {A}. Arguments late_index {A}. Arguments t_peak {A}.

(** Rows of a tuple of equal-length columns: what [jnp.array(cols).T] holds, and
    equally what [vmap] with [in_axes=0] feeds one call when given the tuple.
    Unequal lengths raise. *)
Definition rows (cols : list (list xr)) : option (list (list xr)) :=
  match cols with
  | [] => None
  | c0 :: _ =>
    let n := length c0 in
    if forallb (fun c => Nat.eqb (length c) n) cols
    then Some (map (fun i => map (fun c => at_ c i) cols) (seq 0 n))
    else None
  end.

(** Positional unpacking of a row. *)
Definition unpack_ms (r : list xr) : option (MSParams xr) :=
  match r with [a; b; c; d] => Some (mkMS a b c d) | _ => None end.
Definition unpack_q (r : list xr) : option (QParams xr) :=
  match r with [a; b; c; d] => Some (mkQ a b c d) | _ => None end.
Definition unpack_mah (r : list xr) : option (MahParams xr) :=
  match r with [a; b; c; d; e] => Some (mkMah a b c d e) | _ => None end.

Definition cols_ms (p : MSParams (list xr)) : list (list xr) :=
  [lgmcrit p; lgy_at_mcrit p; indx_lo p; indx_hi p].
Definition cols_q (p : QParams (list xr)) : list (list xr) :=
  [lg_qt p; qlglgdt p; lg_drop p; lg_rejuv p].
Definition cols_mah (p : MahParams (list xr)) : list (list xr) :=
  [logm0 p; logtc p; early_index p; late_index p; t_peak p].

Section Diffmah.

(** diffmah.diffmah_kernels._log_mah_kern(mah_params, t, logt0) *)
Variable log_mah_kern : MahParams xr -> xr -> xr -> xr.
(** diffmah.diffmah_kernels.mah_singlehalo(mah_params, tarr, lgt0) = (dmhdt, log_mah) *)
Variable mah_singlehalo : MahParams xr -> list xr -> xr -> list xr * list xr.

(** ** main_sequence_kernels.py:54-59 [sfh_ms_kernel] *)
Definition sfh_ms_kernel (tform : xr) (mah : MahParams xr) (ms : MSParams xr) (logt0 fb : xr) : xr :=
  let log_mah := log_mah_kern mah tform logt0 in
  let Mgash := (fb * xpow10 log_mah)%X in
  (Mgash * xpow10 (sfr_eff_plaw log_mah ms))%X.

(** ** history_kernel_builders.py:14-28 [_sfh_singlegal_scalar] *)
Definition sfh_singlegal_scalar (tform : xr) (mah : MahParams xr) (ms : MSParams xr)
    (q : QParams xr) (logt0 fb : xr) : xr :=
  let lgt_form := xlog10 tform in
  let sfr_ms := sfh_ms_kernel tform mah ms logt0 fb in
  let lg_q_dt := xpow10 (qlglgdt q) in
  let qfunc := quenching_kern lgt_form (lg_qt q) lg_q_dt (lg_drop q) (lg_rejuv q) in
  let sfr := (qfunc * sfr_ms)%X in
  if (sfr <? SFR_MIN)%X then SFR_MIN else sfr.

(** ** history_kernel_builders.py:31-32 [_sfh_singlegal_kern] *)
Definition sfh_singlegal_kern (tarr : list xr) (mah : MahParams xr) (ms : MSParams xr)
    (q : QParams xr) (logt0 fb : xr) : list xr :=
  map (fun t => sfh_singlegal_scalar t mah ms q logt0 fb) tarr.

(** ** history_kernel_builders.py:35-37 [_sfh_galpop_kern_kern] on one row *)
Definition sfh_galpop_kern_kern (tarr : list xr) (r : list xr * list xr * list xr)
    (logt0 fb : xr) : option (list xr) :=
  let '(rmah, rms, rq) := r in
  match unpack_mah rmah, unpack_ms rms, unpack_q rq with
  | Some mah, Some ms, Some q => Some (sfh_singlegal_kern tarr mah ms q logt0 fb)
  | _, _, _ => None
  end.

(** ** history_kernel_builders.py:40-41 [_sfh_galpop_kern]: vmap over rows; the three
    row arrays must have the same leading size. *)
Definition sfh_galpop_kern (tarr : list xr) (rmah rms rq : list (list xr)) (logt0 fb : xr)
  : option (list (list xr)) :=
  if (Nat.eqb (length rmah) (length rms) && Nat.eqb (length rms) (length rq))%bool
  then vmap (fun r => sfh_galpop_kern_kern tarr r logt0 fb)
            (combine (combine rmah rms) rq)
  else None.

(** ** sfh_model.py:18-76 [calc_sfh_singlegal], return_smh=False / True *)
Definition calc_sfh_singlegal (sfh_params : DiffstarParams xr) (mah : MahParams xr)
    (tarr : list xr) (lgt0 fb : xr) : list xr :=
  sfh_singlegal_kern tarr mah (slice_ms sfh_params) (slice_q sfh_params) lgt0 fb.

Definition calc_sfh_singlegal_smh (sfh_params : DiffstarParams xr) (mah : MahParams xr)
    (tarr : list xr) (lgt0 fb : xr) : option (list xr * list xr) :=
  let sfh := sfh_singlegal_kern tarr mah (slice_ms sfh_params) (slice_q sfh_params) lgt0 fb in
  match cumulative_mstar_formed tarr sfh with
  | Some smh => Some (sfh, smh)
  | None => None
  end.

(** ** sfh_model.py:79-144 [calc_sfh_galpop], return_smh=False / True *)
Definition calc_sfh_galpop (sfh_params : DiffstarParams (list xr)) (mah : MahParams (list xr))
    (tarr : list xr) (lgt0 fb : xr) : option (list (list xr)) :=
  match rows (cols_mah mah), rows (cols_ms (slice_ms sfh_params)),
        rows (cols_q (slice_q sfh_params)) with
  | Some rmah, Some rms, Some rq => sfh_galpop_kern tarr rmah rms rq lgt0 fb
  | _, _, _ => None
  end.

Definition calc_sfh_galpop_smh (sfh_params : DiffstarParams (list xr)) (mah : MahParams (list xr))
    (tarr : list xr) (lgt0 fb : xr) : option (list (list xr) * list (list xr)) :=
  match calc_sfh_galpop sfh_params mah tarr lgt0 fb with
  | Some sfh =>
      match cumulative_mstar_formed_galpop tarr sfh with
      | Some smh => Some (sfh, smh)
      | None => None
      end
  | None => None
  end.

(** mgas_model.py:14 [GalHistory] *)
Record GasHistory (A : Type) := mkGas { g_sfh : A; g_smh : A; g_dmgash : A; g_mgash : A }.

(** ** mgas_model.py:17-77 [calc_mgas_singlegal] *)
Definition calc_mgas_singlegal (sfh_params : DiffstarParams xr) (mah : MahParams xr)
    (tarr : list xr) (lgt0 fb : xr) : option (GasHistory (list xr)) :=
  let sfh := sfh_singlegal_kern tarr mah (slice_ms sfh_params) (slice_q sfh_params) lgt0 fb in
  let '(dmhdt, log_mah) := mah_singlehalo mah tarr lgt0 in
  let dmgasdt_inst := map (fun d => fb * d)%X dmhdt in
  match cumulative_mstar_formed tarr sfh, cumulative_mstar_formed tarr dmgasdt_inst with
  | Some smh, Some mgas_inst =>
    let mgas := map2 xsub mgas_inst smh in
    match jax_get_dt_array tarr, jax_get_dt_array mgas with
    | Some dt, Some dm =>
        let dmgas_dt := map2 (fun m d => m / d / Fin (10 ^ 9))%X dm dt in
        Some (mkGas _ sfh smh dmgas_dt mgas)
    | _, _ => None
    end
  | _, _ => None
  end.

(** diffmah's mah_halopop: assumed to be the per-halo map of mah_singlehalo over the
    rows of the parameter tuple. *)
Definition mah_halopop (mah : MahParams (list xr)) (tarr : list xr) (lgt0 : xr)
  : option (list (list xr) * list (list xr)) :=
  match rows (cols_mah mah) with
  | Some rmah =>
      match vmap unpack_mah rmah with
      | Some ms => let res := map (fun m => mah_singlehalo m tarr lgt0) ms in
                   Some (map fst res, map snd res)
      | None => None
      end
  | None => None
  end.

(** ** mgas_model.py:80-139 [calc_mgas_galpop].  The parameter tuples are handed to vmap
    without transposition: vmap slices axis 0 of every leaf of the tuple. *)
Definition calc_mgas_galpop (sfh_params : DiffstarParams (list xr)) (mah : MahParams (list xr))
    (tarr : list xr) (lgt0 fb : xr) : option (GasHistory (list (list xr))) :=
  match rows (cols_mah mah), rows (cols_ms (slice_ms sfh_params)),
        rows (cols_q (slice_q sfh_params)) with
  | Some rmah, Some rms, Some rq =>
    match sfh_galpop_kern tarr rmah rms rq lgt0 fb, mah_halopop mah tarr lgt0 with
    | Some sfh, Some (dmhdt, log_mah) =>
      let dmgasdt_inst := map (map (fun d => fb * d)%X) dmhdt in
      match vmap (cumulative_mstar_formed tarr) sfh,
            vmap (cumulative_mstar_formed tarr) dmgasdt_inst with
      | Some smh, Some mgas_inst =>
        let mgas := map2 (map2 xsub) mgas_inst smh in
        match jax_get_dt_array tarr, vmap jax_get_dt_array mgas with
        | Some dt, Some dm =>
            let dmgas_dt := map (fun row => map2 (fun m d => m / d / Fin (10 ^ 9))%X row dt) dm in
            Some (mkGas _ sfh smh dmgas_dt mgas)
        | _, _ => None
        end
      | _, _ => None
      end
    | _, _ => None
    end
  | _, _, _ => None
  end.

End Diffmah.

Arguments g_sfh {A}. Arguments g_smh {A}. Arguments g_dmgash {A}. Arguments g_mgash {A}.
Arguments mkGas {A}.
