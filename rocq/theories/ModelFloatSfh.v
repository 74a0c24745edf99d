(** Binary32 model of the star formation history of one galaxy: main_sequence_kernels.py:47-59,
    history_kernel_builders.py:14-33, sfh_model.py:18-78.  Arithmetic and [style] as in
    ModelFloatTw.v.  Halo masses ([_log_mah_kern] of diffmah at the galaxy's halo parameters and
    [lgt0]), [nn.sigmoid], [jnp.log10] and [jnp.power] with base 10 are variables. *)
From Coq Require Import List Bool String QArith ZArith.
From Flocq Require Import Core.Core IEEE754.BinarySingleNaN.
From Verif Require Import ModelKernels ModelFloat ModelFloatTw ModelFloatMass.
Import ListNotations.

(** defaults.py: [SFR_MIN]; main_sequence_kernels.py: [INDX_K] *)
Definition SFR_MIN32 : f32 := lit32 (1 # 100000000000000).
Definition INDX_K32 : f32 := lit32 9.

Section FloatSfh.
Variables (st : style) (nn_sigmoid pow10 log10 log_mah_kern : f32 -> f32).

(** main_sequence_kernels.py:47-51 [_sfr_eff_plaw] *)
Definition sfr_eff_plaw32 (lgm : f32) (p : MSParams f32) : f32 :=
  let slope := sigmoid32 nn_sigmoid (fusing st) lgm (lgmcrit p) INDX_K32 (indx_lo p) (indx_hi p) in
  let x := fsub lgm (lgmcrit p) in
  if fusing st then ffma slope x (lgy_at_mcrit p) else fadd (lgy_at_mcrit p) (fmul slope x).

(** 54-59 [sfh_ms_kernel] *)
Definition sfh_ms_kernel32 (tform : f32) (p : MSParams f32) (fb : f32) : f32 :=
  let log_mah := log_mah_kern tform in
  let Mgash := fmul fb (pow10 log_mah) in
  fmul Mgash (pow10 (sfr_eff_plaw32 log_mah p)).

(** history_kernel_builders.py:14-29 [_sfh_singlegal_scalar] *)
Definition sfh_singlegal_scalar32 (tform : f32) (ms : MSParams f32) (q : QParams f32) (fb : f32) : f32 :=
  let lgt_form := log10 tform in
  let sfr_ms := sfh_ms_kernel32 tform ms fb in
  let lg_q_dt := pow10 (qlglgdt q) in
  let qfunc := quenching_kern32 st pow10 lgt_form (lg_qt q) lg_q_dt (lg_drop q) (lg_rejuv q) in
  let sfr := fmul qfunc sfr_ms in
  if flt sfr SFR_MIN32 then SFR_MIN32 else sfr.

(** sfh_model.py:18-78 [calc_sfh_singlegal] *)
Definition calc_sfh_singlegal32 (p : DiffstarParams f32) (tarr : list f32) (fb : f32) : list f32 :=
  map (fun t => sfh_singlegal_scalar32 t (slice_ms p) (slice_q p) fb) tarr.
(** with [return_smh=True] *)
Definition calc_sfh_smh_singlegal32 (p : DiffstarParams f32) (tarr : list f32) (fb : f32)
    : option (list f32 * list f32) :=
  let sfh := calc_sfh_singlegal32 p tarr fb in
  match cumulative_mstar_formed32 (fusing st) tarr sfh with
  | Some smh => Some (sfh, smh)
  | None => None
  end.
End FloatSfh.
