(** Model of diffstar/kernels/quenching_kernels.py,
    diffstar/kernels/main_sequence_kernels.py and diffstar/defaults.py:46-100. *)
From Coq Require Import Reals List.
From Verif Require Import XReal ModelUtils.
Import ListNotations.
Open Scope R_scope.

(** quenching_kernels.py:12-15 [QParams] (and [QUParams], lines 205);
    main_sequence_kernels.py:13-20 [MSParams] (and [MSUParams], line 126);
    one record type serves the bounded and unbounded tuples, in field order. *)
Record QParams (A : Type) := mkQ { lg_qt : A; qlglgdt : A; lg_drop : A; lg_rejuv : A }.
Record MSParams (A : Type) :=
  mkMS { lgmcrit : A; lgy_at_mcrit : A; indx_lo : A; indx_hi : A }.
Arguments mkQ {A}. Arguments lg_qt {A}. Arguments qlglgdt {A}.
Arguments lg_drop {A}. Arguments lg_rejuv {A}.
Arguments mkMS {A}. Arguments lgmcrit {A}. Arguments lgy_at_mcrit {A}.
Arguments indx_lo {A}. Arguments indx_hi {A}.

(** defaults.py:46-51 [DiffstarParams]: the four MS fields then the four Q fields. *)
Record DiffstarParams (A : Type) := mkDiffstar {
  d_lgmcrit : A; d_lgy_at_mcrit : A; d_indx_lo : A; d_indx_hi : A;
  d_lg_qt : A; d_qlglgdt : A; d_lg_drop : A; d_lg_rejuv : A }.
Arguments mkDiffstar {A}.
Arguments d_lgmcrit {A}. Arguments d_lgy_at_mcrit {A}. Arguments d_indx_lo {A}.
Arguments d_indx_hi {A}. Arguments d_lg_qt {A}. Arguments d_qlglgdt {A}.
Arguments d_lg_drop {A}. Arguments d_lg_rejuv {A}.

(** [p[:4]], [p[4:]], [DiffstarParams( *ms, *q)] *)
Definition slice_ms {A} (p : DiffstarParams A) : MSParams A :=
  mkMS (d_lgmcrit p) (d_lgy_at_mcrit p) (d_indx_lo p) (d_indx_hi p).
Definition slice_q {A} (p : DiffstarParams A) : QParams A :=
  mkQ (d_lg_qt p) (d_qlglgdt p) (d_lg_drop p) (d_lg_rejuv p).
Definition join_params {A} (ms : MSParams A) (q : QParams A) : DiffstarParams A :=
  mkDiffstar (lgmcrit ms) (lgy_at_mcrit ms) (indx_lo ms) (indx_hi ms)
             (lg_qt q) (qlglgdt q) (lg_drop q) (lg_rejuv q).

(** ** quenching_kernels.py:24-33 [calculate_sigmoid_bounds]
    (identical in main_sequence_kernels.py:32-41) *)
Definition sigmoid_bounds (b : xr * xr) : xr * xr * xr * xr :=
  let '(lo, hi) := b in
  ((lo + hi) / Fin 2, xabs (Fin 4 / (hi - lo)), lo, hi)%X.

(** [_sigmoid(u, *bounds)] and [_inverse_sigmoid(p, *bounds)] *)
Definition sigmoid_b (u : xr) (b : xr * xr * xr * xr) : xr :=
  let '(x0, k, lo, hi) := b in sigmoid u x0 k lo hi.
Definition inverse_sigmoid_b (p : xr) (b : xr * xr * xr * xr) : xr :=
  let '(x0, k, lo, hi) := b in inverse_sigmoid p x0 k lo hi.

(** quenching_kernels.py:19-21 *)
Definition Q_BOUNDS : QParams (xr * xr) :=
  mkQ (Fin (1 / 10), Fin 2) (Fin (-3), Fin (-1 / 100)) (Fin (-3), Fin 0) (Fin (-3), Fin 0).
(** quenching_kernels.py:36 *)
Definition Q_SIG : QParams (xr * xr * xr * xr) :=
  mkQ (sigmoid_bounds (lg_qt Q_BOUNDS)) (sigmoid_bounds (qlglgdt Q_BOUNDS))
      (sigmoid_bounds (lg_drop Q_BOUNDS)) (sigmoid_bounds (lg_rejuv Q_BOUNDS)).

(** main_sequence_kernels.py:22-27, 44 *)
Definition MS_BOUNDS : MSParams (xr * xr) :=
  mkMS (Fin 9, Fin (135 / 10)) (Fin (-12), Fin (-8)) (Fin 0, Fin 5) (Fin (-5), Fin 0).
Definition MS_SIG : MSParams (xr * xr * xr * xr) :=
  mkMS (sigmoid_bounds (lgmcrit MS_BOUNDS)) (sigmoid_bounds (lgy_at_mcrit MS_BOUNDS))
       (sigmoid_bounds (indx_lo MS_BOUNDS)) (sigmoid_bounds (indx_hi MS_BOUNDS)).

(** quenching_kernels.py:12-17, main_sequence_kernels.py:13-20 *)
Definition DEFAULT_Q_PARAMS : QParams xr :=
  mkQ (Fin 1) (Fin (-50725 / 100000)) (Fin (-101773 / 100000)) (Fin (-212307 / 1000000)).
Definition DEFAULT_MS_PARAMS : MSParams xr := mkMS (Fin 12) (Fin (-10)) (Fin 1) (Fin (-1)).

(** ** quenching_kernels.py:115-120 [_jax_tw] *)
Definition jax_tw (y : xr) : xr :=
  let v := tw_poly y in
  let res := if (y <? Fin (-3))%X then Fin 0 else v in
  if (Fin 3 <? y)%X then Fin 1 else res.

(** ** quenching_kernels.py:123-128 [_jax_partial_u_tw_kern] *)
Definition jax_partial_u_tw_kern (x m h f1 f2 : xr) : xr :=
  let y := ((x - m) / h)%X in
  let z := (f1 * jax_tw (y + Fin 3))%X in
  let w := (f1 - f2 * jax_tw (y - Fin 3))%X in
  if (y <? Fin 0)%X then z else w.

(** ** quenching_kernels.py:77-112 [_quenching_kern] *)
Definition quenching_kern (lgt lg_qt lg_q_dt q_drop q_rejuv : xr) : xr :=
  let lg_q_dt_by_12 := (lg_q_dt / Fin 12)%X in
  let f2 := (q_drop - q_rejuv)%X in
  xpow10 (jax_partial_u_tw_kern lgt lg_qt lg_q_dt_by_12 q_drop f2).

(** ** quenching_kernels.py:152-160 [_get_bounded_lg_rejuv] *)
Definition get_bounded_lg_rejuv (u_lg_rejuv lg_drop_ : xr) : xr :=
  let '(x0, k, _, hi) := lg_rejuv Q_SIG in
  sigmoid u_lg_rejuv x0 k lg_drop_ hi.

(** ** quenching_kernels.py:131-137 [_get_bounded_q_params] *)
Definition get_bounded_q_params (u : QParams xr) : QParams xr :=
  let lg_qt_ := sigmoid_b (lg_qt u) (lg_qt Q_SIG) in
  let qlglgdt_ := sigmoid_b (qlglgdt u) (qlglgdt Q_SIG) in
  let lg_drop_ := sigmoid_b (lg_drop u) (lg_drop Q_SIG) in
  let lg_rejuv_ := get_bounded_lg_rejuv (lg_rejuv u) lg_drop_ in
  mkQ lg_qt_ qlglgdt_ lg_drop_ lg_rejuv_.

(** ** quenching_kernels.py:178-186 [_get_unbounded_qrejuv] *)
Definition get_unbounded_qrejuv (lg_rejuv_ lg_drop_ : xr) : xr :=
  let '(x0, k, _, hi) := lg_rejuv Q_SIG in
  inverse_sigmoid lg_rejuv_ x0 k lg_drop_ hi.

(** ** quenching_kernels.py:169-175 [_get_unbounded_q_params] *)
Definition get_unbounded_q_params (p : QParams xr) : QParams xr :=
  let u_lg_qt := inverse_sigmoid_b (lg_qt p) (lg_qt Q_SIG) in
  let u_qlglgdt := inverse_sigmoid_b (qlglgdt p) (qlglgdt Q_SIG) in
  let u_lg_drop := inverse_sigmoid_b (lg_drop p) (lg_drop Q_SIG) in
  let u_lg_rejuv := get_unbounded_qrejuv (lg_rejuv p) (lg_drop p) in
  mkQ u_lg_qt u_qlglgdt u_lg_drop u_lg_rejuv.

(** ** quenching_kernels.py:39-74 [_quenching_kern_u_params] *)
Definition quenching_kern_u_params (lgt : xr) (u : QParams xr) : xr :=
  let q := get_bounded_q_params u in
  let lg_q_dt := xpow10 (qlglgdt q) in
  quenching_kern lgt (lg_qt q) lg_q_dt (lg_drop q) (lg_rejuv q).

(** quenching_kernels.py:211-214 *)
Definition DEFAULT_Q_U_PARAMS_UNQUENCHED : QParams xr := mkQ (Fin 5) (Fin 5) (Fin 5) (Fin 5).
Definition DEFAULT_Q_PARAMS_UNQUENCHED : QParams xr :=
  get_bounded_q_params DEFAULT_Q_U_PARAMS_UNQUENCHED.

(** main_sequence_kernels.py:29 *)
Definition INDX_K : xr := Fin 9.

(** ** main_sequence_kernels.py:47-51 [_sfr_eff_plaw] *)
Definition sfr_eff_plaw (lgm : xr) (p : MSParams xr) : xr :=
  let slope := sigmoid lgm (lgmcrit p) INDX_K (indx_lo p) (indx_hi p) in
  (lgy_at_mcrit p + slope * (lgm - lgmcrit p))%X.

(** ** main_sequence_kernels.py:66-83 [_get_bounded_sfr_params] *)
Definition get_bounded_sfr_params (u : MSParams xr) : MSParams xr :=
  mkMS (sigmoid_b (lgmcrit u) (lgmcrit MS_SIG))
       (sigmoid_b (lgy_at_mcrit u) (lgy_at_mcrit MS_SIG))
       (sigmoid_b (indx_lo u) (indx_lo MS_SIG))
       (sigmoid_b (indx_hi u) (indx_hi MS_SIG)).

(** ** main_sequence_kernels.py:86-105 [_get_unbounded_sfr_params] *)
Definition get_unbounded_sfr_params (p : MSParams xr) : MSParams xr :=
  mkMS (inverse_sigmoid_b (lgmcrit p) (lgmcrit MS_SIG))
       (inverse_sigmoid_b (lgy_at_mcrit p) (lgy_at_mcrit MS_SIG))
       (inverse_sigmoid_b (indx_lo p) (indx_lo MS_SIG))
       (inverse_sigmoid_b (indx_hi p) (indx_hi MS_SIG)).

(** ** defaults.py:54-76 [get_bounded_diffstar_params] *)
Definition get_bounded_diffstar_params (u : DiffstarParams xr) : DiffstarParams xr :=
  let u_ms_params := slice_ms u in
  let u_q_params := slice_q u in
  join_params (get_bounded_sfr_params u_ms_params) (get_bounded_q_params u_q_params).

(** ** defaults.py:79-100 [get_unbounded_diffstar_params] *)
Definition get_unbounded_diffstar_params (p : DiffstarParams xr) : DiffstarParams xr :=
  let ms_params := slice_ms p in
  let q_params := slice_q p in
  join_params (get_unbounded_sfr_params ms_params) (get_unbounded_q_params q_params).

(** defaults.py:48 *)
Definition DEFAULT_DIFFSTAR_PARAMS : DiffstarParams xr :=
  join_params DEFAULT_MS_PARAMS DEFAULT_Q_PARAMS.
