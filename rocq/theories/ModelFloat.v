(** Binary32 model of the parameter transforms: diffstar/utils.py, kernels/*_kernels.py,
    defaults.py and diffstarpop/kernels/ (jax computes in binary32 unless told otherwise, and
    nothing in the repository tells it otherwise).

    Each operation rounds to nearest, ties to even; results too large become infinite.
    [nn.sigmoid] and [jnp.log] are variables. A multiplication followed by an addition may be
    compiled into one fused operation, so [fused] chooses. Simplification: subnormal results
    are kept, not flushed to zero. *)
From Coq Require Import List Bool String QArith ZArith.
From Flocq Require Import Core.Core IEEE754.BinarySingleNaN.
From Verif Require Import XReal ModelUtils ModelKernels ModelSfh ModelPopTables ModelPop.
Import ListNotations.

#[global] Instance prec32 : Prec_gt_0 24 := eq_refl.
#[global] Instance emax32 : Prec_lt_emax 24 128 := eq_refl.
#[global] Instance prec64 : Prec_gt_0 53 := eq_refl.
#[global] Instance emax64 : Prec_lt_emax 53 1024 := eq_refl.

Definition f32 : Type := binary_float 24 128.
Definition f64 : Type := binary_float 53 1024.

Definition fadd : f32 -> f32 -> f32 := Bplus mode_NE.
Definition fsub : f32 -> f32 -> f32 := Bminus mode_NE.
Definition fmul : f32 -> f32 -> f32 := Bmult mode_NE.
Definition fdiv : f32 -> f32 -> f32 := Bdiv mode_NE.
(** [x * y + z] with one rounding *)
Definition ffma : f32 -> f32 -> f32 -> f32 := Bfma mode_NE.

(** Python's float literals are binary64; quotients of integers below 2^53 are rounded once. *)
Definition f64_of_Z (z : Z) : f64 := binary_normalize 53 1024 _ _ mode_NE z 0 false.
Definition lit (q : Q) : f64 := Bdiv mode_NE (f64_of_Z (Qnum q)) (f64_of_Z (Zpos (Qden q))).
(** Passing a Python float to a jitted function converts it to binary32. *)
Definition to32 (x : f64) : f32 :=
  match x with
  | B754_zero s => B754_zero s
  | B754_infinity s => B754_infinity s
  | B754_nan => B754_nan
  | B754_finite s m e _ => binary_normalize 24 128 _ _ mode_NE (cond_Zopp s (Zpos m)) e s
  end.
Definition lit32 (q : Q) : f32 := to32 (lit q).

(** main_sequence_kernels.py:32-41, quenching_kernels.py:24-33 [calculate_sigmoid_bounds]:
    numpy, binary64; the four numbers are converted when [_sigmoid] is called. *)
Definition sigmoid_bounds32 (b : Q * Q) : f32 * f32 * f32 * f32 :=
  let lo := lit (fst b) in
  let hi := lit (snd b) in
  let mean := Bdiv mode_NE (Bplus mode_NE lo hi) (lit 2) in
  let k := Babs (Bdiv mode_NE (lit 4) (Bminus mode_NE hi lo)) in
  (to32 mean, to32 k, to32 lo, to32 hi).

(** quenching_kernels.py:19-21, 36; main_sequence_kernels.py:22-27, 44 *)
Definition Q_SIG32 : QParams (f32 * f32 * f32 * f32) :=
  mkQ (sigmoid_bounds32 (1 # 10, 2)) (sigmoid_bounds32 (-3, (-1 # 100)))
      (sigmoid_bounds32 (-3, 0)) (sigmoid_bounds32 (-3, 0)).
Definition MS_SIG32 : MSParams (f32 * f32 * f32 * f32) :=
  mkMS (sigmoid_bounds32 (9, (27 # 2))) (sigmoid_bounds32 (-12, -8))
       (sigmoid_bounds32 (0, 5)) (sigmoid_bounds32 (-5, 0)).

Section Float.
Variables (nn_sigmoid jnp_log : f32 -> f32) (fused : bool).

(** ** utils.py:72-96 [_sigmoid]; diffstarpop/utils.py has the same function *)
Definition sigmoid32 (x x0 k ymin ymax : f32) : f32 :=
  let height_diff := fsub ymax ymin in
  let s := nn_sigmoid (fmul k (fsub x x0)) in
  if fused then ffma height_diff s ymin else fadd ymin (fmul height_diff s).

(** ** utils.py:99-102 [_inverse_sigmoid] *)
Definition inverse_sigmoid32 (y x0 k ymin ymax : f32) : f32 :=
  let lnarg := fsub (fdiv (fsub ymax ymin) (fsub y ymin)) (lit32 1) in
  fsub x0 (fdiv (jnp_log lnarg) k).

Definition sigmoid_b32 (u : f32) (b : f32 * f32 * f32 * f32) : f32 :=
  let '(x0, k, lo, hi) := b in sigmoid32 u x0 k lo hi.
Definition inverse_sigmoid_b32 (p : f32) (b : f32 * f32 * f32 * f32) : f32 :=
  let '(x0, k, lo, hi) := b in inverse_sigmoid32 p x0 k lo hi.

(** ** main_sequence_kernels.py:66-109 [_get_bounded_sfr_params], [_get_unbounded_sfr_params] *)
Definition get_bounded_sfr_params32 (u : MSParams f32) : MSParams f32 :=
  mkMS (sigmoid_b32 (lgmcrit u) (lgmcrit MS_SIG32))
       (sigmoid_b32 (lgy_at_mcrit u) (lgy_at_mcrit MS_SIG32))
       (sigmoid_b32 (indx_lo u) (indx_lo MS_SIG32))
       (sigmoid_b32 (indx_hi u) (indx_hi MS_SIG32)).
Definition get_unbounded_sfr_params32 (p : MSParams f32) : MSParams f32 :=
  mkMS (inverse_sigmoid_b32 (lgmcrit p) (lgmcrit MS_SIG32))
       (inverse_sigmoid_b32 (lgy_at_mcrit p) (lgy_at_mcrit MS_SIG32))
       (inverse_sigmoid_b32 (indx_lo p) (indx_lo MS_SIG32))
       (inverse_sigmoid_b32 (indx_hi p) (indx_hi MS_SIG32)).

(** ** quenching_kernels.py:131-160 [_get_bounded_q_params], [_get_bounded_lg_rejuv] *)
Definition get_bounded_q_params32 (u : QParams f32) : QParams f32 :=
  let lg_drop_ := sigmoid_b32 (lg_drop u) (lg_drop Q_SIG32) in
  let '(x0, k, _, hi) := lg_rejuv Q_SIG32 in
  mkQ (sigmoid_b32 (lg_qt u) (lg_qt Q_SIG32)) (sigmoid_b32 (qlglgdt u) (qlglgdt Q_SIG32))
      lg_drop_ (sigmoid32 (lg_rejuv u) x0 k lg_drop_ hi).

(** ** quenching_kernels.py:169-186 [_get_unbounded_q_params], [_get_unbounded_qrejuv] *)
Definition get_unbounded_q_params32 (p : QParams f32) : QParams f32 :=
  let '(x0, k, _, hi) := lg_rejuv Q_SIG32 in
  mkQ (inverse_sigmoid_b32 (lg_qt p) (lg_qt Q_SIG32)) (inverse_sigmoid_b32 (qlglgdt p) (qlglgdt Q_SIG32))
      (inverse_sigmoid_b32 (lg_drop p) (lg_drop Q_SIG32))
      (inverse_sigmoid32 (lg_rejuv p) x0 k (lg_drop p) hi).

(** ** defaults.py:54-76 [get_bounded_diffstar_params], 79-100 [get_unbounded_diffstar_params] *)
Definition get_bounded_diffstar_params32 (u : DiffstarParams f32) : DiffstarParams f32 :=
  join_params (get_bounded_sfr_params32 (slice_ms u)) (get_bounded_q_params32 (slice_q u)).
Definition get_unbounded_diffstar_params32 (p : DiffstarParams f32) : DiffstarParams f32 :=
  join_params (get_unbounded_sfr_params32 (slice_ms p)) (get_unbounded_q_params32 (slice_q p)).

(** ** sfh_pdf_mgash.py:621-634, satquenchpop_model.py:136-147 (the same functions) *)
Definition get_p_from_u_p32 (u_p : f32) (b : f32 * f32) : f32 :=
  let '(lo, hi) := b in
  let p0 := fmul (lit32 (1 # 2)) (fadd lo hi) in
  sigmoid32 u_p p0 (lit32 (1 # 10)) lo hi.
Definition get_u_p_from_p32 (p : f32) (b : f32 * f32) : f32 :=
  let '(lo, hi) := b in
  let p0 := fmul (lit32 (1 # 2)) (fadd lo hi) in
  inverse_sigmoid32 p p0 (lit32 (1 # 10)) lo hi.

Definition QQ32 (b : Q * Q) : f32 * f32 := (lit32 (fst b), lit32 (snd b)).
(** sfh_pdf_mgash.py:641-649 [get_bounded_sfh_pdf_params];
    satquenchpop_model.py:155-159 [get_bounded_satquenchpop_params] *)
Definition bounded_by32 (names unames : list string) (pdict : list (string * (Q * Q))) (u : nt f32)
    : option (nt f32) :=
  match ModelUtils.vmap (getattr u) unames, nt_kwargs names pdict with
  | Some us, Some bs => nt_make names (map2 get_p_from_u_p32 us (map QQ32 bs))
  | _, _ => None
  end.
Definition unbounded_by32 (names unames : list string) (pdict : list (string * (Q * Q))) (p : nt f32)
    : option (nt f32) :=
  match ModelUtils.vmap (getattr p) names, nt_kwargs names pdict with
  | Some ps, Some bs => nt_make unames (map2 get_u_p_from_p32 ps (map QQ32 bs))
  | _, _ => None
  end.

(** ** kernels/defaults_mgash.py:36-50 [get_bounded_diffstarpop_params] *)
Definition get_bounded_diffstarpop_params32 (u : nt f32) : option (nt f32) :=
  match bounded_by32 QSEQ_NAMES QSEQ_UNAMES SFH_PDF_QUENCH_BOUNDS_PDICT u,
        bounded_by32 SATQ_NAMES SATQ_UNAMES SATQUENCHPOP_PBOUNDS_PDICT u with
  | Some sfh_pdf_cens_params, Some satq =>
      nt_make DIFFSTARPOP_NAMES (values sfh_pdf_cens_params ++ values satq)
  | _, _ => None
  end.
(** 53-68 [get_unbounded_diffstarpop_params] *)
Definition get_unbounded_diffstarpop_params32 (p : nt f32) : option (nt f32) :=
  match unbounded_by32 QSEQ_NAMES QSEQ_UNAMES SFH_PDF_QUENCH_BOUNDS_PDICT p,
        unbounded_by32 SATQ_NAMES SATQ_UNAMES SATQUENCHPOP_PBOUNDS_PDICT p with
  | Some u_sfh, Some u_satq => nt_make DIFFSTARPOP_UNAMES (values u_sfh ++ values u_satq)
  | _, _ => None
  end.
End Float.
