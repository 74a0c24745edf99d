(** Binary32 model of the triweight kernel and what is computed with it:
    kernels/quenching_kernels.py:77-128, sumstats/diffndhist.py:9-33 (diffstarpop/utils.py:86-106
    is a copy) and diffstar/utils.py:111-171.  Arithmetic as in ModelFloat.v.

    Compiling may replace a division by a constant with a multiplication by its reciprocal, fold
    the two constants of a term into one, and fuse a multiplication with the addition after it;
    [style] says which.  An integer power is formed by squaring (lax.integer_pow). [jnp.power]
    with base 10 is a variable. *)
From Coq Require Import List Bool String QArith ZArith.
From Flocq Require Import Core.Core IEEE754.BinarySingleNaN.
From Verif Require Import ModelFloat.
Import ListNotations.

Inductive dividing := Divide | Reciprocal | Folded.
Record style := mkStyle { dividing_by : dividing; fusing : bool }.

Definition fopp : f32 -> f32 := Bopp.
Definition flt : f32 -> f32 -> bool := Bltb.

Section FloatTw.
Variables (st : style) (pow10 : f32 -> f32).

(** [x / d] for a constant [d] *)
Definition over (x d : f32) : f32 :=
  match dividing_by st with
  | Divide => fdiv x d
  | _ => fmul x (fdiv (lit32 1) d)
  end.

(** [c * p / d] for constants [c] and [d] *)
Definition term (c p d : f32) : f32 :=
  match dividing_by st with
  | Divide => fdiv (fmul c p) d
  | Reciprocal => fmul (fmul c p) (fdiv (lit32 1) d)
  | Folded => fmul p (fmul c (fdiv (lit32 1) d))
  end.

(** [s + c * p / d] *)
Definition add_term (s c p d : f32) : f32 :=
  if fusing st then
    match dividing_by st with
    | Divide => fadd s (term c p d)
    | Reciprocal => ffma (fmul c p) (fdiv (lit32 1) d) s
    | Folded => ffma p (fmul c (fdiv (lit32 1) d)) s
    end
  else fadd s (term c p d).

(** [s - c * p / d] *)
Definition sub_term (s c p d : f32) : f32 :=
  if fusing st then
    match dividing_by st with
    | Divide => fsub s (term c p d)
    | Reciprocal => ffma (fopp (fmul c p)) (fdiv (lit32 1) d) s
    | Folded => ffma (fopp p) (fmul c (fdiv (lit32 1) d)) s
    end
  else fsub s (term c p d).

(** quenching_kernels.py:117, diffndhist.py:16, utils.py:138-142 *)
Definition tw_poly32 (y : f32) : f32 :=
  let y2 := fmul y y in
  let y4 := fmul y2 y2 in
  let y3 := fmul y y2 in
  let y5 := fmul y y4 in
  let y7 := fmul (fmul y y2) y4 in
  let s := term (lit32 (-5)) y7 (lit32 69984) in
  let s := add_term s (lit32 7) y5 (lit32 2592) in
  let s := sub_term s (lit32 35) y3 (lit32 864) in
  let s := add_term s (lit32 35) y (lit32 96) in
  fadd s (lit32 (1 # 2)).

(** quenching_kernels.py:115-120 [_jax_tw]; the two [lax.cond]s of [_tw_cuml_lax_kern] and of
    [tw_cuml_jax_kern] choose in the same way *)
Definition jax_tw32 (y : f32) : f32 :=
  let v := tw_poly32 y in
  let res := if flt y (lit32 (-3)) then lit32 0 else v in
  if flt (lit32 3) y then lit32 1 else res.

(** quenching_kernels.py:123-128 [_jax_partial_u_tw_kern] *)
Definition jax_partial_u_tw_kern32 (x m h f1 f2 : f32) : f32 :=
  let y := fdiv (fsub x m) h in
  let z := fmul f1 (jax_tw32 (fadd y (lit32 3))) in
  let t := jax_tw32 (fsub y (lit32 3)) in
  let w := if fusing st then ffma (fopp f2) t f1 else fsub f1 (fmul f2 t) in
  if flt y (lit32 0) then z else w.

(** 77-112 [_quenching_kern] *)
Definition quenching_kern32 (lgt lg_qt lg_q_dt q_drop q_rejuv : f32) : f32 :=
  let lg_q_dt_by_12 := over lg_q_dt (lit32 12) in
  let f2 := fsub q_drop q_rejuv in
  pow10 (jax_partial_u_tw_kern32 lgt lg_qt lg_q_dt_by_12 q_drop f2).

(** diffndhist.py:9-20 [_tw_cuml_lax_kern], diffstar/utils.py:111-147 [tw_cuml_jax_kern] *)
Definition tw_cuml_kern32 (x m h : f32) : f32 := jax_tw32 (fdiv (fsub x m) h).

(** diffndhist.py:23-33 [_tw_bin_weight_lax_kern] *)
Definition tw_bin_weight_kern32 (x sig lo hi : f32) : f32 :=
  fsub (tw_cuml_kern32 x lo sig) (tw_cuml_kern32 x hi sig).

(** diffstar/utils.py:150-171 [tw_bin_jax_kern] *)
Definition tw_bin_jax_kern32 (m h L H : f32) : f32 :=
  fsub (tw_cuml_kern32 H m h) (tw_cuml_kern32 L m h).
End FloatTw.
