(** Value domain of the model: real numbers extended with the non-finite values
    of IEEE arithmetic.

    Simplifications with respect to IEEE floats (see DESIGN.md):
    - finite arithmetic is exact: no rounding, overflow or underflow;
    - zero is unsigned: [a / 0] is [PInf] for [a > 0], [NInf] for [a < 0]. *)
From Coq Require Import Reals List Bool.
Open Scope R_scope.

Inductive xr : Type := Fin (r : R) | PInf | NInf | NaN.

(** Boolean comparisons on reals. *)
Definition Rltb (a b : R) : bool := if Rlt_dec a b then true else false.
Definition Rleb (a b : R) : bool := if Rle_dec a b then true else false.
Definition Reqb (a b : R) : bool := if Req_EM_T a b then true else false.

(** The infinity (or NaN) carrying the sign of a real factor. *)
Definition signed_inf (a : R) : xr :=
  if Rlt_dec 0 a then PInf else if Rlt_dec a 0 then NInf else NaN.

Definition xopp (x : xr) : xr :=
  match x with Fin a => Fin (- a) | PInf => NInf | NInf => PInf | NaN => NaN end.

Definition xadd (x y : xr) : xr :=
  match x, y with
  | Fin a, Fin b => Fin (a + b)
  | NaN, _ | _, NaN => NaN
  | PInf, NInf | NInf, PInf => NaN
  | PInf, _ | _, PInf => PInf
  | NInf, _ | _, NInf => NInf
  end.

Definition xsub (x y : xr) : xr := xadd x (xopp y).

Definition xmul (x y : xr) : xr :=
  match x, y with
  | Fin a, Fin b => Fin (a * b)
  | NaN, _ | _, NaN => NaN
  | PInf, PInf | NInf, NInf => PInf
  | PInf, NInf | NInf, PInf => NInf
  | PInf, Fin a | Fin a, PInf => signed_inf a
  | NInf, Fin a | Fin a, NInf => signed_inf (- a)
  end.

Definition xdiv (x y : xr) : xr :=
  match x, y with
  | Fin a, Fin b => if Req_EM_T b 0 then signed_inf a else Fin (a / b)
  | NaN, _ | _, NaN => NaN
  | Fin _, PInf | Fin _, NInf => Fin 0
  | PInf, Fin b => if Rlt_dec b 0 then NInf else PInf
  | NInf, Fin b => if Rlt_dec b 0 then PInf else NInf
  | _, _ => NaN
  end.

Definition xabs (x : xr) : xr :=
  match x with Fin a => Fin (Rabs a) | NaN => NaN | _ => PInf end.

(** [x ** n] for a literal non-negative integer exponent. *)
Fixpoint xpown (x : xr) (n : nat) : xr :=
  match n with O => Fin 1 | S m => xmul x (xpown x m) end.

Definition xexp (x : xr) : xr :=
  match x with Fin a => Fin (exp a) | PInf => PInf | NInf => Fin 0 | NaN => NaN end.

Definition xlog (x : xr) : xr :=
  match x with
  | Fin a => if Rlt_dec 0 a then Fin (ln a) else if Req_EM_T a 0 then NInf else NaN
  | PInf => PInf
  | _ => NaN
  end.

Definition log10R (a : R) : R := ln a / ln 10.
Definition pow10R (a : R) : R := exp (a * ln 10).

Definition xlog10 (x : xr) : xr :=
  match x with
  | Fin a => if Rlt_dec 0 a then Fin (log10R a) else if Req_EM_T a 0 then NInf else NaN
  | PInf => PInf
  | _ => NaN
  end.

(** [10 ** x] *)
Definition xpow10 (x : xr) : xr :=
  match x with Fin a => Fin (pow10R a) | PInf => PInf | NInf => Fin 0 | NaN => NaN end.

Definition xsqrt (x : xr) : xr :=
  match x with
  | Fin a => if Rlt_dec a 0 then NaN else Fin (sqrt a)
  | PInf => PInf
  | _ => NaN
  end.

(** jax.nn.sigmoid *)
Definition logisticR (a : R) : R := / (1 + exp (- a)).
Definition xlogistic (x : xr) : xr :=
  match x with Fin a => Fin (logisticR a) | PInf => Fin 1 | NInf => Fin 0 | NaN => NaN end.

(** Comparisons: every comparison involving NaN is false. *)
Definition xlt (x y : xr) : bool :=
  match x, y with
  | Fin a, Fin b => Rltb a b
  | NaN, _ | _, NaN => false
  | NInf, NInf => false
  | NInf, _ => true
  | Fin _, PInf => true
  | _, _ => false
  end.
Definition xgt (x y : xr) : bool := xlt y x.
Definition xeq (x y : xr) : bool :=
  match x, y with
  | Fin a, Fin b => Reqb a b
  | PInf, PInf | NInf, NInf => true
  | _, _ => false
  end.
Definition xle (x y : xr) : bool := xlt x y || xeq x y.
Definition xge (x y : xr) : bool := xle y x.

Definition isnan (x : xr) : bool := match x with NaN => true | _ => false end.
Definition isfinite (x : xr) : bool := match x with Fin _ => true | _ => false end.

(** jnp.maximum / jnp.minimum: NaN propagates. *)
Definition xmax (x y : xr) : xr :=
  if isnan x || isnan y then NaN else if xlt x y then y else x.
Definition xmin (x y : xr) : xr :=
  if isnan x || isnan y then NaN else if xlt y x then y else x.

(** jnp.sum over a list. *)
Definition xsum (l : list xr) : xr := fold_right xadd (Fin 0) l.

Declare Scope xr_scope.
Delimit Scope xr_scope with X.
Bind Scope xr_scope with xr.
Infix "+" := xadd : xr_scope.
Infix "-" := xsub : xr_scope.
Infix "*" := xmul : xr_scope.
Infix "/" := xdiv : xr_scope.
Infix "^" := xpown : xr_scope.
Notation "- x" := (xopp x) : xr_scope.
Infix "<?" := xlt : xr_scope.
Infix "<=?" := xle : xr_scope.

(** Literal constants. *)
Definition Z2X (z : Z) : xr := Fin (IZR z).
