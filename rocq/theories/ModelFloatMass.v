(** Binary32 model of the stellar mass integral, diffstar/utils.py:204-275.  Arithmetic as in
    ModelFloat.v; [fused] chooses whether halving and adding are one operation.  Dividing by 2
    and multiplying by 1/2 give the same number, so the two are not distinguished. *)
From Coq Require Import List Bool String QArith ZArith.
From Flocq Require Import Core.Core IEEE754.BinarySingleNaN.
From Verif Require Import ModelFloat.
Import ListNotations.

Section FloatMass.
Variable fused : bool.

(** 205-211 [_cumtrapz_scan_func]: the accumulated value *)
Definition cumtrapz_step32 (a fa c b fb : f32) : f32 :=
  let area := fmul (fsub b a) (fadd fb fa) in
  if fused then ffma area (lit32 (1 # 2)) c else fadd c (fdiv area (lit32 2)).

Fixpoint cumtrapz_scan32 (a fa c : f32) (l : list (f32 * f32)) : list f32 :=
  match l with
  | [] => []
  | (b, fb) :: l => let c' := cumtrapz_step32 a fa c b fb in c' :: cumtrapz_scan32 b fb c' l
  end.

(** 214-232 [cumtrapz]; None when there is no entry ([xarr[0]] of an empty array) *)
Definition cumtrapz32 (xarr yarr : list f32) : option (list f32) :=
  match xarr, yarr with
  | x :: _, y :: _ => Some (cumtrapz_scan32 x y (lit32 0) (combine xarr yarr))
  | _, _ => None
  end.

(** 235-275 [cumulative_mstar_formed] *)
Definition cumulative_mstar_formed32 (t_table sfh_table : list f32) : option (list f32) :=
  if Nat.eqb (List.length t_table) (List.length sfh_table) then
    match cumtrapz32 (lit32 (1 # 1000) :: t_table) (lit32 (1 # 100000000000000) :: sfh_table) with
    | Some c => Some (map (fun m => fmul m (lit32 1000000000)) (tl c))
    | None => None
    end
  else None.
End FloatMass.
