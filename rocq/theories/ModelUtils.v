(** Model of diffstar/utils.py and the constants of diffstar/defaults.py.
    Definitions only.  Line numbers refer to /repo at the pinned commit. *)
From Coq Require Import Reals List Bool ZArith Lia.
From Verif Require Import XReal.
Import ListNotations.
Open Scope R_scope.

(** diffstar/defaults.py:10-19 *)
Definition TODAY : xr := Fin (138 / 10).
Definition LGT0 : xr := xlog10 TODAY.
Definition FB : xr := Fin (156 / 1000).
Definition SFR_MIN_R : R := 1 / 10 ^ 14.
Definition SFR_MIN : xr := Fin SFR_MIN_R.
Definition T_BIRTH_MIN_R : R := 1 / 1000.
Definition T_BIRTH_MIN : xr := Fin T_BIRTH_MIN_R.
(** diffstar/utils.py:12 *)
Definition YEAR_PER_GYR : xr := Fin (10 ^ 9).

(** ** Array helpers (NumPy / JAX semantics) *)

(** [l[i]] for an index known to be in range; out of range poisons with NaN. *)
Definition at_ (l : list xr) (i : nat) : xr := nth i l NaN.
(** [a[:-1]], [a[1:]] *)
Definition init_ {A} (l : list A) : list A := removelast l.
Definition tail_ {A} (l : list A) : list A := tl l.
Definition last_ (l : list xr) : xr := last l NaN.

Fixpoint map2 {A B C} (f : A -> B -> C) (l : list A) (m : list B) : list C :=
  match l, m with
  | a :: l', b :: m' => f a b :: map2 f l' m'
  | _, _ => []
  end.

(** jnp.diff *)
Definition diff_ (l : list xr) : list xr := map2 xsub (tail_ l) (init_ l).

(** [l.at[i].set(v)] *)
Fixpoint upd {A} (l : list A) (i : nat) (v : A) : list A :=
  match l, i with
  | [], _ => []
  | _ :: l', O => v :: l'
  | a :: l', S j => a :: upd l' j v
  end.

(** [l.at[i:i+len(vs)].set(vs)] *)
Fixpoint upd_slice {A} (l : list A) (i : nat) (vs : list A) : list A :=
  match vs with
  | [] => l
  | v :: vs' => upd_slice (upd l i v) (S i) vs'
  end.

Definition zeros (n : nat) : list xr := repeat (Fin 0) n.

(** ** diffstar/utils.py:15-28 [_jax_get_dt_array].
    Lengths below 3 index an empty array ([dtmids[-1]]); that is left
    unspecified by JAX and returned as [None] here. *)
Definition jax_get_dt_array (t : list xr) : option (list xr) :=
  let n := length t in
  if (n <? 3)%nat then None else
  let dt := zeros n in
  let tmids := map2 (fun a b => Fin (1 / 2) * (a + b))%X (init_ t) (tail_ t) in
  let dtmids := diff_ tmids in
  let dt := upd_slice dt 1 dtmids in
  let t_lo := (at_ t 0 - (at_ t 1 - at_ t 0) / Fin 2)%X in
  let t_hi := (last_ t + last_ dtmids / Fin 2)%X in
  let dt := upd dt 0 (at_ tmids 0 - t_lo)%X in
  let dt := upd dt (n - 1) (t_hi - last_ tmids)%X in
  Some dt.

(** ** diffstar/utils.py:31-55 [_get_dt_array].
    [t[1]] raises IndexError for fewer than two entries.  The loop carries
    [(dt, tlo)]. *)
Definition get_dt_loop (t : list xr) (st : list xr * xr) (i : nat) : list xr * xr :=
  let '(dt, tlo) := st in
  let thi := ((at_ t (i + 1) + at_ t i) / Fin 2)%X in
  (upd dt i (thi - tlo)%X, thi).

Definition get_dt_array (t : list xr) : option (list xr) :=
  let n := length t in
  if (n <? 2)%nat then None else
  let dt := zeros n in
  let tlo := (at_ t 0 - (at_ t 1 - at_ t 0) / Fin 2)%X in
  let '(dt, tlo) := fold_left (get_dt_loop t) (seq 0 (n - 1)) (dt, tlo) in
  let thi := (at_ t (n - 1) + at_ dt (n - 2) / Fin 2)%X in
  Some (upd dt (n - 1) (thi - tlo)%X).

(** ** diffstar/utils.py:58-69 [get_1d_arrays].
    An argument is a scalar or a one-dimensional array. [max([])] raises. *)
Inductive scalar_or_array := Scalar (x : xr) | Array (l : list xr).

Definition atleast_1d (a : scalar_or_array) : list xr :=
  match a with Scalar x => [x] | Array l => l end.

(** [np.zeros(npts) + arr] with NumPy broadcasting of a length-one array. *)
Definition broadcast_add_zeros (npts : nat) (arr : list xr) : list xr :=
  match arr with
  | [x] => map (fun z => z + x)%X (zeros npts)
  | _ => map2 xadd (zeros npts) arr
  end.

Definition get_1d_arrays (args : list scalar_or_array) : option (list (list xr)) :=
  let results := map atleast_1d args in
  let sizes := map (@length xr) results in
  match sizes with
  | [] => None
  | _ =>
    let npts := list_max sizes in
    if forallb (fun s => (s =? 1)%nat || (s =? npts)%nat) sizes
    then Some (map (broadcast_add_zeros npts) results)
    else None
  end.

(** ** diffstar/utils.py:72-95 [_sigmoid] *)
Definition sigmoid (x x0 k ymin ymax : xr) : xr :=
  let height_diff := (ymax - ymin)%X in
  (ymin + height_diff * xlogistic (k * (x - x0)))%X.

(** ** diffstar/utils.py:98-101 [_inverse_sigmoid] *)
Definition inverse_sigmoid (y x0 k ymin ymax : xr) : xr :=
  let lnarg := ((ymax - ymin) / (y - ymin) - Fin 1)%X in
  (x0 - xlog lnarg / k)%X.

(** ** diffstar/utils.py:104-108 [sigmoid_poly] *)
Definition sigmoid_poly (x x0 k ymin ymax : xr) : xr :=
  let arg := (k * (x - x0))%X in
  let body := (Fin (1 / 2) * arg / xsqrt (Fin 1 + arg ^ 2) + Fin (1 / 2))%X in
  (ymin + (ymax - ymin) * body)%X.

(** ** diffstar/utils.py:137-143: the triweight polynomial
    (the same text occurs in quenching_kernels.py:117 and
    diffstarpop/utils.py:86-95). *)
Definition tw_poly (y : xr) : xr :=
  (Fin (-5) * y ^ 7 / Fin 69984 + Fin 7 * y ^ 5 / Fin 2592
   - Fin 35 * y ^ 3 / Fin 864 + Fin 35 * y / Fin 96 + Fin (1 / 2))%X.

(** ** diffstar/utils.py:111-147 [tw_cuml_jax_kern]; lax.cond nests. *)
Definition tw_cuml_jax_kern (x m h : xr) : xr :=
  let y := ((x - m) / h)%X in
  if (y <? Fin (-3))%X then Fin 0
  else if (Fin 3 <? y)%X then Fin 1
  else tw_poly y.

(** ** diffstar/utils.py:150-171 [tw_bin_jax_kern] *)
Definition tw_bin_jax_kern (m h L H : xr) : xr :=
  (tw_cuml_jax_kern H m h - tw_cuml_jax_kern L m h)%X.

(** JAX integer indexing on retrieval: negative indices wrap once, then the
    index is clamped into the array.  Empty arrays poison with NaN. *)
Definition jnp_index (l : list xr) (i : Z) : xr :=
  let n := Z.of_nat (length l) in
  let j := if (i <? 0)%Z then (i + n)%Z else i in
  let j := Z.max 0 (Z.min j (n - 1)) in
  nth (Z.to_nat j) l NaN.

(** ** diffstar/utils.py:174-203 [jax_np_interp], for one query point *)
Definition jax_np_interp1 (x : xr) (xt yt : list xr) (indx_hi : Z) : xr :=
  let indx_lo := (indx_hi - 1)%Z in
  let xt_lo := jnp_index xt indx_lo in
  let xt_hi := jnp_index xt indx_hi in
  let dx_tot := (xt_hi - xt_lo)%X in
  let yt_lo := jnp_index yt indx_lo in
  let yt_hi := jnp_index yt indx_hi in
  let dy_tot := (yt_hi - yt_lo)%X in
  let m := (dy_tot / dx_tot)%X in
  (yt_lo + m * (x - xt_lo))%X.

Definition jax_np_interp (x xt yt : list xr) (indx_hi : list Z) : list xr :=
  map2 (fun x i => jax_np_interp1 x xt yt i) x indx_hi.

(** np.searchsorted (side="left" / side="right") on a sorted table: the number of
    leading entries [< x] / [<= x]. *)
Fixpoint searchsorted_left (xt : list xr) (x : xr) : nat :=
  match xt with
  | [] => O
  | a :: rest => if (a <? x)%X then S (searchsorted_left rest x) else O
  end.
Fixpoint searchsorted_right (xt : list xr) (x : xr) : nat :=
  match xt with
  | [] => O
  | a :: rest => if (a <=? x)%X then S (searchsorted_right rest x) else O
  end.

(** ** diffstar/utils.py:206-213 [_cumtrapz_scan_func] *)
Definition cumtrapz_scan_func (carry : xr * xr * xr) (el : xr * xr)
  : (xr * xr * xr) * xr :=
  let '(b, fb) := el in
  let '(a, fa, c) := carry in
  let c := (c + (b - a) * (fb + fa) / Fin 2)%X in
  ((b, fb, c), c).

(** lax.scan: the list of per-step outputs. *)
Fixpoint scan_out {S E O} (f : S -> E -> S * O) (s : S) (l : list E) : list O :=
  match l with
  | [] => []
  | e :: l' => let '(s', o) := f s e in o :: scan_out f s' l'
  end.

(** ** diffstar/utils.py:216-234 [cumtrapz]; [None] for empty or unequal lengths. *)
Definition cumtrapz (xarr yarr : list xr) : option (list xr) :=
  if negb (length xarr =? length yarr)%nat then None else
  match xarr, yarr with
  | x0 :: _, y0 :: _ =>
      Some (scan_out cumtrapz_scan_func (x0, y0, Fin 0) (combine xarr yarr))
  | _, _ => None
  end.

(** ** diffstar/utils.py:237-275 [cumulative_mstar_formed].
    [.at[1:].set] of an array of another length raises ([None]); NumPy
    broadcasting of a length-one [sfh_table] is not modelled. *)
Definition cumulative_mstar_formed (t_table sfh_table : list xr) : option (list xr) :=
  if negb (length t_table =? length sfh_table)%nat then None else
  let n_t := length t_table in
  let padded_t := zeros (n_t + 1) in
  let padded_t := upd padded_t 0 T_BIRTH_MIN in
  let padded_t := upd_slice padded_t 1 t_table in
  let padded_s := zeros (n_t + 1) in
  let padded_s := upd padded_s 0 SFR_MIN in
  let padded_s := upd_slice padded_s 1 sfh_table in
  match cumtrapz padded_t padded_s with
  | Some c => Some (map (fun m => m * YEAR_PER_GYR)%X (tail_ c))
  | None => None
  end.

(** Sequencing a list of computations that may fail. *)
Fixpoint sequence {A} (l : list (option A)) : option (list A) :=
  match l with
  | [] => Some []
  | None :: _ => None
  | Some a :: l' => match sequence l' with Some r => Some (a :: r) | None => None end
  end.
(** [vmap] over axis 0 of a function that may fail. *)
Definition vmap {A B} (f : A -> option B) (l : list A) : option (list B) :=
  sequence (map f l).

(** ** diffstar/utils.py:281-307 [cumulative_mstar_formed_galpop]
    = vmap(cumulative_mstar_formed, in_axes=(None, 0)) (line 278) *)
Definition cumulative_mstar_formed_galpop (t_table : list xr) (sfh_table : list (list xr))
  : option (list (list xr)) :=
  vmap (cumulative_mstar_formed t_table) sfh_table.

(** jnp.interp(x, xp, fp): bracket found with searchsorted(side="right"), clipped
    to [1, n-1]; outside the table the end values are returned.  JAX treats
    |dx| <= spacing(eps) as a repeated knot; here only dx = 0 is. *)
Definition jnp_interp (x : xr) (xp fp : list xr) : xr :=
  let n := length xp in
  let i := Nat.min (Nat.max 1 (searchsorted_right xp x)) (n - 1) in
  let df := (at_ fp i - at_ fp (i - 1))%X in
  let dx := (at_ xp i - at_ xp (i - 1))%X in
  let delta := (x - at_ xp (i - 1))%X in
  let f := if xeq dx (Fin 0) then at_ fp (i - 1)
           else (at_ fp (i - 1) + (delta / dx) * df)%X in
  let f := if (x <? at_ xp 0)%X then at_ fp 0 else f in
  if (at_ xp (n - 1) <? x)%X then at_ fp (n - 1) else f.

(** ** diffstar/utils.py:310-342 [compute_fstar] *)
Definition compute_fstar (tarr mstar : list xr) (fstar_tdelay : xr) : list xr :=
  let mstar_low := map (fun t => jnp_interp (t - fstar_tdelay)%X tarr mstar) tarr in
  let fstar := map2 (fun m lo => (m - lo) / fstar_tdelay / Fin (10 ^ 9))%X mstar mstar_low in
  map (fun f => if (Fin 0 <? f)%X then f else Fin 0) fstar.
