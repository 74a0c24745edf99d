(** Model of the gradients JAX computes for the fit loss:
    diffstar/fitting_helpers/diffstar_fitting_helpers.py:238-242 [loss_grad_default_clipssfrh]
    (jax.grad of [loss_default_clipssfrh], lines 187-235) and its NumPy wrapper.

    A number carries its derivatives with respect to the eight parameters, and every operation of the
    program applies JAX's derivative rule for that operation.  Reverse mode accumulates the same products
    in another order, which does not matter in exact arithmetic as long as all of them are finite.  Where JAX
    would multiply a branch that was not taken by zero, so does the model: an infinite derivative there gives
    NaN.  When the loss itself is NaN the model makes every derivative NaN, while reverse mode may return zeros
    for parameters reached only through branches not taken: the model is not meant for that case. *)
From Coq Require Import Reals List Bool ZArith.
From Verif Require Import XReal ModelUtils ModelKernels ModelSfh ModelHist ModelFit.
Import ListNotations.
Open Scope R_scope.

Definition dual : Type := xr * (nat -> xr).
Definition dc (c : xr) : dual := (c, fun _ => Fin 0).
(** parameter number [k] *)
Definition dvar (k : nat) (x : xr) : dual := (x, fun i => if Nat.eqb i k then Fin 1 else Fin 0).

Definition dadd (x y : dual) : dual := (fst x + fst y, fun i => snd x i + snd y i)%X.
Definition dsub (x y : dual) : dual := (fst x - fst y, fun i => snd x i - snd y i)%X.
Definition dmul (x y : dual) : dual := (fst x * fst y, fun i => snd x i * fst y + fst x * snd y i)%X.
(** lax.div: g / y, and (-g * x) * y**-2 *)
Definition ddiv (x y : dual) : dual :=
  (fst x / fst y, fun i => snd x i / fst y + (- snd y i * fst x) * (Fin 1 / (fst y * fst y)))%X.
(** lax.integer_pow: g * (n * x**(n-1)) *)
Definition dpown (x : dual) (n : nat) : dual :=
  (fst x ^ n, fun i => snd x i * (Fin (INR n) * fst x ^ (n - 1)))%X.
(** 10 ** x: g * (log(10) * ans) *)
Definition dpow10 (x : dual) : dual := (xpow10 (fst x), fun i => snd x i * (xlog (Fin 10) * xpow10 (fst x)))%X.
(** jnp.log10 is log(x) / log(10) *)
Definition dlog10 (x : dual) : dual := (xlog10 (fst x), fun i => snd x i / fst x / xlog (Fin 10))%X.
(** lax.logistic: g * ans * (1 - ans) *)
Definition dlogistic (x : dual) : dual :=
  (xlogistic (fst x), fun i => snd x i * (xlogistic (fst x) * (Fin 1 - xlogistic (fst x))))%X.
(** jnp.where *)
Definition dwhere (c : bool) (x y : dual) : dual :=
  (if c then fst x else fst y, fun i => if c then snd x i + Fin 0 * snd y i else Fin 0 * snd x i + snd y i)%X.
(** lax.max and lax.min: ties share the derivative *)
Definition dmax (x y : dual) : dual :=
  (xmax (fst x) (fst y), fun i =>
     if xlt (fst y) (fst x) then snd x i + Fin 0 * snd y i
     else if xlt (fst x) (fst y) then Fin 0 * snd x i + snd y i
     else Fin (1 / 2) * snd x i + Fin (1 / 2) * snd y i)%X.
Definition dmin (x y : dual) : dual :=
  (xmin (fst x) (fst y), fun i =>
     if xlt (fst x) (fst y) then snd x i + Fin 0 * snd y i
     else if xlt (fst y) (fst x) then Fin 0 * snd x i + snd y i
     else Fin (1 / 2) * snd x i + Fin (1 / 2) * snd y i)%X.
Definition dclip (x lo hi : dual) : dual := dmin (dmax x lo) hi.
Definition dsum (l : list dual) : dual := fold_right dadd (dc (Fin 0)) l.
Definition dmean (l : list dual) : dual := ddiv (dsum l) (dc (Fin (INR (length l)))).
Definition dat (l : list dual) (i : nat) : dual := nth i l (dc NaN).

(** ** diffstar/utils.py *)
(** 72-95 [_sigmoid] *)
Definition dsigmoid (x x0 k ymin ymax : dual) : dual :=
  let height_diff := dsub ymax ymin in
  dadd ymin (dmul height_diff (dlogistic (dmul k (dsub x x0)))).

(** 206-234 [cumtrapz]: [t] is constant *)
Definition dcumtrapz_step (carry : xr * dual * dual) (el : xr * dual) : (xr * dual * dual) * dual :=
  let '(b, fb) := el in
  let '(a, fa, c) := carry in
  let c := dadd c (ddiv (dmul (dc (b - a)%X) (dadd fb fa)) (dc (Fin 2))) in
  ((b, fb, c), c).

(** 237-275 [cumulative_mstar_formed] *)
Definition dcumulative_mstar_formed (t_table : list xr) (sfh_table : list dual) : option (list dual) :=
  if negb (length t_table =? length sfh_table)%nat then None else
  let l := combine (T_BIRTH_MIN :: t_table) (dc SFR_MIN :: sfh_table) in
  let c := scan_out dcumtrapz_step (T_BIRTH_MIN, dc SFR_MIN, dc (Fin 0)) l in
  Some (map (fun m => dmul m (dc YEAR_PER_GYR)) (tail_ c)).

(** jnp.interp in its last argument; a zero [dx] is replaced by 1 before dividing *)
Definition djnp_interp (x : xr) (xp : list xr) (fp : list dual) : dual :=
  let n := length xp in
  let i := Nat.min (Nat.max 1 (searchsorted_right xp x)) (n - 1) in
  let df := dsub (dat fp i) (dat fp (i - 1)) in
  let dx := (at_ xp i - at_ xp (i - 1))%X in
  let delta := (x - at_ xp (i - 1))%X in
  let dx0 := xeq dx (Fin 0) in
  let f := dwhere dx0 (dat fp (i - 1))
             (dadd (dat fp (i - 1)) (dmul (dc (delta / (if dx0 then Fin 1 else dx))%X) df)) in
  let f := dwhere (x <? at_ xp 0)%X (dat fp 0) f in
  dwhere (at_ xp (n - 1) <? x)%X (dat fp (n - 1)) f.

(** 310-342 [compute_fstar] *)
Definition dcompute_fstar (tarr : list xr) (mstar : list dual) (fstar_tdelay : xr) : list dual :=
  let mstar_low := map (fun t => djnp_interp (t - fstar_tdelay)%X tarr mstar) tarr in
  let fstar := map2 (fun m lo => ddiv (ddiv (dsub m lo) (dc fstar_tdelay)) (dc (Fin (10 ^ 9)))) mstar mstar_low in
  map (fun f => dwhere (Fin 0 <? fst f)%X f (dc (Fin 0))) fstar.

(** ** kernels *)
(** quenching_kernels.py:115-120 [_jax_tw] *)
Definition djax_tw (y : dual) : dual :=
  let k c n d := ddiv (dmul (dc (Fin c)) (dpown y n)) (dc (Fin d)) in
  let v := dadd (dadd (dsub (dadd (k (-5) 7%nat 69984) (k 7 5%nat 2592)) (k 35 3%nat 864))
                  (ddiv (dmul (dc (Fin 35)) y) (dc (Fin 96)))) (dc (Fin (1 / 2))) in
  let res := dwhere (fst y <? Fin (-3))%X (dc (Fin 0)) v in
  dwhere (Fin 3 <? fst y)%X (dc (Fin 1)) res.

(** 123-128 [_jax_partial_u_tw_kern] *)
Definition djax_partial_u_tw_kern (x : xr) (m h f1 f2 : dual) : dual :=
  let y := ddiv (dsub (dc x) m) h in
  let z := dmul f1 (djax_tw (dadd y (dc (Fin 3)))) in
  let w := dsub f1 (dmul f2 (djax_tw (dsub y (dc (Fin 3))))) in
  dwhere (fst y <? Fin 0)%X z w.

(** 77-112 [_quenching_kern] *)
Definition dquenching_kern (lgt : xr) (lg_qt lg_q_dt q_drop q_rejuv : dual) : dual :=
  let lg_q_dt_by_12 := ddiv lg_q_dt (dc (Fin 12)) in
  let f2 := dsub q_drop q_rejuv in
  dpow10 (djax_partial_u_tw_kern lgt lg_qt lg_q_dt_by_12 q_drop f2).

(** [_sigmoid(u, *bounds)] *)
Definition dsigmoid_b (u : dual) (b : xr * xr * xr * xr) : dual :=
  let '(x0, k, lo, hi) := b in dsigmoid u (dc x0) (dc k) (dc lo) (dc hi).

(** 131-160 [_get_bounded_q_params], [_get_bounded_lg_rejuv] *)
Definition dget_bounded_q_params (u : QParams dual) : QParams dual :=
  let lg_drop_ := dsigmoid_b (lg_drop u) (lg_drop Q_SIG) in
  let '(x0, k, _, hi) := lg_rejuv Q_SIG in
  mkQ (dsigmoid_b (lg_qt u) (lg_qt Q_SIG)) (dsigmoid_b (qlglgdt u) (qlglgdt Q_SIG)) lg_drop_
      (dsigmoid (lg_rejuv u) (dc x0) (dc k) lg_drop_ (dc hi)).

(** main_sequence_kernels.py:47-51 [_sfr_eff_plaw], 66-83 [_get_bounded_sfr_params] *)
Definition dsfr_eff_plaw (lgm : xr) (p : MSParams dual) : dual :=
  let slope := dsigmoid (dc lgm) (lgmcrit p) (dc INDX_K) (indx_lo p) (indx_hi p) in
  dadd (lgy_at_mcrit p) (dmul slope (dsub (dc lgm) (lgmcrit p))).
Definition dget_bounded_sfr_params (u : MSParams dual) : MSParams dual :=
  mkMS (dsigmoid_b (lgmcrit u) (lgmcrit MS_SIG)) (dsigmoid_b (lgy_at_mcrit u) (lgy_at_mcrit MS_SIG))
       (dsigmoid_b (indx_lo u) (indx_lo MS_SIG)) (dsigmoid_b (indx_hi u) (indx_hi MS_SIG)).
(** defaults.py:54-76 *)
Definition dget_bounded_diffstar_params (u : DiffstarParams dual) : DiffstarParams dual :=
  join_params (dget_bounded_sfr_params (slice_ms u)) (dget_bounded_q_params (slice_q u)).

Section Grad.
(** diffmah._log_mah_kern: does not depend on the parameters differentiated *)
Variable log_mah_kern : MahParams xr -> xr -> xr -> xr.

(** main_sequence_kernels.py:54-59, history_kernel_builders.py:14-28 *)
Definition dsfh_singlegal_scalar (tform : xr) (mah : MahParams xr) (ms : MSParams dual) (q : QParams dual)
    (logt0 fb : xr) : dual :=
  let lgt_form := xlog10 tform in
  let log_mah := log_mah_kern mah tform logt0 in
  let Mgash := (fb * xpow10 log_mah)%X in
  let sfr_ms := dmul (dc Mgash) (dpow10 (dsfr_eff_plaw log_mah ms)) in
  let qfunc := dquenching_kern lgt_form (lg_qt q) (dpow10 (qlglgdt q)) (lg_drop q) (lg_rejuv q) in
  let sfr := dmul qfunc sfr_ms in
  dwhere (fst sfr <? SFR_MIN)%X (dc SFR_MIN) sfr.

(** 187-235 [loss_default_clipssfrh] with derivatives *)
Definition dloss_default_clipssfrh (u_params : list dual) (d : LossData) : option dual :=
  match d_make u_params with
  | None => None
  | Some sfh_u_params =>
    let sfh_params := dget_bounded_diffstar_params sfh_u_params in
    let sfh_table := map (fun t => dsfh_singlegal_scalar t (ld_mah d) (slice_ms sfh_params) (slice_q sfh_params)
                                     (ld_lgt0 d) (ld_fb d)) (ld_t d) in
    match dcumulative_mstar_formed (ld_t d) sfh_table with
    | None => None
    | Some mstar_table =>
      let fstar := dcompute_fstar (ld_t d) mstar_table (ld_tdelay d) in
      let lo := map (fun m => dmul m (dc (ld_floor d / Fin 10)%X)) mstar_table in
      let fstar := map2 (fun f l => dclip f l (dc PInf)) fstar lo in
      let sfh_table := map2 (fun s l => dclip s l (dc PInf)) sfh_table lo in
      let log_fstar := map dlog10 fstar in
      let logsm_table := map dlog10 mstar_table in
      let minus l m := map2 (fun a b => dsub a (dc b)) l m in
      let over l m := map2 (fun a b => ddiv a (dc b)) l m in
      let sfr_res := over (map (dmul (dc (Fin (10 ^ 8)))) (minus sfh_table (ld_sfh d))) (ld_mstar d) in
      let sfr_res := map (fun r => dclip r (dc (Fin (-1))) (dc (Fin 1))) sfr_res in
      let sq l := map (fun x => dpown x 2) l in
      let res_fstar := minus log_fstar (ld_logfstar d) in
      let loss := dmul (dc (Fin 30)) (dmean (sq (over (minus logsm_table (ld_logmstar d)) (ld_w d)))) in
      let loss := dadd loss (dmean (sq (over res_fstar (ld_wf d)))) in
      let loss := dadd loss (dmean (sq (over sfr_res (ld_w d)))) in
      let loss := dadd loss (dmul (dc (Fin (1 / 2))) (dpown (last res_fstar (dc NaN)) 2)) in
      let loss := dadd loss (dsigmoid (dsub (d_lg_qt sfh_params) (dc (ld_lgtmax d)))
                              (dc (Fin 0)) (dc (Fin 50)) (dc (Fin 100)) (dc (Fin 0))) in
      Some loss
    end
  end.

(** 238-242 [loss_grad_default_clipssfrh] and [loss_grad_default_clipssfrh_np] *)
Definition loss_grad_default_clipssfrh (u_params : list xr) (d : LossData) : option (list xr) :=
  match dloss_default_clipssfrh (map2 dvar (seq 0 (length u_params)) u_params) d with
  | Some l => Some (map (snd l) (seq 0 (length u_params)))
  | None => None
  end.
End Grad.
