(** Properties of the array utilities: C22-C27. *)
From Coq Require Import Reals Lra Lia List.
From Coquelicot Require Import Coquelicot.
From Verif Require Import XReal ModelUtils ModelKernels ModelSfh SpecCore IntegralProofs DtProofs FstarProofs.
Import List ListNotations.
Open Scope R_scope.

(** C22 *)
Theorem C22_dt_arrays_agree : forall t, (3 <= length t)%nat -> exists d,
  jax_get_dt_array (map Fin t) = Some (map Fin d) /\ get_dt_array (map Fin t) = Some (map Fin d) /\
  length d = length t /\
  (forall i, (i < length t)%nat -> nth i d 0 = dt_edge t (S i) - dt_edge t i) /\
  fold_right Rplus 0 d = dt_edge t (length t) - dt_edge t 0 /\
  (increasing t -> Forall (fun x => 0 < x) d).
Proof. exact dt_arrays. Qed.
Print Assumptions C22_dt_arrays_agree.

Theorem C22_np_dt_array : forall t, (2 <= length t)%nat -> exists d,
  get_dt_array (map Fin t) = Some (map Fin d) /\ length d = length t /\
  (forall i, (i < length t)%nat -> nth i d 0 = dt_edge t (S i) - dt_edge t i) /\
  fold_right Rplus 0 d = dt_edge t (length t) - dt_edge t 0 /\
  (increasing t -> Forall (fun x => 0 < x) d).
Proof. exact np_dt_arrays. Qed.
Print Assumptions C22_np_dt_array.

Theorem C22_np_dt_array_short : forall t, (length t < 2)%nat -> get_dt_array t = None.
Proof. exact np_dt_short. Qed.
Print Assumptions C22_np_dt_array_short.

Example C22_hyp : (3 <= length [1; 2; 4])%nat /\ increasing [1; 2; 4].
Proof. simpl. split; [lia|lra]. Qed.

(** C23 *)
Theorem C23_fstar_bounds : forall ts ss tau, length ts = length ss -> increasing ts -> 0 < tau ->
  Forall (fun s => 0 <= s) ss ->
  exists mass f, cumulative_mstar_formed (map Fin ts) (map Fin ss) = Some (map Fin mass) /\
    compute_fstar (map Fin ts) (map Fin mass) (Fin tau) = map Fin f /\ length f = length ts /\
    Forall (fun x => 0 <= x <= list_Rmax 0 ss) f.
Proof. exact fstar_bounds. Qed.
Print Assumptions C23_fstar_bounds.

(** C23: when the averaging window starts on a table time the value is the mean SFR. *)
Theorem C23_fstar_mean : forall ts ss tau i j, length ts = length ss -> increasing (1 / 1000 :: ts) -> 0 < tau ->
  Forall (fun s => 0 <= s) ss -> (i < j)%nat -> (j < length ts)%nat -> nth j ts 0 - tau = nth i ts 0 ->
  exists mass f, cumulative_mstar_formed (map Fin ts) (map Fin ss) = Some (map Fin mass) /\
    compute_fstar (map Fin ts) (map Fin mass) (Fin tau) = f /\
    nth j f NaN = Fin (RInt (pwl ((1 / 1000, 1 / 10 ^ 14) :: combine ts ss)) (nth i ts 0) (nth j ts 0) / tau).
Proof. exact fstar_mean. Qed.
Print Assumptions C23_fstar_mean.

Example C23_hyp : let ts := [1; 2; 4] in let ss := [0; 5; 1] in
  length ts = length ss /\ increasing (1 / 1000 :: ts) /\ Forall (fun s => 0 <= s) ss /\ nth 2 ts 0 - 2 = nth 1 ts 0.
Proof. simpl. repeat split; try lra. repeat constructor; lra. Qed.

(** C24 *)
Theorem C24_first_mass : forall t0 ts s0 ss, length ts = length ss -> exists rest,
  cumulative_mstar_formed (map Fin (t0 :: ts)) (map Fin (s0 :: ss))
  = Some (Fin (10 ^ 9 * ((t0 - 1 / 1000) * (s0 + 1 / 10 ^ 14) / 2)) :: rest).
Proof. exact first_mass. Qed.
Print Assumptions C24_first_mass.

Theorem C24_pretable_sfh_refuted : exists t0 s0 m0, increasing [1 / 1000; t0] /\
  cumulative_mstar_formed [Fin t0] [Fin s0] = Some [Fin m0] /\
  m0 > 10 ^ 9 * ((t0 - 1 / 1000) * (1 / 10 ^ 14)).
Proof. exact pretable_refuted. Qed.
Print Assumptions C24_pretable_sfh_refuted.

(** C25 *)
Theorem C25_interp_inside : forall xt yt x, length xt = length yt -> increasing xt -> (2 <= length xt)%nat ->
  nth 0 xt 0 < x <= nth (length xt - 1) xt 0 ->
  jax_np_interp1 (Fin x) (map Fin xt) (map Fin yt) (Z.of_nat (searchsorted_left (map Fin xt) (Fin x)))
  = Fin (pwl (combine xt yt) x).
Proof. exact np_interp_inside. Qed.
Print Assumptions C25_interp_inside.

Theorem C25_interp_knots : forall xt yt i, length xt = length yt -> increasing xt -> (2 <= length xt)%nat ->
  (i < length xt)%nat ->
  jax_np_interp1 (Fin (nth i xt 0)) (map Fin xt) (map Fin yt)
    (Z.of_nat (searchsorted_left (map Fin xt) (Fin (nth i xt 0)))) = Fin (nth i yt 0).
Proof. exact np_interp_knot. Qed.
Print Assumptions C25_interp_knots.

Theorem C25_interp_outside : forall xt yt x, length xt = length yt -> increasing xt -> (2 <= length xt)%nat ->
  (x < nth 0 xt 0 ->
   jax_np_interp1 (Fin x) (map Fin xt) (map Fin yt) (Z.of_nat (searchsorted_left (map Fin xt) (Fin x)))
   = Fin (nth 0 yt 0 + (nth (length xt - 1) yt 0 - nth 0 yt 0) / (nth (length xt - 1) xt 0 - nth 0 xt 0) * (x - nth 0 xt 0))) /\
  (nth (length xt - 1) xt 0 < x ->
   jax_np_interp1 (Fin x) (map Fin xt) (map Fin yt) (Z.of_nat (searchsorted_left (map Fin xt) (Fin x))) = NaN).
Proof. exact np_interp_outside. Qed.
Print Assumptions C25_interp_outside.

Theorem C25_interp_clamped_refuted : exists xt yt x, length xt = length yt /\ increasing xt /\ x < nth 0 xt 0 /\
  exists v, jax_np_interp1 (Fin x) (map Fin xt) (map Fin yt) (Z.of_nat (searchsorted_left (map Fin xt) (Fin x))) = Fin v /\
  v <> nth 0 yt 0.
Proof. exact np_interp_not_clamped. Qed.
Print Assumptions C25_interp_clamped_refuted.

Example C25_hyp : let xt := [0; 1; 2] in let yt := [0; 1; 4] in
  length xt = length yt /\ increasing xt /\ nth 0 xt 0 < 3 / 2 <= nth (length xt - 1) xt 0.
Proof. simpl. repeat split; lra. Qed.

(** C26 *)
Theorem C26_cumtrapz_shape : forall x0 y0 xs ys, length xs = length ys ->
  exists r, cumtrapz (map Fin (x0 :: xs)) (map Fin (y0 :: ys)) = Some (map Fin (0 :: r)) /\
  length r = length xs /\
  (increasing (x0 :: xs) -> Forall (fun y => 0 <= y) (y0 :: ys) -> nondecreasing (0 :: r)).
Proof. exact cumtrapz_shape. Qed.
Print Assumptions C26_cumtrapz_shape.

Theorem C26_cumtrapz_linear : forall p q x0 xs y0 ys z0 zs r s,
  length xs = length ys -> length xs = length zs ->
  cumtrapz (map Fin (x0 :: xs)) (map Fin (y0 :: ys)) = Some (map Fin r) ->
  cumtrapz (map Fin (x0 :: xs)) (map Fin (z0 :: zs)) = Some (map Fin s) ->
  cumtrapz (map Fin (x0 :: xs)) (map Fin (map2 (fun u v => p * u + q * v) (y0 :: ys) (z0 :: zs)))
  = Some (map Fin (map2 (fun u v => p * u + q * v) r s)).
Proof. exact cumtrapz_linear. Qed.
Print Assumptions C26_cumtrapz_linear.

Theorem C26_cumtrapz_affine : forall m b0 x0 xs,
  cumtrapz (map Fin (x0 :: xs)) (map Fin (map (fun x => m * x + b0) (x0 :: xs)))
  = Some (map Fin (map (fun x => (m * x * x / 2 + b0 * x) - (m * x0 * x0 / 2 + b0 * x0)) (x0 :: xs))).
Proof. exact cumtrapz_affine. Qed.
Print Assumptions C26_cumtrapz_affine.

(** C27 *)
Theorem C27_broadcast_accepts_iff : forall args,
  get_1d_arrays args <> None <->
  args <> [] /\ exists n, Forall (fun a => length (atleast_1d a) = 1%nat \/ length (atleast_1d a) = n) args
     /\ n = list_max (map (fun a => length (atleast_1d a)) args).
Proof. exact get_1d_ok_iff. Qed.
Print Assumptions C27_broadcast_accepts_iff.

Theorem C27_broadcast_values : forall args res, get_1d_arrays args = Some res ->
  exists n, length res = length args /\ Forall (fun r => length r = n) res /\
  forall i j, (i < length args)%nat -> (j < n)%nat ->
    nth j (nth i res []) NaN = value_at (nth i args (Scalar NaN)) j.
Proof. exact get_1d_values. Qed.
Print Assumptions C27_broadcast_values.

Example C27_hyp : exists res, get_1d_arrays [Scalar (Fin 1); Array [Fin 2; NaN]; Array [PInf]] = Some res.
Proof. eexists. reflexivity. Qed.
