(** Vocabulary for the fitting properties.  Nothing here refers to the model's functions,
    except the diffmah-independent ones already characterised in C02 and C23. *)
From Coq Require Import Reals List ZArith Bool.
From Verif Require Import XReal ModelUtils ModelKernels ModelSfh SpecCore SpecHist.
Import List ListNotations.
Open Scope R_scope.

Definition params_list {A} (p : DiffstarParams A) : list A :=
  [d_lgmcrit p; d_lgy_at_mcrit p; d_indx_lo p; d_indx_hi p; d_lg_qt p; d_qlglgdt p; d_lg_drop p; d_lg_rejuv p].

(** A target history: increasing positive times, non-negative SFRs, positive averaging time
    and sSFR floor. *)
Definition fit_input (ts ss : list R) (tau floor : R) : Prop :=
  ts <> [] /\ length ts = length ss /\ increasing (1 / 1000 :: ts) /\ Forall (fun s => 0 <= s) ss /\
  0 < tau /\ 0 < floor.

Definition clampR (lo hi x : R) : R := Rmin (Rmax x lo) hi.

(** Centre of the random starting points for a halo of log10 mass [mp]. *)
Definition guess_spec (mp : R) : DiffstarParams R :=
  mkDiffstar (clampR 11 13 (114 / 10 + 3 / 10 * (mp - 11)))
             (clampR (-105 / 10) (-92 / 10) (-97 / 10 + 2 / 10 * (mp - 11)))
             (clampR (2 / 10) 3 (-3 / 10 + 7 / 10 * (mp - 11)))
             (-1)
             1 (-50725 / 100000) (-101773 / 100000) (-212307 / 1000000).

(** Averaged-SFR target: the averaged SFR, floored by the sSFR floor times the mass, then by
    a thousandth of its maximum. *)
Definition fstar_floor (floor : R) (f mass : list R) : list R :=
  map2 (fun x m => Rmax x (floor * m)) f mass.
Definition fstar_target (floor : R) (f mass : list R) : list R :=
  let ft := fstar_floor floor f mass in
  map (fun x => Rmax x (list_Rmax 0 ft / 1000)) ft.

(** [k] is the first index of a largest entry. *)
Definition first_max (l : list R) (k : nat) : Prop :=
  (k < length l)%nat /\ (forall i, (i < length l)%nat -> nth i l 0 <= nth k l 0) /\
  (forall i, (i < k)%nat -> nth i l 0 < nth k l 0).

(** Snapshots the fit is meant to use. *)
Definition in_cut (dlogm tmin mmin final s t : R) : Prop :=
  final - dlogm < s /\ Rmin (final - 1 / 2) mmin < s /\ tmin <= t.

(** Weights of the stellar mass and of the averaged SFR at one snapshot. *)
Definition mass_weight_ok (dlogm tmin mmin final s t w : R) : Prop :=
  (final - s < 1 / 10 /\ w = 1 / 2) \/
  (1 / 10 <= final - s /\ in_cut dlogm tmin mmin final s t /\ w = 1) \/
  (1 / 10 <= final - s /\ ~ in_cut dlogm tmin mmin final s t /\ w = 10 ^ 10).
Definition fstar_weight_ok (tau dlogm tmin mmin final s fmax f t w : R) : Prop :=
  (t < tau + 1 / 100 /\ w = 10 ^ 10) \/
  (tau + 1 / 100 <= t /\ fmax - f < 1 / 10 /\ w = 1 / 2) \/
  (tau + 1 / 100 <= t /\ 1 / 10 <= fmax - f /\ in_cut dlogm tmin mmin final s t /\ w = 1) \/
  (tau + 1 / 100 <= t /\ 1 / 10 <= fmax - f /\ ~ in_cut dlogm tmin mmin final s t /\ w = 10 ^ 10).
Definition weights_ok (tau dlogm tmin mmin : R) (ts ls lf w wf : list R) : Prop :=
  length w = length ts /\ length wf = length ts /\
  forall i, (i < length ts)%nat ->
    mass_weight_ok dlogm tmin mmin (last ls 0) (nth i ls 0) (nth i ts 0) (nth i w 0) /\
    forall k, first_max lf k ->
    fstar_weight_ok tau dlogm tmin mmin (last ls 0) (nth i ls 0) (nth k lf 0) (nth i lf 0) (nth i ts 0) (nth i wf 0).

(** Weighted mean squared residual. *)
Definition wmse (r w : list R) : R := Rsum (map2 (fun a b => (a / b) ^ 2) r w) / INR (length r).
(** Penalty for quenching before the peak of the averaged SFR. *)
Definition prior (lgqt lgtmax : R) : R := 100 / (1 + exp (50 * (lgqt - lgtmax))).
(** Fit loss for modelled SFR [s], mass [m], averaged SFR [f]. *)
Definition fit_loss (floor : R) (s m f : list R) (S M LM LF W WF : list R) (lgqt lgtmax : R) : R :=
  let rm := map2 (fun a b => log10R a - b) m LM in
  let rf := map2 Rminus (map2 (fun x m => log10R (Rmax x (m * (floor / 10)))) f m) LF in
  let rs := map2 (fun x M => clampR (-1) 1 (10 ^ 8 * x / M))
              (map2 (fun a S => a - S) (map2 (fun x m => Rmax x (m * (floor / 10))) s m) S) M in
  30 * wmse rm W + wmse rf WF + wmse rs W + 1 / 2 * last rf 0 ^ 2 + prior lgqt lgtmax.

(** Position of the smallest number in a list that may hold NaN, earliest in case of ties. *)
Definition best_index (l : list xr) (k : nat) : Prop :=
  (k < length l)%nat /\ nth k l NaN <> NaN /\
  (forall i, (i < length l)%nat -> nth i l NaN <> NaN -> xlt (nth i l NaN) (nth k l NaN) = false) /\
  (forall i, (i < k)%nat -> nth i l NaN = NaN \/ xlt (nth k l NaN) (nth i l NaN) = true).

Section Restarts.
Variable rng : Type.
Variable normal : rng -> list xr -> list xr -> list xr * rng.
Variable grad : list xr -> list xr.
Variable minimize : list xr -> list xr * xr * bool.
Variable p_init : list xr * list xr.

(** State of the generator after [k] draws, and draw number [k]. *)
Fixpoint rng_after (s : rng) (k : nat) : rng :=
  match k with O => s | S k => snd (normal (rng_after s k) (fst p_init) (snd p_init)) end.
Definition draw (s : rng) (k : nat) : list xr := fst (normal (rng_after s k) (fst p_init) (snd p_init)).

(** Starting point [p] found from state [s]: the first draw whose gradient has no NaN, among at
    most 1001 draws; otherwise the last one, flagged. *)
Definition start_drawn (s : rng) (p : list xr) (flag : bool) (s' : rng) : Prop :=
  exists n, (1 <= n <= 1001)%nat /\ p = draw s (n - 1) /\ s' = rng_after s n /\
    (forall k, (k < n - 1)%nat -> In NaN (grad (draw s k))) /\
    (flag = true <-> In NaN (grad p)) /\ (flag = true -> n = 1001%nat).

(** Successive attempts (parameters, loss, success code): a minimisation from a valid start,
    or a placeholder when no valid start was found. *)
Inductive attempts : rng -> list (list xr * xr * Z) -> rng -> Prop :=
| no_attempt s : attempts s [] s
| valid_attempt s p s1 x f ok l s2 : start_drawn s p false s1 -> minimize p = (x, f, ok) ->
    attempts s1 l s2 -> attempts s ((x, f, 1%Z) :: l) s2
| invalid_attempt s p s1 l s2 : start_drawn s p true s1 -> attempts s1 l s2 ->
    attempts s ((fst p_init, Fin (99999 / 100), (-1)%Z) :: l) s2.

(** Why a restart loop gave up before its last attempt: some attempt is within tolerance, or
    one attempt had a NaN loss and the last one had no valid start. *)
Definition stop_reason (tol : xr) (l : list (list xr * xr * Z)) : Prop :=
  (exists a, In a l /\ xle (snd (fst a)) tol = true) \/
  ((exists a, In a l /\ snd (fst a) = NaN) /\
   exists l' a, l = l' ++ [a] /\ a = (fst p_init, Fin (99999 / 100), (-1)%Z)).
(** No attempt is within tolerance. *)
Definition over (tol : xr) (l : list (list xr * xr * Z)) : Prop := forall a, In a l -> xle (snd (fst a)) tol = false.
End Restarts.

Section Adam.
Variable loss : list xr -> xr.
Variable grad : list xr -> list xr.
Variable opt_state : Type.
Variable opt_init : xr -> list xr -> opt_state.
Variable opt_update : xr -> nat -> list xr -> opt_state -> opt_state.
Variable get_params : opt_state -> list xr.
Variable step : xr.
Variable p0 : list xr.

Fixpoint adam_state (k : nat) : opt_state :=
  match k with
  | O => opt_init step p0
  | S k => opt_update step k (grad (get_params (adam_state k))) (adam_state k)
  end.
(** Parameters visited at step [k]. *)
Definition visited (k : nat) : list xr := get_params (adam_state k).
Definition finite_list (l : list xr) : Prop := Forall (fun x => isfinite x = true) l.
(** Parameters, loss and gradient are all finite. *)
Definition good (p : list xr) : Prop := finite_list p /\ isfinite (loss p) = true /\ finite_list (grad p).
(** [n] is the number of steps taken before something non-finite shows up (at most [nmax]). *)
Definition steps_run (nmax n : nat) : Prop :=
  (n <= nmax)%nat /\ (forall k, (k < n)%nat -> good (visited k)) /\ ((n < nmax)%nat -> ~ good (visited n)).

(** What is returned after [n] recorded steps: the best one and the history, or a placeholder
    loss if there was none. *)
Definition adam_outcome (n : nat) (r : list xr * xr * list xr * list (list xr)) : Prop :=
  let ls := map (fun k => loss (visited k)) (seq 0 n) in
  let ps := map visited (seq 0 n) in
  (n = 0%nat -> r = (visited 0, Fin (99999 / 100), [], [])) /\
  (n <> 0%nat -> exists b, best_index ls b /\ r = (visited b, loss (visited b), ls, ps)).
End Adam.

(** [warmed nw p q]: [nw] successive Adam runs of [wn] steps of size [ws], each started at the
    best parameters of the one before, lead from [p] to [q]. *)
Section Warmup.
Variable loss : list xr -> xr.
Variable grad : list xr -> list xr.
Variable opt_state : Type.
Variable opt_init : xr -> list xr -> opt_state.
Variable opt_update : xr -> nat -> list xr -> opt_state -> opt_state.
Variable get_params : opt_state -> list xr.
Variable wn : nat.
Variable ws : xr.
Inductive warmed : nat -> list xr -> list xr -> Prop :=
| warm_done p : warmed 0 p p
| warm_run nw p n pb lb ls ps q : steps_run loss grad opt_state opt_init opt_update get_params ws p wn n ->
    adam_outcome loss grad opt_state opt_init opt_update get_params ws p n (pb, lb, ls, ps) ->
    warmed nw pb q -> warmed (S nw) p q.
(** The final run starts at [q]: the warmed-up parameters if finite, otherwise the given ones. *)
Definition final_start (nw : nat) (p q : list xr) : Prop :=
  exists q0, warmed nw p q0 /\ ((finite_list q0 /\ q = q0) \/ (~ finite_list q0 /\ q = p)).
End Warmup.
