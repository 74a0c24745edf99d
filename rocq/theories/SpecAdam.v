(** What Adam is meant to do, on real numbers. *)
From Coq Require Import Reals List.
From Verif Require Import XReal ModelKernels ModelSfh ModelFit ModelGrad ModelAdam SpecCore SpecHist SpecFit.
Import ListNotations.
Open Scope R_scope.

(** Mean of a sequence, oldest first, an element counting [w] times as much as the one after it. *)
Definition decayed (w : R) (l : list R) : R := Rsum (map (fun k => w ^ (length l - 1 - k) * nth k l 0) (seq 0 (length l))).
Definition recent_mean (w : R) (l : list R) : R := decayed w l / decayed w (map (fun _ => 1) l).

(** One step after the gradients [gs] seen so far: the mean gradient over the root mean square. *)
Definition adam_step (s : R) (gs : list R) : R :=
  s * recent_mean (9 / 10) gs / (sqrt (recent_mean (999 / 1000) (map (fun g => g * g) gs)) + 1 / 10 ^ 8).
(** Where a coordinate started at [x] is after the gradients [gs]. *)
Definition adam_position (s x : R) (gs : list R) : R :=
  x - Rsum (map (fun k => adam_step s (firstn (S k) gs)) (seq 0 (length gs))).

(** The [j]th entries of a sequence of vectors. *)
Definition column (j : nat) (gs : list (list R)) : list R := map (fun g => nth j g 0) gs.

(** Updates with arbitrary indices and finite gradients, oldest first. *)
Definition adam_updates (s : R) (l : list (nat * list R)) (st : AdamState) : AdamState :=
  fold_left (fun st ig => adam_update (Fin s) (fst ig) (map Fin (snd ig)) st) l st.
(** Update [k] of a run gets the index [k]. *)
Definition numbered {A} (l : list A) : list (nat * A) := combine (seq 0 (length l)) l.
(** A state reached from [p] by such updates. *)
Definition adam_reached (s : R) (p : list R) (st : AdamState) : Prop :=
  exists l, Forall (fun ig => length (snd ig) = length p) l /\ st = adam_updates s l (adam_init (Fin s) (map Fin p)).

(** Largest move of a coordinate in one update, in units of the step size. *)
Definition adam_reach : R := 728 / 100.

(** Loss data of a fit to positive target masses, with positive weights, of a halo with log mass accretion rate [h]. *)
Definition fit_data (lmk : MahParams xr -> xr -> xr -> xr) (d : LossData) (h : R -> R) : Prop :=
  exists ts mah M LM S LF tau floor W WF lq lgt0 fb,
  d = mkLD (map Fin ts) mah (map Fin M) (map Fin LM) (map Fin S) (map Fin LF) (Fin tau) (Fin floor) (map Fin W) (map Fin WF) (Fin lq) lgt0 (Fin fb) /\
  ts <> [] /\ increasing (1 / 1000 :: ts) /\ halo_history lmk mah lgt0 h ts /\
  length M = length ts /\ length LM = length ts /\ length S = length ts /\ length LF = length ts /\ length W = length ts /\ length WF = length ts /\
  Forall (fun x => 0 < x) M /\ Forall (fun x => 0 < x) W /\ Forall (fun x => 0 < x) WF /\ 0 < tau /\ 0 < floor.
(** Even unquenched, the galaxy forms stars slower than the floor of 1e-14. *)
Definition starving (d : LossData) (h : R -> R) (p : DiffstarParams R) : Prop :=
  forall ts fb, ld_t d = map Fin ts -> ld_fb d = Fin fb -> Forall (fun t => ms_spec p fb (h t) < 1 / 10 ^ 14) ts.
(** [u] with another quenching time. *)
Definition set_lg_qt {A} (u : DiffstarParams A) (q : A) : DiffstarParams A :=
  mkDiffstar (d_lgmcrit u) (d_lgy_at_mcrit u) (d_indx_lo u) (d_indx_hi u) q (d_qlglgdt u) (d_lg_drop u) (d_lg_rejuv u).
(** The callables of the fit, NaN standing for an exception. *)
Definition fit_loss_fn lmk d (p : list xr) : xr := match loss_default_clipssfrh lmk p d with Some v => v | None => NaN end.
Definition fit_grad_fn lmk d (p : list xr) : list xr := match loss_grad_default_clipssfrh lmk p d with Some g => g | None => [NaN] end.
