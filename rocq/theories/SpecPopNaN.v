(** What it means for a loss and its gradient wrapper to agree. *)
From Coq Require Import Reals List.
From Verif Require Import XReal ModelUtils ModelKernels ModelSfh ModelPop ModelHist SpecCore SpecPop SpecHist.
Import List ListNotations.
Open Scope R_scope.

(** Both raise, or both give the same finite loss, with 88 finite derivatives, or both give NaN, with 88 derivatives nothing is
    said about. *)
Definition together (loss : option xr) (wrapper : option (xr * list xr)) : Prop :=
  (loss = None /\ wrapper = None) \/
  (exists v g, loss = Some (Fin v) /\ length g = 88%nat /\ wrapper = Some (Fin v, map Fin g)) \/
  (loss = Some NaN /\ exists g, length g = 88%nat /\ wrapper = Some (NaN, g)).

(** The halo counts weighting the redshifts are nonnegative numbers. *)
Definition counts_ok (key : Type) (d : SsfrLossData key) : Prop :=
  Forall (Forall (fun w => exists r, w = Fin r /\ 0 <= r)) (s_nmhalo (sl_data key d)).

(** Every simulated log mass at [z] is at least three mean bin widths outside the bins [E]. *)
Definition out_of_bins (key : Type) split uniform mvn lmk (p : nt xr) (lgt0 : xr) (fb : R) (E : list R) (z : ZPop key) : Prop :=
  forall n tobs X Y W, z_tobs key z = Fin tobs -> sample key split uniform mvn lmk p z lgt0 fb tobs n X Y W ->
    Forall (fun x => x <= hd 0 E - 3 * ((last E 0 - hd 0 E) / INR (length E - 1)) \/
                     last E 0 + 3 * ((last E 0 - hd 0 E) / INR (length E - 1)) <= x) X.
