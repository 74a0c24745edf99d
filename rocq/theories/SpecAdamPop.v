(** The population fit with Adam and its own gradients. *)
From Coq Require Import Reals List String ZArith.
From Verif Require Import XReal ModelUtils ModelKernels ModelSfh ModelPop ModelHist ModelFit ModelLoad ModelPopFit ModelPopProgram ModelPopGrad
  SpecCore SpecPop SpecHist SpecPopProgram SpecPopGrad.
Import List ListNotations.
Open Scope R_scope.

Section S.
Variable key : Type.
Variable split : key -> nat -> list key.
Variable normal : key -> nat -> list xr.
Variable lmk : MahParams xr -> xr -> xr -> xr.

(** Galaxies of all the terms of the loss. *)
Definition data_zs (d : LossData key) : list (ZPop key) :=
  match d with
  | DataM m => ml_zs key m
  | DataMC m c => ml_zs key m ++ sl_zs key c
  | DataMCS m c s => ml_zs key m ++ sl_zs key c ++ sl_zs key s
  end.
Definition data_ok (d : LossData key) : Prop :=
  match d with
  | DataM m => exists fb, mstar_data_ok key lmk m fb
  | DataMC m c => exists fb fb', mstar_data_ok key lmk m fb /\ ssfr_data_ok key lmk c fb'
  | DataMCS m c s => exists fb fb' fb'', mstar_data_ok key lmk m fb /\ ssfr_data_ok key lmk c fb' /\ ssfr_data_ok key lmk s fb''
  end.
(** The wrapper the program calls for this data. *)
Definition data_wrapper (d : LossData key) (p : list xr) : option (xr * list xr) :=
  match d with
  | DataM m => loss_mstar_kern_tobs_grad_wrapper key split normal lmk p m
  | DataMC m c => loss_combined_wrapper key split normal lmk p m c
  | DataMCS m c s => loss_combined_3loss_wrapper key split normal lmk p m c s
  end.
(** The gradients are those of the wrappers wherever the loss is finite and no slope is exactly zero; at a zero slope, where
    the model divides by it, one of them is not finite. *)
Definition own_gradients (grads : LossData key -> list xr -> list xr) : Prop :=
  forall d U P, get_bounded_diffstarpop_params (pop_u_params U) = Some (pop_params P) ->
    (slopes_nonzero P -> forall v g, data_wrapper d (flat U) = Some (Fin v, g) -> grads d (flat U) = g) /\
    (~ slopes_nonzero P -> all_finite (grads d (flat U)) = false).
End S.
