(** Properties of the population-fit program run with Adam: C126. *)
From Coq Require Import Reals Lra Lia ZArith List Bool String.
From Verif Require Import XReal ModelUtils ModelKernels ModelSfh ModelPop ModelPopTables ModelHist ModelFit ModelLoad ModelTargets ModelPopFit ModelPopProgram ModelPopGrad ModelAdam
  SpecCore SpecHist SpecPop SpecTargets SpecMeasure SpecPopFit SpecLossChain SpecPopProgram SpecPopGrad SpecAdam SpecAdamPop
  CholeskyProofs PopFitTop LossChainTop PopProgramProofs PopProgramDemo PopGradDemo AdamProofs AdamPop.
Import List ListNotations.
Local Notation length := List.length (only parsing).
Open Scope R_scope.

(** C126: whatever the 88 gradients, each saved unbounded parameter is within 0.0728 per step of its starting value. *)
Theorem C126_reach : forall key split uniform mvn kern sing grads, (forall d U, length (grads d (flat U)) = 88%nat) ->
  forall ty dm dc ds f nhalos npz path U0 n pl outdir outname s d,
  load_loss_data key split sing ty dm dc ds f nhalos = Some d -> start_params npz path = Some (flat U0) -> all_finite (grads d (flat U0)) = true ->
  fit_program key split uniform mvn kern sing grads AdamState (adam_init (Fin (1 / 100))) (adam_update (Fin (1 / 100))) adam_params
    ty dm dc ds f nhalos npz path n pl outdir outname = Some s ->
  exists U, sv_u_params s = flat U /\ forall x, In x pop_names -> Rabs (U x - U0 x) <= 728 / 10000 * IZR n.
Proof. exact program_near. Qed.
Print Assumptions C126_reach.

(** C126: with the gradients of its own wrappers, from any start without a zero slope, the program saves parameters near the start
    with a loss no larger, and leaves the parameters its galaxies do not depend on exactly as they were. *)
Theorem C126_own_gradients : forall key split uniform normal kern, splits_ok split -> normals_ok normal ->
  forall sing grads, own_gradients key split normal kern grads ->
  forall ty dm dc ds f nhalos npz path U0 P0 n pl outdir outname s d,
  load_loss_data key split sing ty dm dc ds f nhalos = Some d -> data_ok key kern d ->
  start_params npz path = Some (flat U0) -> get_bounded_diffstarpop_params (pop_u_params U0) = Some (pop_params P0) -> slopes_nonzero P0 ->
  fit_program key split uniform (mvn_of normal) kern sing grads AdamState (adam_init (Fin (1 / 100))) (adam_update (Fin (1 / 100))) adam_params
    ty dm dc ds f nhalos npz path n pl outdir outname = Some s ->
  exists U r r0, sv_u_params s = flat U /\ loss_wrapper key split uniform (mvn_of normal) kern d (flat U0) = Some (Fin r0) /\
    loss_wrapper key split uniform (mvn_of normal) kern d (flat U) = Some (Fin r) /\ r <= r0 /\
    (forall x, In x pop_names -> Rabs (U x - U0 x) <= 728 / 10000 * IZR n) /\
    forall N, Forall (fun z => unused N (z_upid key z)) (data_zs key d) -> forall x, In x pop_names -> In x N -> U x = U0 x.
Proof. exact own_program. Qed.
Print Assumptions C126_own_gradients.

(** C126: so for the stellar-mass fit of measured galaxies. *)
Theorem C126_measured : forall k hm q up Gs cen sat M S F T ids zs E Em Es f,
  final_tables k hm q up Gs cen sat M S F T ids zs E Em Es f ->
  (2 <= length E)%nat -> (2 <= length Em)%nat -> (2 <= length Es)%nat -> increasing Em -> increasing Es -> kinds_agree Gs cen sat up ->
  forall key split uniform normal sing kern, timewise sing kern -> splits_ok split -> normals_ok normal ->
  forall (dm dc ds : Draws key), draws_ok (dr_choice key dm) -> (forall g, In g (List.concat Gs) -> has_history kern (log10R (138 / 10)) hm T ids g) ->
  forall grads, own_gradients key split normal kern grads ->
  forall nhalos npz path U0 P0 n pl outdir outname s,
  start_params npz path = Some (flat U0) -> get_bounded_diffstarpop_params (pop_u_params U0) = Some (pop_params P0) -> slopes_nonzero P0 ->
  fit_program key split uniform (mvn_of normal) kern sing grads AdamState (adam_init (Fin (1 / 100))) (adam_update (Fin (1 / 100))) adam_params
    "mstar" dm dc ds (measured f E Em Es) nhalos npz path n pl outdir outname = Some s ->
  exists d U r r0, load_loss_data key split sing "mstar"%string dm dc ds (measured f E Em Es) nhalos = Some d /\ sv_u_params s = flat U /\
    loss_wrapper key split uniform (mvn_of normal) kern d (flat U0) = Some (Fin r0) /\ loss_wrapper key split uniform (mvn_of normal) kern d (flat U) = Some (Fin r) /\ r <= r0 /\
    forall x, In x pop_names -> Rabs (U x - U0 x) <= 728 / 10000 * IZR n.
Proof. exact measured_program. Qed.
Print Assumptions C126_measured.

(** A fit of 200 steps that runs: its files hold 120 galaxies in one cell. *)
Example C126_hyp : normals_ok demo_normal /\ own_gradients unit the_split demo_normal exr_kern (own_grads unit the_split demo_normal exr_kern) /\
  exists Em s, increasing Em /\ (2 <= length Em)%nat /\
  fit_program unit the_split exr_uniform (mvn_of demo_normal) exr_kern the_mah (own_grads unit the_split demo_normal exr_kern)
    AdamState (adam_init (Fin (1 / 100))) (adam_update (Fin (1 / 100))) adam_params
    "mstar" exr_draws exr_draws exr_draws (measured (exr_final Em) exl_E Em exl_Es) 1 (fun _ => None) None 200 10 "out" "fit" = Some s /\
  (exists d, load_loss_data unit the_split the_mah "mstar" exr_draws exr_draws exr_draws (measured (exr_final Em) exl_E Em exl_Es) 1 = Some d /\ data_ok unit exr_kern d) /\
  exists U0 P0, start_params (fun _ => None) None = Some (flat U0) /\ get_bounded_diffstarpop_params (pop_u_params U0) = Some (pop_params P0) /\ slopes_nonzero P0.
Proof.
  split; [exact demo_normal_ok|]. split; [apply own_grads_ok|].
  destruct (exr_runs (mvn_of demo_normal) (mvn_of_ok demo_normal demo_normal_ok) (own_grads unit the_split demo_normal exr_kern) AdamState (adam_init (Fin (1 / 100))) (adam_update (Fin (1 / 100))) adam_params
    (params_init _) (fun _ => None) 200 10 "out" "fit" eq_refl ltac:(discriminate)) as (Em & s & I & L & H).
  exists Em, s. split; [exact I|]. split; [exact L|]. split; [exact H|]. split.
  - destruct (program_result _ _ _ _ _ _ _ _ _ _ _ (params_init _) _ _ _ _ _ _ _ _ _ _ _ _ _ H) as (d & p0 & r0 & _ & _ & E1 & _ & E3 & _).
    exists d. split; [exact E1|]. destruct exl_sizes as (A & _ & C & _ & E & _).
    exact (measured_ok 1000 exl_hm exl_q exl_up [exl_G] exl_cen exl_sat exr_M exl_S exl_F [138 / 10] exl_ids [0] exl_E Em exl_Es (exr_final Em)
      (exr_tables Em) A L C I E exl_kinds unit the_split exr_uniform demo_normal the_mah exr_kern the_mah_ok the_split_ok demo_normal_ok exr_draws exr_draws exr_draws the_choice_ok
      (fun g _ => exr_history g) 1 d p0 r0 E1 E3).
  - destruct (start_default (fun _ => None)) as (P & U & _ & _ & SN & SP & EU). exists U, P. auto.
Qed.
