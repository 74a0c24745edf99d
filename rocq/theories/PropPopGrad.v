(** Properties of the population-loss gradients: C120-C122. *)
From Coq Require Import Reals Lra Lia ZArith List Bool String.
From Verif Require Import XReal ModelUtils ModelKernels ModelSfh ModelPop ModelHist ModelFit ModelGrad ModelPopTables ModelPopGrad
  SpecCore SpecFit SpecPop SpecHist SpecGrad SpecPopProgram SpecPopGrad GradTop PopParamProofs MatrixProofs CholeskyProofs CholeskyDraw PopGradClaims PopGradDemo PopGradSat.
Import List ListNotations.
Local Notation length := List.length (only parsing).
Open Scope R_scope.

(** C120: wherever the stellar-mass loss is finite, the wrapper returns that loss with 88 finite numbers, and away from the floor
    of the star formation rate these are its partial derivatives. *)
Theorem C120_mstar_gradient : forall (key : Type) split uniform normal lmk, splits_ok split -> normals_ok normal ->
  forall U P, get_bounded_diffstarpop_params (pop_u_params U) = Some (pop_params P) -> slopes_nonzero P ->
  forall (d : MstarLossData key) fb v, mstar_data_ok key lmk d fb ->
  loss_mstar key split uniform (mvn_of normal) lmk (pop_u_params U) d = Some (Fin v) ->
  exists g, length g = 88%nat /\ loss_mstar_kern_tobs_grad_wrapper key split normal lmk (flat U) d = Some (Fin v, map Fin g) /\
    (smooth_sfr key split uniform (mvn_of normal) lmk (pop_params P) (ml_lgt0 key d) fb (ml_zs key d) ->
     is_gradient (fun u => loss_mstar key split uniform (mvn_of normal) lmk u d) U g).
Proof. exact (@mstar_gradient). Qed.
Print Assumptions C120_mstar_gradient.

(** C120: the loss in mass and specific star formation rate, whose clip has a kink too. *)
Theorem C120_ssfr_gradient : forall (key : Type) split uniform normal lmk, splits_ok split -> normals_ok normal ->
  forall U P, get_bounded_diffstarpop_params (pop_u_params U) = Some (pop_params P) -> slopes_nonzero P ->
  forall (d : SsfrLossData key) fb v, ssfr_data_ok key lmk d fb ->
  loss_ssfr key split uniform (mvn_of normal) lmk (pop_u_params U) d = Some (Fin v) ->
  exists g, length g = 88%nat /\ loss_mstar_ssfr_kern_tobs_grad_wrapper key split normal lmk (flat U) d = Some (Fin v, map Fin g) /\
    (smooth_sfr key split uniform (mvn_of normal) lmk (pop_params P) (sl_lgt0 key d) fb (sl_zs key d) /\
     smooth_ssfr key split uniform (mvn_of normal) lmk (pop_params P) (sl_lgt0 key d) fb (sl_zs key d) ->
     is_gradient (fun u => loss_ssfr key split uniform (mvn_of normal) lmk u d) U g).
Proof. exact (@ssfr_gradient). Qed.
Print Assumptions C120_ssfr_gradient.

(** C120: the sum of the two. *)
Theorem C120_combined_gradient : forall (key : Type) split uniform normal lmk, splits_ok split -> normals_ok normal ->
  forall U P, get_bounded_diffstarpop_params (pop_u_params U) = Some (pop_params P) -> slopes_nonzero P ->
  forall (dm : MstarLossData key) (dc : SsfrLossData key) fb fb' v, mstar_data_ok key lmk dm fb -> ssfr_data_ok key lmk dc fb' ->
  loss_combined_kern key split uniform (mvn_of normal) lmk (pop_u_params U) dm dc = Some (Fin v) ->
  exists g, length g = 88%nat /\ loss_combined_wrapper key split normal lmk (flat U) dm dc = Some (Fin v, map Fin g) /\
    (smooth_sfr key split uniform (mvn_of normal) lmk (pop_params P) (ml_lgt0 key dm) fb (ml_zs key dm) ->
     smooth_sfr key split uniform (mvn_of normal) lmk (pop_params P) (sl_lgt0 key dc) fb' (sl_zs key dc) /\
     smooth_ssfr key split uniform (mvn_of normal) lmk (pop_params P) (sl_lgt0 key dc) fb' (sl_zs key dc) ->
     is_gradient (fun u => loss_combined_kern key split uniform (mvn_of normal) lmk u dm dc) U g).
Proof. exact (@combined_gradient). Qed.
Print Assumptions C120_combined_gradient.

(** C120: the sum with separate centrals and satellites. *)
Theorem C120_combined_3loss_gradient : forall (key : Type) split uniform normal lmk, splits_ok split -> normals_ok normal ->
  forall U P, get_bounded_diffstarpop_params (pop_u_params U) = Some (pop_params P) -> slopes_nonzero P ->
  forall (dm : MstarLossData key) (dc ds : SsfrLossData key) fb fb' fb'' v,
  mstar_data_ok key lmk dm fb -> ssfr_data_ok key lmk dc fb' -> ssfr_data_ok key lmk ds fb'' ->
  loss_combined_3loss_kern key split uniform (mvn_of normal) lmk (pop_u_params U) dm dc ds = Some (Fin v) ->
  exists g, length g = 88%nat /\ loss_combined_3loss_wrapper key split normal lmk (flat U) dm dc ds = Some (Fin v, map Fin g) /\
    (smooth_sfr key split uniform (mvn_of normal) lmk (pop_params P) (ml_lgt0 key dm) fb (ml_zs key dm) ->
     smooth_sfr key split uniform (mvn_of normal) lmk (pop_params P) (sl_lgt0 key dc) fb' (sl_zs key dc) /\
     smooth_ssfr key split uniform (mvn_of normal) lmk (pop_params P) (sl_lgt0 key dc) fb' (sl_zs key dc) ->
     smooth_sfr key split uniform (mvn_of normal) lmk (pop_params P) (sl_lgt0 key ds) fb'' (sl_zs key ds) /\
     smooth_ssfr key split uniform (mvn_of normal) lmk (pop_params P) (sl_lgt0 key ds) fb'' (sl_zs key ds) ->
     is_gradient (fun u => loss_combined_3loss_kern key split uniform (mvn_of normal) lmk u dm dc ds) U g).
Proof. exact (@combined3_gradient). Qed.
Print Assumptions C120_combined_3loss_gradient.

Example C120_hyp : splits_ok demo_split /\ normals_ok demo_normal /\ exists U P dm vm dc vc,
  get_bounded_diffstarpop_params (pop_u_params U) = Some (pop_params P) /\ slopes_nonzero P /\
  mstar_data_ok unit ex_lmk dm 10 /\ ssfr_data_ok unit ex_lmk dc 10 /\
  map (z_upid unit) (ml_zs unit dm) = [[-1; 7]%Z] /\ map (z_upid unit) (sl_zs unit dc) = [[-1; 7]%Z] /\
  loss_mstar unit demo_split demo_uniform (mvn_of demo_normal) ex_lmk (pop_u_params U) dm = Some (Fin vm) /\
  loss_ssfr unit demo_split demo_uniform (mvn_of demo_normal) ex_lmk (pop_u_params U) dc = Some (Fin vc) /\
  smooth_sfr unit demo_split demo_uniform (mvn_of demo_normal) ex_lmk (pop_params P) (ml_lgt0 unit dm) 10 (ml_zs unit dm) /\
  smooth_sfr unit demo_split demo_uniform (mvn_of demo_normal) ex_lmk (pop_params P) (sl_lgt0 unit dc) 10 (sl_zs unit dc) /\
  smooth_ssfr unit demo_split demo_uniform (mvn_of demo_normal) ex_lmk (pop_params P) (sl_lgt0 unit dc) 10 (sl_zs unit dc).
Proof. exact (conj demo_split_ok (conj demo_normal_ok (demo_gradients (-1, 7)%Z))). Qed.

(** C121: a draw is the mean plus a lower-triangular square root of the covariance applied to independent normals. *)
Theorem C121_draw_covariance : forall (key : Type) normal, normals_ok normal ->
  forall (k : key) mean cov, positive_definite (length mean) cov ->
  exists z L M, normal k (length mean) = map Fin z /\ cov = real_matrix (length mean) M /\
    (forall i, (i < length mean)%nat -> 0 < L i i) /\ (forall i j, (i < j)%nat -> L i j = 0) /\
    (forall i j, (i < length mean)%nat -> (j < length mean)%nat -> sumR (fun l => L i l * L j l) (length mean) = M i j) /\
    mvn_of normal k (map Fin mean) cov =
      map (fun i => Fin (nth i mean 0 + sumR (fun l => L i l * nth l z 0) (length mean))) (seq 0 (length mean)).
Proof. exact draw_covariance. Qed.
Print Assumptions C121_draw_covariance.

(** C121: for any population within bounds the twelve unbounded parameters of a galaxy are mean plus standard deviation times one
    normal each, from three different keys. *)
Theorem C121_galaxy_draw : forall (key : Type) split uniform normal, splits_ok split -> normals_ok normal ->
  forall p P m tp upid mu mh gy (k : key), holds "" p P -> pop_in_bounds P -> slopes_nonzero P ->
  exists mc a1 a2 s1 s2 s3 z1 z2 z3 ums uq f b,
    diffstarpop_means_covs p (Fin m) (Fin tp) (Fin mu) (Fin mh) (Fin gy) = Some mc /\ mu_mseq mc = map Fin a1 /\ mu_qseq mc = map Fin a2 /\
    cov_mseq_ms mc = real_matrix 4 (fun i j => if Nat.eqb i j then s1 i ^ 2 else 0) /\
    cov_qseq_ms mc = real_matrix 4 (fun i j => if Nat.eqb i j then s2 i ^ 2 else 0) /\
    cov_qseq_q mc = real_matrix 4 (fun i j => if Nat.eqb i j then s3 i ^ 2 else 0) /\
    (forall i, (i < 4)%nat -> 0 < s1 i /\ 0 < s2 i /\ 0 < s3 i) /\
    normal (nth 0 (split k 4%nat) k) 4%nat = map Fin z1 /\ normal (nth 1 (split k 4%nat) k) 4%nat = map Fin z2 /\ normal (nth 2 (split k 4%nat) k) 4%nat = map Fin z3 /\
    mc_diffstar_u_params_singlegal key split uniform (mvn_of normal) p (Fin m) (Fin tp) upid (Fin mu) (Fin mh) (Fin gy) k = Some (map_d Fin ums, map_d Fin uq, f, b) /\
    (forall i, (i < 4)%nat -> nth i (params_list ums) 0 = nth i a1 0 + s1 i * nth i z1 0 /\ nth (4 + i) (params_list ums) 0 = 5 /\
       nth i (params_list uq) 0 = nth i a2 0 + s2 i * nth i z2 0 /\ nth (4 + i) (params_list uq) 0 = nth (4 + i) a2 0 + s3 i * nth i z3 0).
Proof. exact galaxy_draw. Qed.
Print Assumptions C121_galaxy_draw.

Example C121_hyp : splits_ok demo_split /\ normals_ok demo_normal /\ demo_normal tt 2 = [Fin 1; Fin 1] /\
  positive_definite (length [1; 2]) (real_matrix 2 (fun i j => if Nat.eqb i j then 2 + INR i else 0)) /\
  exists p P, holds "" p P /\ pop_in_bounds P /\ slopes_nonzero P.
Proof.
  split; [exact demo_split_ok|]. split; [exact demo_normal_ok|]. split; [reflexivity|].
  split; [apply (diag_pd 2 (fun i => 2 + INR i)); intros i _; pose proof (pos_INR i); lra|].
  destruct default_in_bounds as (P & U & _ & H2 & H3 & _). exists (pop_params P), P. exact (conj (holds_params P) (conj H2 H3)).
Qed.

(** C122: a population of centrals is the same whatever the satellite parameters, one of satellites whatever the central ones. *)
Theorem C122_population : forall (key : Type) split uniform mvn lmk N p p' P P' mah lgm upid mu mh gy (k : key) tarr lgt0 fb,
  holds "" p P -> holds "" p' P' -> same_but N P P' -> unused N upid ->
  mc_diffstar_sfh_galpop key split uniform mvn lmk p mah lgm upid mu mh gy k tarr lgt0 fb =
  mc_diffstar_sfh_galpop key split uniform mvn lmk p' mah lgm upid mu mh gy k tarr lgt0 fb.
Proof. exact population_unused. Qed.
Print Assumptions C122_population.

(** C122: so are the losses. *)
Theorem C122_mstar_loss : forall (key : Type) split uniform mvn lmk N U U' (d : MstarLossData key),
  same_but N U U' -> Forall (fun z => unused N (z_upid key z)) (ml_zs key d) ->
  loss_mstar key split uniform mvn lmk (pop_u_params U) d = loss_mstar key split uniform mvn lmk (pop_u_params U') d.
Proof. exact mstar_unused. Qed.
Print Assumptions C122_mstar_loss.

Theorem C122_ssfr_loss : forall (key : Type) split uniform mvn lmk N U U' (d : SsfrLossData key),
  same_but N U U' -> Forall (fun z => unused N (z_upid key z)) (sl_zs key d) ->
  loss_ssfr key split uniform mvn lmk (pop_u_params U) d = loss_ssfr key split uniform mvn lmk (pop_u_params U') d.
Proof. exact ssfr_unused. Qed.
Print Assumptions C122_ssfr_loss.

(** C122: and the returned gradient is zero for them, even on a kink of the floor or of the clip. *)
Theorem C122_mstar_gradient : forall (key : Type) split uniform normal lmk, splits_ok split -> normals_ok normal ->
  forall U P, get_bounded_diffstarpop_params (pop_u_params U) = Some (pop_params P) -> slopes_nonzero P ->
  forall N (d : MstarLossData key) fb v, mstar_data_ok key lmk d fb ->
  loss_mstar key split uniform (mvn_of normal) lmk (pop_u_params U) d = Some (Fin v) ->
  Forall (fun z => unused N (z_upid key z)) (ml_zs key d) ->
  exists g, length g = 88%nat /\ loss_mstar_kern_tobs_grad_wrapper key split normal lmk (flat U) d = Some (Fin v, map Fin g) /\
    forall i, (i < 88)%nat -> In (nth i pop_names ""%string) N -> nth i g 0 = 0.
Proof. exact mstar_gradient_unused. Qed.
Print Assumptions C122_mstar_gradient.

Theorem C122_ssfr_gradient : forall (key : Type) split uniform normal lmk, splits_ok split -> normals_ok normal ->
  forall U P, get_bounded_diffstarpop_params (pop_u_params U) = Some (pop_params P) -> slopes_nonzero P ->
  forall N (d : SsfrLossData key) fb v, ssfr_data_ok key lmk d fb ->
  loss_ssfr key split uniform (mvn_of normal) lmk (pop_u_params U) d = Some (Fin v) ->
  Forall (fun z => unused N (z_upid key z)) (sl_zs key d) ->
  exists g, length g = 88%nat /\ loss_mstar_ssfr_kern_tobs_grad_wrapper key split normal lmk (flat U) d = Some (Fin v, map Fin g) /\
    forall i, (i < 88)%nat -> In (nth i pop_names ""%string) N -> nth i g 0 = 0.
Proof. exact ssfr_gradient_unused. Qed.
Print Assumptions C122_ssfr_gradient.

Theorem C122_combined_gradient : forall (key : Type) split uniform normal lmk, splits_ok split -> normals_ok normal ->
  forall U P, get_bounded_diffstarpop_params (pop_u_params U) = Some (pop_params P) -> slopes_nonzero P ->
  forall N (dm : MstarLossData key) dc fb fb' v, mstar_data_ok key lmk dm fb -> ssfr_data_ok key lmk dc fb' ->
  loss_combined_kern key split uniform (mvn_of normal) lmk (pop_u_params U) dm dc = Some (Fin v) ->
  Forall (fun z => unused N (z_upid key z)) (ml_zs key dm ++ sl_zs key dc) ->
  exists g, length g = 88%nat /\ loss_combined_wrapper key split normal lmk (flat U) dm dc = Some (Fin v, map Fin g) /\
    forall i, (i < 88)%nat -> In (nth i pop_names ""%string) N -> nth i g 0 = 0.
Proof. exact combined_gradient_unused. Qed.
Print Assumptions C122_combined_gradient.

Theorem C122_combined_3loss_gradient : forall (key : Type) split uniform normal lmk, splits_ok split -> normals_ok normal ->
  forall U P, get_bounded_diffstarpop_params (pop_u_params U) = Some (pop_params P) -> slopes_nonzero P ->
  forall N (dm : MstarLossData key) dc ds fb fb' fb'' v, mstar_data_ok key lmk dm fb -> ssfr_data_ok key lmk dc fb' -> ssfr_data_ok key lmk ds fb'' ->
  loss_combined_3loss_kern key split uniform (mvn_of normal) lmk (pop_u_params U) dm dc ds = Some (Fin v) ->
  Forall (fun z => unused N (z_upid key z)) (ml_zs key dm ++ sl_zs key dc ++ sl_zs key ds) ->
  exists g, length g = 88%nat /\ loss_combined_3loss_wrapper key split normal lmk (flat U) dm dc ds = Some (Fin v, map Fin g) /\
    forall i, (i < 88)%nat -> In (nth i pop_names ""%string) N -> nth i g 0 = 0.
Proof. exact combined3_gradient_unused. Qed.
Print Assumptions C122_combined_3loss_gradient.

Example C122_hyp : forall N u, (N, u) = (satellite_names, -1)%Z \/ (N, u) = (central_names, 7)%Z ->
  same_but N (fun _ => 0) (fun n => if in_dec string_dec n N then 1 else 0) /\ unused N [u; u] /\ exists U P dm vm dc vc,
  get_bounded_diffstarpop_params (pop_u_params U) = Some (pop_params P) /\ slopes_nonzero P /\
  mstar_data_ok unit ex_lmk dm 10 /\ ssfr_data_ok unit ex_lmk dc 10 /\
  map (z_upid unit) (ml_zs unit dm) = [[u; u]] /\ map (z_upid unit) (sl_zs unit dc) = [[u; u]] /\
  loss_mstar unit demo_split demo_uniform (mvn_of demo_normal) ex_lmk (pop_u_params U) dm = Some (Fin vm) /\
  loss_ssfr unit demo_split demo_uniform (mvn_of demo_normal) ex_lmk (pop_u_params U) dc = Some (Fin vc) /\
  smooth_sfr unit demo_split demo_uniform (mvn_of demo_normal) ex_lmk (pop_params P) (ml_lgt0 unit dm) 10 (ml_zs unit dm) /\
  smooth_sfr unit demo_split demo_uniform (mvn_of demo_normal) ex_lmk (pop_params P) (sl_lgt0 unit dc) 10 (sl_zs unit dc) /\
  smooth_ssfr unit demo_split demo_uniform (mvn_of demo_normal) ex_lmk (pop_params P) (sl_lgt0 unit dc) 10 (sl_zs unit dc).
Proof.
  intros N u H. split; [intros n _ I; destruct (in_dec string_dec n N); [contradiction|reflexivity]|]. split; [|exact (demo_gradients (u, u))].
  destruct H as [H|H]; injection H as -> ->; [left|right]; split; try reflexivity; repeat constructor; intros E; discriminate E.
Qed.
