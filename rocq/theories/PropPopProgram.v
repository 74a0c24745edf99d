(** Properties of the population-fit program: C100-C102. *)
From Coq Require Import Reals Lra Lia ZArith List Bool String Ascii.
From Verif Require Import XReal ModelUtils ModelKernels ModelSfh ModelPop ModelPopTables ModelHist ModelFit ModelLoad ModelIO SpecLoad ModelTargets ModelPopFit ModelSmhmFit ModelPopProgram
  SpecCore SpecHist SpecPop SpecTargets SpecMeasure SpecPopFit SpecLossChain SpecPopProgram PopFitTop LossChainTop PopProgramProofs PopProgramTop PopProgramDemo.
Import List ListNotations.
Local Notation length := List.length (only parsing).
Open Scope R_scope.

(** C100: a path "diffstarfits..._NAME" starts from the published fit of that name, in its
    unbounded form. *)
Theorem C100_named : forall npz path name t, named_path path -> asked path name -> In (name, t) published -> exists P U,
  calibration t = Some (pop_params P) /\ pop_in_bounds P /\ slopes_nonzero P /\ start_params npz (Some path) = Some (flat U) /\
  get_bounded_diffstarpop_params (pop_u_params U) = Some (pop_params P).
Proof. exact start_named. Qed.
Print Assumptions C100_named.

(** C100: without a path the fit starts from the default parameters. *)
Theorem C100_default : forall npz, exists P U, DEFAULT_DIFFSTARPOP_PARAMS = Some (pop_params P) /\ pop_in_bounds P /\ slopes_nonzero P /\
  start_params npz None = Some (flat U) /\ get_bounded_diffstarpop_params (pop_u_params U) = Some (pop_params P).
Proof. exact start_default. Qed.
Print Assumptions C100_default.

(** C100: any other path is a file. *)
Theorem C100_file : forall npz path, ~ named_path path -> start_params npz (Some path) = npz path.
Proof. exact start_file. Qed.
Print Assumptions C100_file.

(** C100: exactly when there is no starting point. *)
Theorem C100_raises : forall npz path, start_params npz (Some path) = None <->
  named_path path /\ (forall name, In name (map fst published) -> ~ asked path name) \/ ~ named_path path /\ npz path = None.
Proof. exact start_raises. Qed.
Print Assumptions C100_raises.

Example C100_hyp : named_path "diffstarfits_tng" /\ asked "diffstarfits_tng" "tng" /\ asked "diffstarfits_smdpl_dr1" "smdpl_dr1" /\
  (exists t, In ("tng"%string, t) published) /\ ~ named_path "fits/diffstarfits_tng" /\
  (named_path "diffstarfits" /\ forall name, ~ asked "diffstarfits" name).
Proof.
  split; [exists "_tng"%string; reflexivity|]. split; [exists "diffstarfits"%string; split; [cbn; intuition discriminate|reflexivity]|].
  split; [exists "diffstarfits"%string; split; [cbn; intuition discriminate|reflexivity]|]. split; [eexists; cbn; tauto|].
  split; [intros (s & H); discriminate H|]. split; [exists ""%string; reflexivity|].
  intros name (w & _ & H). assert (I : In "_"%char (list_ascii_of_string "diffstarfits")).
  { rewrite H. rewrite list_ascii_app. apply in_or_app. right. now left. }
  cbn in I. intuition discriminate.
Qed.

(** C101: exactly when the program raises. *)
Theorem C101_raises : forall key split uniform mvn kern sing grads St opt_init opt_update get_params,
  (forall p, get_params (opt_init p) = p) -> forall ty dm dc ds f nhalos npz path n pl outdir outname,
  fit_program key split uniform mvn kern sing grads St opt_init opt_update get_params ty dm dc ds f nhalos npz path n pl outdir outname = None <->
  load_loss_data key split sing ty dm dc ds f nhalos = None \/ start_params npz path = None \/ (n <= 0)%Z \/ pl = 0%Z \/
  (exists d p0, load_loss_data key split sing ty dm dc ds f nhalos = Some d /\ start_params npz path = Some p0 /\
     forall r, loss_wrapper key split uniform mvn kern d p0 <> Some (Fin r)).
Proof. exact program_raises. Qed.
Print Assumptions C101_raises.

(** C101: what it saves otherwise: 88 finite unbounded values, their bounded values within
    the bounds, no worse than the start; all zeros when the first values or gradient are not
    finite. *)
Theorem C101_result : forall key split uniform mvn kern sing grads St opt_init opt_update get_params,
  (forall p, get_params (opt_init p) = p) -> forall ty dm dc ds f nhalos npz path n pl outdir outname s,
  fit_program key split uniform mvn kern sing grads St opt_init opt_update get_params ty dm dc ds f nhalos npz path n pl outdir outname = Some s ->
  let loss := loss_wrapper key split uniform mvn kern in
  exists d p0 r0 U P, load_loss_data key split sing ty dm dc ds f nhalos = Some d /\ start_params npz path = Some p0 /\ loss d p0 = Some (Fin r0) /\
    sv_path s = (path_join outdir outname ++ ".npz")%string /\ sv_u_params s = flat U /\ sv_params s = flat P /\ pop_in_bounds P /\
    get_bounded_diffstarpop_params (pop_u_params U) = Some (pop_params P) /\
    get_unbounded_diffstarpop_params (pop_params P) = Some (pop_u_params U) /\
    (all_finite p0 = true -> all_finite (grads d p0) = true ->
     exists r, loss d (flat U) = Some (Fin r) /\ r <= r0 /\ all_finite (grads d (flat U)) = true) /\
    (all_finite p0 = false \/ all_finite (grads d p0) = false -> forall x, U x = 0 \/ ~ In x pop_names).
Proof. exact program_result. Qed.
Print Assumptions C101_result.

(** C101: a fit restarted from a saved file on the same data runs and is no worse. *)
Theorem C101_restart : forall key split uniform mvn kern sing grads St opt_init opt_update get_params,
  (forall p, get_params (opt_init p) = p) -> forall ty dm dc ds f nhalos npz path n pl outdir outname s d p0 npz' n' pl' outdir' outname',
  let program := fit_program key split uniform mvn kern sing grads St opt_init opt_update get_params in
  let loss := loss_wrapper key split uniform mvn kern in
  program ty dm dc ds f nhalos npz path n pl outdir outname = Some s ->
  load_loss_data key split sing ty dm dc ds f nhalos = Some d -> start_params npz path = Some p0 -> all_finite p0 = true -> all_finite (grads d p0) = true ->
  ~ named_path (sv_path s) -> npz' (sv_path s) = Some (sv_u_params s) -> (0 < n')%Z -> pl' <> 0%Z ->
  exists s' r r', program ty dm dc ds f nhalos npz' (Some (sv_path s)) n' pl' outdir' outname' = Some s' /\
    loss d (sv_u_params s) = Some (Fin r) /\ loss d (sv_u_params s') = Some (Fin r') /\ r' <= r.
Proof. exact program_restart. Qed.
Print Assumptions C101_restart.

(** C101: not so for a file saved in the working directory under a name "diffstarfits...":
    the program takes it for a published fit and raises, whatever the file holds. *)
Theorem C101_own_name_refuted : forall key split uniform mvn kern sing grads St opt_init opt_update get_params,
  (forall p, get_params (opt_init p) = p) -> forall ty dm dc ds f nhalos npz outname n pl outdir' outname', named_path outname ->
  fit_program key split uniform mvn kern sing grads St opt_init opt_update get_params ty dm dc ds f nhalos npz (Some (path_join "" outname ++ ".npz")%string) n pl outdir' outname' = None.
Proof. exact program_own. Qed.
Print Assumptions C101_own_name_refuted.

(** A fit that runs: its files hold 120 galaxies in one cell. *)
Example C101_hyp : exists Em s, increasing Em /\ (2 <= length Em)%nat /\
  fit_program unit the_split exr_uniform exr_mvn exr_kern the_mah (fun _ p => map (fun _ => Fin 0) p) (list xr) (fun p => p) (fun _ _ p => p) (fun p => p)
    "mstar" exr_draws exr_draws exr_draws (measured (exr_final Em) exl_E Em exl_Es) 1 (fun _ => None) None 200 10 "out" "fit" = Some s /\
  sv_path s = "out/fit.npz"%string /\ ~ named_path (sv_path s).
Proof.
  destruct (exr_runs exr_mvn exr_mvn_ok (fun _ p => map (fun _ => Fin 0) p) (list xr) (fun p => p) (fun _ _ p => p) (fun p => p) (fun p => eq_refl) (fun _ => None) 200 10 "out" "fit" eq_refl ltac:(discriminate))
    as (Em & s & I & L & H).
  exists Em, s. split; [exact I|]. split; [exact L|]. split; [exact H|]. destruct (program_result _ _ _ _ _ _ _ _ _ _ _ (fun p => eq_refl) _ _ _ _ _ _ _ _ _ _ _ _ _ H) as (_ & _ & _ & _ & _ & _ & _ & _ & -> & _).
  split; [reflexivity|]. intros (x & X). discriminate X.
Qed.

(** C102: the stellar-mass fit of measured galaxies, from any starting point with nonzero
    slopes.  It raises exactly for no steps, a zero print interval, no cell with 50 sampled
    galaxies, a used cell without counts, or simulated galaxies all further than three bin
    widths from the stellar-mass bins. *)
Theorem C102_mass_runs : forall k hm q up Gs cen sat M S F T ids zs E Em Es f,
  final_tables k hm q up Gs cen sat M S F T ids zs E Em Es f ->
  (2 <= length E)%nat -> (2 <= length Em)%nat -> (2 <= length Es)%nat -> increasing Em -> increasing Es -> kinds_agree Gs cen sat up ->
  forall key split uniform mvn sing kern, timewise sing kern -> splits_ok split -> mvn_ok mvn ->
  forall (dm dc ds : Draws key), draws_ok (dr_choice key dm) -> (forall g, In g (List.concat Gs) -> has_history kern (log10R (138 / 10)) hm T ids g) ->
  forall nhalos grads St opt_init opt_update get_params, (forall p, get_params (opt_init p) = p) ->
  forall npz path U0 P0 n pl outdir outname, start_params npz path = Some (flat U0) ->
  get_bounded_diffstarpop_params (pop_u_params U0) = Some (pop_params P0) -> pop_in_bounds P0 -> slopes_nonzero P0 ->
  exists d samples, load_loss_data key split sing "mstar"%string dm dc ds (measured f E Em Es) nhalos = Some (DataM key d) /\
    Forall2 (fun z X => exists n tobs Y W, sim_ok kern (Fin (log10R (138 / 10))) n tobs z /\
      sample key split uniform mvn kern (pop_params P0) z (Fin (log10R (138 / 10))) (156 / 1000) tobs n X Y W) (ml_zs key d) samples /\
    (fit_program key split uniform mvn kern sing grads St opt_init opt_update get_params "mstar"%string dm dc ds (measured f E Em Es) nhalos npz path n pl outdir outname = None <->
     (n <= 0)%Z \/ pl = 0%Z \/ fit_cells k M E ids Gs = [] \/
     (exists c, In c (fit_cells k M E ids Gs) /\ total (length Em - 1) (mass_dist All up M S F E Em Es ids (List.concat Gs) (fst c) (snd c)) = 0) \/
     exists X, In X samples /\ ~ reaches Em X).
Proof. exact mass_runs. Qed.
Print Assumptions C102_mass_runs.

(** C102: where a fit with sSFR runs, the stellar-mass fit does. *)
Theorem C102_any_runs : forall k hm q up Gs cen sat M S F T ids zs E Em Es f,
  final_tables k hm q up Gs cen sat M S F T ids zs E Em Es f ->
  (2 <= length E)%nat -> (2 <= length Em)%nat -> (2 <= length Es)%nat -> increasing Em -> increasing Es -> kinds_agree Gs cen sat up ->
  forall key split uniform mvn sing kern, timewise sing kern -> splits_ok split -> mvn_ok mvn ->
  forall (dm dc ds : Draws key), draws_ok (dr_choice key dm) -> (forall g, In g (List.concat Gs) -> has_history kern (log10R (138 / 10)) hm T ids g) ->
  forall nhalos grads St opt_init opt_update get_params, (forall p, get_params (opt_init p) = p) ->
  forall ty npz path U0 P0 n pl outdir outname s, start_params npz path = Some (flat U0) ->
  get_bounded_diffstarpop_params (pop_u_params U0) = Some (pop_params P0) -> pop_in_bounds P0 -> slopes_nonzero P0 ->
  let program := fit_program key split uniform mvn kern sing grads St opt_init opt_update get_params in
  program ty dm dc ds (measured f E Em Es) nhalos npz path n pl outdir outname = Some s ->
  exists s', program "mstar"%string dm dc ds (measured f E Em Es) nhalos npz path n pl outdir outname = Some s'.
Proof. exact any_runs. Qed.
Print Assumptions C102_any_runs.

(** C102: with a used cell whose galaxies all lie on its lower edge, no fit of any kind runs. *)
Theorem C102_edge_galaxies_refuted : forall k hm q up Gs cen sat M S F T ids zs E Em Es f,
  final_tables k hm q up Gs cen sat M S F T ids zs E Em Es f ->
  (2 <= length E)%nat -> (2 <= length Em)%nat -> (2 <= length Es)%nat -> increasing Em -> increasing Es -> kinds_agree Gs cen sat up ->
  forall key split uniform mvn sing kern, timewise sing kern -> splits_ok split -> mvn_ok mvn ->
  forall (dm dc ds : Draws key), draws_ok (dr_choice key dm) -> (forall g, In g (List.concat Gs) -> has_history kern (log10R (138 / 10)) hm T ids g) ->
  forall nhalos grads St opt_init opt_update get_params, (forall p, get_params (opt_init p) = p) ->
  forall ty npz path n pl outdir outname i j, (i < length ids)%nat -> (j < length E - 1)%nat ->
  (50 <= kept k M E ids Gs i j)%nat -> (forall g, In g (List.concat Gs) -> interior E j (at_t ids M i g) = false) ->
  fit_program key split uniform mvn kern sing grads St opt_init opt_update get_params ty dm dc ds (measured f E Em Es) nhalos npz path n pl outdir outname = None.
Proof. exact edge_raises. Qed.
Print Assumptions C102_edge_galaxies_refuted.

Example C102_hyp : timewise the_mah exr_kern /\ splits_ok the_split /\ mvn_ok exr_mvn /\ draws_ok (dr_choice unit exr_draws) /\
  (forall g, In g (List.concat [exl_G]) -> has_history exr_kern (log10R (138 / 10)) exl_hm [138 / 10] exl_ids g) /\
  (forall Em, final_tables 1000 exl_hm exl_q exl_up [exl_G] exl_cen exl_sat exr_M exl_S exl_F [138 / 10] exl_ids [0] exl_E Em exl_Es (exr_final Em)) /\
  fit_cells 1000 exr_M exl_E exl_ids [exl_G] = [(0, 0)%nat] /\ kinds_agree [exl_G] exl_cen exl_sat exl_up /\
  (final_tables 1000 exl_hm exl_q exl_up [exl_G] exl_cen exl_sat (exl_M 11) exl_S exl_F [138 / 10] exl_ids [0] exl_E exl_Em exl_Es (exl_final 11) /\
   kept 1000 (exl_M 11) exl_E exl_ids [exl_G] 0 0 = 120%nat /\ forall g, In g (List.concat [exl_G]) -> interior exl_E 0 (at_t exl_ids (exl_M 11) 0 g) = false).
Proof.
  split; [exact the_mah_ok|]. split; [exact the_split_ok|]. split; [exact exr_mvn_ok|]. split; [exact the_choice_ok|]. split; [intros g _; apply exr_history|].
  split; [exact exr_tables|]. split; [exact exr_cells|]. split; [exact exl_kinds|]. split; [apply exl_tables; lra|]. split; [apply exl_kept; lra|exact exl_edge].
Qed.
