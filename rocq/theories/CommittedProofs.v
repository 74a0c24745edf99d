(** The programs that leave out [fb] when they call [calc_sfh_galpop]. *)
From Coq Require Import Reals Lra Lia ZArith List Bool String.
From Verif Require Import XReal ModelUtils ModelKernels ModelSfh ModelPop ModelHist ModelFit ModelLoad ModelIO ModelTargets ModelQuality ModelSubvol
  SpecCore SpecHist SpecLoad SpecTargets SpecMeasure MeasureTopProofs QualityTopProofs SubvolTopProofs TargetTopProofs.
Import List ListNotations.
Open Scope R_scope.
Local Notation length := List.length.

Lemma sfh_tables_none kern sing mah sfh lgt0 : sfh_tables kern sing mah sfh lgt0 None = None.
Proof. unfold sfh_tables. cbv zeta. destruct (mah_halopop _ _ _ _) as [[? ?]|]; reflexivity. Qed.
Lemma select_tables_none kern sing b mah sfh lgt0 : select_tables kern sing b mah sfh lgt0 None = None.
Proof.
  unfold select_tables. destruct (mask_mah b mah); [|reflexivity]. destruct (vmap (mask b) sfh); [|reflexivity].
  destruct (ds_make _); [|reflexivity]. rewrite sfh_tables_none. reflexivity.
Qed.
Theorem smdpl_loading_raises : forall kern sing dm ds lgt0, load_diffstar_sfh_tables_smdpl GALPOP_FB kern sing dm ds lgt0 = None.
Proof.
  intros kern sing dm ds lgt0. unfold load_diffstar_sfh_tables_smdpl, GALPOP_FB.
  destruct (col1 "loss" dm); [|reflexivity]. destruct (col1 "success" ds); [|reflexivity].
  destruct (hdf_mah dm); [|reflexivity]. destruct (hdf_sfh ds); [|reflexivity].
  destruct (and_mask _ _); [|reflexivity]. apply select_tables_none.
Qed.
Theorem galacticus_loading_raises : forall kern sing dm ds lgt0, load_diffstar_sfh_tables_galacticus GALPOP_FB kern sing dm ds lgt0 = None.
Proof.
  intros kern sing dm ds lgt0. unfold load_diffstar_sfh_tables_galacticus, load_fitted_tables, GALPOP_FB.
  destruct (col1 "loss" dm); [|reflexivity]. destruct (col1 "loss" ds); [|reflexivity]. destruct (col1 "success" ds); [|reflexivity].
  destruct (hdf_mah dm); [|reflexivity]. destruct (hdf_sfh ds); [|reflexivity].
  destruct (and_mask _ _); [|reflexivity]. destruct (and_mask _ _); [|reflexivity]. apply select_tables_none.
Qed.

Theorem smdpl_measuring_raises : forall kern sing age choice upid sim_name dmdir dsdir nmax zs nranks,
  measure_smdpl GALPOP_FB kern sing age choice upid sim_name dmdir dsdir nmax zs nranks = None.
Proof.
  intros. unfold measure_smdpl. destruct (list_subvols _ _) as [V|]; [|reflexivity]. cbv zeta. apply smdpl_script_none.
  destruct V as [|v V]; [left; reflexivity|right]. exists v. split; [left; reflexivity|]. intros o.
  destruct (load_diffstar_subvolume _ _ _ _ _) as [dm ds| |]; [|discriminate|discriminate].
  unfold smdpl_subvol. rewrite smdpl_loading_raises. discriminate.
Qed.
Theorem galacticus_measuring_raises : forall kern sing age (choice : nat -> nat -> nat -> list nat -> nat -> bool -> list nat) dm ds is_cen zs lgt0 nz nm nms nsf nranks,
  galacticus_measure_script (fun r => galacticus_catalog GALPOP_FB kern sing age (choice r) dm ds is_cen zs lgt0) nz nm nms nsf nranks = None.
Proof.
  intros. unfold galacticus_measure_script. destruct nranks as [|n]; [reflexivity|]. cbn [seq vmap map sequence].
  unfold vmap. cbn [map sequence]. unfold galacticus_catalog at 1. rewrite galacticus_loading_raises. reflexivity.
Qed.
Theorem quality_raises : forall kern sing,
  (forall files data t E, calculate_plot_smdpl_nomerging GALPOP_FB kern sing files data t E = None) /\
  (forall dmdir dsdir data t E, quality_dr1 GALPOP_FB kern sing dmdir dsdir data t E = None) /\
  (forall dm0 dm ds sfrh t E, calculate_plot_galcus GALPOP_FB kern sing dm0 dm ds sfrh t E = None).
Proof.
  intros kern sing.
  assert (Q : forall files data t E V, quality_smdpl (smdpl_tables GALPOP_FB kern sing files) (smdpl_sim data t) E V = None).
  { intros files data t E V. unfold quality_smdpl. destruct V as [|v V]; [reflexivity|].
    rewrite (loop_missing _ _ _ _ _ _ v); [reflexivity|left; reflexivity|]. left. unfold smdpl_tables.
    destruct (files v) as [[dm ds]|]; [|reflexivity]. apply smdpl_loading_raises. }
  split; [|split].
  - intros. apply Q.
  - intros. unfold quality_dr1. destruct (list_subvols _ _); [|reflexivity]. cbv zeta. apply Q.
  - intros. unfold calculate_plot_galcus. destruct (cumulative_mstar_formed_galpop _ _); [|reflexivity]. destruct (hdf_mah _); [|reflexivity].
    destruct (mah_halopop _ _ _ _) as [[? ?]|]; [|reflexivity]. rewrite galacticus_loading_raises. reflexivity.
Qed.

(** What the same program does when the argument is given *)
Lemma ex_supplied : exists f, galacticus_measure_script (fun r => galacticus_catalog (Some FB) ex_kern ex_sing ex_age (ex_choice)
    (ex_dm [5; 8; 60]%nat) (ex_ds [5; 8; 60]%nat) (map (fun g => if Nat.even g then 1%Z else 0%Z) [5; 8; 60]%nat) (map Fin [0; 1]) (Fin 2)) 2 11 25 29 3 = Some f.
Proof.
  destruct (ex_smdpl _ eq_refl) as (SU & CH & _). destruct (ex_galacticus _ eq_refl) as (C1 & C2 & GG & NE).
  assert (NI : NoDup [5; 8; 60]%nat) by (repeat constructor; cbn; lia).
  destruct (galacticus_final _ _ _ _ _ _ _ _ SU ex_hm ex_q _ _ _ (fun _ => ex_choice) (ex_dm [5; 8; 60]%nat) (ex_ds [5; 8; 60]%nat) [5; 8; 60]%nat ex_loss ex_loss ex_flag
    (fun g => if Nat.even g then 1%Z else 0%Z) 3 CH ltac:(lia) NI (ex_fit_files _) ltac:(reflexivity) GG C1 C2 NE) as (f & S & F & E & _).
  exists f. exact E.
Qed.
