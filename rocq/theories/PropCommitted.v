(** Properties of the programs that call [calc_sfh_galpop] without its baryon fraction: C119. *)
From Coq Require Import Reals ZArith List Bool String.
From Verif Require Import XReal ModelUtils ModelKernels ModelSfh ModelLoad ModelIO ModelTargets ModelQuality ModelSubvol
  TargetTopProofs MeasureTopProofs CommittedProofs.
Import List ListNotations.
Open Scope R_scope.

(** C119: as committed, loading the fitted histories of SMDPL or Galacticus raises, whatever the
    files hold. *)
Theorem C119_smdpl_loading_refuted : forall kern sing dm ds lgt0, load_diffstar_sfh_tables_smdpl GALPOP_FB kern sing dm ds lgt0 = None.
Proof. exact smdpl_loading_raises. Qed.
Print Assumptions C119_smdpl_loading_refuted.
Theorem C119_galacticus_loading_refuted : forall kern sing dm ds lgt0, load_diffstar_sfh_tables_galacticus GALPOP_FB kern sing dm ds lgt0 = None.
Proof. exact galacticus_loading_raises. Qed.
Print Assumptions C119_galacticus_loading_refuted.

(** C119: so the SMDPL measuring program writes no table, whatever the directories hold ... *)
Theorem C119_smdpl_measuring_refuted : forall kern sing age choice upid sim_name dmdir dsdir nmax zs nranks,
  measure_smdpl GALPOP_FB kern sing age choice upid sim_name dmdir dsdir nmax zs nranks = None.
Proof. exact smdpl_measuring_raises. Qed.
Print Assumptions C119_smdpl_measuring_refuted.
(** ... nor does the Galacticus one ... *)
Theorem C119_galacticus_measuring_refuted : forall kern sing age (choice : nat -> nat -> nat -> list nat -> nat -> bool -> list nat) dm ds is_cen zs lgt0 nz nm nms nsf nranks,
  galacticus_measure_script (fun r => galacticus_catalog GALPOP_FB kern sing age (choice r) dm ds is_cen zs lgt0) nz nm nms nsf nranks = None.
Proof. exact galacticus_measuring_raises. Qed.
Print Assumptions C119_galacticus_measuring_refuted.
(** ... and of the comparisons of histories only that of TNG can succeed. *)
Theorem C119_comparisons_refuted : forall kern sing,
  (forall files data t E, calculate_plot_smdpl_nomerging GALPOP_FB kern sing files data t E = None) /\
  (forall dmdir dsdir data t E, quality_dr1 GALPOP_FB kern sing dmdir dsdir data t E = None) /\
  (forall dm0 dm ds sfrh t E, calculate_plot_galcus GALPOP_FB kern sing dm0 dm ds sfrh t E = None).
Proof. exact quality_raises. Qed.
Print Assumptions C119_comparisons_refuted.

(** Given the argument, the Galacticus program writes its tables from the files of three
    galaxies. *)
Example C119_supplied : exists f, galacticus_measure_script (fun r => galacticus_catalog (Some FB) ex_kern ex_sing ex_age (ex_choice)
    (ex_dm [5; 8; 60]%nat) (ex_ds [5; 8; 60]%nat) (map (fun g => if Nat.even g then 1%Z else 0%Z) [5; 8; 60]%nat) (map Fin [0; 1]) (Fin 2)) 2 11 25 29 3 = Some f.
Proof. exact ex_supplied. Qed.
