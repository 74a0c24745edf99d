(** Properties of the population fits' data from the measured galaxies: C98-C99. *)
From Coq Require Import Reals Lra Lia ZArith List Bool String.
From Verif Require Import XReal ModelUtils ModelKernels ModelSfh ModelPop ModelHist ModelFit ModelLoad ModelIO SpecLoad ModelTargets ModelPopFit ModelSmhmFit ModelSubvol
  SpecCore SpecHist SpecTargets SpecMeasure SpecPopFit SpecLossChain SpecSubvol MeasureTopProofs SubvolTopProofs PopFitTop LossChainTop.
Import List ListNotations.
Local Notation length := List.length (only parsing).
Local Notation part := SpecMeasure.part.
Local Notation good := SpecMeasure.good.
Open Scope R_scope.

(** C98: the stellar-mass fits' data in terms of the measured galaxies: which cells are used,
    of which galaxies the simulated populations are made, and the target distributions. *)
Theorem C98_mass_data : forall k hm q up Gs cen sat M S F T ids zs E Em Es f,
  final_tables k hm q up Gs cen sat M S F T ids zs E Em Es f ->
  (2 <= length E)%nat -> (2 <= length Em)%nat -> (2 <= length Es)%nat -> increasing Em -> increasing Es -> kinds_agree Gs cen sat up ->
  forall key split sing kern choice, timewise sing kern -> draws_ok choice -> (forall (k : key) n, length (split k n) = n) ->
  forall kd nhalos lgt0 fb rk, exists d U,
  mstar_data key split sing choice kd (measured f E Em Es) nhalos (Fin lgt0) fb rk = Some d /\ ml_lgt0 key d = Fin lgt0 /\ ml_fb key d = fb /\
  mass_fit_data kern hm up k Gs M S F T ids E Em Es kd nhalos lgt0 (split rk (length U)) U d.
Proof. exact mass_chain. Qed.
Print Assumptions C98_mass_data.

(** C98: the same of the two sSFR fits. *)
Theorem C98_ssfr_data : forall k hm q up Gs cen sat M S F T ids zs E Em Es f,
  final_tables k hm q up Gs cen sat M S F T ids zs E Em Es f ->
  (2 <= length E)%nat -> (2 <= length Em)%nat -> (2 <= length Es)%nat -> increasing Em -> increasing Es -> kinds_agree Gs cen sat up ->
  forall key split sing kern choice, timewise sing kern -> draws_ok choice -> (forall (k : key) n, length (split k n) = n) ->
  forall (b : bool) nhalos lgt0 fb rk, let kd := if b then Sat else Cen in
  (0 < length ids)%nat -> (20 <= length Em - 1)%nat -> (forall i, (i < length ids)%nat -> used_bins kd (f_haloes f) (length E - 1) i <> []) -> exists d U,
  ssfr_data key split sing choice b (measured f E Em Es) nhalos (Fin lgt0) fb rk = Some d /\ sl_lgt0 key d = Fin lgt0 /\ sl_fb key d = fb /\
  s_mbins (sl_data key d) = map Fin Em /\ s_sbins (sl_data key d) = map Fin Es /\ s_ids (sl_data key d) = fitted_bins /\
  ssfr_fit_data kern hm up k Gs M S F T ids E Em Es kd nhalos lgt0 (split rk (length U)) U d.
Proof. exact ssfr_chain. Qed.
Print Assumptions C98_ssfr_data.

(** C98: a cell is used by the galaxies in its mass bin with the lower edge, the target
    counts those strictly inside.  With all of them on the edge the loss is NaN for every
    parameter. *)
Theorem C98_edge_galaxies_refuted : forall k hm q up Gs cen sat M S F T ids zs E Em Es f,
  final_tables k hm q up Gs cen sat M S F T ids zs E Em Es f ->
  (2 <= length E)%nat -> (2 <= length Em)%nat -> (2 <= length Es)%nat -> increasing Em -> increasing Es -> kinds_agree Gs cen sat up ->
  forall key split sing kern choice, timewise sing kern -> draws_ok choice -> (forall (k : key) n, length (split k n) = n) ->
  forall nhalos lgt0 fb rk d i j jran_split uniform mvn u v,
  mstar_data key split sing choice All (measured f E Em Es) nhalos (Fin lgt0) fb rk = Some d -> (i < length ids)%nat -> (j < length E - 1)%nat ->
  (50 <= kept k M E ids Gs i j)%nat -> (forall g, In g (List.concat Gs) -> interior E j (at_t ids M i g) = false) ->
  loss_mstar key jran_split uniform mvn kern u d = Some v -> v = NaN.
Proof. exact edge_nan. Qed.
Print Assumptions C98_edge_galaxies_refuted.

Example C98_hyp : timewise the_mah (fun _ _ _ => Fin 12) /\ draws_ok the_choice /\ (forall k n, length (the_split k n) = n) /\
  (forall x, 11 <= x < 12 ->
     final_tables 1000 exl_hm exl_q exl_up [exl_G] exl_cen exl_sat (exl_M x) exl_S exl_F [138 / 10] exl_ids [0] exl_E exl_Em exl_Es (exl_final x) /\
     kept 1000 (exl_M x) exl_E exl_ids [exl_G] 0 0 = 120%nat) /\
  kinds_agree [exl_G] exl_cen exl_sat exl_up /\
  ((2 <= length exl_E)%nat /\ (2 <= length exl_Em)%nat /\ (2 <= length exl_Es)%nat /\ increasing exl_Em /\ increasing exl_Es /\ (20 <= length exl_Em - 1)%nat) /\
  (In 0%nat (List.concat [exl_G]) /\ of_kind Cen (exl_up 0) = true /\ interior exl_E 0 (at_t exl_ids (exl_M (23 / 2)) 0 0) = true /\
   hd 0 exl_Em < at_t exl_ids exl_S 0 0 < last exl_Em 0 /\ hd 0 exl_Es < Rmax (at_t exl_ids exl_F 0 0) (-12) < last exl_Es 0) /\
  (used_bins Cen exl_haloes 2 0 = [0%nat] /\ used_bins Sat exl_haloes 2 0 = [0%nat]) /\
  (forall g, In g (List.concat [exl_G]) -> interior exl_E 0 (at_t exl_ids (exl_M 11) 0 g) = false).
Proof.
  split; [exact the_mah_ok|]. split; [exact the_choice_ok|]. split; [exact the_split_ok|].
  split; [intros x Hx; split; [exact (exl_tables x Hx)|exact (exl_kept x Hx)]|]. split; [exact exl_kinds|]. split; [exact exl_sizes|].
  split; [exact exl_inside|]. split; [exact exl_used|exact exl_edge].
Qed.

(** C99: the data of the fits of the mean stellar mass, in terms of the measured galaxies. *)
Theorem C99_mean_data : forall k hm q up Gs cen sat M S F T ids zs E Em Es f,
  final_tables k hm q up Gs cen sat M S F T ids zs E Em Es f ->
  (2 <= length E)%nat -> (2 <= length Em)%nat -> (2 <= length Es)%nat -> increasing Em -> increasing Es -> kinds_agree Gs cen sat up ->
  forall key split sing kern choice, timewise sing kern -> draws_ok choice -> (forall (k : key) n, length (split k n) = n) ->
  forall nhalos lgt0 rk, (0 < nhalos)%nat -> exists d U,
  get_loss_data_smhm key split sing choice (measured f E Em Es) nhalos (Fin lgt0) rk = Some d /\ sd_keys key d = split rk (length U) /\
  mean_fit_data kern hm up k Gs M S T ids E nhalos lgt0 U d.
Proof. exact mean_chain. Qed.
Print Assumptions C99_mean_data.

(** C99: from the directories of an SMDPL run to the data of all the fits. *)
Theorem C99_smdpl : forall key split sing kern draw, timewise sing kern -> draws_ok draw -> (forall (k : key) n, length (split k n) = n) ->
  forall age A T zs ids, setup age A (log10R (138 / 10)) T zs ids ->
  forall hm q p h M (choice : nat -> nat -> nat -> list nat -> nat -> bool -> list nat) (dm ds : nat -> hdf) (I : nat -> list nat) lm su up nmax nranks
    sim_name dmdir dsdir V nm,
  (forall v, choice_ok (choice v)) -> V <> [] -> (0 < nranks)%nat -> ascending V -> regular V nm ->
  holds "diffstar_fits_subvol_" ".hdf5" dsdir V nm ds -> beside sim_name dmdir V nm dm ->
  let G v := filter (fun g => above0 (lm g) && is1 (su g)) (I v) in
  (forall v, In v V -> (v < nmax)%nat /\ NoDup (I v) /\ fit_files (dm v) (ds v) (I v) lm su hm q /\ (forall g, In g (G v) -> good kern sing T hm q p h M g) /\
     (exists g, In g (G v) /\ up g = (-1)%Z) /\ (exists g, In g (G v) /\ up g <> (-1)%Z)) ->
  exists f used S F, measure_smdpl (Some FB) kern sing age choice (fun v => map up (I v)) sim_name dmdir dsdir nmax (map Fin zs) nranks = Some (f, used) /\
    (forall v g, In v V -> In g (G v) -> galaxy_is kern sing T (hm g) (q g) (M g) (S g) (F g)) /\
    fits_fed split sing kern draw hm up (20000 / length V) (map G V) M S F T ids (evenly 11 (1475 / 100) 12) (evenly 7 13 26) (evenly (-13) (-8) 30) f.
Proof. exact smdpl_fed. Qed.
Print Assumptions C99_smdpl.

(** C99: from the two files of a TNG run to the data of all the fits. *)
Theorem C99_tng : forall key split sing kern draw, timewise sing kern -> draws_ok draw -> (forall (k : key) n, length (split k n) = n) ->
  forall age A lgt0 T zs ids, setup age A lgt0 T zs ids ->
  forall hm q p h M (choice : nat -> nat -> nat -> list nat -> nat -> bool -> list nat) dm ds N lm ls su c,
  (forall r, choice_ok (choice r)) -> fit_files dm ds (seq 0 N) lm su hm q -> lookup "loss" ds = Some (D1 (map ls (seq 0 N))) ->
  all_rows N dm -> all_rows N ds ->
  let sel g := above0 (lm g) && above0 (ls g) && is1 (su g) in
  (forall g, (g < N)%nat -> sel g = true -> good kern sing T hm q p h M g /\ (c g = 1%Z \/ c g = 0%Z)) ->
  (forall r, (r < 20)%nat -> (exists g, In g (part N 20 r) /\ sel g = true /\ c g = 1%Z) /\ (exists g, In g (part N 20 r) /\ sel g = true /\ c g = 0%Z)) ->
  exists f S F, tng_measure_script (fun r => tng_chunk kern sing age (choice r) dm ds (map c (seq 0 N)) r (map Fin zs) (Fin lgt0)) (length zs) 11 25 29 20 = Some f /\
    (forall g, (g < N)%nat -> sel g = true -> galaxy_is kern sing T (hm g) (q g) (M g) (S g) (F g)) /\
    fits_fed split sing kern draw hm (fun g => if (c g =? 1)%Z then (-1)%Z else c g) 1000 (map (fun r => filter sel (part N 20 r)) (seq 0 20)) M S F T ids
      (evenly 11 (1475 / 100) 12) (evenly 7 13 26) (evenly (-13) (-8) 30) f.
Proof. exact tng_fed. Qed.
Print Assumptions C99_tng.

(** C99: from the two files of a Galacticus run to the data of all the fits. *)
Theorem C99_galacticus : forall key split sing kern draw, timewise sing kern -> draws_ok draw -> (forall (k : key) n, length (split k n) = n) ->
  forall age A lgt0 T zs ids, setup age A lgt0 T zs ids ->
  forall hm q p h M (choice : nat -> nat -> nat -> list nat -> nat -> bool -> list nat) dm ds I lm ls su c nranks,
  (forall r, choice_ok (choice r)) -> (0 < nranks)%nat -> NoDup I -> fit_files dm ds I lm su hm q -> lookup "loss" ds = Some (D1 (map ls I)) ->
  let G := filter (fun g => above0 (lm g) && above0 (ls g) && is1 (su g)) I in
  (forall g, In g G -> good kern sing T hm q p h M g /\ (c g = 1%Z \/ c g = 0%Z)) -> (exists g, In g G /\ c g = 1%Z) -> (exists g, In g G /\ c g = 0%Z) ->
  (forall t, In t ids -> exists j g, (j < 11)%nat /\ In g G /\ half_open (evenly 11 (145 / 10) 12) j (nth t (M g) 0) = true) ->
  exists f S F, galacticus_measure_script (fun r => galacticus_catalog (Some FB) kern sing age (choice r) dm ds (map c I) (map Fin zs) (Fin lgt0)) (length zs) 11 25 29 nranks = Some f /\
    (forall g, In g G -> galaxy_is kern sing T (hm g) (q g) (M g) (S g) (F g)) /\
    fits_fed split sing kern draw hm (fun g => if (c g =? 1)%Z then (-1)%Z else c g) 20000 [G] M S F T ids
      (evenly 11 (145 / 10) 12) (evenly 7 13 26) (evenly (-13) (-8) 30) f.
Proof. exact galacticus_fed. Qed.
Print Assumptions C99_galacticus.

(** The hypotheses are those of C96, C86 and C87 with halo histories computed time by time. *)
Example C99_hyp : timewise ex_sing ex_kern /\ draws_ok the_choice /\ (forall k n, length (the_split k n) = n) /\
  (forall g : nat, let c g := if Nat.even g then 1%Z else 0%Z in c g = 1%Z \/ c g = 0%Z) /\ kept 1000 (exl_M 11) exl_E exl_ids [exl_G] 0 0 = 120%nat.
Proof.
  split; [intros p ts lgt0; reflexivity|]. split; [exact the_choice_ok|]. split; [exact the_split_ok|].
  split; [intros g c; unfold c; destruct (Nat.even g); [now left|now right]|]. apply exl_kept. lra.
Qed.
