(** Properties of the population targets: C74-C79. *)
From Coq Require Import Reals Lra Lia ZArith List Bool.
From Verif Require Import XReal ModelUtils ModelKernels ModelSfh ModelPop ModelHist ModelLoad ModelIO SpecLoad ModelTargets SpecCore SpecHist SpecTargets
  SnapshotProofs TargetProofs TargetDataProofs TargetTopProofs TightTargets.
Import List ListNotations.
Open Scope R_scope.

(** C74: every target redshift gets the first table time that is not before its age, the age
    being read off straight lines between 2000 tabulated redshifts. *)
Theorem C74_snapshot : forall age A, (forall z, 0 <= z <= 10 -> age (Fin z) = Fin (A z)) ->
  (forall z z', 0 <= z < z' -> z' <= 10 -> A z' < A z) ->
  forall T zs, increasing T -> (2 <= length T)%nat -> hd 0 T < A 0 -> A 10 < last T 0 -> Forall (fun z => 0 <= z < 10) zs ->
  exists ids, return_target_redshift_index age (map Fin T) (map Fin zs) = Some ids /\
    Forall2 (fun z n => exists a, age_at A z a /\ n = count (below a) T) zs ids.
Proof. exact snapshot. Qed.
Print Assumptions C74_snapshot.

Theorem C74_first_not_before : forall age A, (forall z, 0 <= z <= 10 -> age (Fin z) = Fin (A z)) ->
  (forall z z', 0 <= z < z' -> z' <= 10 -> A z' < A z) ->
  forall T zs, increasing T -> (2 <= length T)%nat -> hd 0 T < A 0 -> A 10 < last T 0 -> Forall (fun z => 0 <= z < 10) zs ->
  exists ids, return_target_redshift_index age (map Fin T) (map Fin zs) = Some ids /\
    Forall2 (fun z n => exists a, age_at A z a /\ (n <= length T)%nat /\
      (forall i, (i < n)%nat -> nth i T 0 < a) /\ (forall i, (n <= i < length T)%nat -> a <= nth i T 0)) zs ids.
Proof. exact snapshot_first. Qed.
Print Assumptions C74_first_not_before.

Theorem C74_age_error : forall age A, (forall z, 0 <= z <= 10 -> age (Fin z) = Fin (A z)) ->
  (forall z z', 0 <= z < z' -> z' <= 10 -> A z' < A z) ->
  forall T zs, increasing T -> (2 <= length T)%nat -> hd 0 T < A 0 -> A 10 < last T 0 -> Forall (fun z => 0 <= z < 10) zs ->
  exists ids, return_target_redshift_index age (map Fin T) (map Fin zs) = Some ids /\
    Forall2 (fun z n => exists lo hi, lo <= z < hi /\ hi - lo = 10 / 1999 /\ 0 <= lo /\ hi <= 10 /\
      (forall i, (i < n)%nat -> nth i T 0 < A lo) /\ (forall i, (n <= i < length T)%nat -> A hi < nth i T 0)) zs ids.
Proof. exact snapshot_age. Qed.
Print Assumptions C74_age_error.

(** C74: redshifts of 10 and above all get the first table time. *)
Theorem C74_high_redshift : forall age A, (forall z, 0 <= z <= 10 -> age (Fin z) = Fin (A z)) ->
  (forall z z', 0 <= z < z' -> z' <= 10 -> A z' < A z) ->
  forall T z, increasing T -> (2 <= length T)%nat -> hd 0 T < A 0 -> A 10 < last T 0 -> 10 <= z ->
  return_target_redshift_index age (map Fin T) [Fin z] = Some [0%nat].
Proof. exact snapshot_high. Qed.
Print Assumptions C74_high_redshift.

(** C74: a target later than the last table time stops the measurement. *)
Theorem C74_too_late : forall age choice tb cen sat upid skip per_bin zs E ids t,
  return_target_redshift_index age (tb_t tb) zs = Some ids -> In t ids -> (length (tb_t tb) <= t)%nat ->
  create_target_data age choice tb cen sat upid skip per_bin zs E = None.
Proof. exact snapshot_past. Qed.
Print Assumptions C74_too_late.

Example C74_hyp : (forall z, 0 <= z <= 10 -> ex_age (Fin z) = Fin (14 - z)) /\ (forall z z', 0 <= z < z' -> z' <= 10 -> 14 - z' < 14 - z) /\
  increasing [1; 5; 10; 13] /\ hd 0 [1; 5; 10; 13] < 14 - 0 /\ 14 - 10 < last [1; 5; 10; 13] 0.
Proof. repeat split; try (intros; lra); cbn; lra. Qed.

(** C75: counts, sums and smooth sums of every target redshift and mass bin. *)
Theorem C75_targets : forall age choice, choice_ok choice -> forall tb n T M S F zs ids cen sat upid skip per_bin E,
  tables_are tb n T M S F -> return_target_redshift_index age (tb_t tb) zs = Some ids -> Forall (fun t => (t < length T)%nat) ids ->
  zs <> [] -> In true cen -> In true sat -> length cen = n -> length sat = n -> length upid = n -> increasing E -> (2 <= length E)%nat ->
  (skip = true -> forall t, In t ids -> exists j k, (j < length E - 1)%nat /\ (k < n)%nat /\ half_open E j (val M t k) = true) ->
  exists td, create_target_data age choice tb cen sat upid skip per_bin zs (map Fin E) = Some td /\
    (let table := tbl (length ids) (length E - 1) in
     let t i := nth i ids 0%nat in
     let here P i j := those n (fun k => P k && inbin E j (val M (t i) k)) in
     let smooth i j k := tw_mass (val M (t i) k) (mean_bin E) (nth j E 0) (nth (j + 1) E 0) in
     td_counts td = table (fun i j => INR (length (here (fun _ => true) i j))) /\
     td_hist td = table (fun i j => Rsum (map (val S (t i)) (here (fun _ => true) i j))) /\
     td_wcounts td = table (fun i j => Rsum (map (smooth i j) (seq 0 n))) /\
     td_whist td = table (fun i j => Rsum (map (fun k => smooth i j k * val S (t i) k) (seq 0 n))) /\
     td_counts_cen td = table (fun i j => INR (length (here (fun k => nth k cen false) i j))) /\
     td_counts_sat td = table (fun i j => INR (length (here (fun k => nth k sat false) i j))) /\
     td_age td = map (fun t => Fin (nth t T 0)) ids).
Proof. exact targets_counts. Qed.
Print Assumptions C75_targets.

Theorem C75_totals : forall age choice tb n T M S F zs ids cen sat upid skip per_bin E td,
  choice_ok choice -> tables_are tb n T M S F -> return_target_redshift_index age (tb_t tb) zs = Some ids -> Forall (fun t => (t < length T)%nat) ids ->
  zs <> [] -> In true cen -> In true sat -> length cen = n -> length sat = n -> length upid = n -> increasing E -> (2 <= length E)%nat ->
  (skip = true -> forall t, In t ids -> exists j k, (j < length E - 1)%nat /\ (k < n)%nat /\ half_open E j (val M t k) = true) ->
  create_target_data age choice tb cen sat upid skip per_bin zs (map Fin E) = Some td ->
  (forall k, (k < n)%nat -> nth k sat false = negb (nth k cen false)) ->
  add2 (td_counts_cen td) (td_counts_sat td) = td_counts td /\
  forall i, (i < length ids)%nat ->
    xsum (nth i (td_counts td) []) = Fin (INR (length (those n (fun k => within E (val M (nth i ids 0%nat) k))))).
Proof. exact counts_add. Qed.
Print Assumptions C75_totals.

(** C75: without any central, or without any satellite, the measurement raises. *)
Theorem C75_one_kind_refuted : forall age choice tb n T M S F zs ids cen sat upid skip per_bin E,
  tables_are tb n T M S F -> return_target_redshift_index age (tb_t tb) zs = Some ids -> zs <> [] ->
  (~ In true cen \/ ~ In true sat) ->
  create_target_data age choice tb cen sat upid skip per_bin zs (map Fin E) = None.
Proof. exact one_kind. Qed.
Print Assumptions C75_one_kind_refuted.

(** The masks used: SMDPL's always split the halos; a flag does when it is 0 or 1. *)
Theorem C75_smdpl_masks : forall upid k, (k < length upid)%nat -> nth k (sat_smdpl upid) false = negb (nth k (cen_smdpl upid) false).
Proof. exact smdpl_masks. Qed.
Print Assumptions C75_smdpl_masks.
Theorem C75_flag_masks : forall c k, Forall (fun u => u = 0%Z \/ u = 1%Z) c -> (k < length c)%nat ->
  nth k (sat_flag c) false = negb (nth k (cen_flag c) false).
Proof. exact flag_masks. Qed.
Print Assumptions C75_flag_masks.

(** Every mass between the first and the last edge is in exactly one bin. *)
Theorem C75_bins : forall E x, increasing E -> (2 <= length E)%nat -> hd 0 E <= x <= last E 0 ->
  exists j, (j < length E - 1)%nat /\ inbin E j x = true /\ forall i, (i < length E - 1)%nat -> inbin E i x = true -> i = j.
Proof. exact bins_partition. Qed.
Print Assumptions C75_bins.

Example C75_hyp : tables_are (ex_tables (25 / 2)) 2 [10; 14] [[11; 25 / 2]; [11; 15]] [[10; 11]; [10; 12]] [[-10; -11]; [-10; -12]] /\ choice_ok ex_choice /\
  return_target_redshift_index ex_age (tb_t (ex_tables (25 / 2))) [Fin 0] = Some [1%nat] /\
  exists td, create_target_data ex_age ex_choice (ex_tables (25 / 2)) [true; false] [false; true] [(-1)%Z; 7%Z] true 5 [Fin 0] (map Fin ex_edges) = Some td /\
    entry (td_counts td) 0 0 = Fin 0 /\ entry (td_counts td) 0 1 = Fin 1.
Proof. split; [apply ex_tables_are|]. split; [exact ex_choice_ok|]. split; [apply ex_ids|exact ex_mid]. Qed.

(** C76: the sample of halos kept for the population fits: distinct halos of each bin, as many
    as there are up to the limit, each with its own parameters. *)
Theorem C76_samples : forall age choice, choice_ok choice -> forall tb n T M S F zs ids cen sat upid skip per_bin E,
  tables_are tb n T M S F -> return_target_redshift_index age (tb_t tb) zs = Some ids -> Forall (fun t => (t < length T)%nat) ids ->
  zs <> [] -> In true cen -> In true sat -> length cen = n -> length sat = n -> length upid = n -> increasing E -> (2 <= length E)%nat ->
  (skip = true -> forall t, In t ids -> exists j k, (j < length E - 1)%nat /\ (k < n)%nat /\ half_open E j (val M t k) = true) ->
  exists td, create_target_data age choice tb cen sat upid skip per_bin zs (map Fin E) = Some td /\
    exists L, sample_is tb upid E ids zs (td_haloes td) L /\ NoDup L /\
      (forall r, In r L -> (tgt r < length ids)%nat /\ (bin r < length E - 1)%nat /\ (halo r < n)%nat /\
        nth (bin r) E 0 <= val M (nth (tgt r) ids 0%nat) (halo r) < nth (bin r + 1) E 0) /\
      (forall i j, (i < length ids)%nat -> (j < length E - 1)%nat ->
        count (fun r => Nat.eqb (tgt r) i && Nat.eqb (bin r) j) L
        = Nat.min per_bin (length (those n (fun k => half_open E j (val M (nth i ids 0%nat) k))))).
Proof. exact targets_samples. Qed.
Print Assumptions C76_samples.

(** C76: not every counted halo can be sampled: one on the last edge is counted, never sampled. *)
Theorem C76_last_edge_refuted : exists td,
  create_target_data ex_age ex_choice (ex_tables 13) [true; false] [false; true] [(-1)%Z; 7%Z] false 5 [Fin 0] (map Fin ex_edges) = Some td /\
  entry (td_counts td) 0 1 = Fin 1 /\ h_logmh_id (td_haloes td) = [].
Proof. exact last_edge_not_sampled. Qed.
Print Assumptions C76_last_edge_refuted.

(** C76: with Galacticus' sampling a target redshift with no halo in any bin raises. *)
Theorem C76_galacticus_empty : forall age choice, choice_ok choice -> forall tb n T M S F zs ids cen sat upid per_bin E t,
  tables_are tb n T M S F -> return_target_redshift_index age (tb_t tb) zs = Some ids -> In t ids -> (2 <= length E)%nat ->
  (forall j k, (j < length E - 1)%nat -> (k < n)%nat -> half_open E j (val M t k) = false) ->
  create_target_data age choice tb cen sat upid true per_bin zs (map Fin E) = None.
Proof. intros age choice _. exact (targets_empty age choice). Qed.
Print Assumptions C76_galacticus_empty.

Example C76_hyp : forall upid per_bin cen sat,
  create_target_data ex_age ex_choice (ex_tables 13) cen sat upid true per_bin [Fin 0] (map Fin ex_edges) = None.
Proof. exact last_edge_galacticus. Qed.

(** C77: the stellar-mass and sSFR distributions measured in every mass bin. *)
Theorem C77_pdf_targets : forall age tb n T M S F zs ids cen sat E Em Es,
  tables_are tb n T M S F -> return_target_redshift_index age (tb_t tb) zs = Some ids -> Forall (fun t => (t < length T)%nat) ids ->
  length cen = n -> length sat = n -> increasing Em -> (2 <= length Em)%nat -> increasing Es -> (2 <= length Es)%nat ->
  exists pd, create_pdf_target_data age tb cen sat zs (map Fin E) (map Fin Em) (map Fin Es) = Some pd /\
    (let each {A} (v : nat -> nat -> A) := map (fun t => map (v t) (seq 0 (length E - 1))) ids in
     let inside P t j := those n (fun k => interior E j (val M t k) && P k) in
     let mpart t a k := tw_mass (val S t k) (mean_bin Em) (nth a Em 0) (nth (a + 1) Em 0) in
     let spart t b k := tw_mass (Rmax (val F t k) (-12)) (mean_bin Es) (nth b Es 0) (nth (b + 1) Es 0) in
     let mrow (c : nat -> R) := map (fun a => Fin (c a)) (seq 0 (length Em - 1)) in
     let joint P := each (fun t j => tbl (length Em - 1) (length Es - 1) (fun a b =>
                      Rsum (map (fun k => mpart t a k * spart t b k) (inside P t j)))) in
     pd_wcounts pd = each (fun t j => mrow (fun a => Rsum (map (mpart t a) (inside (fun _ => true) t j)))) /\
     pd_counts pd = each (fun t j => mrow (fun a => INR (length (filter (fun k => inbin Em a (val S t k)) (inside (fun _ => true) t j))))) /\
     pd_cent pd = joint (fun k => nth k cen false) /\ pd_sat pd = joint (fun k => nth k sat false)).
Proof. exact pdf_targets. Qed.
Print Assumptions C77_pdf_targets.

(** C77: summed over sSFR, centrals and satellites give back the mass distribution when the
    sSFR bins reach far enough on both sides. *)
Theorem C77_marginal : forall age tb n T M S F zs ids cen sat E Em Es pd i j a,
  tables_are tb n T M S F -> return_target_redshift_index age (tb_t tb) zs = Some ids -> Forall (fun t => (t < length T)%nat) ids ->
  length cen = n -> length sat = n -> increasing Em -> (2 <= length Em)%nat -> increasing Es -> (2 <= length Es)%nat ->
  (forall k, (k < n)%nat -> nth k sat false = negb (nth k cen false)) ->
  hd 0 Es + 3 * mean_bin Es <= -12 ->
  (forall t k, In t ids -> (k < n)%nat -> Rmax (val F t k) (-12) <= last Es 0 - 3 * mean_bin Es) ->
  create_pdf_target_data age tb cen sat zs (map Fin E) (map Fin Em) (map Fin Es) = Some pd ->
  (i < length ids)%nat -> (j < length E - 1)%nat -> (a < length Em - 1)%nat ->
  (xsum (nth a (nth j (nth i (pd_cent pd) []) []) []) + xsum (nth a (nth j (nth i (pd_sat pd) []) []) []))%X
  = nth a (nth j (nth i (pd_wcounts pd) []) []) NaN.
Proof. exact pdf_marginal. Qed.
Print Assumptions C77_marginal.

(** C77: a halo on an inner mass edge is counted in a bin, yet is in no distribution. *)
Theorem C77_inner_edge_refuted : exists td pd,
  create_target_data ex_age ex_choice (ex_tables 12) [true; false] [false; true] [(-1)%Z; 7%Z] false 5 [Fin 0] (map Fin ex_edges) = Some td /\
  create_pdf_target_data ex_age (ex_tables 12) [true; false] [false; true] [Fin 0] (map Fin ex_edges) (map Fin [10; 11; 12]) (map Fin [-13; -10; -7]) = Some pd /\
  entry (td_counts td) 0 1 = Fin 1 /\ pd_wcounts pd = [[[Fin 0; Fin 0]; [Fin 0; Fin 0]]] /\ pd_counts pd = [[[Fin 0; Fin 0]; [Fin 0; Fin 0]]].
Proof. exact inner_edge_not_in_pdf. Qed.
Print Assumptions C77_inner_edge_refuted.

(** C78: the files written by the measuring scripts hold the pooled counts, sums and means of
    all subvolumes. *)
Theorem C78_pooled_means : forall nz nm nms nsf ages outs (P : Out -> nat -> nat -> list R), outs <> [] ->
  (forall o, In o outs -> td_counts (fst o) = tbl nz nm (fun i j => INR (length (P o i j))) /\
                          td_hist (fst o) = tbl nz nm (fun i j => Rsum (P o i j))) ->
  exists f, collect nz nm nms nsf ages outs = Some f /\ f_age f = ages /\
    forall i j, (i < nz)%nat -> (j < nm)%nat ->
      let all := List.concat (map (fun o => P o i j) outs) in
      entry (f_counts f) i j = Fin (INR (length all)) /\ entry (f_hist f) i j = Fin (Rsum all) /\ entry (f_smhm f) i j = mean all.
Proof. exact collect_means. Qed.
Print Assumptions C78_pooled_means.

Theorem C78_totals : forall nz nm nms nsf ages outs f
    (cw hw cc cs : Out -> nat -> nat -> R) (w c : Out -> nat -> nat -> nat -> R) (jc js : Out -> nat -> nat -> nat -> nat -> R),
  collect nz nm nms nsf ages outs = Some f ->
  (forall o, In o outs ->
     td_wcounts (fst o) = tbl nz nm (cw o) /\ td_whist (fst o) = tbl nz nm (hw o) /\
     td_counts_cen (fst o) = tbl nz nm (cc o) /\ td_counts_sat (fst o) = tbl nz nm (cs o) /\
     pd_wcounts (snd o) = tbl3 nz nm nms (w o) /\ pd_counts (snd o) = tbl3 nz nm nms (c o) /\
     pd_cent (snd o) = tbl4 nz nm nms nsf (jc o) /\ pd_sat (snd o) = tbl4 nz nm nms nsf (js o)) ->
  let total (g : Out -> R) := Rsum (map g outs) in
  f_counts_diff f = tbl nz nm (fun i j => total (fun o => cw o i j)) /\
  f_hist_diff f = tbl nz nm (fun i j => total (fun o => hw o i j)) /\
  f_counts_cen f = tbl nz nm (fun i j => total (fun o => cc o i j)) /\
  f_counts_sat f = tbl nz nm (fun i j => total (fun o => cs o i j)) /\
  f_mstar_wcounts f = tbl3 nz nm nms (fun i j a => total (fun o => w o i j a)) /\
  f_mstar_counts f = tbl3 nz nm nms (fun i j a => total (fun o => c o i j a)) /\
  f_cent f = tbl4 nz nm nms nsf (fun i j a b => total (fun o => jc o i j a b)) /\
  f_sat f = tbl4 nz nm nms nsf (fun i j a b => total (fun o => js o i j a b)) /\
  (forall i j, (i < nz)%nat -> (j < nm)%nat -> total (fun o => cw o i j) <> 0 ->
     entry (f_smhm_diff f) i j = Fin (total (fun o => hw o i j) / total (fun o => cw o i j))) /\
  let samples {A} (g : Haloes -> list A) := List.concat (map (fun o => g (td_haloes (fst o))) outs) in
  f_haloes f = mkHaloes (samples h_logmh_id) (samples h_logmh_val) (samples h_mah) (samples h_ms) (samples h_q)
                 (samples h_upid) (samples h_tobs_id) (samples h_tobs_val) (samples h_redshift).
Proof. exact collect_totals. Qed.
Print Assumptions C78_totals.

(** C78: SMDPL's result depends neither on the number of ranks nor on how the subvolumes are
    shared out. *)
Theorem C78_smdpl : forall nz nm nms nsf process (o : nat -> Out) ages subvols nmax nranks, subvols <> [] -> (0 < nranks)%nat ->
  (forall i, In i subvols -> process i = Contributes (o i) /\ td_age (fst (o i)) = ages /\ (i < nmax)%nat) ->
  smdpl_script process subvols nmax nz nm nms nsf nranks
  = option_map (fun f => (f, map (fun k => if existsb (Nat.eqb k) subvols then 1%nat else 0%nat) (seq 0 nmax)))
      (collect nz nm nms nsf ages (map o subvols)).
Proof. exact smdpl_value. Qed.
Print Assumptions C78_smdpl.

(** C78: the script passes over a subvolume whose files are missing, then fails anyway. *)
Theorem C78_missing_subvolume_refuted : forall nz nm nms nsf process subvols nmax nranks i, In i subvols -> process i = FileMissing ->
  smdpl_script process subvols nmax nz nm nms nsf nranks = None.
Proof. exact smdpl_missing. Qed.
Print Assumptions C78_missing_subvolume_refuted.

(** C78: the TNG script works with exactly 20 ranks. *)
Theorem C78_tng_ranks_refuted : forall nz nm nms nsf kern sing age choice dm ds is_cen zs lgt0 nranks, nranks <> 20%nat ->
  tng_measure_script (fun r => tng_chunk kern sing age choice dm ds is_cen r zs lgt0) nz nm nms nsf nranks = None.
Proof. exact tng_ranks. Qed.
Print Assumptions C78_tng_ranks_refuted.

Theorem C78_tng : forall nz nm nms nsf process (o : nat -> Out), (forall r, (r < 20)%nat -> process r = Some (o r)) ->
  tng_measure_script process nz nm nms nsf 20 = collect nz nm nms nsf (td_age (fst (o 0%nat))) (map o (seq 0 20)).
Proof. exact tng_value. Qed.
Print Assumptions C78_tng.

Theorem C78_galacticus : forall nz nm nms nsf process o nranks, (0 < nranks)%nat -> (forall r, (r < nranks)%nat -> process r <> None) ->
  process 0%nat = Some o ->
  galacticus_measure_script process nz nm nms nsf nranks = collect nz nm nms nsf (td_age (fst o)) [o].
Proof. exact galacticus_value. Qed.
Print Assumptions C78_galacticus.

(** C78: every pooled mean lies between the least and the greatest value pooled. *)
Theorem C78_mean_bounds : forall nz nm nms nsf ages outs f (P : Out -> nat -> nat -> list R) i j lo hi, outs <> [] ->
  (forall o, In o outs -> td_counts (fst o) = tbl nz nm (fun i j => INR (length (P o i j))) /\
                          td_hist (fst o) = tbl nz nm (fun i j => Rsum (P o i j))) ->
  collect nz nm nms nsf ages outs = Some f -> (i < nz)%nat -> (j < nm)%nat ->
  (exists o, In o outs /\ P o i j <> []) -> (forall o, In o outs -> Forall (fun x => lo <= x <= hi) (P o i j)) ->
  exists m, entry (f_smhm f) i j = Fin m /\ lo <= m <= hi.
Proof. exact pooled_bounds. Qed.
Print Assumptions C78_mean_bounds.

Example C78_hyp :
  let o : Out := (mkTarget (tbl 1 2 (fun _ _ => 0)) (tbl 1 2 (fun _ _ => 0)) (tbl 1 2 (fun i j => INR (length [10; 11]))) (tbl 1 2 (fun i j => Rsum [10; 11]))
                   [Fin 14] (mkHaloes [] [] [] [] [] [] [] [] []) (tbl 1 2 (fun _ _ => 2)) (tbl 1 2 (fun _ _ => 0)),
                  mkPdf (tbl3 1 2 2 (fun _ _ _ => 1)) (tbl3 1 2 2 (fun _ _ _ => 1)) (tbl4 1 2 2 3 (fun _ _ _ _ => 1)) (tbl4 1 2 2 3 (fun _ _ _ _ => 0))) in
  exists f, smdpl_script (fun _ => Contributes o) [3; 1]%nat 5 1 2 2 3 2 = Some (f, [0; 1; 0; 1; 0]%nat) /\ entry (f_smhm f) 0 1 = Fin (21 / 2).
Proof.
  intros o.
  destruct (collect_means 1 2 2 3 [Fin 14] [o; o] (fun _ _ _ => [10; 11])) as (f & E & _ & V); [discriminate|intros q [<-|[<-|[]]]; split; reflexivity|].
  exists f. split.
  - rewrite (smdpl_value 1 2 2 3 (fun _ => Contributes o) (fun _ => o) [Fin 14] [3; 1]%nat 5 2); [cbn [map]; rewrite E; reflexivity|discriminate|lia|].
    intros i Hi. split; [reflexivity|]. split; [reflexivity|]. destruct Hi as [<-|[<-|[]]]; lia.
  - destruct (V 0%nat 1%nat) as (_ & _ & ->); [lia..|]. cbn. f_equal. unfold Rsum. cbn. lra.
Qed.

(** C79: the tables the targets are measured from: 200 times from 0.01 to today; the halo
    masses, stellar masses and specific rates of every fitted galaxy. *)
Theorem C79_tables : forall kern sing mah sfh lgt0 n (p : nat -> DiffstarParams R) (h : nat -> R -> R) (mh : nat -> list R) T,
  T = evenly (1 / 100) (pow10R lgt0) 200 ->
  1 / 100 < pow10R lgt0 -> cols_len_mah n mah -> cols_len_d n sfh ->
  (forall k, (k < n)%nat -> gal_d sfh k = map_d Fin (p k) /\ halo_history kern (gal_mah mah k) LGT0 (h k) T /\
     snd (sing (gal_mah mah k) (map Fin T) LGT0) = map Fin (mh k) /\ length (mh k) = length T) ->
  exists tb M S F, sfh_tables kern sing mah sfh (Fin lgt0) (Some FB) = Some tb /\ tables_are tb n T M S F /\ increasing T /\
    tb_mah tb = mah /\ tb_sfh tb = sfh /\
    forall k, (k < n)%nat -> nth k M [] = mh k /\
      exists sfr smh, calc_sfh_singlegal_smh kern (map_d Fin (p k)) (gal_mah mah k) (map Fin T) LGT0 FB = Some (map Fin sfr, map Fin smh) /\
        nth k S [] = map log10R smh /\ nth k F [] = map2 (fun s m => log10R s - log10R m) sfr smh.
Proof. exact tables_loaded_T. Qed.
Print Assumptions C79_tables.

(** C79: the fits use each simulation's baryon fraction and the tables the default one, so
    the tables' star formation rates are always lower than the fitted ones. *)
Theorem C79_same_rates_refuted : forall kern p mah t lgt0 m fb s1 s2, fb = FB_SMDPL \/ fb = FB_TNG \/ fb = FB_GALACTICUS ->
  0 < t -> kern mah (Fin t) lgt0 = Fin m ->
  calc_sfh_singlegal kern (map_d Fin p) mah [Fin t] lgt0 FB = [Fin s1] ->
  calc_sfh_singlegal kern (map_d Fin p) mah [Fin t] lgt0 fb = [Fin s2] ->
  1 / 10 ^ 14 < s1 -> 1002 / 1000 * s1 < s2.
Proof. exact table_sfr_low. Qed.
Print Assumptions C79_same_rates_refuted.

Example C79_hyp : forall T, T = evenly (1 / 100) (pow10R 1) 200 ->
  1 / 100 < pow10R 1 /\ cols_len_mah 1 ex_mah /\ cols_len_d 1 ex_sfh /\
  forall k, (k < 1)%nat -> gal_d ex_sfh k = map_d Fin (mkDiffstar 12 (-1) 1 (-1) 1 0 (-1) 0) /\
    halo_history (fun _ _ _ => Fin 12) (gal_mah ex_mah k) LGT0 (fun _ => 12) T /\
    snd ((fun (_ : MahParams xr) (t : list xr) (_ : xr) => (t, map (fun _ => Fin 12) t)) (gal_mah ex_mah k) (map Fin T) LGT0) = map Fin (map (fun _ => 12) T) /\
    length (map (fun _ : R => 12) T) = length T.
Proof. exact ex_tables_hyp. Qed.
Example C79_rates_hyp : exists s1 s2,
  calc_sfh_singlegal (fun _ _ _ => Fin 12) (map_d Fin (mkDiffstar 12 (-10) 1 (-1) 1 (-1) 0 0)) (gal_mah ex_mah 0) [Fin 5] LGT0 FB = [Fin s1] /\
  calc_sfh_singlegal (fun _ _ _ => Fin 12) (map_d Fin (mkDiffstar 12 (-10) 1 (-1) 1 (-1) 0 0)) (gal_mah ex_mah 0) [Fin 5] LGT0 FB_TNG = [Fin s2] /\
  1 / 10 ^ 14 < s1.
Proof. exact ex_rates. Qed.
