(** Vocabulary for the target measurements from the fit files to the final tables.  Galaxies
    are numbered; a file lists some of them. *)
From Coq Require Import Reals List Bool ZArith String.
From Verif Require Import XReal ModelUtils ModelKernels ModelSfh ModelLoad ModelTargets SpecCore SpecHist SpecTargets.
Import List ListNotations.
Open Scope R_scope.

Local Notation length := List.length.

Definition above0 (x : xr) : bool := match x with Fin r => if Rlt_dec 0 r then true else false | PInf => true | _ => false end.
Definition is1 (x : xr) : bool := match x with Fin r => if Req_EM_T r 1 then true else false | _ => false end.

(** Two fit files listing the galaxies [I]: loss and halo parameters in the first, success
    flag and galaxy parameters in the second. *)
Record fit_files (dm ds : hdf) (I : list nat) (lm su : nat -> xr) (hm : nat -> MahParams xr)
    (q : nat -> DiffstarParams xr) : Prop := {
  ff_loss : lookup "loss" dm = Some (D1 (map lm I));
  ff_h0 : lookup "logm0" dm = Some (D1 (map (fun g => logm0 (hm g)) I));
  ff_h1 : lookup "logtc" dm = Some (D1 (map (fun g => logtc (hm g)) I));
  ff_h2 : lookup "early_index" dm = Some (D1 (map (fun g => early_index (hm g)) I));
  ff_h3 : lookup "late_index" dm = Some (D1 (map (fun g => late_index (hm g)) I));
  ff_h4 : lookup "t_peak" dm = Some (D1 (map (fun g => t_peak (hm g)) I));
  ff_succ : lookup "success" ds = Some (D1 (map su I));
  ff_q0 : lookup "lgmcrit" ds = Some (D1 (map (fun g => d_lgmcrit (q g)) I));
  ff_q1 : lookup "lgy_at_mcrit" ds = Some (D1 (map (fun g => d_lgy_at_mcrit (q g)) I));
  ff_q2 : lookup "indx_lo" ds = Some (D1 (map (fun g => d_indx_lo (q g)) I));
  ff_q3 : lookup "indx_hi" ds = Some (D1 (map (fun g => d_indx_hi (q g)) I));
  ff_q4 : lookup "lg_qt" ds = Some (D1 (map (fun g => d_lg_qt (q g)) I));
  ff_q5 : lookup "qlglgdt" ds = Some (D1 (map (fun g => d_qlglgdt (q g)) I));
  ff_q6 : lookup "lg_drop" ds = Some (D1 (map (fun g => d_lg_drop (q g)) I));
  ff_q7 : lookup "lg_rejuv" ds = Some (D1 (map (fun g => d_lg_rejuv (q g)) I)) }.
(** Every dataset has [n] rows. *)
Definition all_rows (n : nat) (f : hdf) : Prop :=
  Forall (fun kd => match snd kd with D1 v => length v = n | D2 v => length v = n end) f.

(** Log halo mass, log stellar mass and log sSFR of one galaxy at the times [T]. *)
Definition galaxy_is (kern : MahParams xr -> xr -> xr -> xr) (sing : MahParams xr -> list xr -> xr -> list xr * list xr)
    (T : list R) (hm : MahParams xr) (q : DiffstarParams xr) (m s f : list R) : Prop :=
  snd (sing hm (map Fin T) LGT0) = map Fin m /\
  exists sfr smh, calc_sfh_singlegal_smh kern q hm (map Fin T) LGT0 FB = Some (map Fin sfr, map Fin smh) /\
    s = map log10R smh /\ f = map2 (fun a b => log10R a - log10R b) sfr smh.

(** The measured tables of the galaxies [G], some of them central and some satellites, with
    values [M], [S], [F] at the table times [ids]: smooth counts and sums, counts and sums,
    counts of centrals and of satellites; smooth and plain mass distributions; joint
    distributions of centrals and of satellites. *)
Definition at_t (ids : list nat) (X : nat -> list R) (i g : nat) : R := nth (nth i ids 0%nat) (X g) 0.
Record stats (G : list nat) (cen sat : nat -> bool) (M S F : nat -> list R) (ids : list nat) (E Em Es : list R)
    (wc wh c h cc cs : list (list xr)) (pw pc : list (list (list xr))) (jc js : list (list (list (list xr)))) : Prop := {
  st_c : c = tbl (length ids) (length E - 1) (fun i j => INR (count (fun g => inbin E j (at_t ids M i g)) G));
  st_h : h = tbl (length ids) (length E - 1) (fun i j => Rsum (map (at_t ids S i) (filter (fun g => inbin E j (at_t ids M i g)) G)));
  st_wc : wc = tbl (length ids) (length E - 1) (fun i j =>
    Rsum (map (fun g => tw_mass (at_t ids M i g) (mean_bin E) (nth j E 0) (nth (j + 1) E 0)) G));
  st_wh : wh = tbl (length ids) (length E - 1) (fun i j =>
    Rsum (map (fun g => tw_mass (at_t ids M i g) (mean_bin E) (nth j E 0) (nth (j + 1) E 0) * at_t ids S i g) G));
  st_cc : cc = tbl (length ids) (length E - 1) (fun i j => INR (count (fun g => cen g && inbin E j (at_t ids M i g)) G));
  st_cs : cs = tbl (length ids) (length E - 1) (fun i j => INR (count (fun g => sat g && inbin E j (at_t ids M i g)) G));
  st_pw : pw = tbl3 (length ids) (length E - 1) (length Em - 1) (fun i j a =>
    Rsum (map (fun g => tw_mass (at_t ids S i g) (mean_bin Em) (nth a Em 0) (nth (a + 1) Em 0))
           (filter (fun g => interior E j (at_t ids M i g)) G)));
  st_pc : pc = tbl3 (length ids) (length E - 1) (length Em - 1) (fun i j a =>
    INR (count (fun g => interior E j (at_t ids M i g) && inbin Em a (at_t ids S i g)) G));
  st_jc : jc = tbl4 (length ids) (length E - 1) (length Em - 1) (length Es - 1) (fun i j a b =>
    Rsum (map (fun g => tw_mass (at_t ids S i g) (mean_bin Em) (nth a Em 0) (nth (a + 1) Em 0)
                        * tw_mass (Rmax (at_t ids F i g) (-12)) (mean_bin Es) (nth b Es 0) (nth (b + 1) Es 0))
           (filter (fun g => interior E j (at_t ids M i g) && cen g) G)));
  st_js : js = tbl4 (length ids) (length E - 1) (length Em - 1) (length Es - 1) (fun i j a b =>
    Rsum (map (fun g => tw_mass (at_t ids S i g) (mean_bin Em) (nth a Em 0) (nth (a + 1) Em 0)
                        * tw_mass (Rmax (at_t ids F i g) (-12)) (mean_bin Es) (nth b Es 0) (nth (b + 1) Es 0))
           (filter (fun g => interior E j (at_t ids M i g) && sat g) G))) }.

(** Galaxies sampled, as a list of (target, mass bin, galaxy). *)
Record sample_of (hm : nat -> MahParams xr) (q : nat -> DiffstarParams xr) (up : nat -> Z) (T E : list R) (ids : list nat)
    (zs : list R) (h : Haloes) (L : list (nat * nat * nat)) : Prop := {
  so_bin : h_logmh_id h = map bin L;
  so_val : h_logmh_val h = map (fun r => Fin ((nth (bin r) E 0 + nth (S (bin r)) E 0) / 2)) L;
  so_mah : h_mah h = map (fun r => let p := hm (halo r) in [logm0 p; logtc p; early_index p; late_index p; t_peak p]) L;
  so_ms : h_ms h = map (fun r => let p := q (halo r) in [d_lgmcrit p; d_lgy_at_mcrit p; d_indx_lo p; d_indx_hi p]) L;
  so_q : h_q h = map (fun r => let p := q (halo r) in [d_lg_qt p; d_qlglgdt p; d_lg_drop p; d_lg_rejuv p]) L;
  so_upid : h_upid h = map (fun r => up (halo r)) L;
  so_tid : h_tobs_id h = map tgt L;
  so_t : h_tobs_val h = map (fun r => Fin (nth (nth (tgt r) ids 0%nat) T 0)) L;
  so_z : h_redshift h = map (fun r => Fin (nth (tgt r) zs 0)) L }.
(** Distinct galaxies of each bin, as many as there are up to the limit [k]. *)
Record fair_sample (k : nat) (G : list nat) (M : nat -> list R) (E : list R) (ids : list nat) (L : list (nat * nat * nat)) : Prop := {
  fs_distinct : NoDup L;
  fs_in : forall r, In r L -> (tgt r < length ids)%nat /\ (bin r < length E - 1)%nat /\ In (halo r) G /\
    nth (bin r) E 0 <= at_t ids M (tgt r) (halo r) < nth (bin r + 1) E 0;
  fs_count : forall i j, (i < length ids)%nat -> (j < length E - 1)%nat ->
    count (fun r => Nat.eqb (tgt r) i && Nat.eqb (bin r) j) L
    = Nat.min k (count (fun g => half_open E j (at_t ids M i g)) G) }.

(** What one subvolume, chunk or catalog contributes. *)
Record contribution (k : nat) (hm : nat -> MahParams xr) (q : nat -> DiffstarParams xr) (up : nat -> Z)
    (G : list nat) (cen sat : nat -> bool) (M S F : nat -> list R) (T : list R) (ids : list nat) (zs E Em Es : list R) (o : Out) : Prop := {
  co_stats : stats G cen sat M S F ids E Em Es (td_wcounts (fst o)) (td_whist (fst o)) (td_counts (fst o)) (td_hist (fst o))
    (td_counts_cen (fst o)) (td_counts_sat (fst o)) (pd_wcounts (snd o)) (pd_counts (snd o)) (pd_cent (snd o)) (pd_sat (snd o));
  co_age : td_age (fst o) = map (fun t => Fin (nth t T 0)) ids;
  co_sample : exists L, sample_of hm q up T E ids zs (td_haloes (fst o)) L /\ fair_sample k G M E ids L }.

(** What the files written at the end hold: the tables of all galaxies of [Gs] together, the
    mean stellar mass of every bin, and the samples of the parts one after the other. *)
Record final_tables (k : nat) (hm : nat -> MahParams xr) (q : nat -> DiffstarParams xr) (up : nat -> Z)
    (Gs : list (list nat)) (cen sat : nat -> bool) (M S F : nat -> list R) (T : list R) (ids : list nat) (zs E Em Es : list R) (f : Final) : Prop := {
  ft_stats : stats (List.concat Gs) cen sat M S F ids E Em Es (f_counts_diff f) (f_hist_diff f) (f_counts f) (f_hist f)
    (f_counts_cen f) (f_counts_sat f) (f_mstar_wcounts f) (f_mstar_counts f) (f_cent f) (f_sat f);
  ft_smhm : forall i j, (i < length ids)%nat -> (j < length E - 1)%nat ->
    entry (f_smhm f) i j = mean (map (at_t ids S i) (filter (fun g => inbin E j (at_t ids M i g)) (List.concat Gs)));
  ft_age : f_age f = map (fun t => Fin (nth t T 0)) ids;
  ft_sample : exists Ls, sample_of hm q up T E ids zs (f_haloes f) (List.concat Ls) /\
    Forall2 (fun G L => fair_sample k G M E ids L) Gs Ls }.

(** Ages [A] at redshifts 0 to 10; 200 table times from 0.01 to 10^[lgt0]; target redshifts
    [zs], each with the first table time not before its age. *)
Record setup (age : xr -> xr) (A : R -> R) (lgt0 : R) (T zs : list R) (ids : list nat) : Prop := {
  su_age : forall z, 0 <= z <= 10 -> age (Fin z) = Fin (A z);
  su_older : forall z z', 0 <= z < z' -> z' <= 10 -> A z' < A z;
  su_times : T = evenly (1 / 100) (pow10R lgt0) 200;
  su_first : 1 / 100 < A 0;
  su_last : A 0 <= pow10R lgt0;
  su_some : zs <> [];
  su_range : Forall (fun z => 0 <= z < 10) zs;
  su_ids : Forall2 (fun z n => exists a, age_at A z a /\ n = count (below a) T) zs ids }.

(** Galaxy [g] has finite parameters [p g], halo masses [h g] for the galaxy model and [M g]
    in diffmah's table. *)
Definition good (kern : MahParams xr -> xr -> xr -> xr) (sing : MahParams xr -> list xr -> xr -> list xr * list xr) (T : list R)
    (hm : nat -> MahParams xr) (q : nat -> DiffstarParams xr) (p : nat -> DiffstarParams R) (h : nat -> R -> R) (M : nat -> list R)
    (g : nat) : Prop :=
  q g = map_d Fin (p g) /\ halo_history kern (hm g) LGT0 (h g) T /\
  snd (sing (hm g) (map Fin T) LGT0) = map Fin (M g) /\ length (M g) = length T.

(** Rows of part [r] of [n] when [N] rows are shared out in order, longer parts first. *)
Definition part (N n r : nat) : list nat := seq (r * (N / n) + Nat.min r (N mod n)) (N / n + (if Nat.ltb r (N mod n) then 1 else 0)).
