(** Vocabulary for the population fits' data from the measured galaxies. *)
From Coq Require Import Reals List Bool ZArith.
From Verif Require Import XReal ModelUtils ModelSfh ModelPop ModelHist ModelTargets ModelPopFit ModelSmhmFit SpecCore SpecHist SpecTargets SpecMeasure SpecPopFit.
Import List ListNotations.
Open Scope R_scope.

Local Notation length := List.length.

(** The files the measurement leaves for the fits. *)
Definition measured (f : Final) (E Em Es : list R) : PopFiles := mkFiles f (map Fin E) (map Fin Em) (map Fin Es).

(** Galaxies counted as central or satellite are so by their parent id. *)
Definition kinds_agree (Gs : list (list nat)) (cen sat : nat -> bool) (up : nat -> Z) : Prop :=
  forall g, In g (List.concat Gs) -> cen g = of_kind Cen (up g) /\ sat g = of_kind Sat (up g).

(** Galaxies of a kind whose halo is in mass bin [j], lower edge included, at target [i]. *)
Definition members (kd : kind) (up : nat -> Z) (M : nat -> list R) (E : list R) (ids : list nat) (G : list nat) (i j : nat) : list nat :=
  filter (fun g => of_kind kd (up g) && half_open E j (at_t ids M i g)) G.
(** How many of them at most [k] per part leaves. *)
Definition kept (k : nat) (M : nat -> list R) (E : list R) (ids : list nat) (Gs : list (list nat)) (i j : nat) : nat :=
  list_sum (map (fun G => Nat.min k (count (fun g => half_open E j (at_t ids M i g)) G)) Gs).

(** Population [z] is the galaxies [l], [lgt0] being the log of the present time. *)
Record galaxies_of {key} (kern : MahParams xr -> xr -> xr -> xr) (hm : nat -> MahParams xr) (up : nat -> Z) (lgt0 : R)
    (z : ZPop key) (l : list nat) : Prop := {
  go_cols : cols_len_mah (length l) (z_mah key z);
  go_mah : forall n, (n < length l)%nat -> gal_mah (z_mah key z) n = hm (nth n l 0%nat);
  go_logmp0 : z_logmp0 key z = map (fun g => kern (hm g) (Fin (Rpower 10 lgt0)) (Fin lgt0)) l;
  go_upid : z_upid key z = map up l }.

(** Counts of stellar mass of the galaxies of a kind strictly inside a mass bin, each spread
    over the stellar-mass bins; when split by kind a galaxy counts by the part of its sSFR,
    spread in the same way and not below -12, that is within the sSFR bins. *)
Definition ssfr_part (kd : kind) (F : nat -> list R) (ids : list nat) (Es : list R) (i g : nat) : R :=
  match kd with All => 1 | _ => tw_mass (Rmax (at_t ids F i g) (-12)) (mean_bin Es) (hd 0 Es) (last Es 0) end.
Definition mass_dist (kd : kind) (up : nat -> Z) (M S F : nat -> list R) (E Em Es : list R) (ids : list nat) (G : list nat) (i j b : nat) : R :=
  Rsum (map (fun g => ssfr_part kd F ids Es i g * tw_mass (at_t ids S i g) (mean_bin Em) (nth b Em 0) (nth (b + 1) Em 0))
         (filter (fun g => of_kind kd (up g) && interior E j (at_t ids M i g)) G)).

(** Joint counts of stellar mass and sSFR, and numbers of galaxies of a kind. *)
Definition joint_dist (kd : kind) (up : nat -> Z) (M S F : nat -> list R) (E Em Es : list R) (ids : list nat) (G : list nat) (i j a b : nat) : R :=
  Rsum (map (fun g => tw_mass (at_t ids S i g) (mean_bin Em) (nth a Em 0) (nth (a + 1) Em 0)
                      * tw_mass (Rmax (at_t ids F i g) (-12)) (mean_bin Es) (nth b Es 0) (nth (b + 1) Es 0))
         (filter (fun g => of_kind kd (up g) && interior E j (at_t ids M i g)) G)).
Definition number (kd : kind) (up : nat -> Z) (M : nat -> list R) (E : list R) (ids : list nat) (G : list nat) (i j : nat) : R :=
  INR (count (fun g => of_kind kd (up g) && inbin E j (at_t ids M i g)) G).

(** Data of a stellar-mass fit with [nhalos] halos per cell, for the cells [U], made of the
    galaxies [Gs] (in parts) measured at [T] and binned by [E], [Em], [Es]. *)
Record mass_fit_data {key} (kern : MahParams xr -> xr -> xr -> xr) (hm : nat -> MahParams xr) (up : nat -> Z) (k : nat) (Gs : list (list nat))
    (M S F : nat -> list R) (T : list R) (ids : list nat) (E Em Es : list R) (kd : kind) (nhalos : nat) (lgt0 : R) (keys : list key)
    (U : list (nat * nat)) (d : MstarLossData key) : Prop := {
  md_cells : kd = All -> U = filter (fun c => Nat.leb 50 (kept k M E ids Gs (fst c) (snd c))) (list_prod (seq 0 (length ids)) (seq 0 (length E - 1)));
  md_cells_all : NoDup (List.concat Gs) -> (forall G i j, In G Gs -> (i < length ids)%nat -> (j < length E - 1)%nat ->
      (count (fun g => half_open E j (at_t ids M i g)) G <= k)%nat) ->
    U = filter (fun c => Nat.leb 50 (length (members kd up M E ids (List.concat Gs) (fst c) (snd c)))) (list_prod (seq 0 (length ids)) (seq 0 (length E - 1)));
  md_enough : NoDup (List.concat Gs) -> forall c, In c U -> (50 <= length (members kd up M E ids (List.concat Gs) (fst c) (snd c)))%nat;
  md_bins : ml_bins key d = map Fin Em;
  md_count : length (ml_zs key d) = length U /\ length (ml_target key d) = length U;
  md_cell : forall m z0 k0, (m < length U)%nat ->
    let i := fst (nth m U (0%nat, 0%nat)) in let j := snd (nth m U (0%nat, 0%nat)) in
    let z := nth m (ml_zs key d) z0 in
    let c := mass_dist kd up M S F E Em Es ids (List.concat Gs) i j in
    (i < length ids)%nat /\ (j < length E - 1)%nat /\
    (exists l, length l = nhalos /\ incl l (members kd up M E ids (List.concat Gs) i j) /\ galaxies_of kern hm up lgt0 z l /\
       (NoDup (List.concat Gs) -> (nhalos <= 50)%nat \/ kd = All /\ (nhalos <= kept k M E ids Gs i j)%nat -> NoDup l)) /\
    z_tobs key z = Fin (nth (nth i ids 0%nat) T 0) /\ z_key key z = nth m keys k0 /\
    (forall b, (b < length Em - 1)%nat -> 0 <= c b) /\
    ((exists g, In g (List.concat Gs) /\ of_kind kd (up g) = true /\ interior E j (at_t ids M i g) = true /\
        hd 0 Em < at_t ids S i g < last Em 0 /\ hd 0 Es < Rmax (at_t ids F i g) (-12) < last Es 0) ->
     0 < total (length Em - 1) c /\ nth m (ml_target key d) [] = map (fun b => Fin (c b / total (length Em - 1) c)) (seq 0 (length Em - 1))) }.

(** Data of an sSFR fit of centrals or satellites. *)
Record ssfr_fit_data {key} (kern : MahParams xr -> xr -> xr -> xr) (hm : nat -> MahParams xr) (up : nat -> Z) (k : nat) (Gs : list (list nat))
    (M S F : nat -> list R) (T : list R) (ids : list nat) (E Em Es : list R) (kd : kind) (nhalos : nat) (lgt0 : R) (keys : list key)
    (U : list (nat * nat)) (d : SsfrLossData key) : Prop := {
  sd_cells_all : NoDup (List.concat Gs) -> (forall G i j, In G Gs -> (i < length ids)%nat -> (j < length E - 1)%nat ->
      (count (fun g => half_open E j (at_t ids M i g)) G <= k)%nat) ->
    U = filter (fun c => Nat.leb 50 (length (members kd up M E ids (List.concat Gs) (fst c) (snd c)))) (list_prod (seq 0 (length ids)) (seq 0 (length E - 1)));
  sd_enough : NoDup (List.concat Gs) -> forall c, In c U -> (50 <= length (members kd up M E ids (List.concat Gs) (fst c) (snd c)))%nat;
  sd_target_of : length (sl_target key d) = length ids /\ forall i t, (i < length ids)%nat -> (t < 5)%nat ->
    let c := blend (seq 0 (length E - 1)) (bin_weight (length E - 1) (number kd up M E ids (List.concat Gs) i))
      (fun j => share (length Em - 1) (length Es - 1) (joint_dist kd up M S F E Em Es ids (List.concat Gs) i j)) (nth t fitted_bins 0%nat) in
    nth t (nth i (sl_target key d) []) [] =
      if Rlt_dec 0 (total (length Es - 1) c) then map (fun b => Fin (c b / total (length Es - 1) c)) (seq 0 (length Es - 1)) else repeat (Fin 0) (length Es - 1);
  sd_pop : length (sl_zs key d) = length U /\ forall m z0 k0, (m < length U)%nat ->
    let i := fst (nth m U (0%nat, 0%nat)) in let j := snd (nth m U (0%nat, 0%nat)) in
    let z := nth m (sl_zs key d) z0 in
    (i < length ids)%nat /\ (j < length E - 1)%nat /\
    (exists l, length l = nhalos /\ incl l (members kd up M E ids (List.concat Gs) i j) /\ galaxies_of kern hm up lgt0 z l /\
       (NoDup (List.concat Gs) -> (nhalos <= 50)%nat -> NoDup l)) /\
    z_tobs key z = Fin (nth (nth i ids 0%nat) T 0) /\ z_key key z = nth m keys k0 }.

(** Data of a fit of the mean stellar mass. *)
Record mean_fit_data {key} (kern : MahParams xr -> xr -> xr -> xr) (hm : nat -> MahParams xr) (up : nat -> Z) (k : nat) (Gs : list (list nat))
    (M S : nat -> list R) (T : list R) (ids : list nat) (E : list R) (nhalos : nat) (lgt0 : R) (U : list (nat * nat)) (d : SmhmLossData key) : Prop := {
  nd_cells : U = filter (fun c => Nat.leb nhalos (kept k M E ids Gs (fst c) (snd c))) (list_prod (seq 0 (length ids)) (seq 0 (length E - 1)));
  nd_count : length (sd_mah key d) = length U /\ length (sd_logmp0 key d) = length U /\ length (sd_tobs key d) = length U /\ length (sd_target key d) = length U;
  nd_fill : sd_lgmu_infall key d = repeat (repeat (Fin (-1)) nhalos) (length U) /\ sd_logmhost_infall key d = repeat (repeat (Fin 13) nhalos) (length U) /\
    sd_gyr_since_infall key d = repeat (repeat (Fin (-99)) nhalos) (length U);
  nd_cell : forall m p0, (m < length U)%nat ->
    let i := fst (nth m U (0%nat, 0%nat)) in let j := snd (nth m U (0%nat, 0%nat)) in
    let B := filter (fun g => inbin E j (at_t ids M i g)) (List.concat Gs) in
    exists l, length l = nhalos /\ incl l B /\ (NoDup (List.concat Gs) -> NoDup l) /\
      cols_len_mah nhalos (nth m (sd_mah key d) p0) /\ (forall n, (n < nhalos)%nat -> gal_mah (nth m (sd_mah key d) p0) n = hm (nth n l 0%nat)) /\
      nth m (sd_logmp0 key d) [] = map (fun g => kern (hm g) (Fin (Rpower 10 lgt0)) (Fin lgt0)) l /\
      nth m (sd_tobs key d) NaN = Fin (nth (nth i ids 0%nat) T 0) /\
      nth m (sd_target key d) NaN = Fin (Rsum (map (at_t ids S i) B) / INR (length B)) }.

(** Everything the fits read is made of the measured galaxies. *)
Definition fits_fed {key} (split : key -> nat -> list key) (sing : MahParams xr -> list xr -> xr -> list xr * list xr)
    (kern : MahParams xr -> xr -> xr -> xr) (choice : nat -> nat -> list nat -> nat -> bool -> list nat)
    (hm : nat -> MahParams xr) (up : nat -> Z) (k : nat) (Gs : list (list nat)) (M S F : nat -> list R) (T : list R) (ids : list nat) (E Em Es : list R)
    (f : Final) : Prop := forall nhalos lgt0 fb rk, let pf := measured f E Em Es in
  (forall kd, exists d U, mstar_data key split sing choice kd pf nhalos (Fin lgt0) fb rk = Some d /\ ml_lgt0 key d = Fin lgt0 /\ ml_fb key d = fb /\
     mass_fit_data kern hm up k Gs M S F T ids E Em Es kd nhalos lgt0 (split rk (length U)) U d) /\
  (forall b : bool, let kd := if b then Sat else Cen in
     (forall i, (i < length ids)%nat -> used_bins kd (f_haloes f) (length E - 1) i <> []) -> exists d U,
     ssfr_data key split sing choice b pf nhalos (Fin lgt0) fb rk = Some d /\ sl_lgt0 key d = Fin lgt0 /\ sl_fb key d = fb /\
     s_mbins (sl_data key d) = map Fin Em /\ s_sbins (sl_data key d) = map Fin Es /\ s_ids (sl_data key d) = fitted_bins /\
     ssfr_fit_data kern hm up k Gs M S F T ids E Em Es kd nhalos lgt0 (split rk (length U)) U d) /\
  ((0 < nhalos)%nat -> exists d U, get_loss_data_smhm key split sing choice pf nhalos (Fin lgt0) rk = Some d /\ sd_keys key d = split rk (length U) /\
     mean_fit_data kern hm up k Gs M S T ids E nhalos lgt0 U d).
