(** Data of the population fits from the measured galaxies: proofs. *)
From Coq Require Import Reals List Bool ZArith Lia Lra Permutation.
From Verif Require Import XReal ModelUtils ModelKernels ModelSfh ModelPop ModelHist ModelLoad ModelIO ModelTargets ModelPopFit ModelSmhmFit
  RealFacts XFacts SpecCore SpecHist SpecTargets SpecMeasure SpecPopFit SpecLossChain SfhProofs DtProofs FstarProofs PopProofs PopParamProofs HistProofs
  LossProofs FitProofs TableProofs SmhmProofs SnapshotProofs TargetProofs TargetTopProofs LossDataProofs LossTargetProofs SsfrDataProofs.
Import List ListNotations.
Open Scope R_scope.
Local Notation length := List.length.

Lemma count_seq {A} (P : A -> bool) l d : length (filter (fun n => P (nth n l d)) (seq 0 (length l))) = length (filter P l).
Proof. symmetry. rewrite (list_as_seq l d) at 1. apply filter_map_length. Qed.
Lemma filter_seq {A} (P : nat -> bool) (l : list A) (d : A) (Q : A -> bool) : (forall n, (n < length l)%nat -> P n = Q (nth n l d)) ->
  length (filter P (seq 0 (length l))) = length (filter Q l).
Proof.
  intros H. rewrite <- (count_seq Q l d). f_equal. apply filter_ext_in. intros n Hn. apply in_seq in Hn. apply H. lia.
Qed.
Lemma filter_len_concat {A} (P : A -> bool) ls : length (filter P (List.concat ls)) = list_sum (map (fun l => length (filter P l)) ls).
Proof. induction ls as [|l ls IH]; [reflexivity|]. cbn [List.concat map list_sum fold_right]. rewrite filter_app, app_length, IH. reflexivity. Qed.
Lemma NoDup_app_l {A} (l m : list A) : NoDup (l ++ m) -> NoDup l /\ NoDup m /\ forall x, In x l -> ~ In x m.
Proof.
  induction l as [|a l IH]; intros H; [split; [constructor|split; [exact H|contradiction]]|].
  cbn in H. inversion H as [|? ? N D]; subst. destruct (IH D) as (A1 & A2 & A3).
  split; [constructor; [intro I; apply N, in_or_app; now left|exact A1]|]. split; [exact A2|].
  intros x [<-|I] J; [apply N, in_or_app; now right|exact (A3 x I J)].
Qed.
Lemma NoDup_app_r {A} (l m : list A) : NoDup l -> NoDup m -> (forall x, In x l -> ~ In x m) -> NoDup (l ++ m).
Proof.
  induction l as [|a l IH]; intros H K D; [exact K|]. inversion H; subst. cbn. constructor.
  - intros I. apply in_app_or in I. destruct I as [I|I]; [contradiction|exact (D a (or_introl eq_refl) I)].
  - apply IH; auto. intros x I. apply D. now right.
Qed.

Lemma telescope_plus x s E : 0 < s -> E <> [] ->
  Rsum (map (fun b => tw_mass x s (nth b E 0) (nth (b + 1) E 0)) (seq 0 (length E - 1))) = tw_mass x s (hd 0 E) (last E 0).
Proof. intros Hs HE. rewrite <- (telescope_seq x s E Hs HE). apply Rsum_ext. intros b _. now rewrite Nat.add_1_r. Qed.

Section Chain.
Variables (k : nat) (hm : nat -> MahParams xr) (q : nat -> DiffstarParams xr) (up : nat -> Z) (Gs : list (list nat)) (cen sat : nat -> bool)
  (M S F : nat -> list R) (T : list R) (ids : list nat) (zs E Em Es : list R) (f : Final).
Hypothesis FT : final_tables k hm q up Gs cen sat M S F T ids zs E Em Es f.
Hypothesis HE : (2 <= length E)%nat.
Hypothesis HEm : (2 <= length Em)%nat.
Hypothesis HEs : (2 <= length Es)%nat.
Notation G := (List.concat Gs).
Notation pf := (measured f E Em Es).
Notation h := (f_haloes f).

Definition c3 (i j a : nat) : R :=
  Rsum (map (fun g => tw_mass (at_t ids S i g) (mean_bin Em) (nth a Em 0) (nth (a + 1) Em 0)) (filter (fun g => interior E j (at_t ids M i g)) G)).
Definition c4 (who : nat -> bool) (i j a b : nat) : R :=
  Rsum (map (fun g => tw_mass (at_t ids S i g) (mean_bin Em) (nth a Em 0) (nth (a + 1) Em 0)
                        * tw_mass (Rmax (at_t ids F i g) (-12)) (mean_bin Es) (nth b Es 0) (nth (b + 1) Es 0))
           (filter (fun g => interior E j (at_t ids M i g) && who g) G)).
Definition n2d (who : nat -> bool) (i j : nat) : R := INR (count (fun g => who g && inbin E j (at_t ids M i g)) G).

Lemma measured_files : files_are pf (length ids) (length E - 1) (length Em - 1) (length Es - 1) c3 (c4 cen) (c4 sat) (n2d cen) (n2d sat).
Proof using FT HE HEm HEs.
  destruct FT as [ST _ AG (Ls & SO & FS)]. destruct ST as [].
  constructor; cbn [measured pf_f pf_logmh_bins pf_mstar_bins pf_ssfr_bins]; rewrite ?map_length; try lia; try assumption.
  - rewrite AG. apply map_length.
  - rewrite (so_bin _ _ _ _ _ _ _ _ _ SO), (so_tid _ _ _ _ _ _ _ _ _ SO), !map_length. reflexivity.
  - rewrite (so_upid _ _ _ _ _ _ _ _ _ SO), (so_tid _ _ _ _ _ _ _ _ _ SO), !map_length. reflexivity.
  - rewrite (so_mah _ _ _ _ _ _ _ _ _ SO), (so_tid _ _ _ _ _ _ _ _ _ SO), !map_length. reflexivity.
  - rewrite (so_mah _ _ _ _ _ _ _ _ _ SO), Forall_map. apply Forall_forall. reflexivity.
Qed.

(** The sample as a list of galaxies *)
Section Sample.
Variable Ls : list (list (nat * nat * nat)).
Hypothesis SO : sample_of hm q up T E ids zs h (List.concat Ls).
Hypothesis FS : Forall2 (fun G L => fair_sample k G M E ids L) Gs Ls.
Notation L := (List.concat Ls).
Definition r0 : nat * nat * nat := (0, 0, 0)%nat.
Definition row (n : nat) := nth n L r0.

Lemma len_L : length (h_tobs_id h) = length L.
Proof using SO. rewrite (so_tid _ _ _ _ _ _ _ _ _ SO). apply map_length. Qed.
Lemma tid_at n : (n < length L)%nat -> nth n (h_tobs_id h) 0%nat = tgt (row n).
Proof using SO. intros H. rewrite (so_tid _ _ _ _ _ _ _ _ _ SO). now rewrite (nth_map_nat _ _ n r0). Qed.
Lemma bin_at n : (n < length L)%nat -> nth n (h_logmh_id h) 0%nat = bin (row n).
Proof using SO. intros H. rewrite (so_bin _ _ _ _ _ _ _ _ _ SO). now rewrite (nth_map_nat _ _ n r0). Qed.
Lemma upid_at n : (n < length L)%nat -> nth n (h_upid h) 0%Z = up (halo (row n)).
Proof using SO. intros H. rewrite (so_upid _ _ _ _ _ _ _ _ _ SO). now rewrite (nth_map_nat _ _ n r0). Qed.
Lemma mah_at n : (n < length L)%nat -> halo_mah h n = hm (halo (row n)).
Proof using SO.
  intros H. unfold halo_mah. rewrite (so_mah _ _ _ _ _ _ _ _ _ SO). rewrite (nth_map_nat _ _ n r0) by exact H.
  cbn. unfold row. destruct (hm (halo (nth n L r0))). reflexivity.
Qed.
Lemma L_in r : In r L -> (tgt r < length ids)%nat /\ (bin r < length E - 1)%nat /\ In (halo r) G /\
    nth (bin r) E 0 <= at_t ids M (tgt r) (halo r) < nth (bin r + 1) E 0.
Proof using FS.
  pose proof FS as FS'. clear - FS'. induction FS' as [|g l Gs' Ls' FA FB IH]; [contradiction|]. cbn [List.concat]. intros I. apply in_app_or in I. destruct I as [I|I].
  - destruct (fs_in _ _ _ _ _ _ FA r I) as (A & B & C & D). repeat split; try assumption; try lra. apply in_or_app. now left.
  - destruct (IH I) as (A & B & C & D). repeat split; try assumption; try lra. apply in_or_app. now right.
Qed.
Lemma L_distinct : NoDup G -> NoDup L.
Proof using FS.
  pose proof FS as FS'. clear - FS'. induction FS' as [|g l Gs' Ls' FA FB IH]; intros N; [constructor|]. cbn [List.concat] in *. apply NoDup_app_l in N. destruct N as (N1 & N2 & N3).
  apply NoDup_app_r; [apply FA|now apply IH|]. intros r I J. apply (N3 (halo r)).
  - apply (fs_in _ _ _ _ _ _ FA r I).
  - clear - FB J. induction FB as [|g' l' Gs' Ls' FA FB IH]; [contradiction|]. cbn [List.concat] in *. apply in_app_or in J. apply in_or_app.
    destruct J as [J|J]; [left; apply (fs_in _ _ _ _ _ _ FA r J)|right; apply (IH J)].
Qed.
Lemma in_sampled kd i j n : In n (sampled kd h i j) <-> (n < length L)%nat /\ tgt (row n) = i /\ bin (row n) = j /\ of_kind kd (up (halo (row n))) = true.
Proof using SO.
  unfold sampled. rewrite in_those, len_L. split.
  - intros [H B]. rewrite tid_at, bin_at, upid_at in B by exact H. rewrite !andb_true_iff, !Nat.eqb_eq in B. tauto.
  - intros (H & A & B & C). split; [exact H|]. rewrite tid_at, bin_at, upid_at by exact H. rewrite !andb_true_iff, !Nat.eqb_eq. tauto.
Qed.
Lemma sampled_kept i j : (i < length ids)%nat -> (j < length E - 1)%nat -> length (sampled All h i j) = kept k M E ids Gs i j.
Proof using SO FS.
  intros Hi Hj. unfold sampled, those. rewrite len_L.
  rewrite (filter_seq _ L r0 (fun r => Nat.eqb (tgt r) i && Nat.eqb (bin r) j)).
  - rewrite filter_len_concat. unfold kept. pose proof FS as FS'. clear - FS' Hi Hj. induction FS' as [|g l Gs' Ls' FA FB IH]; [reflexivity|].
    cbn [map list_sum fold_right]. fold (list_sum (map (fun l => length (filter (fun r => (tgt r =? i) && (bin r =? j))%nat l)) Ls')).
    rewrite IH. f_equal. apply (fs_count _ _ _ _ _ _ FA i j Hi Hj).
  - intros n Hn. rewrite tid_at, bin_at by exact Hn. cbn [of_kind]. now rewrite andb_true_r.
Qed.
(** Halos drawn from a cell are galaxies of that cell *)
Definition gals (P : list nat) : list nat := map (fun n => halo (row n)) P.
Lemma gals_members kd i j P : incl P (sampled kd h i j) -> incl (gals P) (members kd up M E ids G i j).
Proof using SO FS.
  intros H g I. apply in_map_iff in I. destruct I as (n & <- & I). apply H, in_sampled in I. destruct I as (A & B & C & D).
  unfold members. assert (IL : In (row n) L) by (apply nth_In; exact A). destruct (L_in _ IL) as (_ & _ & IG & R).
  apply filter_In. split; [exact IG|]. rewrite D. cbn [andb]. rewrite B, C in R. unfold half_open. rewrite Nat.add_1_r in R.
  destruct (Rle_dec _ _) as [_|N]; [|lra]. destruct (Rlt_dec _ _) as [_|N]; [reflexivity|lra].
Qed.
Lemma gals_distinct kd i j P : NoDup G -> incl P (sampled kd h i j) -> NoDup P -> NoDup (gals P).
Proof using SO FS.
  intros NG H N. apply L_distinct in NG. unfold gals. induction P as [|n P IH]; [constructor|].
  inversion N as [|? ? N1 N2]; subst. cbn [map]. constructor.
  - intros I. apply in_map_iff in I. destruct I as (m & E1 & I). apply N1.
    assert (In n (sampled kd h i j)) as A by (apply H; now left). assert (In m (sampled kd h i j)) as B by (apply H; now right).
    apply in_sampled in A. apply in_sampled in B. destruct A as (A1 & A2 & A3 & _), B as (B1 & B2 & B3 & _).
    assert (row m = row n) as R.
    { destruct (row m) as [[a b] c], (row n) as [[a' b'] c']. unfold tgt, bin, halo in *. cbn in *. now subst. }
    unfold row in R. apply (NoDup_nth L r0) in R; try assumption. now subst.
  - apply IH; [intros m Hm; apply H; now right|exact N2].
Qed.
Lemma gals_pop {key} (kern : MahParams xr -> xr -> xr -> xr) lgt0 (z : ZPop key) kd i j P : incl P (sampled kd h i j) ->
  drawn kern h lgt0 z P -> galaxies_of kern hm up lgt0 z (gals P).
Proof using SO.
  intros H [D1 D2 D3 D4 _ _ _].
  assert (B : forall n, In n P -> (n < length L)%nat) by (intros n Hn; apply H, in_sampled in Hn; tauto).
  constructor; unfold gals; rewrite ?map_length; try assumption.
  - intros n Hn. rewrite D1 by exact Hn. rewrite (nth_map_nat _ _ n 0%nat) by exact Hn. apply mah_at, B, nth_In, Hn.
  - rewrite D3, map_map. apply map_ext_in. intros n Hn. now rewrite mah_at by auto.
  - rewrite D4, map_map. apply map_ext_in. intros n Hn. now rewrite upid_at by auto.
Qed.
Lemma gals_len kd i j : length (gals (sampled kd h i j)) = length (sampled kd h i j).
Proof using. apply map_length. Qed.
Lemma sampled_le kd i j : NoDup G -> (length (sampled kd h i j) <= length (members kd up M E ids G i j))%nat.
Proof using SO FS.
  intros NG. rewrite <- gals_len. apply NoDup_incl_length.
  - apply (gals_distinct kd i j); [exact NG|apply incl_refl|apply those_NoDup].
  - apply gals_members, incl_refl.
Qed.
Lemma members_kind kd i j : members kd up M E ids G i j = filter (fun g => of_kind kd (up g)) (members All up M E ids G i j).
Proof using.
  unfold members. generalize G. intros l. induction l as [|g l IH]; [reflexivity|]. cbn [filter of_kind andb].
  destruct (half_open E j (at_t ids M i g)); rewrite ?andb_true_r, ?andb_false_r; [|exact IH].
  cbn [filter]. destruct (of_kind kd (up g)); [now rewrite IH|exact IH].
Qed.
Lemma sampled_kind kd i j : gals (sampled kd h i j) = filter (fun g => of_kind kd (up g)) (gals (sampled All h i j)).
Proof using SO.
  unfold gals, sampled, those. rewrite len_L.
  assert (X : forall n, In n (seq 0 (length L)) -> nth n (h_upid h) 0%Z = up (halo (row n))) by (intros n Hn; apply in_seq in Hn; apply upid_at, (proj2 Hn)).
  revert X. generalize (seq 0 (length L)). intros l X. induction l as [|n l IH]; [reflexivity|].
  specialize (IH (fun n Hn => X n (or_intror Hn))). specialize (X n (or_introl eq_refl)). cbn [filter of_kind].
  destruct ((nth n (h_tobs_id h) 0 =? i) && (nth n (h_logmh_id h) 0 =? j))%nat; cbn [andb]; [|exact IH].
  rewrite X. cbn [map filter]. destruct (of_kind kd (up (halo (row n)))); cbn [map]; [now rewrite IH|exact IH].
Qed.
Lemma sampled_all kd i j : (i < length ids)%nat -> (j < length E - 1)%nat -> NoDup G ->
  (forall G', In G' Gs -> (count (fun g => half_open E j (at_t ids M i g)) G' <= k)%nat) ->
  length (sampled kd h i j) = length (members kd up M E ids G i j).
Proof using SO FS.
  intros Hi Hj NG HL.
  assert (LA : length (sampled All h i j) = length (members All up M E ids G i j)).
  { rewrite sampled_kept by assumption. unfold members, kept. cbn [of_kind andb]. rewrite filter_len_concat. f_equal.
    apply map_ext_in. intros G' HG. apply Nat.min_r, (HL G' HG). }
  rewrite <- gals_len, sampled_kind, members_kind.
  assert (PM : Permutation (gals (sampled All h i j)) (members All up M E ids G i j)).
  { apply NoDup_Permutation_bis.
    - apply (gals_distinct All i j); [exact NG|apply incl_refl|apply those_NoDup].
    - rewrite gals_len, LA. apply le_n.
    - apply gals_members, incl_refl. }
  clear - PM. induction PM; cbn [filter]; try congruence; repeat destruct (of_kind _ _); cbn [List.length]; congruence.
Qed.
End Sample.

(** Targets *)
Hypothesis IEm : increasing Em.
Hypothesis IEs : increasing Es.
Hypothesis HK : forall g, In g G -> cen g = of_kind Cen (up g) /\ sat g = of_kind Sat (up g).
Lemma counts_dist kd i j b : mass_counts kd (length Es - 1) c3 (c4 cen) (c4 sat) i j b = mass_dist kd up M S F E Em Es ids G i j b.
Proof using HE HEm HEs IEs HK.
  assert (PS : 0 < mean_bin Es) by now apply mean_bin_pos.
  assert (NE : Es <> []) by (intro Z; rewrite Z in HEs; cbn in HEs; lia).
  assert (X : forall who, (forall g, In g G -> who g = of_kind kd (up g)) -> kd <> All ->
    Rsum (map (c4 who i j b) (seq 0 (length Es - 1))) = mass_dist kd up M S F E Em Es ids G i j b).
  { intros who Hw Ha. unfold c4, mass_dist. rewrite Rsum_swap.
    rewrite (filter_ext_in (fun g => interior E j (at_t ids M i g) && who g) (fun g => of_kind kd (up g) && interior E j (at_t ids M i g))).
    - apply Rsum_ext. intros g _. rewrite Rsum_scal_f. rewrite Rmult_comm. f_equal.
      unfold ssfr_part. destruct kd; [congruence| |]; now apply telescope_plus.
    - intros g Ig. rewrite Hw by exact Ig. apply andb_comm. }
  destruct kd; cbn [mass_counts].
  - unfold c3, mass_dist. cbn [of_kind ssfr_part andb]. apply Rsum_ext. intros g _. ring.
  - apply X; [intros g Ig; now apply HK|discriminate].
  - apply X; [intros g Ig; now apply HK|discriminate].
Qed.
Lemma part_nonneg kd i g : 0 <= ssfr_part kd F ids Es i g.
Proof using HE HEm HEs IEs.
  unfold ssfr_part. destruct kd; [lra| |]; apply tw_mass_range; try (now apply mean_bin_pos); apply Rlt_le, incr_hd_last; assumption.
Qed.
Lemma dist_nonneg kd i j b : (b < length Em - 1)%nat -> 0 <= mass_dist kd up M S F E Em Es ids G i j b.
Proof using HE HEs IEs HEm IEm.
  intros Hb. unfold mass_dist. apply Rsum_nonneg, Forall_map, Forall_forall. intros g _. apply Rmult_le_pos; [apply part_nonneg|].
  apply tw_mass_range; [now apply mean_bin_pos|]. rewrite Nat.add_1_r. apply Rlt_le, incr_lt; [exact IEm|lia].
Qed.
Lemma dist_total kd i j : total (length Em - 1) (mass_dist kd up M S F E Em Es ids G i j)
  = Rsum (map (fun g => ssfr_part kd F ids Es i g * tw_mass (at_t ids S i g) (mean_bin Em) (hd 0 Em) (last Em 0))
      (filter (fun g => of_kind kd (up g) && interior E j (at_t ids M i g)) G)).
Proof using HE HEs HEm IEm.
  unfold total, mass_dist. rewrite Rsum_swap. apply Rsum_ext. intros g _. rewrite Rsum_scal_f. f_equal. apply telescope_plus.
  - now apply mean_bin_pos.
  - intro Z; rewrite Z in HEm; cbn in HEm; lia.
Qed.
Lemma dist_positive kd i j g : In g G -> of_kind kd (up g) = true -> interior E j (at_t ids M i g) = true ->
  hd 0 Em < at_t ids S i g < last Em 0 -> hd 0 Es < Rmax (at_t ids F i g) (-12) < last Es 0 ->
  0 < total (length Em - 1) (mass_dist kd up M S F E Em Es ids G i j).
Proof using HE HEs IEs HEm IEm.
  intros Ig Kg Bg Sg Fg. rewrite dist_total. pose proof (mean_bin_pos Em IEm HEm) as P1. pose proof (mean_bin_pos Es IEs HEs) as P2. apply Rsum_pos.
  - apply Forall_map, Forall_forall. intros g' _. apply Rmult_le_pos; [apply part_nonneg|]. apply tw_mass_range; [exact P1|].
    apply Rlt_le, incr_hd_last; assumption.
  - apply Exists_exists. eexists. split; [apply in_map_iff; exists g; split; [reflexivity|]; apply filter_In; split; [exact Ig|]; now rewrite Kg, Bg|].
    apply Rmult_lt_0_compat.
    + unfold ssfr_part. destruct kd; [lra| |]; apply tw_mass_pos; lra.
    + apply tw_mass_pos; lra.
Qed.
End Chain.
