(** Loss data of the population fit: which halos are simulated, and the targets. *)
From Coq Require Import Reals List Bool ZArith Lia Lra.
From Coquelicot Require Import Coquelicot.
From Verif Require Import XReal ModelUtils ModelKernels ModelSfh ModelPop ModelHist ModelLoad ModelIO ModelTargets ModelPopFit
  RealFacts XFacts SpecCore SpecHist SpecTargets SpecPopFit SfhProofs DtProofs FstarProofs PopProofs PopParamProofs HistProofs
  LossProofs FitProofs TableProofs SnapshotProofs TargetProofs TargetTopProofs.
Import List ListNotations.
Open Scope R_scope.

Lemma list_prod_flat {A B} (l : list A) (m : list B) : list_prod l m = flat_map (fun a => map (fun b => (a, b)) m) l.
Proof. induction l as [|a l IH]; [reflexivity|]. cbn [list_prod flat_map]. now rewrite IH. Qed.

Definition who (k : kind) : Z -> bool := match k with All => everyone | Cen => centrals | Sat => satellites end.
Lemma who_kind k u : who k u = of_kind k u. Proof. now destruct k. Qed.

Lemma in_cell_sampled k i j h : length (h_logmh_id h) = length (h_tobs_id h) -> length (h_upid h) = length (h_tobs_id h) ->
  in_cell (who k) i j h = sampled k h i j.
Proof.
  intros L1 L2. unfold in_cell, sampled, where_true.
  set (m := map2 andb _ _).
  assert (Lm : length m = length (h_tobs_id h)).
  { unfold m. rewrite !map2_length, !map_length. lia. }
  rewrite (keep_those _ _ 0%nat) by (rewrite seq_length; reflexivity). rewrite seq_length, Lm.
  rewrite (map_ext_in _ (fun k => k)).
  - rewrite map_id. apply those_ext. intros q Hq. unfold m.
    rewrite (map2_nth _ _ _ q true true) by (rewrite ?map2_length, ?map_length; lia).
    rewrite (map2_nth _ _ _ q true true) by (rewrite ?map_length; lia).
    rewrite (nth_map_nat _ _ q 0%nat) by lia. rewrite (nth_map_nat _ _ q 0%nat) by lia.
    rewrite (nth_map_nat _ _ q 0%Z) by lia. rewrite who_kind. now rewrite (Nat.eqb_sym i), (Nat.eqb_sym j).
  - intros q Hq. apply in_those in Hq. apply seq_nth. lia.
Qed.

Lemma take_spec {A} (l : list A) P d : (forall q, In q P -> (q < length l)%nat) -> take l P = Some (map (fun q => nth q l d) P).
Proof. intros H. unfold take. apply vmap_map_some. intros q Hq. apply nth_error_nth'. now apply H. Qed.

Definition row5 (r : list xr) := (nth 0 r NaN, nth 1 r NaN, nth 2 r NaN, nth 3 r NaN, nth 4 r NaN).
Lemma five_row r : length r = 5%nat -> five r = Some (row5 r).
Proof. destruct r as [|a [|b [|c [|d [|e [|]]]]]]; intros H; try discriminate. reflexivity. Qed.
Lemma mah_columns_spec rows : Forall (fun r => length r = 5%nat) rows ->
  mah_columns rows = Some (mkMah (map (fun r => nth 0 r NaN) rows) (map (fun r => nth 1 r NaN) rows)
    (map (fun r => nth 2 r NaN) rows) (map (fun r => nth 3 r NaN) rows) (map (fun r => nth 4 r NaN) rows)).
Proof.
  intros F. unfold mah_columns. rewrite (vmap_map_some _ row5).
  - now rewrite !map_map.
  - intros r Hr. apply five_row. rewrite Forall_forall in F. now apply F.
Qed.

Lemma logspace_last s e n : (2 <= n)%nat -> last_ (logspace (Fin s) (Fin e) n) = Fin (pow10R e).
Proof.
  intros H. unfold last_, logspace. rewrite last_nth, map_length, seq_length.
  rewrite (nth_map_nat _ _ _ 0%nat) by (rewrite seq_length; lia). rewrite seq_nth by lia. rewrite Nat.add_0_l.
  assert (P : INR (n - 1) <> 0) by (apply not_0_INR; lia).
  change (Fin e - Fin s)%X with (Fin (e + - s)). rewrite xdiv_fin by exact P. cbn [xmul xadd xpow10].
  do 2 f_equal. field. exact P.
Qed.
Lemma last_map {A B} (f : A -> B) l d e : l <> [] -> last (map f l) e = f (last l d).
Proof.
  intros H. destruct l as [|a l]; [congruence|]. clear H. revert a. induction l as [|b l IH]; intros a; [reflexivity|].
  change (last (map f (a :: b :: l)) e) with (last (map f (b :: l)) e). rewrite IH. reflexivity.
Qed.

Section Data.
Variable key : Type.
Variable split : key -> nat -> list key.
Variable mah_singlehalo : MahParams xr -> list xr -> xr -> list xr * list xr.
Variable log_mah_kern : MahParams xr -> xr -> xr -> xr.
Variable choice : nat -> nat -> list nat -> nat -> bool -> list nat.
Hypothesis HT : timewise mah_singlehalo log_mah_kern.
Hypothesis HC : draws_ok choice.
Hypothesis HS : forall k n, length (split k n) = n.
Variable f : PopFiles.
Variables nz nm nms nsf : nat.
Variable c3 : nat -> nat -> nat -> R.
Variables cc cs : nat -> nat -> nat -> nat -> R.
Variables n1 n2 : nat -> nat -> R.
Hypothesis HF : files_are f nz nm nms nsf c3 cc cs n1 n2.
Variable k : kind.
Variable nhalos : nat.
Variable t0 : R.
Notation h := (f_haloes (pf_f f)).
Notation lgt0 := (Fin t0).

Definition picked (i j : nat) : list nat :=
  choice i j (sampled k h i j) nhalos (Nat.ltb (length (sampled k h i j)) nhalos).

Lemma sampled_ne i j : (50 <= length (sampled k h i j))%nat -> sampled k h i j <> [].
Proof. intros H E. rewrite E in H. cbn in H. lia. Qed.
Lemma picked_ok i j : (50 <= length (sampled k h i j))%nat -> length (picked i j) = nhalos /\ incl (picked i j) (sampled k h i j) /\
  ((nhalos <= length (sampled k h i j))%nat -> NoDup (picked i j)).
Proof.
  intros H. destruct (HC i j (sampled k h i j) nhalos (Nat.ltb (length (sampled k h i j)) nhalos)) as (A & B & D).
  - apply those_NoDup.
  - now apply sampled_ne.
  - intros E. apply Nat.ltb_ge in E. exact E.
  - split; [exact A|]. split; [exact B|]. intros L. apply D. now apply Nat.ltb_ge.
Qed.
Lemma picked_lt i j q : (50 <= length (sampled k h i j))%nat -> In q (picked i j) -> (q < length (h_tobs_id h))%nat.
Proof. intros H I. apply (proj1 (proj2 (picked_ok i j H))) in I. apply in_those in I. apply I. Qed.

Definition pop_mah (P : list nat) : MahParams (list xr) :=
  let c n := map (fun q => nth n (nth q (h_mah h) []) NaN) P in mkMah (c 0%nat) (c 1%nat) (c 2%nat) (c 3%nat) (c 4%nat).
Lemma pop_mah_cols P : cols_len_mah (length P) (pop_mah P).
Proof. unfold cols_len_mah, pop_mah. cbn. now rewrite !map_length. Qed.
Lemma pop_mah_gal P q : (q < length P)%nat -> gal_mah (pop_mah P) q = halo_mah h (nth q P 0%nat).
Proof.
  intros H. unfold gal_mah, map_mah, pop_mah, halo_mah. cbn [logm0 logtc early_index late_index t_peak].
  rewrite !(nth_map_nat _ P q 0%nat) by exact H. reflexivity.
Qed.
Definition pop_of (P : list nat) (t : xr) (kk : key) : ZPop key :=
  mkZPop key (pop_mah P) (map (fun n => log_mah_kern (halo_mah h n) (Fin (Rpower 10 t0)) lgt0) P)
    (map (fun n => nth n (h_upid h) 0%Z) P) (repeat (Fin (-1)) (length P)) (repeat (Fin 13) (length P)) (repeat (Fin (-99)) (length P)) kk t.
Lemma pop_drawn P t kk : drawn log_mah_kern h t0 (pop_of P t kk) P.
Proof.
  constructor; try reflexivity.
  - intros q Hq. now apply pop_mah_gal.
  - apply pop_mah_cols.
Qed.

Lemma cell_pop_spec i j : (i < nz)%nat -> cell_pop key mah_singlehalo choice (who k) nhalos lgt0 f i j =
  Some (if Nat.leb 50 (length (sampled k h i j)) then Some (pop_of (picked i j) (nth i (f_age (pf_f f)) NaN)) else None).
Proof.
  intros Hi. unfold cell_pop. rewrite in_cell_sampled by apply HF.
  destruct (Nat.leb_spec 50 (length (sampled k h i j))) as [G|G].
  2:{ rewrite (proj2 (Nat.ltb_lt _ _)) by exact G. reflexivity. }
  rewrite (proj2 (Nat.ltb_ge _ _)) by exact G. fold (picked i j). set (P := picked i j).
  assert (HP : forall q, In q P -> (q < length (h_tobs_id h))%nat) by (intros q; apply picked_lt; exact G).
  rewrite (take_spec (h_mah h) P []) by (intros q Hq; rewrite (fa_mah _ _ _ _ _ _ _ _ _ _ HF); auto).
  rewrite (take_spec (h_upid h) P 0%Z) by (intros q Hq; rewrite (fa_upid _ _ _ _ _ _ _ _ _ _ HF); auto).
  rewrite (nth_error_nth' _ NaN) by (rewrite (fa_age _ _ _ _ _ _ _ _ _ _ HF); exact Hi).
  rewrite mah_columns_spec.
  2:{ rewrite Forall_map. apply Forall_forall. intros q Hq.
      pose proof (fa_five _ _ _ _ _ _ _ _ _ _ HF) as F. rewrite Forall_forall in F. apply F, nth_In.
      rewrite (fa_mah _ _ _ _ _ _ _ _ _ _ HF). auto. }
  rewrite !map_map. change (mkMah _ _ _ _ _) with (pop_mah P).
  rewrite (mah_halopop_eq _ (length P)) by apply pop_mah_cols.
  unfold pop_of. do 2 f_equal. 
  assert (E : map last_ (map (fun i => snd (mah_singlehalo (gal_mah (pop_mah P) i) (logspace (Fin (-1)) lgt0 50) lgt0)) (seq 0 (length P)))
     = map (fun n => log_mah_kern (halo_mah h n) (Fin (Rpower 10 t0)) lgt0) P).
  { symmetry. rewrite (list_as_seq P 0%nat) at 1. rewrite !map_map. apply map_ext_in. intros q Hq. apply in_seq in Hq. symmetry.
    rewrite pop_mah_gal by lia. rewrite HT. unfold last_. rewrite (last_map _ _ NaN) by discriminate.
    change (last (logspace (Fin (-1)) lgt0 50) NaN) with (last_ (logspace (Fin (-1)) lgt0 50)).
    rewrite logspace_last by lia. reflexivity. }
  rewrite E. reflexivity.
Qed.

Definition popc (c : nat * nat) : key -> ZPop key := pop_of (picked (fst c) (snd c)) (nth (fst c) (f_age (pf_f f)) NaN).
Lemma used_cells_spec : used_cells key mah_singlehalo choice (who k) nhalos lgt0 f
  = Some (map (fun c => (c, popc c)) (usable k h nz nm)).
Proof.
  unfold used_cells, all_cells. rewrite <- list_prod_flat. rewrite (fa_age _ _ _ _ _ _ _ _ _ _ HF).
  unfold nbins. rewrite (fa_mh _ _ _ _ _ _ _ _ _ _ HF). replace (S nm - 1)%nat with nm by lia.
  rewrite (vmap_map_some _ (fun c => (c, if Nat.leb 50 (length (sampled k h (fst c) (snd c))) then Some (popc c) else None))).
  - f_equal. unfold usable. generalize (list_prod (seq 0 nz) (seq 0 nm)). intros l.
    induction l as [|c l IH]; [reflexivity|]. cbn [map flat_map filter snd fst].
    destruct (Nat.leb 50 (length (sampled k h (fst c) (snd c)))); cbn [map app]; rewrite IH; reflexivity.
  - intros [i j] Hc. cbn [fst snd]. apply in_prod_iff in Hc. destruct Hc as [Hi _]. apply in_seq in Hi.
    rewrite cell_pop_spec by lia. reflexivity.
Qed.
Lemma usable_in c : In c (usable k h nz nm) -> (fst c < nz)%nat /\ (snd c < nm)%nat /\ (50 <= length (sampled k h (fst c) (snd c)))%nat.
Proof.
  intros H. apply filter_In in H. destruct H as [I E]. apply Nat.leb_le in E. destruct c as [i j]. apply in_prod_iff in I.
  destruct I as [A B]. apply in_seq in A. apply in_seq in B. cbn [fst snd] in *. repeat split; lia.
Qed.

Definition pops (rk : key) : list (ZPop key) :=
  map2 (fun c kk => popc c kk) (usable k h nz nm) (split rk (length (usable k h nz nm))).
Lemma with_keys_spec rk : with_keys key split rk (map (fun c => (c, popc c)) (usable k h nz nm)) = pops rk.
Proof.
  unfold with_keys, pops. rewrite map_length. generalize (split rk (length (usable k h nz nm))).
  intros l. revert l. generalize (usable k h nz nm). intros u. induction u as [|c u IH]; intros [|x l]; try reflexivity.
  cbn [map map2 snd]. now rewrite IH.
Qed.
Lemma pops_length rk : length (pops rk) = length (usable k h nz nm).
Proof. unfold pops. rewrite map2_length, HS. lia. Qed.

(** What every simulated population is. *)
Lemma pops_nth rk m z0 k0 : (m < length (usable k h nz nm))%nat ->
  let c := nth m (usable k h nz nm) (0%nat, 0%nat) in
  let z := nth m (pops rk) z0 in
  exists P, length P = nhalos /\ incl P (sampled k h (fst c) (snd c)) /\
    ((nhalos <= length (sampled k h (fst c) (snd c)))%nat -> NoDup P) /\
    drawn log_mah_kern h t0 z P /\ z_tobs key z = nth (fst c) (f_age (pf_f f)) NaN /\
    z_key key z = nth m (split rk (length (usable k h nz nm))) k0.
Proof.
  intros Hm c z. exists (picked (fst c) (snd c)).
  assert (Hc : In c (usable k h nz nm)) by (apply nth_In; exact Hm).
  destruct (usable_in c Hc) as (_ & _ & G). destruct (picked_ok _ _ G) as (A & B & D).
  split; [exact A|]. split; [exact B|]. split; [exact D|].
  assert (E : z = popc c (nth m (split rk (length (usable k h nz nm))) k0)).
  { unfold z, pops. rewrite (nth_indep _ z0 (popc (0%nat, 0%nat) k0)) by (rewrite map2_length, HS; lia).
    rewrite (map2_nth _ _ _ m (0%nat, 0%nat) k0) by (rewrite ?HS; exact Hm). reflexivity. }
  rewrite E. split; [apply pop_drawn|]. split; reflexivity.
Qed.
End Data.
