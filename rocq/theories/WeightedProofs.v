(** [compute_weighted_histograms_z0]: proofs. *)
From Coq Require Import Reals Lra Lia ZArith List Bool String.
From Verif Require Import XReal RealFacts ModelUtils ModelKernels ModelSfh ModelPop ModelHist ModelLoad ModelIO SpecLoad ModelTargets SpecCore SpecHist SpecTargets SpecMeasure
  ModelWeighted SpecWeighted
  XFacts IntegralProofs SfhProofs DtProofs SmhmProofs FitProofs HistProofs LossProofs PopProofs SplitProofs SnapshotProofs TargetProofs TargetDataProofs TargetTopProofs MeasureProofs MeasureTopProofs
  ModelQuality ModelSubvol CommittedProofs.
Import List ListNotations.
Open Scope R_scope.
Local Notation length := List.length.

Lemma last_as_nth (l : list R) : last l 0 = nth (length l - 1) l 0.
Proof.
  induction l as [|x [|y l] IH]; [reflexivity..|]. change (last (x :: y :: l) 0) with (last (y :: l) 0). rewrite IH.
  cbn [length Nat.sub]. rewrite Nat.sub_0_r. reflexivity.
Qed.

Lemma weighted_value tb n T M S F E : tables_are tb n T M S F -> (0 < length T)%nat -> increasing E -> (2 <= length E)%nat ->
  weighted_histograms tb (map Fin E)
  = Some (map Fin (map (fun j => Rsum (map (fun k => tw_mass (val M (length T - 1) k) (mean_bin E) (nth j E 0) (nth (Datatypes.S j) E 0)) (seq 0 n))) (seq 0 (length E - 1))),
          map Fin (map (fun j => Rsum (map (fun k => tw_mass (val M (length T - 1) k) (mean_bin E) (nth j E 0) (nth (Datatypes.S j) E 0) * val S (length T - 1) k) (seq 0 n))) (seq 0 (length E - 1)))).
Proof.
  intros [tT tM tS tF nM nS nF wM wS wF cM cS] H0 HE H2.
  unfold weighted_histograms. cbv zeta. unfold last_column. rewrite tT, tM, tS, !map_length.
  rewrite !column_fin by (assumption || lia). rewrite nM, nS.
  pose proof (diff_histograms_ks (val M (length T - 1)) (val S (length T - 1)) (seq 0 n) E HE H2) as D.
  unfold compute_diff_histograms_atz in D. cbv zeta in D. rewrite !map_length, seq_length in D. 
  exact D.
Qed.

Section One.
Variable kern : MahParams xr -> xr -> xr -> xr.
Variable sing : MahParams xr -> list xr -> xr -> list xr * list xr.
Variables (lgt0 : R) (T : list R).
Hypothesis HT : T = evenly (1 / 100) (pow10R lgt0) 200.
Hypothesis T1 : 1 / 100 < pow10R lgt0.
Variables (hm : nat -> MahParams xr) (q : nat -> DiffstarParams xr) (p : nat -> DiffstarParams R) (h : nat -> R -> R) (M : nat -> list R).
Notation goodg := (SpecMeasure.good kern sing T hm q p h M).
Notation Sg := (S_ T p h).
Notation Fg := (F_ T p h).
Variable E : list R.
Hypothesis HE : increasing E.
Hypothesis H2 : (2 <= length E)%nat.

Lemma selected_value I sel : let G := filter sel I in (forall g, In g G -> goodg g) ->
  exists tb wc wh, select_tables kern sing (map sel I) (mah_cols hm I) (ds_cols (sfh_cols q I)) (Fin lgt0) (Some FB) = Some (tb, map sel I) /\
  weighted_histograms tb (map Fin E) = Some (map Fin wc, map Fin wh) /\
  smooth_table G M (fun _ => 1) E wc /\ smooth_table G M (fun g => last (Sg g) 0) E wh.
Proof.
  intros G GG.
  destruct (select_value kern sing (fun _ => pow10R lgt0) lgt0 T HT T1 (Rle_refl _) hm q p h M I sel GG) as (tb & M' & S' & F' & V1 & TA & _ & _ & V).
  fold G in TA, V.
  assert (LT : length T = 200%nat) by (rewrite HT; apply evenly_len).
  exists tb. do 2 eexists. split; [exact V1|]. split; [apply (weighted_value tb _ T M' S' F' E TA); [lia|exact HE|exact H2]|].
  assert (VM : forall k, (k < length G)%nat -> val M' (length T - 1) k = last (M (nth k G 0%nat)) 0).
  { intros k Hk. unfold val. rewrite (proj1 (V k Hk)), last_as_nth. destruct (GG _ (nth_In G 0%nat Hk)) as (_ & _ & _ & L). rewrite L. reflexivity. }
  assert (VS : forall k, (k < length G)%nat -> val S' (length T - 1) k = last (Sg (nth k G 0%nat)) 0).
  { intros k Hk. unfold val. rewrite (proj1 (proj2 (V k Hk))), last_as_nth. f_equal.
    unfold S_. rewrite map_length, massR_length by (unfold sf_; rewrite map_length; reflexivity). reflexivity. }
  split; (split; [rewrite map_length, seq_length; reflexivity|]); intros j Hj;
    rewrite (nth_map _ (seq 0 (length E - 1)) j 0%nat) by (rewrite seq_length; lia); rewrite seq_nth by lia; cbn [Nat.add];
    apply sum_all; intros k Hk.
  - rewrite (VM k Hk). ring.
  - rewrite (VM k Hk), (VS k Hk). reflexivity.
Qed.

Theorem smdpl_weighted dm ds I lm su : fit_files dm ds I lm su hm q ->
  let G := filter (fun g => above0 (lm g) && is1 (su g)) I in (forall g, In g G -> goodg g) ->
  exists S F wc wh, compute_weighted_histograms_z0_smdpl (Some FB) kern sing dm ds (Fin lgt0) (map Fin E) = Some (map Fin wc, map Fin wh) /\
    (forall g, In g G -> galaxy_is kern sing T (hm g) (q g) (M g) (S g) (F g)) /\
    smooth_table G M (fun _ => 1) E wc /\ smooth_table G M (fun g => last (S g) 0) E wh.
Proof.
  intros FF G GG. destruct (selected_value I (fun g => above0 (lm g) && is1 (su g)) GG) as (tb & wc & wh & V1 & V2 & V3 & V4).
  exists Sg, Fg, wc, wh. split; [|split; [|split; assumption]].
  - unfold compute_weighted_histograms_z0_smdpl. rewrite (load_smdpl_value _ _ _ _ _ _ _ FF), V1. exact V2.
  - intros g Hg. apply galaxy_value, GG, Hg.
Qed.

Theorem tng_weighted dm ds N lm ls su r : fit_files dm ds (seq 0 N) lm su hm q -> lookup "loss" ds = Some (D1 (map ls (seq 0 N))) ->
  all_rows N dm -> all_rows N ds -> (r < 20)%nat ->
  let G := filter (fun g => above0 (lm g) && above0 (ls g) && is1 (su g)) (part N 20 r) in (forall g, In g G -> goodg g) ->
  exists wc wh, compute_weighted_histograms_z0_tng kern sing r dm ds (Fin lgt0) (map Fin E) = Some (map Fin wc, map Fin wh) /\
    (forall g, In g G -> galaxy_is kern sing T (hm g) (q g) (M g) (Sg g) (Fg g)) /\
    smooth_table G M (fun _ => 1) E wc /\ smooth_table G M (fun g => last (Sg g) 0) E wh.
Proof.
  intros FF FL RM RS Hr G GG. set (C := part N 20 r) in *.
  assert (HCN : forall i, In i C -> (i < N)%nat) by (intros i; apply part_range; exact Hr).
  destruct (take_file N C dm RM HCN) as (dm' & Em & Vm). destruct (take_file N C ds RS HCN) as (ds' & Ed & Vd).
  assert (FF' : fit_files dm' ds' C lm su hm q).
  { destruct FF. constructor; first [apply Vm; assumption|apply Vd; assumption]. }
  assert (FL' : lookup "loss" ds' = Some (D1 (map ls C))) by (apply Vd; exact FL).
  destruct (selected_value C (fun g => above0 (lm g) && above0 (ls g) && is1 (su g)) GG) as (tb & wc & wh & V1 & V2 & V3 & V4).
  exists wc, wh. split; [|split; [|split; assumption]].
  - unfold compute_weighted_histograms_z0_tng, load_diffstar_sfh_tables_tng.
    change (load_fitted_tables kern sing (Some FB)) with (load_diffstar_sfh_tables_galacticus (Some FB) kern sing).
    rewrite (col1_of _ _ _ (ff_h0 _ _ _ _ _ _ _ FF)), !map_length, seq_length.
    assert (EC : chunk_indices N r = Some C) by (unfold chunk_indices, NCHUNKS; rewrite indices_for_rank_seq by exact Hr; unfold C; rewrite part_eq by exact Hr; reflexivity).
    rewrite EC, Em, Ed, (load_galacticus_value _ _ _ _ _ _ _ FF' _ _ _ ls FL'), V1. exact V2.
  - intros g Hg. apply galaxy_value, GG, Hg.
Qed.

Definition fin_of_w (x : xr) : R := match x with Fin r => r | _ => 0 end.
(** the chunks together *)
Lemma smooth_pool Gs M0 y w : Forall2 (fun G v => smooth_table G M0 y E v) Gs w ->
  smooth_table (List.concat Gs) M0 y E (map (fun j => Rsum (map (fun v => nth j v 0) w)) (seq 0 (length E - 1))).
Proof.
  intros H. split; [rewrite map_length, seq_length; reflexivity|]. intros j Hj.
  rewrite (nth_map _ (seq 0 (length E - 1)) j 0%nat) by (rewrite seq_length; lia). rewrite seq_nth by lia. cbn [Nat.add].
  induction H as [|G v Gs w [_ HG] _ IH]; [reflexivity|]. cbn [List.concat map]. rewrite map_app, Rsum_app, <- IH.
  cbn [Rsum fold_right]. rewrite HG by exact Hj. reflexivity.
Qed.

Lemma filter_concat {A} (f : A -> bool) l : filter f (List.concat l) = List.concat (map (filter f) l).
Proof. induction l; [reflexivity|]. cbn [List.concat map]. rewrite filter_app, IHl. reflexivity. Qed.

Theorem tng_weighted_all dm ds N lm ls su : fit_files dm ds (seq 0 N) lm su hm q -> lookup "loss" ds = Some (D1 (map ls (seq 0 N))) ->
  all_rows N dm -> all_rows N ds ->
  let G := filter (fun g => above0 (lm g) && above0 (ls g) && is1 (su g)) (seq 0 N) in (forall g, In g G -> goodg g) ->
  exists S F (wc wh : nat -> list R),
    (forall r, (r < 20)%nat -> compute_weighted_histograms_z0_tng kern sing r dm ds (Fin lgt0) (map Fin E) = Some (map Fin (wc r), map Fin (wh r))) /\
    (forall g, In g G -> galaxy_is kern sing T (hm g) (q g) (M g) (S g) (F g)) /\
    (forall r, (r < 20)%nat -> let Gr := filter (fun g => above0 (lm g) && above0 (ls g) && is1 (su g)) (part N 20 r) in
       smooth_table Gr M (fun _ => 1) E (wc r) /\ smooth_table Gr M (fun g => last (S g) 0) E (wh r)) /\
    smooth_table G M (fun _ => 1) E (map (fun j => Rsum (map (fun r => nth j (wc r) 0) (seq 0 20))) (seq 0 (length E - 1))) /\
    smooth_table G M (fun g => last (S g) 0) E (map (fun j => Rsum (map (fun r => nth j (wh r) 0) (seq 0 20))) (seq 0 (length E - 1))).
Proof.
  intros FF FL RM RS G GG. set (sel := fun g => above0 (lm g) && above0 (ls g) && is1 (su g)) in *.
  assert (GP : forall r, (r < 20)%nat -> forall g, In g (filter sel (part N 20 r)) -> In g G).
  { intros r Hr g Hg. apply filter_In in Hg. destruct Hg as [A B]. apply filter_In. split; [|exact B]. apply in_seq.
    pose proof (part_range N 20 r g Hr A). lia. }
  set (res := fun r => compute_weighted_histograms_z0_tng kern sing r dm ds (Fin lgt0) (map Fin E)).
  set (get := fun (f : list xr * list xr -> list xr) r => match res r with Some ab => map fin_of_w (f ab) | None => [] end).
  assert (K : forall r, (r < 20)%nat -> res r = Some (map Fin (get fst r), map Fin (get snd r)) /\
     smooth_table (filter sel (part N 20 r)) M (fun _ => 1) E (get fst r) /\ smooth_table (filter sel (part N 20 r)) M (fun g => last (Sg g) 0) E (get snd r)).
  { intros r Hr. destruct (tng_weighted dm ds N lm ls su r FF FL RM RS Hr (fun g Hg => GG g (GP r Hr g Hg))) as (wc & wh & A1 & _ & A3 & A4).
    fold (res r) in A1. unfold get. rewrite A1. cbn [fst snd]. rewrite !map_map, !map_id. auto. }
  exists Sg, Fg, (get fst), (get snd). split; [intros r Hr; apply (K r Hr)|]. split; [intros g Hg; apply galaxy_value, GG, Hg|].
  split; [intros r Hr; cbv zeta; apply (K r Hr)|].
  assert (EG : G = List.concat (map (fun r => filter sel (part N 20 r)) (seq 0 20))).
  { unfold G. rewrite <- (parts_all N 20) by lia. rewrite filter_concat, map_map. reflexivity. }
  assert (P : forall (y : nat -> R) (w : nat -> list R), (forall r, (r < 20)%nat -> smooth_table (filter sel (part N 20 r)) M y E (w r)) ->
    smooth_table G M y E (map (fun j => Rsum (map (fun r => nth j (w r) 0) (seq 0 20))) (seq 0 (length E - 1)))).
  { intros y w Hw. rewrite EG. pose proof (smooth_pool (map (fun r => filter sel (part N 20 r)) (seq 0 20)) M y (map w (seq 0 20))) as Q.
    assert (QE : map (fun j => Rsum (map (fun r => nth j (w r) 0) (seq 0 20))) (seq 0 (length E - 1))
      = map (fun j => Rsum (map (fun v => nth j v 0) (map w (seq 0 20)))) (seq 0 (length E - 1))).
    { apply map_ext. intros j. rewrite map_map. reflexivity. }
    rewrite QE. apply Q. clear Q QE.
    assert (B : forall r, In r (seq 0 20) -> (r < 20)%nat) by (intros r Hr; apply in_seq in Hr; lia).
    revert B. generalize (seq 0 20). intros l B. induction l as [|r l IH]; constructor; [apply Hw, B; left; reflexivity|].
    apply IH. intros s Hs. apply B. right. exact Hs. }
  split; apply P; intros r Hr; apply (K r Hr).
Qed.
End One.

(** as committed *)
Theorem smdpl_weighted_raises : forall kern sing dm ds lgt0 E, compute_weighted_histograms_z0_smdpl GALPOP_FB kern sing dm ds lgt0 E = None.
Proof. intros. unfold compute_weighted_histograms_z0_smdpl. rewrite smdpl_loading_raises. reflexivity. Qed.

(** the mean stellar mass of a bin *)
Lemma smooth_mean G M y E wc wh lo hi : increasing E -> (2 <= length E)%nat -> smooth_table G M (fun _ => 1) E wc -> smooth_table G M y E wh ->
  (forall g, In g G -> lo <= y g <= hi) -> forall j, (S j < length E)%nat ->
  0 <= nth j wc 0 <= INR (length G) /\ lo * nth j wc 0 <= nth j wh 0 <= hi * nth j wc 0.
Proof.
  intros HE H2 [_ C] [_ W] B j Hj. rewrite (C j Hj), (W j Hj). pose proof (mean_bin_pos E HE H2) as P.
  assert (EJ : nth j E 0 < nth (S j) E 0) by (apply increasing_nth_lt; [exact HE|lia|lia]).
  clear C W. induction G as [|g G IH].
  - cbn [map Rsum fold_right length INR]. lra.
  - destruct (IH (fun x Hx => B x (or_intror Hx))) as [I1 I2]. specialize (B g (or_introl eq_refl)).
    cbn [map]. unfold Rsum in *. cbn [fold_right]. 
    pose proof (tw_mass_range (last (M g) 0) (mean_bin E) (nth j E 0) (nth (S j) E 0) P ltac:(lra)) as TW.
    set (w := tw_mass _ _ _ _) in *. change (length (g :: G)) with (S (length G)). rewrite S_INR.
    assert (lo * w <= w * y g <= hi * w). { rewrite (Rmult_comm w). split; apply Rmult_le_compat_r; lra. }
    split; [split|split]; lra.
Qed.

(** Three galaxies listed, one not fitted. *)
Lemma ex_weighted T : T = evenly (1 / 100) (pow10R 2) 200 ->
  1 / 100 < pow10R 2 /\ increasing (evenly 11 (1475 / 100) 12) /\ (2 <= length (evenly 11 (1475 / 100) 12))%nat /\
  fit_files (ex_dm [5; 8; 60]%nat) (ex_ds [5; 8; 60]%nat) [5; 8; 60]%nat ex_loss ex_flag ex_hm ex_q /\
  filter (fun g => above0 (ex_loss g) && is1 (ex_flag g)) [5; 8; 60]%nat = [5; 8]%nat /\
  (forall g, In g [5; 8]%nat ->
     SpecMeasure.good ex_kern ex_sing T ex_hm ex_q (fun _ => mkDiffstar 12 (-1) 1 (-1) 1 0 (-1) 0) (fun _ _ => 12) (fun _ => map (fun _ => 12) T) g) /\
  fit_files (ex_dm (seq 0 40)) (ex_ds (seq 0 40)) (seq 0 40) ex_loss ex_flag ex_hm ex_q /\
  all_rows 40 (ex_dm (seq 0 40)) /\ all_rows 40 (ex_ds (seq 0 40)) /\ lookup "loss" (ex_ds (seq 0 40)) = Some (D1 (map ex_loss (seq 0 40))) /\
  (forall g, In g (filter (fun g => above0 (ex_loss g) && above0 (ex_loss g) && is1 (ex_flag g)) (seq 0 40)) ->
     SpecMeasure.good ex_kern ex_sing T ex_hm ex_q (fun _ => mkDiffstar 12 (-1) 1 (-1) 1 0 (-1) 0) (fun _ _ => 12) (fun _ => map (fun _ => 12) T) g).
Proof.
  intros HT. destruct bins_ok as (B1 & _ & _ & _ & L1 & _). fold E_mh.
  split; [replace (pow10R 2) with (pow10R 1 * pow10R 1) by (rewrite <- pow10_plus; f_equal; lra); rewrite pow10_1; lra|].
  split; [exact B1|]. split; [rewrite L1; lia|]. split; [apply ex_fit_files|].
  split.
  { cbn [filter]. unfold above0, is1, ex_loss, ex_flag. cbn [Nat.ltb Nat.leb].
    destruct (Rlt_dec 0 1); [|lra]. destruct (Rlt_dec 0 (-1)); [lra|]. destruct (Req_EM_T 1 1); [reflexivity|lra]. }
  split; [intros g Hg; apply ex_good; [exact HT|destruct Hg as [<-|[<-|[]]]; lia]|]. split; [apply ex_fit_files|].
  destruct (ex_rows 40) as [R1 R2]. split; [exact R1|]. split; [exact R2|]. split; [reflexivity|]. intros g Hg. apply ex_good; [exact HT|].
  apply filter_In in Hg. destruct Hg as [Hg _]. apply in_seq in Hg. lia.
Qed.
