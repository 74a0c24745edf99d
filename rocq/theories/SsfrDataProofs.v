(** sSFR loss data: targets, mass-bin indices and weights. *)
From Coq Require Import Reals List Bool ZArith Lia Lra.
From Coquelicot Require Import Coquelicot.
From Verif Require Import XReal ModelUtils ModelKernels ModelSfh ModelPop ModelHist ModelLoad ModelIO ModelTargets ModelPopFit
  RealFacts XFacts SpecCore SpecHist SpecTargets SpecPopFit SfhProofs DtProofs FstarProofs PopProofs PopParamProofs HistProofs SmhmProofs
  LossProofs FitProofs TableProofs SnapshotProofs TargetProofs TargetDataProofs TargetTopProofs LossDataProofs LossTargetProofs.
Import List ListNotations.
Open Scope R_scope.

Lemma total_ext n c d : (forall b, (b < n)%nat -> c b = d b) -> total n c = total n d.
Proof. intros H. unfold total. apply Rsum_ext. intros b Hb. apply in_seq in Hb. apply H. lia. Qed.
Lemma total_nonneg n c : (forall b, (b < n)%nat -> 0 <= c b) -> 0 <= total n c.
Proof. intros H. unfold total. apply Rsum_nonneg, Forall_map, Forall_forall. intros b Hb. apply in_seq in Hb. apply H. lia. Qed.
Lemma total_zero n c : (forall b, (b < n)%nat -> 0 <= c b) -> total n c = 0 -> forall b, (b < n)%nat -> c b = 0.
Proof.
  intros H E b Hb. apply (Rsum_zero_all c (seq 0 n)); [|exact E|apply in_seq; lia].
  intros a Ha. apply in_seq in Ha. apply H. lia.
Qed.

(** Normalised cells *)
Lemma flat_sum_tbl a b c : flat_sum (tbl a b c) = Fin (total a (fun i => total b (c i))).
Proof.
  unfold flat_sum, tbl, total. generalize (seq 0 a) as l. induction l as [|i l IH]; [reflexivity|].
  cbn [map List.concat]. rewrite xsum_app, IH, xsum_total. unfold total. reflexivity.
Qed.
Lemma cell_pdf_tbl a b c : cell_pdf (tbl a b c) = tbl a b (share a b c).
Proof.
  unfold cell_pdf.
  assert (E : map (map (clip_lo (Fin 0))) (tbl a b c) = tbl a b (fun i j => Rmax (c i j) 0)).
  { unfold tbl. rewrite map_map. apply map_ext. intros i. rewrite map_map. apply map_ext. intros j. unfold clip_lo. apply xmax_fin. }
  cbv zeta. rewrite E, flat_sum_tbl. set (s := total a _).
  unfold tbl. rewrite map_map. apply map_ext_in. intros i Hi. rewrite map_map. apply map_ext_in. intros j Hj.
  apply in_seq in Hi. apply in_seq in Hj. unfold share. fold s. destruct (Req_EM_T s 0) as [Z|Z].
  - assert (P : forall i, 0 <= total b (fun j => Rmax (c i j) 0)) by (intros; apply total_nonneg; intros; apply Rmax_r).
    pose proof (total_zero a _ (fun i _ => P i) Z i ltac:(lia)) as Zi. cbv beta in Zi.
    pose proof (total_zero b _ (fun j _ => Rmax_r (c i j) 0) Zi j ltac:(lia)) as Zj. cbv beta in Zj.
    rewrite xdiv_zero_zero by assumption. reflexivity.
  - rewrite xdiv_fin by exact Z. reflexivity.
Qed.

Lemma ent_tbl a b c i j : (i < a)%nat -> (j < b)%nat -> ent (tbl a b c) i j = Fin (c i j).
Proof. intros. unfold ent, at_, tbl. rewrite nth_map_seq by assumption. now rewrite nth_map_seq. Qed.

Lemma mhalo_pdf_tbl nz nm n : (forall i, (i < nz)%nat -> total nm (n i) <> 0) ->
  mhalo_pdf (tbl nz nm n) = tbl nz nm (fun i => bin_weight nm (n i)).
Proof.
  intros H. unfold mhalo_pdf, tbl. rewrite map_map. apply map_ext_in. intros i Hi. apply in_seq in Hi.
  rewrite normalise_row by (apply H; lia). reflexivity.
Qed.

Lemma xsum_map_fin {A} (g : A -> R) l : xsum (map (fun a => Fin (g a)) l) = Fin (Rsum (map g l)).
Proof. rewrite <- (map_map g Fin). apply xsum_fin. Qed.

Lemma mean_pdfs_row nz nm nms nsf c n i : (i < nz)%nat -> (forall i, (i < nz)%nat -> total nm (n i) <> 0) ->
  nth_error (mean_pdfs nms nsf (tbl4 nz nm nms nsf c) (mhalo_pdf (tbl nz nm n))) i
  = Some (tbl nms nsf (blend (seq 0 nm) (bin_weight nm (n i)) (fun j => share nms nsf (c i j)))).
Proof.
  intros Hi Hn. rewrite mhalo_pdf_tbl by exact Hn. unfold mean_pdfs, tbl4.
  unfold tbl at 1. rewrite map2_map_same. rewrite (nth_error_nth' _ []) by (rewrite map_length, seq_length; exact Hi).
  rewrite nth_map_seq by exact Hi. f_equal. unfold weighted_sum_matrices. match goal with |- _ = tbl nms nsf ?g => change (tbl nms nsf g) with (map (fun a => map (fun b => Fin (g a b)) (seq 0 nsf)) (seq 0 nms)) end. apply map_ext_in. intros a Ha. apply map_ext_in.
  intros b Hb. apply in_seq in Ha. apply in_seq in Hb. unfold tbl3. rewrite map_map, map2_map_same.
  rewrite (map_ext _ (fun j => Fin (bin_weight nm (n i) j * share nms nsf (c i j) a b))).
  - apply xsum_map_fin.
  - intros j. rewrite cell_pdf_tbl, ent_tbl by lia. cbn [xmul]. f_equal. ring.
Qed.

Definition goal_row (nsf : nat) (q : nat -> R) : list xr :=
  if Rlt_dec 0 (total nsf q) then map (fun b => Fin (q b / total nsf q)) (seq 0 nsf) else repeat (Fin 0) nsf.
Lemma target_row_spec nsf q : target_row nsf (map (fun b => Fin (q b)) (seq 0 nsf)) = goal_row nsf q.
Proof.
  unfold target_row, goal_row. rewrite xsum_total. destruct (Rlt_dec 0 (total nsf q)) as [P|P].
  - rewrite (proj2 (xlt_fin _ _) P). apply normalise_row. lra.
  - rewrite (proj2 (xlt_fin_false _ _)) by lra. reflexivity.
Qed.
Lemma target_rows_spec nms nsf q : (20 <= nms)%nat -> target_rows nsf (tbl nms nsf q) = Some (map (fun a => goal_row nsf (q a)) fitted_bins).
Proof.
  intros H. unfold target_rows. change TARGET_MSTAR_IDS with fitted_bins. apply vmap_map_some. intros a Ha.
  assert (L : (a < nms)%nat) by (unfold fitted_bins in Ha; cbn in Ha; lia).
  unfold tbl. rewrite (nth_error_nth' _ []) by (rewrite map_length, seq_length; exact L).
  rewrite nth_map_seq by exact L. cbn [option_map]. now rewrite target_row_spec.
Qed.

(** Indices *)
Lemma filter_prod {A B} (l : list A) (m : list B) (P : A -> bool) (Q : A * B -> bool) :
  filter (fun c => P (fst c)) (filter Q (list_prod l m)) =
  flat_map (fun a => map (pair a) (filter (fun b => Q (a, b)) m)) (filter P l).
Proof.
  induction l as [|a l IH]; [reflexivity|]. cbn [list_prod]. rewrite !filter_app, IH.
  assert (E : filter Q (map (fun y => (a, y)) m) = map (pair a) (filter (fun b => Q (a, b)) m)).
  { clear. induction m as [|b m IH]; [reflexivity|]. cbn [map filter]. destruct (Q (a, b)); cbn [map]; now rewrite IH. }
  rewrite E. clear. cbn [filter].
  assert (F : filter (fun c => P (fst c)) (map (pair a) (filter (fun b => Q (a, b)) m)) = if P a then map (pair a) (filter (fun b => Q (a, b)) m) else []).
  { generalize (filter (fun b => Q (a, b)) m). intros s. induction s as [|b s IH]; [now destruct (P a)|].
    cbn [map filter fst]. rewrite IH. now destruct (P a). }
  rewrite F. destruct (P a); reflexivity.
Qed.
Lemma filter_eqb_seq i n : (i < n)%nat -> filter (fun a => Nat.eqb a i) (seq 0 n) = [i].
Proof.
  intros H. assert (G : forall s m, filter (fun a => Nat.eqb a i) (seq s m) = if (Nat.leb s i && Nat.ltb i (s + m))%bool then [i] else []).
  { intros s m. revert s. induction m as [|m IH]; intros s.
    - cbn [seq filter]. destruct (Nat.leb_spec s i); destruct (Nat.ltb_spec i (s + 0)); cbn [andb]; try reflexivity; lia.
    - cbn [seq filter]. rewrite IH. destruct (Nat.eqb_spec s i); subst.
      + rewrite (proj2 (Nat.leb_gt (S i) i)) by lia. rewrite (proj2 (Nat.leb_le i i)), (proj2 (Nat.ltb_lt i (i + S m))) by lia. reflexivity.
      + replace (S s + m)%nat with (s + S m)%nat by lia.
        destruct (Nat.leb_spec (S s) i); destruct (Nat.leb_spec s i); cbn [andb]; try reflexivity; lia. }
  rewrite G. rewrite (proj2 (Nat.ltb_lt i (0 + n))) by lia. reflexivity.
Qed.
Lemma usable_at k h nz nm i : (i < nz)%nat ->
  filter (fun c => Nat.eqb (fst c) i) (usable k h nz nm) = map (pair i) (used_bins k h nm i).
Proof.
  intros H. unfold usable. rewrite (filter_prod _ _ (fun a => Nat.eqb a i)), filter_eqb_seq by exact H. cbn [flat_map].
  rewrite app_nil_r. reflexivity.
Qed.
Lemma index_mhalo_spec k h nz nm : index_mhalo nz (usable k h nz nm) = map (used_bins k h nm) (seq 0 nz).
Proof.
  unfold index_mhalo. apply map_ext_in. intros i Hi. apply in_seq in Hi. rewrite usable_at by lia. rewrite map_map. apply map_id.
Qed.

Definition positions {A} (P : A -> bool) (l : list A) : list nat :=
  map snd (filter (fun c => P (fst c)) (combine l (seq 0 (length l)))).
Lemma positions_gen {A} (P : A -> bool) (l : list A) pre d :
  map (fun q => nth q (pre ++ l) d) (map snd (filter (fun c => P (fst c)) (combine l (seq (length pre) (length l))))) = filter P l.
Proof.
  revert pre. induction l as [|a l IH]; intros pre; [reflexivity|]. cbn [length seq combine filter fst].
  specialize (IH (pre ++ [a])). rewrite app_length in IH. cbn [length] in IH. rewrite Nat.add_1_r in IH.
  rewrite <- app_assoc in IH. cbn [app] in IH.
  destruct (P a); cbn [map snd]; rewrite IH; [|reflexivity]. rewrite app_nth2 by lia. rewrite Nat.sub_diag. reflexivity.
Qed.
Lemma positions_vals {A} (P : A -> bool) (l : list A) d : map (fun q => nth q l d) (positions P l) = filter P l.
Proof. apply (positions_gen P l []). Qed.
Lemma positions_lt {A} (P : A -> bool) (l : list A) : Forall (fun q => (q < length l)%nat) (positions P l).
Proof.
  unfold positions. rewrite Forall_map. apply Forall_forall. intros [a q] H. apply filter_In in H. destruct H as [H _].
  apply in_combine_r in H. apply in_seq in H. cbn [snd]. lia.
Qed.
Lemma indx_pdf_spec nz (U : list (nat * nat)) : indx_pdf nz U = map (fun i => positions (fun c => Nat.eqb (fst c) i) U) (seq 0 nz).
Proof. reflexivity. Qed.
Lemma positions_length {A} (P : A -> bool) (l : list A) : length (positions P l) = length (filter P l).
Proof. destruct l as [|a l]; [reflexivity|]. rewrite <- (positions_vals P (a :: l) a). now rewrite map_length. Qed.

(** Ragged arrays *)
Section Ragged.
Variables (k : kind) (h : Haloes) (nz nm : nat) (w : nat -> nat -> R).
Notation U := (usable k h nz nm).
Notation js := (used_bins k h nm).
Notation pos i := (positions (fun c => Nat.eqb (fst c) i) U).
Definition width : nat := list_max_len (indx_pdf nz U).
Definition pad_w (i : nat) : list R := map (w i) (js i) ++ repeat 0 (width - length (js i)).
Definition pad_i (i : nat) : list nat := pos i ++ repeat 0%nat (width - length (js i)).
Lemma pos_length i : (i < nz)%nat -> length (pos i) = length (js i).
Proof. intros H. rewrite positions_length, usable_at by exact H. apply map_length. Qed.
Lemma map_repeat {A B} (g : A -> B) x n : map g (repeat x n) = repeat (g x) n.
Proof. induction n as [|n IH]; [reflexivity|]. cbn [repeat map]. now rewrite IH. Qed.
Lemma ragged_ok : (0 < nz)%nat -> (forall i, (i < nz)%nat -> js i <> []) ->
  prepare_ragged (indx_pdf nz U) (tbl nz nm w) (index_mhalo nz U)
  = Some (map pad_i (seq 0 nz), map (map Fin) (map pad_w (seq 0 nz))).
Proof.
  intros Hz Hj. unfold prepare_ragged. fold width.
  assert (E : length (indx_pdf nz U) = nz) by (unfold indx_pdf; rewrite map_length, seq_length; reflexivity).
  destruct (indx_pdf nz U) as [|x0 xs] eqn:EI; [simpl in E; lia|]. rewrite <- EI in *. clear EI x0 xs. cbv zeta. rewrite E.
  rewrite (vmap_map_some _ (fun i => (pad_i i, map Fin (pad_w i)))).
  - rewrite !map_map. reflexivity.
  - intros i Hi. apply in_seq in Hi. rewrite index_mhalo_spec, indx_pdf_spec.
    rewrite (nth_error_nth' (map (fun i0 => positions _ U) _) []) by (rewrite map_length, seq_length; lia).
    unfold tbl. rewrite (nth_error_nth' (map (fun i0 => map _ _) _) []) by (rewrite map_length, seq_length; lia).
    rewrite (nth_error_nth' (map js _) []) by (rewrite map_length, seq_length; lia).
    rewrite !nth_map_seq by lia. pose proof (Hj i ltac:(lia)) as Hne.
    assert (G : gather (map (fun j => Fin (w i j)) (seq 0 nm)) (js i) = Some (map (fun j => Fin (w i j)) (js i))).
    { unfold gather. apply vmap_map_some. intros j Hjj. apply in_those in Hjj.
      rewrite (nth_error_nth' _ NaN) by (rewrite map_length, seq_length; lia). now rewrite nth_map_seq by lia. }
    destruct (js i) as [|j0 jr] eqn:EJ; [congruence|]. rewrite <- EJ in *.
    rewrite G. unfold ragged_row.
    rewrite (proj2 (Nat.eqb_eq _ _)) by (rewrite map_length; apply pos_length; lia).
    unfold pad_i, pad_w. rewrite map_app, map_repeat, map_map, map_length, pos_length by lia. reflexivity.
Qed.
Lemma ragged_none T i : (i < nz)%nat -> js i = [] -> prepare_ragged (indx_pdf nz U) T (index_mhalo nz U) = None.
Proof.
  intros Hi Hj. destruct (prepare_ragged _ _ _) as [[a b]|] eqn:E; [|reflexivity]. exfalso.
  unfold prepare_ragged in E. destruct (indx_pdf nz U) as [|x0 xs] eqn:EI; [discriminate|]. rewrite <- EI in *.
  assert (L : length (indx_pdf nz U) = nz) by (unfold indx_pdf; rewrite map_length, seq_length; reflexivity).
  cbv zeta in E. rewrite L in E. clear EI.
  match type of E with match vmap ?f _ with _ => _ end = _ => destruct (vmap f (seq 0 nz)) as [r|] eqn:V; [|discriminate] end.
  apply vmap_spec in V. pose proof (F2_nth _ _ _ V i 0%nat ([], []) ltac:(rewrite seq_length; exact Hi)) as N. cbv beta in N.
  rewrite seq_nth in N by exact Hi. cbn [Nat.add] in N. rewrite index_mhalo_spec in N.
  rewrite (nth_error_nth' (map js _) []) in N by (rewrite map_length, seq_length; lia).
  rewrite nth_map_seq, Hj in N by lia.
  destruct (nth_error (indx_pdf nz U) i); [|discriminate]. destruct (nth_error T i); discriminate.
Qed.
Lemma ragged_empty T : nz = 0%nat -> prepare_ragged (indx_pdf nz U) T (index_mhalo nz U) = None.
Proof. intros ->. reflexivity. Qed.

(** What the predictions do with the padded arrays *)
Lemma mix_pad P (g : nat * nat -> nat -> nat -> R) a b i : (i < nz)%nat ->
  (forall q, (q < length U)%nat -> nth b (nth a (nth q P []) []) 0 = g (nth q U (0%nat, 0%nat)) a b) ->
  mix P (pad_i i) (pad_w i) a b = blend (js i) (w i) (fun j => g (i, j)) a b.
Proof.
  intros Hi HP. unfold mix, pad_i, pad_w, blend.
  assert (A : forall (F : nat -> R -> R) l1 l2 m1 m2, length l1 = length l2 -> map2 F (l1 ++ m1) (l2 ++ m2) = map2 F l1 l2 ++ map2 F m1 m2).
  { intros F l1. induction l1 as [|x l1 IH]; intros [|y l2] m1 m2 L; try discriminate; [reflexivity|]. cbn. rewrite IH by (simpl in L; lia). reflexivity. }
  rewrite A by (rewrite map_length; apply pos_length, Hi). rewrite Rsum_app.
  assert (Z : forall n, Rsum (map2 (fun q wi => nth b (nth a (nth q P []) []) 0 * wi) (repeat 0%nat n) (repeat 0 n)) = 0).
  { intros n. induction n as [|n IH]; [reflexivity|]. cbn [repeat map2]. unfold Rsum in *. cbn [fold_right]. rewrite IH. ring. }
  rewrite Z, Rplus_0_r.
  pose proof (positions_vals (fun c : nat * nat => Nat.eqb (fst c) i) U (0%nat, 0%nat)) as V. rewrite usable_at in V by exact Hi.
  pose proof (positions_lt (fun c : nat * nat => Nat.eqb (fst c) i) U) as Lt.
  revert V Lt. generalize (pos i). generalize (js i). intros J. induction J as [|j J IH]; intros [|q Q] V Lt; try discriminate; [reflexivity|].
  cbn [map] in V. injection V as V1 V2. inversion Lt; subst. cbn [map map2]. unfold Rsum in *. cbn [fold_right]. rewrite IH by assumption.
  rewrite HP by assumption. rewrite V1. ring.
Qed.
Lemma ragged_F2 n : (0 < length U)%nat -> (length U <= n)%nat -> Forall2 (fun w ix => length w = length ix /\ Forall (fun i => (i < n)%nat) ix)
  (map pad_w (seq 0 nz)) (map pad_i (seq 0 nz)).
Proof.
  intros H Hn. assert (G : forall l, (forall i, In i l -> (i < nz)%nat) -> Forall2 (fun w ix => length w = length ix /\ Forall (fun i => (i < n)%nat) ix) (map pad_w l) (map pad_i l)).
  { induction l as [|i l IH]; intros Hl; [constructor|]. cbn [map]. constructor; [|apply IH; intros; apply Hl; now right].
    unfold pad_w, pad_i. rewrite !app_length, !repeat_length, map_length, pos_length by (apply Hl; now left). split; [reflexivity|].
    apply Forall_app. split.
    - eapply Forall_impl; [|apply positions_lt]. cbv beta. intros. lia.
    - apply Forall_forall. intros q Hq. apply repeat_spec in Hq. lia. }
  apply G. intros i Hi. apply in_seq in Hi. lia.
Qed.
End Ragged.

Section Data.
Variable key : Type.
Variable split : key -> nat -> list key.
Variable mah_singlehalo : MahParams xr -> list xr -> xr -> list xr * list xr.
Variable log_mah_kern : MahParams xr -> xr -> xr -> xr.
Variable choice : nat -> nat -> list nat -> nat -> bool -> list nat.
Hypothesis HT : timewise mah_singlehalo log_mah_kern.
Hypothesis HC : draws_ok choice.
Hypothesis HS : forall k n, length (split k n) = n.
Variable f : PopFiles.
Variables nz nm nms nsf : nat.
Variable c3 : nat -> nat -> nat -> R.
Variables cc cs : nat -> nat -> nat -> nat -> R.
Variables n1 n2 : nat -> nat -> R.
Hypothesis HF : files_are f nz nm nms nsf c3 cc cs n1 n2.
Variable nhalos : nat.
Variable t0 : R.
Variable sat : bool.
Notation h := (f_haloes (pf_f f)).
Notation lgt0 := (Fin t0).
Notation kd := (if sat then Sat else Cen).
Notation n := (if sat then n2 else n1).
Notation c := (if sat then cs else cc).
Notation U := (usable kd h nz nm).
Notation js := (used_bins kd h nm).
Notation wt i := (bin_weight nm (n i)).
Notation pops := (pops key split log_mah_kern choice f nz nm kd nhalos t0).
Notation PW := (pad_w kd h nz nm (fun i => bin_weight nm (n i))).
Notation PI := (pad_i kd h nz nm).

Definition goal (i a : nat) : list xr :=
  goal_row nsf (blend (seq 0 nm) (wt i) (fun j => share nms nsf (c i j)) a).
Definition the_data (rk : key) (fb : xr) : SsfrLossData key :=
  mkSL key (pops rk) lgt0 fb
    (mkSsfr (joint_bins_lo (pf_mstar_bins f) (pf_ssfr_bins f)) (joint_bins_hi (pf_mstar_bins f) (pf_ssfr_bins f))
       (pf_mstar_bins f) (pf_ssfr_bins f) (map (map Fin) (map PW (seq 0 nz))) (map PI (seq 0 nz)) fitted_bins)
    (map (fun i => map (goal i) fitted_bins) (seq 0 nz)).
Lemma ssfr_who fb rk : ssfr_data key split mah_singlehalo choice sat f nhalos lgt0 fb rk =
  ssfr_loss_data key split mah_singlehalo choice (who kd) (tbl nz nm n) (tbl4 nz nm nms nsf c) f nhalos lgt0 fb rk.
Proof.
  unfold ssfr_data. destruct sat.
  - unfold get_loss_data_pdfs_ssfr_satellite. now rewrite (fa_cs _ _ _ _ _ _ _ _ _ _ HF), (fa_n2 _ _ _ _ _ _ _ _ _ _ HF).
  - unfold get_loss_data_pdfs_ssfr_central. now rewrite (fa_cc _ _ _ _ _ _ _ _ _ _ HF), (fa_n1 _ _ _ _ _ _ _ _ _ _ HF).
Qed.
Lemma fst_used l : map fst (map (fun x => (x, popc key log_mah_kern choice f kd nhalos t0 x)) l) = l.
Proof. rewrite map_map. apply map_id. Qed.
Lemma ssfr_data_eq fb rk : (0 < nz)%nat -> (20 <= nms)%nat -> (forall i, (i < nz)%nat -> total nm (n i) <> 0) ->
  (forall i, (i < nz)%nat -> js i <> []) ->
  ssfr_data key split mah_singlehalo choice sat f nhalos lgt0 fb rk = Some (the_data rk fb).
Proof.
  intros Hz Hm Hn Hj. rewrite ssfr_who. unfold ssfr_loss_data.
  rewrite (used_cells_spec key mah_singlehalo log_mah_kern choice HT HC f nz nm nms nsf c3 cc cs n1 n2 HF).
  rewrite fst_used. unfold nbins. rewrite (fa_ms _ _ _ _ _ _ _ _ _ _ HF), (fa_sf _ _ _ _ _ _ _ _ _ _ HF), (fa_age _ _ _ _ _ _ _ _ _ _ HF).
  replace (S nms - 1)%nat with nms by lia. replace (S nsf - 1)%nat with nsf by lia.
  rewrite (vmap_map_some _ (fun i => map (goal i) fitted_bins)).
  - rewrite mhalo_pdf_tbl by exact Hn. rewrite ragged_ok by assumption. rewrite with_keys_spec. reflexivity.
  - intros i Hi. apply in_seq in Hi. rewrite mean_pdfs_row by (try assumption; lia). rewrite target_rows_spec by exact Hm. reflexivity.
Qed.
Lemma ssfr_data_raises fb rk i : (i < nz)%nat -> js i = [] ->
  ssfr_data key split mah_singlehalo choice sat f nhalos lgt0 fb rk = None.
Proof.
  intros Hi Hj. rewrite ssfr_who. unfold ssfr_loss_data.
  rewrite (used_cells_spec key mah_singlehalo log_mah_kern choice HT HC f nz nm nms nsf c3 cc cs n1 n2 HF).
  rewrite fst_used. rewrite (fa_age _ _ _ _ _ _ _ _ _ _ HF).
  rewrite (ragged_none kd h nz nm _ i Hi Hj). destruct (vmap _ _); reflexivity.
Qed.

(** Targets and populations *)
Lemma ssfr_data_spec fb rk z0 k0 : (0 < nz)%nat -> (20 <= nms)%nat -> (forall i, (i < nz)%nat -> total nm (n i) <> 0) ->
  (forall i, (i < nz)%nat -> js i <> []) -> exists d,
  ssfr_data key split mah_singlehalo choice sat f nhalos lgt0 fb rk = Some d /\
  sl_lgt0 key d = lgt0 /\ sl_fb key d = fb /\
  s_mbins (sl_data key d) = pf_mstar_bins f /\ s_sbins (sl_data key d) = pf_ssfr_bins f /\ s_ids (sl_data key d) = fitted_bins /\
  s_lo (sl_data key d) = flat_map (fun a => map (fun b => [nth a (pf_mstar_bins f) NaN; nth b (pf_ssfr_bins f) NaN]) (seq 0 nsf)) (seq 0 nms) /\
  s_hi (sl_data key d) = flat_map (fun a => map (fun b => [nth (a + 1) (pf_mstar_bins f) NaN; nth (b + 1) (pf_ssfr_bins f) NaN]) (seq 0 nsf)) (seq 0 nms) /\
  length (sl_target key d) = nz /\
  (forall i, (i < nz)%nat -> length (nth i (sl_target key d) []) = 5%nat /\
   forall t, (t < 5)%nat ->
   let q := blend (seq 0 nm) (wt i) (fun j => share nms nsf (c i j)) (nth t fitted_bins 0%nat) in
   nth t (nth i (sl_target key d) []) [] =
     if Rlt_dec 0 (total nsf q) then map (fun b => Fin (q b / total nsf q)) (seq 0 nsf) else repeat (Fin 0) nsf) /\
  length (sl_zs key d) = length U /\
  forall m, (m < length U)%nat ->
  let i := fst (nth m U (0%nat, 0%nat)) in let j := snd (nth m U (0%nat, 0%nat)) in
  let z := nth m (sl_zs key d) z0 in
  (exists P, length P = nhalos /\ incl P (sampled kd h i j) /\
    ((nhalos <= length (sampled kd h i j))%nat -> NoDup P) /\ drawn log_mah_kern h t0 z P) /\
  z_tobs key z = nth i (f_age (pf_f f)) NaN /\ z_key key z = nth m (split rk (length U)) k0.
Proof.
  intros Hz Hm Hn Hj. exists (the_data rk fb). split; [apply ssfr_data_eq; assumption|].
  unfold the_data. cbv beta iota delta [sl_lgt0 sl_fb sl_data sl_target sl_zs s_mbins s_sbins s_ids s_lo s_hi]. do 5 (split; [reflexivity|]).
  split; [|split; [|split; [|split; [|split]]]].
  - unfold joint_bins_lo, nbins. rewrite (fa_ms _ _ _ _ _ _ _ _ _ _ HF), (fa_sf _ _ _ _ _ _ _ _ _ _ HF).
    replace (S nms - 1)%nat with nms by lia. replace (S nsf - 1)%nat with nsf by lia. reflexivity.
  - unfold joint_bins_hi, nbins. rewrite (fa_ms _ _ _ _ _ _ _ _ _ _ HF), (fa_sf _ _ _ _ _ _ _ _ _ _ HF).
    replace (S nms - 1)%nat with nms by lia. replace (S nsf - 1)%nat with nsf by lia. reflexivity.
  - rewrite map_length. apply seq_length.
  - intros i Hi. rewrite nth_map_seq by exact Hi. split; [apply map_length|]. intros t Ht. cbv zeta.
    rewrite (nth_map_nat _ fitted_bins t 0%nat) by exact Ht. reflexivity.
  - apply pops_length. exact HS.
  - intros m Hm'. cbv zeta.
    destruct (pops_nth key split log_mah_kern choice HC HS f nz nm kd nhalos t0 rk m z0 k0 Hm') as (P & A & B & D & E & F & G).
    split; [exists P; exact (conj A (conj B (conj D E)))|]. split; [exact F|]. exact G.
Qed.

Lemma js_U : (0 < nz)%nat -> js 0 <> [] -> (0 < length U)%nat.
Proof.
  intros Hz Hj. destruct U as [|x l] eqn:E; [|simpl; lia]. exfalso.
  pose proof (usable_at kd h nz nm 0 Hz) as A. rewrite E in A. cbn [filter] in A. destruct (js 0); [congruence|discriminate].
Qed.
Lemma tbl_Fin a b g : tbl a b g = map (map Fin) (map (fun i => map (g i) (seq 0 b)) (seq 0 a)).
Proof. unfold tbl. rewrite map_map. apply map_ext. intros i. now rewrite map_map. Qed.

(** Predictions from one histogram per population *)
Lemma ssfr_prediction_eq fb rk (p : nat * nat -> nat -> nat -> R) :
  (0 < nz)%nat -> (20 <= nms)%nat -> (forall i, (i < nz)%nat -> js i <> []) ->
  let d := sl_data key (the_data rk fb) in
  conditional_pdfs nms nsf (map (fun x => tbl nms nsf (p x)) U) (s_nmhalo d) (s_indx d) (s_ids d)
  = Some (map (fun i => map (fun a => let q := blend (js i) (wt i) (fun j => p (i, j)) a in
      map (fun b => Fin (q b) / Fin (total nsf q))%X (seq 0 nsf)) fitted_bins) (seq 0 nz)).
Proof.
  intros Hz Hm Hj d. unfold d, the_data. cbn [sl_data s_nmhalo s_indx s_ids].
  set (P := map (fun x => map (fun a => map (p x a) (seq 0 nsf)) (seq 0 nms)) U).
  assert (EP : map (fun x => tbl nms nsf (p x)) U = map (map (map Fin)) P).
  { unfold P. rewrite map_map. apply map_ext. intros x. apply tbl_Fin. }
  assert (HU : (0 < length U)%nat) by (apply js_U; auto).
  assert (LP : length P = length U) by apply map_length.
  rewrite EP, conditional_value.
  - f_equal. 
    assert (EC : combine (map PW (seq 0 nz)) (map PI (seq 0 nz)) = map (fun i => (PW i, PI i)) (seq 0 nz)).
    { generalize (seq 0 nz). intros l. induction l as [|i l IH]; [reflexivity|]. cbn [map combine]. now rewrite IH. }
    rewrite EC, map_map. apply map_ext_in. intros i Hi. apply in_seq in Hi. cbn [fst snd]. apply map_ext_in. intros a Ha.
    assert (La : (a < nms)%nat) by (unfold fitted_bins in Ha; cbn in Ha; lia).
    assert (M : forall b, (b < nsf)%nat -> mix P (PI i) (PW i) a b = blend (js i) (wt i) (fun j => p (i, j)) a b).
    { intros b Hb. apply (mix_pad kd h nz nm (fun i => bin_weight nm (n i)) P p); [lia|]. intros q Hq. unfold P.
      rewrite (nth_map_nat _ U q (0%nat, 0%nat)) by exact Hq. rewrite nth_map_seq by exact La. now rewrite nth_map_seq. }
    cbv zeta. apply map_ext_in. intros b Hb. apply in_seq in Hb. rewrite M by lia. f_equal. f_equal.
    apply total_ext. exact M.
  - intros m Hm'. unfold P in Hm'. apply in_map_iff in Hm'. destruct Hm' as (x & <- & _). split; [rewrite map_length; apply seq_length|].
    apply Forall_map, Forall_forall. intros a _. rewrite map_length. apply seq_length.
  - apply ragged_F2; [exact HU|lia].
  - apply Forall_forall. intros a Ha. unfold fitted_bins in Ha. cbn in Ha. lia.
Qed.
Lemma blend_skip (w' : nat -> R) (g : nat -> nat -> nat -> R) i a b : (forall j, (j < nm)%nat -> ~ In j (js i) -> w' j * g j a b = 0) ->
  blend (js i) w' g a b = blend (seq 0 nm) w' g a b.
Proof.
  intros H. unfold blend, used_bins, those.
  set (E := fun j => Nat.leb 50 (length (sampled kd h i j))) in *.
  assert (G : forall l, (forall j, In j l -> E j = false -> w' j * g j a b = 0) ->
    Rsum (map (fun j => w' j * g j a b) (filter E l)) = Rsum (map (fun j => w' j * g j a b) l)).
  { induction l as [|j l IH]; intros HL; [reflexivity|]. cbn [filter map]. destruct (E j) eqn:EE; cbn [map]; unfold Rsum in *; cbn [fold_right].
    - rewrite IH by (intros; apply HL; [now right|assumption]). reflexivity.
    - rewrite IH by (intros; apply HL; [now right|assumption]). rewrite (HL j) by (auto; now left). ring. }
  apply G. intros j Hj' EE. apply in_seq in Hj'. apply H; [lia|]. intros I. apply in_those in I. destruct I as [_ I]. fold (E j) in I. congruence.
Qed.

Lemma ssfr_prediction_spec fb rk d (p : nat * nat -> nat -> nat -> R) :
  (0 < nz)%nat -> (20 <= nms)%nat -> (forall i, (i < nz)%nat -> total nm (n i) <> 0) ->
  ssfr_data key split mah_singlehalo choice sat f nhalos lgt0 fb rk = Some d ->
  exists r, conditional_pdfs nms nsf (map (fun x => tbl nms nsf (p x)) U) (s_nmhalo (sl_data key d)) (s_indx (sl_data key d)) (s_ids (sl_data key d)) = Some r /\
  length r = nz /\ forall i t, (i < nz)%nat -> (t < 5)%nat ->
   let q := blend (js i) (wt i) (fun j => p (i, j)) (nth t fitted_bins 0%nat) in
   (total nsf q <> 0 -> nth t (nth i r []) [] = map (fun b => Fin (q b / total nsf q)) (seq 0 nsf)) /\
   ((forall b, (b < nsf)%nat -> q b = 0) -> nth t (nth i r []) [] = repeat NaN nsf).
Proof.
  intros Hz Hm Hn Hd.
  assert (Hj : forall i, (i < nz)%nat -> js i <> []).
  { intros i Hi E. rewrite (ssfr_data_raises fb rk i Hi E) in Hd. discriminate. }
  rewrite ssfr_data_eq in Hd by assumption. apply Some_inj in Hd. subst d.
  eexists. split; [apply ssfr_prediction_eq; assumption|]. split; [rewrite map_length; apply seq_length|].
  intros i t Hi Ht q. rewrite nth_map_seq by exact Hi. rewrite (nth_map_nat _ fitted_bins t 0%nat) by exact Ht.
  cbv zeta. fold q. split.
  - intros H. apply map_ext. intros b. now apply xdiv_fin.
  - intros H. pose proof (normalise_zero nsf q H) as N. unfold normalise in N. rewrite xsum_total, map_map in N. exact N.
Qed.

(** Measured distributions in, targets out *)
Lemma ssfr_consistent fb rk d :
  (0 < nz)%nat -> (20 <= nms)%nat -> (forall i, (i < nz)%nat -> total nm (n i) <> 0) ->
  ssfr_data key split mah_singlehalo choice sat f nhalos lgt0 fb rk = Some d ->
  (forall i j, (i < nz)%nat -> (j < nm)%nat -> (length (sampled kd h i j) < 50)%nat ->
     n i j = 0 \/ forall a b, (a < nms)%nat -> (b < nsf)%nat -> c i j a b <= 0) ->
  (forall i t, (i < nz)%nat -> (t < 5)%nat ->
     0 < total nsf (blend (seq 0 nm) (wt i) (fun j => share nms nsf (c i j)) (nth t fitted_bins 0%nat))) ->
  conditional_pdfs nms nsf (map (fun x => tbl nms nsf (share nms nsf (c (fst x) (snd x)))) U)
    (s_nmhalo (sl_data key d)) (s_indx (sl_data key d)) (s_ids (sl_data key d)) = Some (sl_target key d).
Proof.
  intros Hz Hm Hn Hd Hs Hp.
  assert (Hj : forall i, (i < nz)%nat -> js i <> []).
  { intros i Hi E. rewrite (ssfr_data_raises fb rk i Hi E) in Hd. discriminate. }
  rewrite ssfr_data_eq in Hd by assumption. apply Some_inj in Hd. subst d.
  rewrite (ssfr_prediction_eq fb rk (fun x => share nms nsf (c (fst x) (snd x)))) by assumption.
  f_equal. unfold the_data. cbn [sl_target]. apply map_ext_in. intros i Hi. apply in_seq in Hi.
  rewrite (list_as_seq fitted_bins 0%nat), !map_map. apply map_ext_in. intros t Ht. apply in_seq in Ht.
  set (a := nth t fitted_bins 0%nat). cbv zeta. cbn [fst snd].
  assert (La : (a < nms)%nat).
  { assert (I : In a fitted_bins) by (apply nth_In; lia). clearbody a. unfold fitted_bins in I. cbn in I. lia. }
  assert (E : forall b, (b < nsf)%nat -> blend (js i) (wt i) (fun j => share nms nsf (c i j)) a b
     = blend (seq 0 nm) (wt i) (fun j => share nms nsf (c i j)) a b).
  { intros b Hb. apply blend_skip. intros j Hjn Hnin.
    assert (L : (length (sampled kd h i j) < 50)%nat).
    { destruct (Nat.lt_ge_cases (length (sampled kd h i j)) 50) as [L|L]; [exact L|]. exfalso. apply Hnin. apply in_those.
      split; [exact Hjn|]. now apply Nat.leb_le. }
    destruct (Hs i j ltac:(lia) Hjn L) as [Z|Z].
    - unfold bin_weight. rewrite Z. unfold Rdiv. rewrite !Rmult_0_l. reflexivity.
    - assert (S0 : share nms nsf (c i j) a b = 0).
      { unfold share. destruct (Req_EM_T _ 0); [reflexivity|]. rewrite Rmax_right by (apply Z; assumption). unfold Rdiv. now rewrite Rmult_0_l. }
      rewrite S0. ring. }
  specialize (Hp i t ltac:(lia) ltac:(cbn in Ht; lia)). fold a in Hp. unfold goal, goal_row.
  destruct (Rlt_dec 0 _) as [P|P]; [|contradiction].
  rewrite (total_ext _ _ _ E). apply map_ext_in. intros b Hb. apply in_seq in Hb. rewrite E by lia. apply xdiv_fin. apply Rgt_not_eq. exact P.
Qed.
End Data.
