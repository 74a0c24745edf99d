(** Targets and mass-bin bookkeeping of the population loss data. *)
From Coq Require Import Reals List Bool ZArith Lia Lra.
From Coquelicot Require Import Coquelicot.
From Verif Require Import XReal ModelUtils ModelKernels ModelSfh ModelPop ModelHist ModelLoad ModelIO ModelTargets ModelPopFit
  RealFacts XFacts SpecCore SpecHist SpecTargets SpecPopFit SfhProofs DtProofs FstarProofs PopProofs PopParamProofs HistProofs SmhmProofs
  LossProofs FitProofs TableProofs SnapshotProofs TargetProofs TargetTopProofs LossDataProofs.
Import List ListNotations.
Open Scope R_scope.

Lemma xsum_total n c : xsum (map (fun b => Fin (c b)) (seq 0 n)) = Fin (total n c).
Proof. apply xsum_row. Qed.
Lemma normalise_row n c : total n c <> 0 ->
  normalise (map (fun b => Fin (c b)) (seq 0 n)) = map (fun b => Fin (c b / total n c)) (seq 0 n).
Proof.
  intros H. unfold normalise. rewrite xsum_total, map_map. apply map_ext. intros b. now apply xdiv_fin.
Qed.
Lemma normalise_zero n c : (forall b, (b < n)%nat -> c b = 0) ->
  normalise (map (fun b => Fin (c b)) (seq 0 n)) = repeat NaN n.
Proof.
  intros H. assert (E : map (fun b => Fin (c b)) (seq 0 n) = map (fun b => Fin 0) (seq 0 n)).
  { apply map_ext_in. intros b Hb. apply in_seq in Hb. now rewrite H by lia. }
  rewrite E. unfold normalise. rewrite (xsum_total n (fun _ => 0)).
  replace (total n (fun _ => 0)) with 0 by (unfold total; now rewrite Rsum_zero).
  rewrite map_map. rewrite (map_ext _ (fun _ => NaN)).
  - clear. generalize 0%nat. induction n as [|n IH]; intros s; [reflexivity|]. cbn [seq map repeat]. now rewrite IH.
  - intros b. now apply xdiv_zero_zero.
Qed.
Lemma cell_tbl3 a b c g i j : (i < a)%nat -> (j < b)%nat ->
  cell_of (tbl3 a b c g) i j = Some (map (fun k => Fin (g i j k)) (seq 0 c)).
Proof.
  intros Hi Hj. unfold cell_of, tbl3. rewrite (nth_error_nth' _ []) by (rewrite map_length, seq_length; exact Hi).
  rewrite nth_map_seq by exact Hi. unfold tbl. rewrite (nth_error_nth' _ []) by (rewrite map_length, seq_length; exact Hj).
  now rewrite nth_map_seq.
Qed.
Lemma sum_last_tbl a b c d g : sum_last (tbl4 a b c d g) = tbl3 a b c (fun i j k => total d (g i j k)).
Proof.
  unfold sum_last, tbl4, tbl3, tbl. rewrite map_map. apply map_ext. intros i. rewrite map_map. apply map_ext. intros j.
  rewrite map_map. apply map_ext. intros q. apply xsum_total.
Qed.

Section Data.
Variable key : Type.
Variable split : key -> nat -> list key.
Variable mah_singlehalo : MahParams xr -> list xr -> xr -> list xr * list xr.
Variable log_mah_kern : MahParams xr -> xr -> xr -> xr.
Variable choice : nat -> nat -> list nat -> nat -> bool -> list nat.
Hypothesis HT : timewise mah_singlehalo log_mah_kern.
Hypothesis HC : draws_ok choice.
Hypothesis HS : forall k n, length (split k n) = n.
Variable f : PopFiles.
Variables nz nm nms nsf : nat.
Variable c3 : nat -> nat -> nat -> R.
Variables cc cs : nat -> nat -> nat -> nat -> R.
Variables n1 n2 : nat -> nat -> R.
Hypothesis HF : files_are f nz nm nms nsf c3 cc cs n1 n2.
Variable nhalos : nat.
Variable t0 : R.
Notation h := (f_haloes (pf_f f)).
Notation lgt0 := (Fin t0).
Notation pops k := (pops key split log_mah_kern choice f nz nm k nhalos t0).

Definition mass_row (k : kind) (c : nat * nat) : list xr :=
  normalise (map (fun b => Fin (mass_counts k nsf c3 cc cs (fst c) (snd c) b)) (seq 0 nms)).
Lemma mstar_data_eq k fb rk : mstar_data key split mah_singlehalo choice k f nhalos lgt0 fb rk =
  Some (mkML key (pops k rk) lgt0 fb (pf_mstar_bins f) (map (mass_row k) (usable k h nz nm))).
Proof.
  assert (G : mstar_loss_data key split mah_singlehalo choice (who k)
     (tbl3 nz nm nms (mass_counts k nsf c3 cc cs)) f nhalos lgt0 fb rk =
    Some (mkML key (pops k rk) lgt0 fb (pf_mstar_bins f) (map (mass_row k) (usable k h nz nm)))).
  { unfold mstar_loss_data. rewrite (used_cells_spec key mah_singlehalo log_mah_kern choice HT HC f nz nm nms nsf c3 cc cs n1 n2 HF).
    rewrite (vmap_map_some _ (fun c => mass_row k (fst c))).
    - rewrite with_keys_spec, map_map. reflexivity.
    - intros [c p] Hc. apply in_map_iff in Hc. destruct Hc as (c' & E & Hc). injection E as -> _. cbn [fst].
      destruct (usable_in f nz nm k c Hc) as (A & B & _). rewrite cell_tbl3 by assumption. reflexivity. }
  destruct k; cbn [mstar_data].
  - unfold get_loss_data_pdfs_mstar. rewrite (fa_c3 _ _ _ _ _ _ _ _ _ _ HF). exact G.
  - unfold get_loss_data_pdfs_mstar_cen. rewrite (fa_cc _ _ _ _ _ _ _ _ _ _ HF), sum_last_tbl. exact G.
  - unfold get_loss_data_pdfs_mstar_sat. rewrite (fa_cs _ _ _ _ _ _ _ _ _ _ HF), sum_last_tbl. exact G.
Qed.

(** Which halos stand for every cell, and the targets *)
Lemma mstar_data_spec k fb rk z0 k0 : exists d,
  mstar_data key split mah_singlehalo choice k f nhalos lgt0 fb rk = Some d /\
  ml_lgt0 key d = lgt0 /\ ml_fb key d = fb /\ ml_bins key d = pf_mstar_bins f /\
  let U := usable k h nz nm in
  length (ml_zs key d) = length U /\ length (ml_target key d) = length U /\
  forall m, (m < length U)%nat ->
  let i := fst (nth m U (0%nat, 0%nat)) in let j := snd (nth m U (0%nat, 0%nat)) in
  let z := nth m (ml_zs key d) z0 in
  let q := mass_counts k nsf c3 cc cs i j in
  (exists P, length P = nhalos /\ incl P (sampled k h i j) /\
    ((nhalos <= length (sampled k h i j))%nat -> NoDup P) /\ drawn log_mah_kern h t0 z P) /\
  z_tobs key z = nth i (f_age (pf_f f)) NaN /\ z_key key z = nth m (split rk (length U)) k0 /\
  (total nms q <> 0 -> nth m (ml_target key d) [] = map (fun b => Fin (q b / total nms q)) (seq 0 nms)).
Proof.
  eexists. split; [apply mstar_data_eq|]. cbv beta iota delta [ml_lgt0 ml_fb ml_bins ml_zs ml_target]. do 3 (split; [reflexivity|]).
  intros U. split; [apply pops_length; exact HS|]. split; [unfold U; apply map_length|].
  intros m Hm i j z q.
  destruct (pops_nth key split log_mah_kern choice HC HS f nz nm k nhalos t0 rk m z0 k0 Hm) as (P & A & B & D & E & F & G).
  split; [exists P; exact (conj A (conj B (conj D E)))|]. split; [exact F|]. split; [exact G|].
  intros Ht. rewrite (nth_map_nat _ _ m (0%nat, 0%nat)) by exact Hm. unfold mass_row. apply normalise_row. exact Ht.
Qed.

(** A usable cell without counts *)
Lemma map2_nan g (a b : list xr) : length a = length b -> In NaN b -> (forall x, g x NaN = NaN) -> In NaN (map2 g a b).
Proof.
  intros L I G. revert a L. induction b as [|y b IH]; intros [|x a] L; try discriminate; [contradiction|].
  cbn [map2]. destruct I as [->|I]; [left; apply G|right; apply IH; [exact I|simpl in L; lia]].
Qed.
Lemma mse_nan a b v : mse a b = Some v -> In NaN b -> v = NaN.
Proof.
  intros H I. unfold mse in H. destruct (same_len a b) eqn:E; [|discriminate]. apply same_len_inv in E. apply Some_inj in H.
  subst v. assert (J : In NaN (map2 xsub a b)) by (apply map2_nan; [exact E|exact I|]; intros x; destruct x; reflexivity).
  unfold xmean. rewrite xsum_nan; [reflexivity|]. apply in_map_iff. exists NaN. split; [reflexivity|exact J].
Qed.
Lemma mse2_nan a b r v : mse2 a b = Some v -> In r b -> In NaN r -> v = NaN.
Proof.
  intros H I J. unfold mse2 in H. destruct (_ && _); [|discriminate]. eapply mse_nan; [exact H|].
  apply in_concat. exists r. split; assumption.
Qed.
Lemma mstar_zero_total k fb rk d i j jran_split uniform mvn u v : (0 < nms)%nat ->
  mstar_data key split mah_singlehalo choice k f nhalos lgt0 fb rk = Some d ->
  In (i, j) (usable k h nz nm) -> (forall b, (b < nms)%nat -> mass_counts k nsf c3 cc cs i j b = 0) ->
  loss_mstar key jran_split uniform mvn log_mah_kern u d = Some v -> v = NaN.
Proof.
  intros Hn Hd Hc Hq Hl. rewrite mstar_data_eq in Hd. apply Some_inj in Hd. subst d.
  unfold loss_mstar, loss_mstar_kern_tobs in Hl. cbn [ml_zs ml_lgt0 ml_fb ml_bins ml_target] in Hl.
  destruct (mstar_kern_tobs _ _ _ _ _ _ _ _ _ _) as [pred|]; [|discriminate].
  destruct (mse2 pred _) as [l|] eqn:M; [|discriminate]. apply Some_inj in Hl. subst v.
  rewrite (mse2_nan _ _ (repeat NaN nms) _ M); [reflexivity| |].
  - apply in_map_iff. exists (i, j). split; [|exact Hc]. unfold mass_row. apply normalise_zero. exact Hq.
  - destruct nms; [lia|]. now left.
Qed.
End Data.
