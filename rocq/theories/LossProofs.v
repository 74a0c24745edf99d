(** Conditional PDFs, losses, and the predicted PDFs of a simulated population. *)
From Coq Require Import Reals Lra Lia List Bool Permutation ZArith String.
From Coquelicot Require Import Coquelicot.
From Verif Require Import XReal XFacts RealFacts ModelUtils ModelKernels ModelSfh ModelPop ModelHist SpecCore SpecPop SpecHist
  TriweightProofs SfhProofs PopProofs HistProofs SmhmProofs PopParamProofs PopMcProofs.
Import List ListNotations.
Open Scope R_scope.

Lemma vmap_map_some {A B} (f : A -> option B) g l : (forall a, In a l -> f a = Some (g a)) -> vmap f l = Some (map g l).
Proof.
  intros H. unfold vmap. induction l as [|a l IH]; [reflexivity|]. cbn [map sequence].
  rewrite H by now left. rewrite IH by (intros; apply H; now right). reflexivity.
Qed.

(** *** Mean squared error *)
Lemma mse_fin p t : length p = length t -> p <> [] ->
  mse (map Fin p) (map Fin t) = Some (Fin (Rsum (map2 (fun a b => (a - b) ^ 2) p t) / INR (length p))).
Proof.
  intros H Hn. unfold mse. rewrite same_len_true by (rewrite !map_length; exact H). cbv zeta.
  rewrite (map2_map_fin xsub Rminus) by reflexivity. rewrite map_map.
  rewrite (map_ext _ (fun x => Fin (x ^ 2))) by (intros; apply xpown_fin).
  rewrite <- (map_map (fun x => x ^ 2) Fin). unfold xmean. rewrite xsum_fin. unfold len.
  rewrite !map_length, map2_length, <- H, Nat.min_id.
  rewrite xdiv_fin by (apply not_0_INR; destruct p; [contradiction|simpl; lia]).
  do 2 apply f_equal. apply f_equal2; [|reflexivity]. clear Hn. revert t H.
  induction p as [|a p IH]; intros [|b t] H; try discriminate; [reflexivity|].
  cbn [map2 map fold_right Rsum]. unfold Rsum in *. cbn [fold_right]. rewrite IH by (simpl in H; lia). reflexivity.
Qed.

Definition sqdist (p t : list R) : R := Rsum (map2 (fun a b => (a - b) ^ 2) p t).
Lemma sqdist_nonneg p t : 0 <= sqdist p t.
Proof.
  unfold sqdist, Rsum. revert t. induction p as [|a p IH]; intros [|b t]; simpl map2; simpl fold_right; try lra.
  specialize (IH t). pose proof (pow2_ge_0 (a - b)). simpl in *. lra.
Qed.
Lemma sqdist_zero p t : length p = length t -> (sqdist p t = 0 <-> p = t).
Proof.
  revert t. induction p as [|a p IH]; intros [|b t] H; try discriminate.
  - unfold sqdist, Rsum. simpl. tauto.
  - change (sqdist (a :: p) (b :: t)) with ((a - b) ^ 2 + sqdist p t). simpl in H.
    pose proof (sqdist_nonneg p t). pose proof (pow2_ge_0 (a - b)). split.
    + intros E. assert (E1 : (a - b) ^ 2 = 0) by lra. assert (E2 : sqdist p t = 0) by lra.
      apply IH in E2; [|lia]. subst. assert (a - b = 0) by (simpl in E1; nra). f_equal; lra.
    + intros [= <- <-]. rewrite (proj2 (IH p eq_refl) eq_refl). replace (a - a) with 0 by ring. ring.
Qed.

Lemma mse_props p t : length p = length t -> p <> [] ->
  exists v, mse (map Fin p) (map Fin t) = Some (Fin v) /\ 0 <= v /\ (v = 0 <-> p = t) /\
    v = Rsum (map2 (fun a b => (a - b) ^ 2) p t) / INR (length p).
Proof.
  intros H Hn. eexists. split; [apply mse_fin; assumption|].
  assert (Pn : 0 < INR (length p)) by (apply lt_0_INR; destruct p; [contradiction|simpl; lia]).
  fold (sqdist p t). pose proof (sqdist_nonneg p t) as Q. split; [|split; [|reflexivity]].
  - apply Rmult_le_pos; [exact Q|]. left. apply Rinv_0_lt_compat, Pn.
  - rewrite <- sqdist_zero by exact H. split.
    + intros E. apply (Rmult_eq_reg_r (/ INR (length p))); [|apply Rinv_neq_0_compat; lra]. unfold Rdiv in E. rewrite E. ring.
    + intros ->. unfold Rdiv. ring.
Qed.

Lemma concat_inj {A} (p t : list (list A)) : map (@length A) p = map (@length A) t -> List.concat p = List.concat t -> p = t.
Proof.
  revert t. induction p as [|a p IH]; intros [|b t] H E; try discriminate; [reflexivity|].
  cbn [map List.concat] in *. injection H as H1 H2.
  assert (a = b) as <-.
  { apply (f_equal (firstn (length a))) in E. rewrite firstn_app, Nat.sub_diag, firstn_all, firstn_O, app_nil_r in E.
    rewrite H1, firstn_app, Nat.sub_diag, firstn_all, firstn_O, app_nil_r in E. exact E. }
  apply app_inv_head in E. f_equal. apply IH; assumption.
Qed.

Lemma shape_check {A} (p t : list (list A)) : map (@length A) p = map (@length A) t ->
  forallb (fun b => b) (map2 Nat.eqb (shape2 p) (shape2 t)) && same_len p t = true.
Proof.
  intros H. change (shape2 p) with (map (@length A) p). change (shape2 t) with (map (@length A) t). rewrite H. rewrite same_len_true.
  2:{ rewrite <- (map_length (@length A) p), H, map_length. reflexivity. }
  rewrite andb_true_r. clear H. induction (map _ t) as [|n l IH]; [reflexivity|]. cbn [map2 forallb]. rewrite Nat.eqb_refl. exact IH.
Qed.

Lemma concat_fin l : List.concat (map (map Fin) l) = map Fin (List.concat l).
Proof. symmetry. apply concat_map. Qed.
Lemma shape_fin (l : list (list R)) : map (@length xr) (map (map Fin) l) = map (@length R) l.
Proof. rewrite map_map. apply map_ext. intros. apply map_length. Qed.
Lemma concat_len {A} (p t : list (list A)) : map (@length A) p = map (@length A) t -> length (List.concat p) = length (List.concat t).
Proof. revert t. induction p as [|a p IH]; intros [|b t] H; try discriminate; [reflexivity|]. injection H as H1 H2. simpl. rewrite !app_length. rewrite H1. f_equal. auto. Qed.

Lemma mse2_props p t : map (@length R) p = map (@length R) t -> List.concat p <> [] ->
  exists v, mse2 (map (map Fin) p) (map (map Fin) t) = Some (Fin v) /\ 0 <= v /\ (v = 0 <-> p = t) /\
    v = Rsum (map2 (fun a b => (a - b) ^ 2) (List.concat p) (List.concat t)) / INR (length (List.concat p)).
Proof.
  intros H Hn. unfold mse2. rewrite shape_check by (rewrite !shape_fin; exact H). rewrite !concat_fin.
  destruct (mse_props (List.concat p) (List.concat t) (concat_len _ _ H) Hn) as (v & E & P & Z & V).
  exists v. split; [exact E|]. split; [exact P|]. split; [|exact V]. rewrite Z. split; [|congruence]. apply concat_inj, H.
Qed.

(** Shapes of 3-D arrays *)
Definition shape3 {A} (l : list (list (list A))) : list (list nat) := map (map (@length A)) l.
Lemma shape3_12 {A} (p t : list (list (list A))) : shape3 p = shape3 t ->
  map (@length (list A)) p = map (@length (list A)) t /\ map (@length A) (List.concat p) = map (@length A) (List.concat t).
Proof.
  unfold shape3. revert t. induction p as [|a p IH]; intros [|b t] H; try discriminate; [split; reflexivity|].
  injection H as H1 H2. apply IH in H2 as [I1 I2]. cbn [map List.concat]. rewrite !map_app, I1, I2, H1.
  split; [|reflexivity]. f_equal. rewrite <- (map_length (@length A) a), H1, map_length. reflexivity.
Qed.
Lemma concat_fin3 l : List.concat (map (map (map Fin)) l) = map (map Fin) (List.concat l).
Proof. symmetry. apply concat_map. Qed.

Lemma mse3_props p t : shape3 p = shape3 t -> List.concat (List.concat p) <> [] ->
  exists v, mse3 (map (map (map Fin)) p) (map (map (map Fin)) t) = Some (Fin v) /\ 0 <= v /\ (v = 0 <-> p = t) /\
    v = Rsum (map2 (fun a b => (a - b) ^ 2) (List.concat (List.concat p)) (List.concat (List.concat t)))
        / INR (length (List.concat (List.concat p))).
Proof.
  intros H Hn. destruct (shape3_12 _ _ H) as [H1 H2]. unfold mse3. rewrite shape_check.
  2:{ rewrite !map_map. rewrite (map_ext _ (@length (list R))) by (intros; apply map_length).
      rewrite (map_ext _ (@length (list R)) (fun a => map_length _ a) t). exact H1. }
  rewrite !concat_fin3.
  destruct (mse2_props (List.concat p) (List.concat t) H2 Hn) as (v & E & P & Z & V).
  exists v. split; [exact E|]. split; [exact P|]. split; [|exact V]. rewrite Z. split; [|congruence]. apply concat_inj, H1.
Qed.

(** *** Losses *)
Section Losses.
Variable key : Type.
Variable split : key -> nat -> list key.
Variable uniform : key -> xr.
Variable mvn : key -> list xr -> list (list xr) -> list xr.
Variable lmk : MahParams xr -> xr -> xr -> xr.

Lemma loss_mstar_props u zs lgt0 fb bins pred target :
  mstar_kern_tobs key split uniform mvn lmk u zs lgt0 fb bins = Some (map (map Fin) pred) ->
  map (@length R) pred = map (@length R) target -> List.concat pred <> [] ->
  exists v, loss_mstar_kern_tobs key split uniform mvn lmk u zs lgt0 fb bins (map (map Fin) target) = Some (Fin v) /\
    0 <= v /\ (v = 0 <-> pred = target) /\
    v = 1000 * (Rsum (map2 (fun a b => (a - b) ^ 2) (List.concat pred) (List.concat target)) / INR (length (List.concat pred))).
Proof.
  intros E H Hn. unfold loss_mstar_kern_tobs. rewrite E.
  destruct (mse2_props pred target H Hn) as (v & M & P & Z & V). rewrite M. cbn [option_map xmul].
  exists (v * 1000). split; [reflexivity|]. split; [lra|]. split; [rewrite <- Z; split; lra|]. rewrite <- V. ring.
Qed.

Lemma loss_ssfr_props u zs lgt0 fb d pred target :
  mstar_ssfr_kern_tobs key split uniform mvn lmk u zs lgt0 fb d = Some (map (map (map Fin)) pred) ->
  map (map (@length R)) pred = map (map (@length R)) target -> List.concat (List.concat pred) <> [] ->
  exists v, loss_mstar_ssfr_kern_tobs key split uniform mvn lmk u zs lgt0 fb d (map (map (map Fin)) target) = Some (Fin v) /\
    0 <= v /\ (v = 0 <-> pred = target) /\
    v = 1000 * (Rsum (map2 (fun a b => (a - b) ^ 2) (List.concat (List.concat pred)) (List.concat (List.concat target)))
                / INR (length (List.concat (List.concat pred)))).
Proof.
  intros E H Hn. unfold loss_mstar_ssfr_kern_tobs. rewrite E.
  destruct (mse3_props pred target H Hn) as (v & M & P & Z & V). rewrite M. cbn [option_map xmul].
  exists (v * 1000). split; [reflexivity|]. split; [lra|]. split; [rewrite <- Z; split; lra|]. rewrite <- V. ring.
Qed.

Notation L_m := (loss_mstar key split uniform mvn lmk).
Notation L_s := (loss_ssfr key split uniform mvn lmk).

Lemma combined_sum u dm dc a b : L_m u dm = Some (Fin a) -> L_s u dc = Some (Fin b) -> 0 <= a -> 0 <= b ->
  exists v, loss_combined_kern key split uniform mvn lmk u dm dc = Some (Fin v) /\ v = a + b /\ (v = 0 <-> a = 0 /\ b = 0).
Proof.
  intros E1 E2 H1 H2. unfold loss_combined_kern. rewrite E1, E2. eexists. split; [reflexivity|]. split; lra.
Qed.
Lemma combined3_sum u dm dc ds a b c : L_m u dm = Some (Fin a) -> L_s u dc = Some (Fin b) -> L_s u ds = Some (Fin c) ->
  0 <= a -> 0 <= b -> 0 <= c ->
  exists v, loss_combined_3loss_kern key split uniform mvn lmk u dm dc ds = Some (Fin v) /\ v = a + b + c /\
    (v = 0 <-> a = 0 /\ b = 0 /\ c = 0).
Proof.
  intros E1 E2 E3 H1 H2 H3. unfold loss_combined_3loss_kern. rewrite E1, E2, E3. eexists. split; [reflexivity|]. split; lra.
Qed.
End Losses.

(** *** Conditional PDFs *)
Section Conditional.
Variables nms nsf : nat.

Definition mix (P : list (list (list R))) (idx : list nat) (w : list R) (a b : nat) : R :=
  Rsum (map2 (fun i wi => nth b (nth a (nth i P []) []) 0 * wi) idx w).

Lemma ent_P P i a b : (forall m, In m P -> length m = nms /\ Forall (fun r => length r = nsf) m) ->
  (i < length P)%nat -> (a < nms)%nat -> (b < nsf)%nat ->
  ent (take_matrix nms nsf (map (map (map Fin)) P) i) a b = Fin (nth b (nth a (nth i P []) []) 0).
Proof.
  intros H Hi Ha Hb. unfold take_matrix, ent, at_. rewrite (nth_map _ P i []) by exact Hi.
  destruct (H (nth i P [])) as [L1 L2]; [apply nth_In, Hi|].
  rewrite (nth_map _ (nth i P []) a []) by lia. apply nth_fin.
  rewrite (F_nth (fun r => length r = nsf) _ a [] L2) by lia. exact Hb.
Qed.

Lemma mix_fin P idx w a b : (forall m, In m P -> length m = nms /\ Forall (fun r => length r = nsf) m) ->
  Forall (fun i => (i < length P)%nat) idx -> (a < nms)%nat -> (b < nsf)%nat ->
  xsum (map2 (fun m w => (ent m a b * w)%X) (map (take_matrix nms nsf (map (map (map Fin)) P)) idx) (map Fin w))
  = Fin (mix P idx w a b).
Proof.
  intros H Hi Ha Hb. unfold mix. revert w. induction Hi as [|i idx Hi0 Hi IH]; intros w; [reflexivity|].
  destruct w as [|w0 w]; [reflexivity|]. cbn [map map2]. unfold xsum, Rsum in *. cbn [fold_right].
  rewrite IH. rewrite ent_P by assumption. reflexivity.
Qed.

Lemma conditional_value P W idx ids :
  (forall m, In m P -> length m = nms /\ Forall (fun r => length r = nsf) m) ->
  Forall2 (fun w ix => length w = length ix /\ Forall (fun i => (i < length P)%nat) ix) W idx ->
  Forall (fun a => (a < nms)%nat) ids ->
  conditional_pdfs nms nsf (map (map (map Fin)) P) (map (map Fin) W) idx ids
  = Some (map (fun wi => map (fun a => map (fun b => Fin (mix P (snd wi) (fst wi) a b)
                                      / Fin (Rsum (map (mix P (snd wi) (fst wi) a) (seq 0 nsf))))%X (seq 0 nsf)) ids)
              (combine W idx)).
Proof.
  intros HP HW HI. unfold conditional_pdfs.
  rewrite same_len_true by (rewrite map_length; apply (F2_length _ _ _ HW)).
  induction HW as [|w ix W idx [H1 H2] HW IH]; [reflexivity|].
  cbn [map combine]. unfold vmap in *. cbn [map sequence]. rewrite IH.
  rewrite same_len_true by (rewrite map_length; exact H1). cbv zeta. apply f_equal. apply f_equal2; [|reflexivity].
  cbn [fst snd]. rewrite map_map. apply map_ext_in. intros a Ha. rewrite Forall_forall in HI. specialize (HI a Ha).
  unfold take_row, weighted_sum_matrices. rewrite nth_map_seq by exact HI.
  assert (R0 : map (fun b => xsum (map2 (fun m w0 => (ent m a b * w0)%X)
                 (map (take_matrix nms nsf (map (map (map Fin)) P)) ix) (map Fin w))) (seq 0 nsf)
               = map Fin (map (mix P ix w a) (seq 0 nsf))).
  { rewrite map_map. apply map_ext_in. intros b Hb. apply in_seq in Hb. apply mix_fin; auto; lia. }
  rewrite R0, xsum_fin, !map_map. reflexivity.
Qed.

Lemma mix_nonneg P idx w a b : (forall m, In m P -> length m = nms /\ Forall (fun r => length r = nsf /\ Forall (fun x => 0 <= x) r) m) ->
  Forall (fun i => (i < length P)%nat) idx -> Forall (fun x => 0 <= x) w -> (a < nms)%nat -> (b < nsf)%nat -> 0 <= mix P idx w a b.
Proof.
  intros HP Hi Hw Ha Hb. unfold mix, Rsum. revert w Hw. induction Hi as [|i idx Hi0 Hi IH]; intros w Hw; [simpl; lra|].
  destruct Hw as [|w0 w Hw0 Hw]; [simpl; lra|]. cbn [map2 fold_right]. apply Rplus_le_le_0_compat; [|apply IH, Hw].
  apply Rmult_le_pos; [|exact Hw0]. destruct (HP (nth i P []) (nth_In _ _ Hi0)) as [L1 L2].
  pose proof (F_nth _ _ a [] L2 ltac:(lia)) as [L3 L4]. apply (F_nth _ _ b 0 L4). lia.
Qed.

Lemma conditional_pdf P W idx ids :
  (forall m, In m P -> length m = nms /\ Forall (fun r => length r = nsf /\ Forall (fun x => 0 <= x) r) m) ->
  Forall2 (fun w ix => length w = length ix /\ Forall (fun x => 0 <= x) w /\ Forall (fun i => (i < length P)%nat) ix) W idx ->
  Forall (fun a => (a < nms)%nat) ids ->
  exists r, conditional_pdfs nms nsf (map (map (map Fin)) P) (map (map Fin) W) idx ids = Some r /\
  length r = length W /\
  forall z t, (z < length W)%nat -> (t < length ids)%nat ->
    let q b := Rsum (map2 (fun i wi => nth b (nth (nth t ids 0%nat) (nth i P []) []) 0 * wi) (nth z idx []) (nth z W [])) in
    length (nth z r []) = length ids /\
    ((exists h, nth t (nth z r []) [] = map Fin h /\ length h = nsf /\ is_pdf h /\
        forall b, (b < nsf)%nat -> nth b h 0 = q b / Rsum (map q (seq 0 nsf))) \/
     (nth t (nth z r []) [] = repeat NaN nsf /\ forall b, (b < nsf)%nat -> q b = 0)).
Proof.
  intros HP HW HI.
  assert (HP' : forall m, In m P -> length m = nms /\ Forall (fun r => length r = nsf) m).
  { intros m Hm. destruct (HP m Hm) as [L1 L2]. split; [exact L1|]. eapply Forall_impl; [|exact L2]. cbv beta. tauto. }
  assert (HW' : Forall2 (fun w ix => length w = length ix /\ Forall (fun i => (i < length P)%nat) ix) W idx).
  { clear -HW. induction HW; constructor; tauto. }
  eexists. split; [apply conditional_value; assumption|].
  pose proof (F2_length _ _ _ HW) as LW.
  split; [rewrite map_length, combine_length, <- LW, Nat.min_id; reflexivity|].
  intros z t Hz Ht q.
  rewrite (nth_map _ (combine W idx) z ([], [])) by (rewrite combine_length; lia).
  rewrite combine_nth by exact LW. cbn [fst snd]. split; [apply map_length|].
  rewrite (nth_map _ ids t 0%nat) by exact Ht.
  set (a := nth t ids 0%nat) in *. set (w := nth z W []) in *. set (ix := nth z idx []) in *.
  assert (Ha : (a < nms)%nat) by (apply (F_nth (fun a => (a < nms)%nat)); assumption).
  pose proof (F2_nth _ _ _ HW z [] [] Hz) as (Lz & Wz & Iz). fold w ix in Lz, Wz, Iz.
  change (mix P ix w a) with q.
  assert (Q : forall b, In b (seq 0 nsf) -> 0 <= q b).
  { intros b Hb. apply in_seq in Hb. apply (mix_nonneg P ix w a b); auto; lia. }
  assert (QS : 0 <= Rsum (map q (seq 0 nsf))). { apply Rsum_nonneg, Forall_map, Forall_forall, Q. }
  destruct QS as [QS|QS].
  - left. exists (map (fun b => q b / Rsum (map q (seq 0 nsf))) (seq 0 nsf)). split; [|split; [|split; [split|]]].
    + rewrite map_map. apply map_ext. intros. apply xdiv_fin. lra.
    + rewrite map_length, seq_length. reflexivity.
    + apply Forall_map, Forall_forall. intros b Hb. apply Rmult_le_pos; [apply Q, Hb|]. left. apply Rinv_0_lt_compat, QS.
    + rewrite (Rsum_ext _ (fun b => / Rsum (map q (seq 0 nsf)) * q b)) by (intros; unfold Rdiv; ring).
      rewrite Rsum_scal_f. field. lra.
    + intros b Hb. rewrite nth_map_seq by exact Hb. reflexivity.
  - right. pose proof (Rsum_zero_all q _ Q (eq_sym QS)) as Z. split.
    + rewrite <- QS. clear -Z. revert Z. generalize 0%nat. induction nsf as [|n IH]; intros s Z; [reflexivity|].
      cbn [seq map repeat]. rewrite IH by (intros; apply Z; now right). apply f_equal2; [|reflexivity].
      apply xdiv_zero_zero; [reflexivity|]. apply Z. now left.
    + intros b Hb. apply Z, in_seq. lia.
Qed.

(** A NaN matrix anywhere in the mixture makes everything NaN, whatever its weight. *)
Lemma xadd_nan_r a : xadd a NaN = NaN. Proof. destruct a; reflexivity. Qed.
Lemma xsum_nan l : In NaN l -> xsum l = NaN.
Proof.
  unfold xsum. induction l as [|a l IH]; intros H; [contradiction|]. cbn [fold_right].
  destruct H as [->|H]; [reflexivity|]. rewrite IH by exact H. apply xadd_nan_r.
Qed.
Lemma map_seq_const {A} (f : nat -> A) v n s : (forall x, f x = v) -> map f (seq s n) = repeat v n.
Proof. intros H. revert s. induction n; intros s; [reflexivity|]. cbn [seq map repeat]. rewrite IHn, H. reflexivity. Qed.
Lemma ent_nan a b : ent (nan_matrix nms nsf) a b = NaN.
Proof.
  unfold ent, nan_matrix, at_. destruct (Nat.lt_ge_cases a nms).
  - rewrite MatrixProofs.nth_repeat_lt by assumption. destruct (Nat.lt_ge_cases b nsf); [now rewrite MatrixProofs.nth_repeat_lt|].
    apply nth_overflow. rewrite repeat_length. assumption.
  - rewrite (nth_overflow (repeat _ _)) by (rewrite repeat_length; assumption). destruct b; reflexivity.
Qed.

Lemma conditional_nan ps W idx ids r z m :
  conditional_pdfs nms nsf ps W idx ids = Some r -> (z < length W)%nat -> (m < length (nth z idx []))%nat ->
  nth (nth m (nth z idx []) 0%nat) ps (nan_matrix nms nsf) = nan_matrix nms nsf ->
  nth z r [] = repeat (repeat NaN nsf) (length ids).
Proof.
  unfold conditional_pdfs. destruct (same_len W idx) eqn:SL; [|discriminate]. apply same_len_inv in SL.
  intros H Hz Hm HN. apply vmap_spec in H.
  pose proof (F2_nth _ _ _ H z ([], []) [] ltac:(rewrite combine_length; lia)) as E. cbv beta in E.
  rewrite combine_nth in E by exact SL. cbv iota beta in E.
  set (w := nth z W []) in *. set (ix := nth z idx []) in *.
  destruct (same_len w ix) eqn:SL2; [|discriminate]. apply same_len_inv in SL2. apply Some_inj in E. rewrite <- E.
  rewrite map_map. clear E H.
  assert (Z : forall a b, xsum (map2 (fun m w => (ent m a b * w)%X) (map (take_matrix nms nsf ps) ix) w) = NaN).
  { intros a b. apply xsum_nan. set (L := map2 _ _ _).
    assert (I : In (nth m L NaN) L) by (apply nth_In; unfold L; rewrite map2_length, map_length; lia).
    replace (nth m L NaN) with NaN in I; [exact I|]. symmetry. unfold L.
    rewrite (map2_nth (A := matrix) _ _ _ _ [] NaN) by (rewrite ?map_length; lia).
    rewrite (nth_map _ ix m 0%nat) by exact Hm. unfold take_matrix. rewrite HN, ent_nan. reflexivity. }
  assert (WS : weighted_sum_matrices nms nsf (map (take_matrix nms nsf ps) ix) w = nan_matrix nms nsf).
  { unfold weighted_sum_matrices, nan_matrix. apply map_seq_const. intros a. apply map_seq_const. intros b. apply Z. }
  rewrite WS.
  clear. induction ids as [|a l IH]; [reflexivity|]. cbn [map repeat List.length]. rewrite IH. apply f_equal2; [|reflexivity].
  assert (TR : take_row nsf (nan_matrix nms nsf) a = repeat NaN nsf).
  { unfold take_row, nan_matrix. destruct (Nat.lt_ge_cases a nms); [now rewrite MatrixProofs.nth_repeat_lt|].
    apply nth_overflow. now rewrite repeat_length. }
  rewrite TR. destruct nsf as [|k]; [reflexivity|].
  rewrite (xsum_nan (repeat NaN (S k))) by now left. generalize (S k). intros n. induction n as [|n IHn]; [reflexivity|]. cbn [repeat map]. rewrite IHn. reflexivity.
Qed.
End Conditional.

(** *** Two-dimensional PDFs *)
Lemma mean_sigma E n : (2 <= length E)%nat -> map (fun z => (xmean (diff_ (map Fin E)) + z)%X) (zeros n) = map Fin (repeat (mean_bin E) n).
Proof. intros H. rewrite mean_width by exact H. apply map_zeros. Qed.

Lemma pairs2_fin a b : length a = length b -> pairs2 (map Fin a) (map Fin b) = Some (map (map Fin) (map2 (fun x y => [x; y]) a b)).
Proof.
  intros H. unfold pairs2. rewrite same_len_true by (rewrite !map_length; exact H). apply f_equal.
  revert b H. induction a as [|x a IH]; intros [|y b] H; try discriminate; [reflexivity|]. cbn [map map2]. rewrite IH by (simpl in H; lia). reflexivity.
Qed.

Lemma points2 X1 X2 s1 s2 : length X1 = length X2 -> 0 < s1 -> 0 < s2 ->
  points 2 (map2 (fun x y => [x; y]) X1 X2) (map2 (fun x y => [x; y]) (repeat s1 (length X1)) (repeat s2 (length X1))).
Proof.
  intros H P1 P2. revert X2 H. induction X1 as [|x X1 IH]; intros [|y X2] H; try discriminate; [constructor|].
  cbn [map2 repeat length]. constructor; [|apply IH; simpl in H; lia]. auto.
Qed.

Lemma combine2_nth X1 X2 s1 s2 W : length X1 = length X2 -> length W = length X1 ->
  combine (combine (map2 (fun x y : R => [x; y]) X1 X2) (map2 (fun x y : R => [x; y]) (repeat s1 (length X1)) (repeat s2 (length X1)))) W
  = map (fun i => (([nth i X1 0; nth i X2 0], [s1; s2]), nth i W 0)) (seq 0 (length X1)).
Proof.
  revert X2 W. induction X1 as [|x X1 IH]; intros [|y X2] [|w W] H1 H2; try discriminate; [reflexivity|].
  cbn [map map2 repeat combine length seq nth]. apply f_equal. rewrite IH by (simpl in *; lia).
  rewrite <- seq_shift, map_map. reflexivity.
Qed.

Lemma not_or_and_lt x s lo hi : ~ (x + 3 * s <= lo \/ hi <= x - 3 * s) -> lo < x + 3 * s /\ x - 3 * s < hi.
Proof. intros H. split; apply Rnot_le_lt; tauto. Qed.

Lemma ssfr_pdf X1 X2 W LO HI E1 E2 : length X1 = length X2 -> length W = length X1 ->
  increasing E1 -> (2 <= length E1)%nat -> increasing E2 -> (2 <= length E2)%nat ->
  cells LO HI -> Forall (fun w => 0 <= w) W ->
  exists r, compute_diff_histograms_mstar_ssfr_atz (map Fin X1) (map Fin X2) (map Fin W) (map (map Fin) LO) (map (map Fin) HI)
      (map Fin E1) (map Fin E2) = Some r /\ length r = length LO /\
   let hit := exists i k, (i < length X1)%nat /\ (k < length LO)%nat /\ 0 < nth i W 0 /\
      overlaps (nth i X1 0) (mean_bin E1) (nth 0 (nth k LO []) 0) (nth 0 (nth k HI []) 0) /\
      overlaps (nth i X2 0) (mean_bin E2) (nth 1 (nth k LO []) 0) (nth 1 (nth k HI []) 0) in
   ((hit /\ exists h, r = map Fin h /\ is_pdf h) \/ (~ hit /\ r = repeat NaN (length LO))).
Proof.
  intros H1 HW I1 L1 I2 L2 HC HN. unfold compute_diff_histograms_mstar_ssfr_atz. cbv zeta. unfold len. rewrite !map_length.
  rewrite !mean_sigma by assumption. rewrite !pairs2_fin by (rewrite ?repeat_length; auto).
  pose proof (mean_bin_pos E1 I1 L1) as P1. pose proof (mean_bin_pos E2 I2 L2) as P2.
  assert (LX : length (map2 (fun x y : R => [x; y]) X1 X2) = length X1) by (rewrite map2_length; lia).
  rewrite (whist_fin 2);
    [|apply points2; assumption|rewrite LX; exact HW|clear -HC; induction HC as [|? ? ? ? [? [? ?]]]; constructor; auto].
  rewrite combine2_nth by assumption.
  pose (F := fun (b : list R * list R) => Rsum (map (fun i => cell_mass [nth i X1 0; nth i X2 0] [mean_bin E1; mean_bin E2] (fst b) (snd b) * nth i W 0) (seq 0 (length X1)))).
  set (G := map _ (combine LO HI)).
  assert (HG : G = map F (combine LO HI)).
  { unfold G, F. apply map_ext. intros b. rewrite map_map. reflexivity. }
  rewrite HG. clear G HG. rewrite xsum_fin. fold (Rsum (map F (combine LO HI))).
  pose proof (F2_length _ _ _ HC) as LC.
  eexists. split; [reflexivity|]. split; [rewrite !map_length, combine_length; lia|].
  set (hit := exists i k, _).
  assert (NNc : forall b i, In b (combine LO HI) -> (i < length X1)%nat ->
     0 <= cell_mass [nth i X1 0; nth i X2 0] [mean_bin E1; mean_bin E2] (fst b) (snd b) * nth i W 0).
  { intros b i Hb Hi. apply Rmult_le_pos; [|apply (F_nth (fun w => 0 <= w)); [exact HN|lia]].
    apply cell_mass_range; [repeat constructor; assumption|].
    destruct (In_nth _ _ ([], []) Hb) as (k & Hk & <-). rewrite combine_length in Hk. rewrite combine_nth by exact LC.
    pose proof (F2_nth _ _ _ HC k [] [] ltac:(lia)) as (_ & _ & HH). cbn [fst snd]. clear -HH. induction HH; constructor; auto. left; assumption. }
  assert (NN : forall b, In b (combine LO HI) -> 0 <= F b).
  { intros b Hb. apply Rsum_nonneg, Forall_map, Forall_forall. intros i Hi. apply in_seq in Hi. apply NNc; [exact Hb|lia]. }
  assert (HIT : hit <-> Rsum (map F (combine LO HI)) <> 0).
  { split.
    - intros (i & k & Hi & Hk & Hw & O1 & O2). apply Rgt_not_eq, Rsum_pos; [apply Forall_map, Forall_forall, NN|].
      apply Exists_exists. exists (F (nth k LO [], nth k HI [])).
      assert (Hb : In (nth k LO [], nth k HI []) (combine LO HI)).
      { rewrite <- combine_nth by exact LC. apply nth_In. rewrite combine_length. lia. }
      split; [apply in_map, Hb|]. apply Rsum_pos.
      + apply Forall_map, Forall_forall. intros j Hj. apply in_seq in Hj. apply NNc; [exact Hb|lia].
      + apply Exists_exists. eexists. split; [apply in_map_iff; exists i; split; [reflexivity|apply in_seq; lia]|].
        apply Rmult_lt_0_compat; [|exact Hw]. cbn [fst snd].
        pose proof (F2_nth _ _ _ HC k [] [] Hk) as (La & Lb & Lt).
        destruct (nth k LO []) as [|a [|b [|? ?]]]; try discriminate. destruct (nth k HI []) as [|c [|d [|? ?]]]; try discriminate.
        inversion Lt as [|? ? ? ? T1 T2]; subst. inversion T2 as [|? ? ? ? T3 T4]; subst.
        cbn [nth] in O1, O2. cbn [cell_mass]. destruct O1, O2.
        apply Rmult_lt_0_compat; [apply tw_mass_pos; assumption|]. rewrite Rmult_1_r. apply tw_mass_pos; assumption.
    - intros Hne.
      destruct (Exists_dec (fun b => 0 < F b) (combine LO HI)) as [Ex|Nx]; [intros; apply Rlt_dec|..].
      2:{ exfalso. apply Hne. apply Forall_Exists_neg in Nx. rewrite Forall_forall in Nx.
          rewrite (Rsum_ext _ (fun _ => 0)); [apply Rsum_zero|]. intros b Hb. specialize (Nx b Hb). specialize (NN b Hb). cbv beta in Nx. lra. }
      apply Exists_exists in Ex as (b & Hb & Hp).
      destruct (Exists_dec (fun i => 0 < cell_mass [nth i X1 0; nth i X2 0] [mean_bin E1; mean_bin E2] (fst b) (snd b) * nth i W 0) (seq 0 (length X1))) as [Ex|Nx]; [intros; apply Rlt_dec|..].
      2:{ exfalso. apply Forall_Exists_neg in Nx. rewrite Forall_forall in Nx. unfold F in Hp.
          rewrite (Rsum_ext _ (fun _ => 0)) in Hp; [rewrite Rsum_zero in Hp; lra|].
          intros i Hi. specialize (Nx i Hi). apply in_seq in Hi. specialize (NNc b i Hb ltac:(lia)). cbv beta in Nx. lra. }
      apply Exists_exists in Ex as (i & Hi & Hq). apply in_seq in Hi.
      destruct (In_nth _ _ ([], []) Hb) as (k & Hk & Ek). rewrite combine_length in Hk. rewrite combine_nth in Ek by exact LC.
      subst b. cbn [fst snd] in Hq. exists i, k. split; [lia|]. split; [lia|].
      pose proof (F_nth (fun w => 0 <= w) W i 0 HN ltac:(lia)) as Wi.
      pose proof (F2_nth _ _ _ HC k [] [] ltac:(lia)) as (La & Lb & Lt).
      destruct (nth k LO []) as [|a [|b [|? ?]]]; try discriminate. destruct (nth k HI []) as [|c [|d [|? ?]]]; try discriminate.
      inversion Lt as [|? ? ? ? T1 T2]; subst. inversion T2 as [|? ? ? ? T3 T4]; subst. cbn [nth]. cbn [cell_mass] in Hq.
      pose proof (tw_mass_zero_iff (nth i X1 0) (mean_bin E1) a c P1 T1) as Z1.
      pose proof (tw_mass_zero_iff (nth i X2 0) (mean_bin E2) b d P2 T3) as Z2.
      split; [destruct Wi as [Wi|Wi]; [exact Wi|rewrite <- Wi in Hq; lra]|]. unfold overlaps.
      split; apply not_or_and_lt.
      + intros C. apply Z1 in C. rewrite C in Hq. lra.
      + intros C. apply Z2 in C. rewrite C in Hq. lra. }
  destruct (Req_dec (Rsum (map F (combine LO HI))) 0) as [Z|Z].
  - right. split; [tauto|]. rewrite Z.
    assert (A0 : forall b, In b (combine LO HI) -> F b = 0) by (apply Rsum_zero_all; assumption).
    replace (length LO) with (length (combine LO HI)) by (rewrite combine_length; lia). clear -A0.
    induction (combine LO HI) as [|b l IH]; [reflexivity|]. cbn [map repeat length]. rewrite IH by (intros; apply A0; now right).
    rewrite A0 by now left. apply f_equal2; [|reflexivity]. apply xdiv_zero_zero; reflexivity.
  - left. split; [tauto|]. set (T := Rsum (map F (combine LO HI))) in *.
    assert (0 < T). { assert (0 <= T) by (apply Rsum_nonneg, Forall_map, Forall_forall, NN). lra. }
    exists (map (fun b => F b / T) (combine LO HI)). split; [|split].
    + rewrite !map_map. apply map_ext. intros. apply xdiv_fin, Z.
    + apply Forall_map, Forall_forall. intros b Hb. apply Rmult_le_pos; [apply NN, Hb|]. left. apply Rinv_0_lt_compat. assumption.
    + rewrite (Rsum_ext _ (fun b => / T * F b)) by (intros; unfold Rdiv; ring). rewrite Rsum_scal_f. fold T. field. exact Z.
Qed.

Lemma zero_weight_bin_poisons : exists ps : list (list (list xr)),
  conditional_pdfs 1 2 ps [[Fin 1]] [[0%nat]] [0%nat] = Some [[[Fin (1 / 4); Fin (3 / 4)]]] /\
  conditional_pdfs 1 2 ps [[Fin 1; Fin 0]] [[0%nat; 1%nat]] [0%nat] = Some [[[NaN; NaN]]].
Proof.
  exists [[[Fin (1 / 4); Fin (3 / 4)]]; [[NaN; NaN]]]. split.
  - unfold conditional_pdfs, vmap. cbn -[Rdiv]. destruct (Req_EM_T (1 / 4 * 1 + 0 + (3 / 4 * 1 + 0 + 0)) 0); [lra|]. replace ((1 / 4 * 1 + 0) / (1 / 4 * 1 + 0 + (3 / 4 * 1 + 0 + 0))) with (1 / 4) by field. replace ((3 / 4 * 1 + 0) / (1 / 4 * 1 + 0 + (3 / 4 * 1 + 0 + 0))) with (3 / 4) by field. reflexivity.
  - unfold conditional_pdfs, vmap. simpl. unfold xsum, take_row, take_matrix, ent. simpl. reflexivity.
Qed.
