(** Consequences of the values of the targets, and the measuring scripts. *)
From Coq Require Import Reals List Bool ZArith Lia Lra.
From Coquelicot Require Import Coquelicot.
From Verif Require Import XReal ModelUtils ModelKernels ModelSfh ModelPop ModelHist ModelLoad ModelIO ModelTargets.
From Verif Require Import RealFacts XFacts SpecCore SpecHist SpecTargets IntegralProofs SfhProofs PopProofs DtProofs HistProofs SmhmProofs LossProofs FitProofs SplitProofs SnapshotProofs TargetProofs TargetDataProofs.
Import List ListNotations.
Open Scope R_scope.

(** ** Samples *)
Lemma NoDup_append {A} (l m : list A) : NoDup l -> NoDup m -> (forall a, In a l -> ~ In a m) -> NoDup (l ++ m).
Proof.
  intros Hl Hm H. induction Hl as [|a l Ha Hl IH]; [exact Hm|]. cbn [app]. constructor.
  - rewrite in_app_iff. intros [C|C]; [auto|]. apply (H a); [now left|exact C].
  - apply IH. intros b Hb. apply H. now right.
Qed.
Lemma NoDup_tagged {B C} (g : nat -> list B) (u : nat -> B -> C) s : NoDup s -> (forall i, NoDup (g i)) ->
  (forall i b i' b', u i b = u i' b' -> i = i' /\ b = b') -> NoDup (flat_map (fun i => map (u i) (g i)) s).
Proof.
  intros Hs Hg U. induction Hs as [|a s Ha Hs IH]; [constructor|]. cbn [flat_map]. apply NoDup_append; [|exact IH|].
  - apply FinFun.Injective_map_NoDup; [|apply Hg]. intros b b' e. apply U in e. tauto.
  - intros c Hc Hc'. apply in_map_iff in Hc. destruct Hc as (b & <- & _). apply in_flat_map in Hc'.
    destruct Hc' as (i & Hi & Hc'). apply in_map_iff in Hc'. destruct Hc' as (b' & e & _). apply U in e. destruct e as [-> _]. auto.
Qed.
Lemma filter_tagged {B C} (g : nat -> list B) (u : nat -> B -> C) (P : C -> bool) i s : NoDup s -> In i s ->
  (forall i' b, P (u i' b) = true -> i' = i) ->
  length (filter P (flat_map (fun i => map (u i) (g i)) s)) = length (filter (fun b => P (u i b)) (g i)).
Proof.
  intros Hs Hi HP. induction Hs as [|a s Ha Hs IH]; [contradiction|]. cbn [flat_map]. rewrite filter_app, app_length, TargetProofs.filter_map, map_length.
  destruct Hi as [->|Hi].
  - assert (Z : filter P (flat_map (fun i => map (u i) (g i)) s) = []).
    { clear IH. destruct (filter P _) as [|c r] eqn:e; [reflexivity|exfalso].
      assert (Hc : In c (filter P (flat_map (fun i => map (u i) (g i)) s))) by (rewrite e; now left).
      apply filter_In in Hc. destruct Hc as [Hc Q]. apply in_flat_map in Hc. destruct Hc as (i' & Hi' & Hc).
      apply in_map_iff in Hc. destruct Hc as (b & <- & _). apply HP in Q. subst. auto. }
    rewrite Z. cbn [length]. lia.
  - rewrite IH by exact Hi. assert (Z : filter (fun b => P (u a b)) (g a) = []).
    { destruct (filter _ (g a)) as [|b r] eqn:e; [reflexivity|exfalso].
      assert (Hb : In b (filter (fun b => P (u a b)) (g a))) by (rewrite e; now left).
      apply filter_In in Hb. destruct Hb as [_ Q]. apply HP in Q. subst. auto. }
    rewrite Z. reflexivity.
Qed.

Lemma filter_len_ext {A} (P Q : A -> bool) l : (forall a, In a l -> P a = Q a) -> length (filter P l) = length (filter Q l).
Proof. intros H. f_equal. apply filter_ext_in'. exact H. Qed.

Section Samples.
Variable choice : nat -> nat -> list nat -> nat -> bool -> list nat.
Hypothesis CH : choice_ok choice.
Variables (n : nat) (M : list (list R)) (ids : list nat) (per_bin : nat) (E : list R).
Hypothesis H2 : (2 <= length E)%nat.
Local Notation L := (samples choice n M ids per_bin E).
Local Notation cd i j := (cand n E (val M (nth i ids 0%nat)) j).
Local Notation sl i j := (sel choice i n per_bin E (val M (nth i ids 0%nat)) j).

Lemma samples_NoDup : NoDup L.
Proof.
  unfold samples. apply (NoDup_tagged (fun i => Lof choice i n per_bin E (val M (nth i ids 0%nat))) (fun i jk => (i, fst jk, snd jk))).
  - apply seq_NoDup.
  - intros i. unfold Lof. apply (NoDup_tagged (fun j => sl i j) (fun j k => (j, k))).
    + apply seq_NoDup.
    + intros j. apply (sel_ok choice CH _ _ _ _ _ H2).
    + intros j k j' k' e. inversion e. auto.
  - intros i [j k] i' [j' k'] e. cbn [fst snd] in e. inversion e. auto.
Qed.
Lemma samples_in r : In r L -> (tgt r < length ids)%nat /\ (bin r < length E - 1)%nat /\ (halo r < n)%nat /\
  half_open E (bin r) (val M (nth (tgt r) ids 0%nat) (halo r)) = true.
Proof.
  intros H. apply in_flat_map in H. destruct H as (i & Hi & H). apply in_seq in Hi.
  apply in_map_iff in H. destruct H as ([j k] & <- & H). apply in_flat_map in H. destruct H as (j' & Hj & H). apply in_seq in Hj.
  apply in_map_iff in H. destruct H as (k' & e & Hk). inversion e; subst. apply (sel_ok choice CH _ _ _ _ _ H2) in Hk. unfold tgt, bin, halo. cbn [fst snd].
  repeat split; try lia; tauto.
Qed.
Lemma samples_count i j : (i < length ids)%nat -> (j < length E - 1)%nat ->
  count (fun r => Nat.eqb (tgt r) i && Nat.eqb (bin r) j) L
  = Nat.min per_bin (length (those n (fun k => half_open E j (val M (nth i ids 0%nat) k)))).
Proof.
  intros Hi Hj. unfold count, samples.
  rewrite (filter_tagged (fun i => Lof choice i n per_bin E (val M (nth i ids 0%nat))) (fun i jk => (i, fst jk, snd jk)) _ i).
  - unfold Lof. rewrite (filter_tagged (fun j => sl i j) (fun j k => (j, k)) _ j).
    + unfold tgt, bin. cbn [fst snd]. rewrite !Nat.eqb_refl. cbn [andb].
      transitivity (length (sl i j)); [|apply (sel_ok choice CH _ _ _ _ _ H2)].
      generalize (sl i j). intros l. induction l; cbn; congruence.
    + apply seq_NoDup.
    + apply in_seq. lia.
    + intros j' k. unfold tgt, bin. cbn [fst snd]. rewrite Nat.eqb_refl. cbn [andb]. apply Nat.eqb_eq.
  - apply seq_NoDup.
  - apply in_seq. lia.
  - intros i' [j' k] Q. unfold tgt in Q. cbn [fst snd] in Q. apply andb_true_iff in Q. destruct Q as [Q _]. apply Nat.eqb_eq. exact Q.
Qed.
End Samples.

(** ** Bins *)
Lemma increasing_last E : increasing E -> forall j, (j < length E)%nat -> nth j E 0 <= last E 0.
Proof.
  intros H j Hj. rewrite last_nth. destruct (Nat.eq_dec j (length E - 1)) as [->|N]; [lra|].
  left. apply increasing_nth_lt; [exact H| |]; lia.
Qed.
Lemma inbin_true E j x : inbin E j x = true <->
  nth j E 0 <= x /\ (if Nat.eqb (j + 2) (length E) then x <= nth (S j) E 0 else x < nth (S j) E 0).
Proof.
  unfold inbin. destruct (Rle_dec (nth j E 0) x); [|intuition discriminate].
  destruct (Nat.eqb (j + 2) (length E)).
  - destruct (Rle_dec x (nth (S j) E 0)); split; intros H; try discriminate; try tauto; try reflexivity; try (split; lra); exfalso; tauto.
  - destruct (Rlt_dec x (nth (S j) E 0)); split; intros H; try discriminate; try tauto; try reflexivity; try (split; lra); exfalso; tauto.
Qed.
Lemma half_open_true E j x : half_open E j x = true <-> nth j E 0 <= x < nth (S j) E 0.
Proof. unfold half_open. destruct (Rle_dec (nth j E 0) x), (Rlt_dec x (nth (S j) E 0)); split; intros H; try discriminate; try tauto; try reflexivity; try (split; lra); exfalso; tauto. Qed.
Lemma interior_true E j x : interior E j x = true <-> nth j E 0 < x < nth (S j) E 0.
Proof. unfold interior. destruct (Rlt_dec (nth j E 0) x), (Rlt_dec x (nth (S j) E 0)); split; intros H; try discriminate; try tauto; try reflexivity; try (split; lra); exfalso; tauto. Qed.

Lemma bins_partition E x : increasing E -> (2 <= length E)%nat -> hd 0 E <= x <= last E 0 ->
  exists j, (j < length E - 1)%nat /\ inbin E j x = true /\ forall i, (i < length E - 1)%nat -> inbin E i x = true -> i = j.
Proof.
  intros HE H2 [Hl Hu]. rewrite last_nth in Hu.
  assert (H0 : hd 0 E = nth 0 E 0) by (destruct E; reflexivity). rewrite H0 in Hl.
  assert (EX : exists j, (j < length E - 1)%nat /\ inbin E j x = true).
  { destruct (locate E x HE H2) as [C|[C|(k & Hk & K)]]; [lra| |].
    - exists (length E - 2)%nat. split; [lia|]. apply inbin_true.
      replace (length E - 2 + 2)%nat with (length E) by lia. rewrite Nat.eqb_refl.
      replace (S (length E - 2)) with (length E - 1)%nat by lia. split; [|exact Hu].
      apply Rle_trans with (nth (length E - 1) E 0); [|exact C]. left. apply increasing_nth_lt; [exact HE|lia|lia].
    - exists k. split; [lia|]. apply inbin_true. split; [lra|]. destruct (Nat.eqb _ _); lra. }
  destruct EX as (j & Hj & B). exists j. split; [exact Hj|]. split; [exact B|]. intros i Hi Bi.
  assert (G : forall a b, (a < b)%nat -> (b < length E - 1)%nat -> inbin E a x = true -> inbin E b x = true -> False).
  { intros a b Hab Hb A Bb. apply inbin_true in A. apply inbin_true in Bb. destruct A as [_ A]. destruct Bb as [Bb _].
    destruct (Nat.eqb_spec (a + 2) (length E)); [lia|].
    assert (nth (S a) E 0 <= nth b E 0); [|lra]. destruct (Nat.eq_dec (S a) b) as [->|N]; [lra|]. left. apply increasing_nth_lt; [exact HE|lia|lia]. }
  destruct (Nat.lt_trichotomy i j) as [C|[C|C]]; [exfalso; eauto|exact C|exfalso; eauto].
Qed.
Lemma bins_outside E x j : increasing E -> (2 <= length E)%nat -> ~ (hd 0 E <= x <= last E 0) -> (j < length E - 1)%nat -> inbin E j x = false.
Proof.
  intros HE H2 N Hj. destruct (inbin E j x) eqn:B; [exfalso|reflexivity]. apply N. apply inbin_true in B. destruct B as [B1 B2].
  assert (H0 : hd 0 E = nth 0 E 0) by (destruct E; reflexivity). rewrite H0. split.
  - destruct (Nat.eq_dec j 0) as [->|]; [exact B1|]. apply Rle_trans with (nth j E 0); [|exact B1]. left. apply increasing_nth_lt; [exact HE|lia|lia].
  - apply Rle_trans with (nth (S j) E 0); [destruct (Nat.eqb _ _); lra|]. apply increasing_last; [exact HE|lia].
Qed.

Lemma within_true E x : within E x = true <-> hd 0 E <= x <= last E 0.
Proof. unfold within. destruct (Rle_dec (hd 0 E) x), (Rle_dec x (last E 0)); split; intros H; try discriminate; try tauto; try reflexivity; try (split; lra); exfalso; tauto. Qed.

Lemma filter_as_sum {A} (P : A -> bool) l : INR (length (filter P l)) = Rsum (map (fun a => if P a then 1 else 0) l).
Proof.
  induction l as [|a l IH]; [reflexivity|]. cbn [filter map]. unfold Rsum in *. cbn [fold_right].
  destruct (P a); cbn [length]; [rewrite S_INR|]; rewrite IH; lra.
Qed.
Lemma Rsum_single (P : nat -> bool) s j : NoDup s -> In j s -> P j = true -> (forall i, In i s -> P i = true -> i = j) ->
  Rsum (map (fun i => if P i then 1 else 0) s) = 1.
Proof.
  intros Hs Hj HP U. rewrite <- filter_as_sum. replace 1 with (INR 1) by reflexivity. f_equal.
  assert (G : filter P s = [j]).
  { induction Hs as [|a s Ha Hs IH]; [contradiction|]. cbn [filter]. destruct (P a) eqn:e.
    - assert (a = j) by (apply U; [now left|exact e]). subst a. f_equal.
      destruct (filter P s) as [|b r] eqn:f; [reflexivity|exfalso]. assert (Hb : In b (filter P s)) by (rewrite f; now left).
      apply filter_In in Hb. destruct Hb as [Hb Q]. apply Ha. rewrite <- (U b (or_intror Hb) Q). exact Hb.
    - destruct Hj as [->|Hj]; [congruence|]. apply IH; [exact Hj|]. intros i Hi. apply U. now right. }
  rewrite G. reflexivity.
Qed.

Lemma counts_total (E : list R) n (P : nat -> bool) (f : nat -> R) : increasing E -> (2 <= length E)%nat ->
  Rsum (map (fun j => INR (length (those n (fun k => P k && inbin E j (f k))))) (seq 0 (length E - 1)))
  = INR (length (those n (fun k => P k && within E (f k)))).
Proof.
  intros HE H2. unfold those. rewrite filter_as_sum.
  rewrite (Rsum_ext _ (fun j => Rsum (map (fun k => if P k && inbin E j (f k) then 1 else 0) (seq 0 n)))) by (intros; apply filter_as_sum).
  rewrite Rsum_swap. apply Rsum_ext. intros k _. destruct (P k); cbn [andb]; [|apply Rsum_zero].
  destruct (within E (f k)) eqn:W.
  - apply within_true in W. destruct (bins_partition E (f k) HE H2 W) as (j & Hj & B & U).
    apply (Rsum_single (fun i => inbin E i (f k)) _ j); [apply seq_NoDup|apply in_seq; lia|exact B|].
    intros i Hi. apply in_seq in Hi. apply U. lia.
  - rewrite (Rsum_ext _ (fun _ => 0)); [apply Rsum_zero|]. intros j Hj. apply in_seq in Hj.
    rewrite (bins_outside E (f k) j HE H2); [reflexivity| |lia]. intros C. apply within_true in C. congruence.
Qed.

(** Splitting a mask. *)
Lemma those_split n (P Q Q' : nat -> bool) : (forall k, (k < n)%nat -> Q' k = negb (Q k)) ->
  (length (those n (fun k => Q k && P k)) + length (those n (fun k => Q' k && P k)) = length (those n P))%nat.
Proof.
  intros H. unfold those. assert (G : forall k, In k (seq 0 n) -> Q' k = negb (Q k)) by (intros k Hk; apply in_seq in Hk; apply H; lia).
  revert G. generalize (seq 0 n). intros s. induction s as [|a s IH]; intros G; [reflexivity|]. cbn [filter].
  specialize (IH (fun k Hk => G k (or_intror Hk))). rewrite (G a (or_introl eq_refl)). destruct (Q a), (P a); cbn [andb negb length]; lia.
Qed.
Lemma Rsum_split n (P Q Q' : nat -> bool) (w : nat -> R) : (forall k, (k < n)%nat -> Q' k = negb (Q k)) ->
  Rsum (map w (those n (fun k => P k && Q k))) + Rsum (map w (those n (fun k => P k && Q' k))) = Rsum (map w (those n P)).
Proof.
  intros H. unfold those. assert (G : forall k, In k (seq 0 n) -> Q' k = negb (Q k)) by (intros k Hk; apply in_seq in Hk; apply H; lia).
  revert G. generalize (seq 0 n). intros s. induction s as [|a s IH]; intros G; [cbn; lra|]. cbn [filter].
  specialize (IH (fun k Hk => G k (or_intror Hk))). rewrite (G a (or_introl eq_refl)).
  destruct (Q a), (P a); cbn [andb negb map]; unfold Rsum in *; cbn [fold_right]; lra.
Qed.

Lemma telescope_seq x s E : 0 < s -> E <> [] ->
  Rsum (map (fun b => tw_mass x s (nth b E 0) (nth (S b) E 0)) (seq 0 (length E - 1))) = tw_mass x s (hd 0 E) (last E 0).
Proof. intros Hs HE. rewrite <- (telescope x s E Hs HE). rewrite (bins_of_seq E (fun a b => tw_mass x s a b)). reflexivity. Qed.

Lemma joint_marginal g h ks Em Es a : increasing Es -> (2 <= length Es)%nat ->
  (forall k, In k ks -> hd 0 Es <= h k - 3 * mean_bin Es /\ h k + 3 * mean_bin Es <= last Es 0) ->
  Rsum (map (fun b => joint_mass g h ks Em Es a b) (seq 0 (length Es - 1)))
  = Rsum (map (fun k => tw_mass (g k) (mean_bin Em) (nth a Em 0) (nth (S a) Em 0)) ks).
Proof.
  intros HE H2 C. pose proof (mean_bin_pos Es HE H2) as P. unfold joint_mass. rewrite Rsum_swap. apply Rsum_ext. intros k Hk.
  rewrite <- (map_map (fun b => tw_mass (h k) (mean_bin Es) (nth b Es 0) (nth (S b) Es 0)) (Rmult (tw_mass (g k) (mean_bin Em) (nth a Em 0) (nth (S a) Em 0)))).
  rewrite Rsum_scal, telescope_seq by (assumption || (intros ->; simpl in H2; lia)).
  rewrite (tw_mass_full (h k) (mean_bin Es) (hd 0 Es) (last Es 0)) by (try exact P; apply C, Hk). ring.
Qed.

(** ** Tables *)
Lemma linspace_evenly a b N : (2 <= N)%nat -> linspace (Fin a) (Fin b) N = map Fin (evenly a b N).
Proof.
  intros H. unfold linspace, evenly. rewrite map_map. apply map_ext. intros i. xr_simp.
  rewrite xdiv_fin by (apply not_0_INR; lia). xr_simp. reflexivity.
Qed.
Lemma evenly_nth a b N i : (i < N)%nat -> nth i (evenly a b N) 0 = a + INR i * ((b - a) / INR (N - 1)).
Proof.
  intros H. unfold evenly. rewrite (nth_map_nat _ _ _ 0%nat) by (rewrite seq_length; exact H). rewrite seq_nth by exact H. reflexivity.
Qed.
Lemma evenly_len a b N : length (evenly a b N) = N.
Proof. unfold evenly. rewrite map_length, seq_length. reflexivity. Qed.
Lemma evenly_increasing a b N : (2 <= N)%nat -> a < b -> increasing (evenly a b N).
Proof.
  intros H Hab. apply increasing_of_nth. intros i Hi. rewrite evenly_len in Hi. rewrite !evenly_nth by lia. rewrite S_INR.
  assert (0 < (b - a) / INR (N - 1)). { apply Rdiv_lt_0_compat; [lra|]. apply lt_0_INR. lia. } lra.
Qed.
Lemma increasing_cons a l : (forall x, In x l -> a < x) -> increasing l -> increasing (a :: l).
Proof. intros H I. destruct l as [|b l]; [exact Logic.I|]. split; [apply H; now left|exact I]. Qed.
Lemma evenly_ge a b N x : a < b -> In x (evenly a b N) -> a <= x.
Proof.
  intros Hab Hx. unfold evenly in Hx. apply in_map_iff in Hx. destruct Hx as (i & <- & _).
  assert (0 <= INR i * ((b - a) / INR (N - 1))); [|lra]. apply Rmult_le_pos; [apply pos_INR|].
  destruct (N - 1)%nat eqn:e; [simpl; unfold Rdiv; rewrite Rinv_0; lra|]. left. apply Rdiv_lt_0_compat; [lra|]. apply lt_0_INR. lia.
Qed.
Lemma log10_map l : Forall (fun x => 0 < x) l -> map xlog10 (map Fin l) = map Fin (map log10R l).
Proof. induction 1; [reflexivity|]. cbn [map]. rewrite xlog10_fin by assumption. rewrite IHForall. reflexivity. Qed.
Lemma map2_sub a b : map2 xsub (map Fin a) (map Fin b) = map Fin (map2 Rminus a b).
Proof. revert b. induction a as [|x a IH]; intros [|y b]; [reflexivity..|]. cbn [map map2]. rewrite IH. reflexivity. Qed.

Section Loaded.
Variable kern : MahParams xr -> xr -> xr -> xr.
Variable sing : MahParams xr -> list xr -> xr -> list xr * list xr.
Variables (mah : MahParams (list xr)) (sfh : DiffstarParams (list xr)) (lgt0 : R) (n : nat).
Variables (p : nat -> DiffstarParams R) (h : nat -> R -> R) (mh : nat -> list R).
Variable T : list R.
Hypothesis HT : T = evenly (1 / 100) (pow10R lgt0) N_TABLE_TIMES.

Lemma tables_loaded_T : 1 / 100 < pow10R lgt0 -> cols_len_mah n mah -> cols_len_d n sfh ->
  (forall k, (k < n)%nat -> gal_d sfh k = map_d Fin (p k) /\ halo_history kern (gal_mah mah k) LGT0 (h k) T /\
     snd (sing (gal_mah mah k) (map Fin T) LGT0) = map Fin (mh k) /\ length (mh k) = length T) ->
  exists tb M S F, sfh_tables kern sing mah sfh (Fin lgt0) (Some FB) = Some tb /\ tables_are tb n T M S F /\ increasing T /\
    tb_mah tb = mah /\ tb_sfh tb = sfh /\
    forall k, (k < n)%nat -> nth k M [] = mh k /\
      exists sfr smh, calc_sfh_singlegal_smh kern (map_d Fin (p k)) (gal_mah mah k) (map Fin T) LGT0 FB = Some (map Fin sfr, map Fin smh) /\
        nth k S [] = map log10R smh /\ nth k F [] = map2 (fun s m => log10R s - log10R m) sfr smh.
Proof.
  intros Ht Hm Hd H.
  assert (N2 : (2 <= N_TABLE_TIMES)%nat) by (unfold N_TABLE_TIMES; lia).
  assert (IT : increasing T) by (rewrite HT; apply evenly_increasing; assumption).
  assert (IT1 : increasing (1 / 1000 :: T)).
  { apply increasing_cons; [|exact IT]. intros x Hx. rewrite HT in Hx. apply evenly_ge in Hx; [lra|exact Ht]. }
  assert (LT : linspace T_TABLE_MIN (xpow10 (Fin lgt0)) N_TABLE_TIMES = map Fin T).
  { unfold T_TABLE_MIN. cbn [xpow10]. rewrite HT. apply linspace_evenly. exact N2. }
  clear HT. unfold sfh_tables. cbv zeta. rewrite LT. clear LT N2. rewrite (mah_halopop_eq sing n) by exact Hm.
  destruct (galpop_smh_eq kern n sfh mah (map Fin T) LGT0 FB Hd Hm) as (Ss & Ms & E1 & _ & L1 & L2 & E3).
  rewrite E1.
  set (sf := fun k => map (fun t => sfr_spec (p k) (156 / 1000) (h k t) t) T).
  assert (EV : forall k, (k < n)%nat -> nth k Ss [] = map Fin (sf k) /\ nth k Ms [] = map Fin (massR T (sf k))).
  { intros k Hk. destruct (E3 k Hk) as [_ e]. destruct (H k Hk) as (e1 & e2 & _). rewrite e1 in e.
    unfold FB in e. rewrite (calc_sfh_smh_value kern _ _ _ _ _ (h k) e2) in e. inversion e. auto. }
  assert (PS : forall k, Forall (fun x => 0 < x) (sf k)).
  { intros k. unfold sf. rewrite Forall_map, Forall_forall. intros t _. pose proof (sfr_spec_floor (p k) (156 / 1000) (h k t) t).
    assert (0 < 1 / 10 ^ 14) by (apply Rdiv_lt_0_compat; [lra|apply pow_lt; lra]). lra. }
  assert (LS : forall k, length (sf k) = length T) by (intros; unfold sf; apply map_length).
  assert (LM : forall k, length (massR T (sf k)) = length T) by (intros; apply massR_length; rewrite LS; reflexivity).
  assert (PM : forall k, Forall (fun x => 0 < x) (massR T (sf k))).
  { intros k. apply (massR_increasing T (sf k)); [rewrite LS; reflexivity|exact IT1|exact (PS k)]. }
  assert (TS : map (map xlog10) Ss = map (map Fin) (map (fun k => map log10R (sf k)) (seq 0 n))).
  { rewrite (list_as_seq Ss []), L1, !map_map. apply map_ext_in. intros k Hk. apply in_seq in Hk.
    rewrite (proj1 (EV k ltac:(lia))). apply log10_map, PS. }
  assert (TM : map (map xlog10) Ms = map (map Fin) (map (fun k => map log10R (massR T (sf k))) (seq 0 n))).
  { rewrite (list_as_seq Ms []), L2, !map_map. apply map_ext_in. intros k Hk. apply in_seq in Hk.
    rewrite (proj2 (EV k ltac:(lia))). apply log10_map, PM. }
  rewrite TS, TM.
  exists (mkTab (map Fin T) (map (fun i => snd (sing (gal_mah mah i) (map Fin T) LGT0)) (seq 0 n))
     (map (map Fin) (map (fun k => map log10R (massR T (sf k))) (seq 0 n)))
     (map2 (map2 xsub) (map (map Fin) (map (fun k => map log10R (sf k)) (seq 0 n))) (map (map Fin) (map (fun k => map log10R (massR T (sf k))) (seq 0 n)))) mah sfh),
    (map mh (seq 0 n)), (map (fun k => map log10R (massR T (sf k))) (seq 0 n)),
    (map (fun k => map2 (fun s m => log10R s - log10R m) (sf k) (massR T (sf k))) (seq 0 n)).
  split; [reflexivity|]. split; [|split; [exact IT|split; [reflexivity|split; [reflexivity|]]]].
  - constructor; cbn [tb_t tb_log_mah tb_log_smh tb_log_ssfr tb_mah tb_sfh]; try reflexivity; try (rewrite map_length, seq_length; reflexivity).
    + rewrite map_map. apply map_ext_in. intros k Hk. apply in_seq in Hk. apply H. lia.
    + rewrite !map_map, map2_map_same. apply map_ext_in. intros k Hk. rewrite map2_sub. f_equal.
      clear. generalize (massR T (sf k)). generalize (sf k). intros a. induction a as [|x a IH]; intros [|y b]; [reflexivity..|]. cbn [map map2]. rewrite IH. reflexivity.
    + apply Forall_forall. intros r Hr. apply in_map_iff in Hr. destruct Hr as (k & <- & Hk). apply in_seq in Hk. apply H. lia.
    + apply Forall_forall. intros r Hr. apply in_map_iff in Hr. destruct Hr as (k & <- & Hk). rewrite map_length. apply LM.
    + apply Forall_forall. intros r Hr. apply in_map_iff in Hr. destruct Hr as (k & <- & Hk). rewrite map2_length, LS, LM. lia.
    + destruct Hm as (M1 & M2 & M3 & M4 & M5). repeat constructor; assumption.
    + destruct Hd as (D1 & D2 & D3 & D4 & D5 & D6 & D7 & D8). repeat constructor; assumption.
  - intros k Hk. split.
    + rewrite (nth_map_nat _ _ _ 0%nat) by (rewrite seq_length; exact Hk). rewrite seq_nth by exact Hk. reflexivity.
    + exists (sf k), (massR T (sf k)). split.
      * unfold FB. apply (calc_sfh_smh_value kern _ _ _ _ _ (h k)). apply H. exact Hk.
      * split; (rewrite (nth_map_nat _ _ _ 0%nat) by (rewrite seq_length; exact Hk); rewrite seq_nth by exact Hk; reflexivity).
Qed.
End Loaded.

(** ** The scripts *)
Lemma nth_tbl a b c i j : (i < a)%nat -> (j < b)%nat -> entry (tbl a b c) i j = Fin (c i j).
Proof.
  intros Hi Hj. unfold entry, tbl. rewrite (nth_map_nat _ _ i 0%nat) by (rewrite seq_length; exact Hi). rewrite seq_nth by exact Hi.
  rewrite (nth_map_nat _ _ j 0%nat) by (rewrite seq_length; exact Hj). rewrite seq_nth by exact Hj. reflexivity.
Qed.
Lemma add2_tbl a b c d : add2 (tbl a b c) (tbl a b d) = tbl a b (fun i j => c i j + d i j).
Proof.
  unfold add2, tbl. rewrite map2_map_same. apply map_ext. intros i. unfold add1. rewrite map2_map_same. apply map_ext. intros j. reflexivity.
Qed.
Lemma zeros2_tbl a b : zeros2 a b = tbl a b (fun _ _ => 0).
Proof.
  unfold zeros2, tbl, zeros. assert (G : forall A (x : A) m s, repeat x m = map (fun _ : nat => x) (seq s m)).
  { intros A x m. induction m as [|m IH]; intros s; [reflexivity|]. cbn [repeat seq map]. rewrite (IH (S s)). reflexivity. }
  rewrite <- !G. reflexivity.
Qed.
Lemma sum2_tbl {O} a b (f : O -> list (list xr)) (c : O -> nat -> nat -> R) outs : (forall o, In o outs -> f o = tbl a b (c o)) ->
  forall z, fold_left (fun s o => add2 s (f o)) outs (tbl a b z) = tbl a b (fun i j => z i j + Rsum (map (fun o => c o i j) outs)).
Proof.
  intros H. induction outs as [|o outs IH]; intros z.
  - cbn [fold_left]. unfold tbl. apply map_ext. intros i. apply map_ext. intros j. cbn [map]. unfold Rsum. cbn [fold_right]. rewrite Rplus_0_r. reflexivity.
  - cbn [fold_left]. rewrite (H o (or_introl eq_refl)), add2_tbl, IH by (intros; apply H; now right).
    unfold tbl. apply map_ext. intros i. apply map_ext. intros j. cbn [map]. unfold Rsum. cbn [fold_right]. f_equal. lra.
Qed.
Lemma sum2_zeros {O} a b (f : O -> list (list xr)) (c : O -> nat -> nat -> R) outs : (forall o, In o outs -> f o = tbl a b (c o)) ->
  fold_left (fun s o => add2 s (f o)) outs (zeros2 a b) = tbl a b (fun i j => Rsum (map (fun o => c o i j) outs)).
Proof.
  intros H. rewrite zeros2_tbl, (sum2_tbl a b f c) by exact H. unfold tbl. apply map_ext. intros i. apply map_ext. intros j. f_equal. lra.
Qed.
Lemma div_entry a b c d i j : (i < a)%nat -> (j < b)%nat ->
  entry (map2 (map2 xdiv) (tbl a b c) (tbl a b d)) i j = (Fin (c i j) / Fin (d i j))%X.
Proof.
  intros Hi Hj. unfold entry, tbl. rewrite map2_map_same. rewrite (nth_map_nat _ _ i 0%nat) by (rewrite seq_length; exact Hi). rewrite seq_nth by exact Hi.
  rewrite map2_map_same. rewrite (nth_map_nat _ _ j 0%nat) by (rewrite seq_length; exact Hj). rewrite seq_nth by exact Hj. reflexivity.
Qed.

Lemma Rsum_concat {O} (P : O -> list R) outs : Rsum (map (fun o => Rsum (P o)) outs) = Rsum (List.concat (map P outs)).
Proof. induction outs as [|o outs IH]; [reflexivity|]. cbn [map List.concat]. rewrite Rsum_app, <- IH. reflexivity. Qed.
Lemma len_concat {O} (P : O -> list R) outs : Rsum (map (fun o => INR (length (P o))) outs) = INR (length (List.concat (map P outs))).
Proof. induction outs as [|o outs IH]; [reflexivity|]. cbn [map List.concat]. rewrite app_length, plus_INR, <- IH. reflexivity. Qed.
Lemma mean_div l : (Fin (Rsum l) / Fin (INR (length l)))%X = mean l.
Proof.
  destruct l as [|a l].
  - unfold Rsum. cbn [fold_right length INR mean]. unfold xdiv. destruct (Req_EM_T 0 0); [|lra]. unfold signed_inf. destruct (Rlt_dec 0 0); [lra|reflexivity].
  - unfold mean. apply xdiv_fin. apply not_0_INR. discriminate.
Qed.

Theorem collect_means nz nm nms nsf ages outs (P : Out -> nat -> nat -> list R) : outs <> [] ->
  (forall o, In o outs -> td_counts (fst o) = tbl nz nm (fun i j => INR (length (P o i j))) /\
                          td_hist (fst o) = tbl nz nm (fun i j => Rsum (P o i j))) ->
  exists f, collect nz nm nms nsf ages outs = Some f /\ f_age f = ages /\
    forall i j, (i < nz)%nat -> (j < nm)%nat ->
      let all := List.concat (map (fun o => P o i j) outs) in
      entry (f_counts f) i j = Fin (INR (length all)) /\ entry (f_hist f) i j = Fin (Rsum all) /\ entry (f_smhm f) i j = mean all.
Proof.
  intros NE H. unfold collect. cbv zeta. unfold concatenate_samples_haloes.
  destruct (map (fun o => td_haloes (fst o)) outs) eqn:e; [destruct outs; [contradiction|discriminate]|].
  eexists. split; [reflexivity|]. split; [reflexivity|]. intros i j Hi Hj. cbv zeta. cbn [f_counts f_hist f_smhm].
  rewrite (sum2_zeros nz nm (fun o => td_counts (fst o)) (fun o i j => INR (length (P o i j)))) by (intros o Ho; apply H, Ho).
  rewrite (sum2_zeros nz nm (fun o => td_hist (fst o)) (fun o i j => Rsum (P o i j))) by (intros o Ho; apply H, Ho).
  rewrite !nth_tbl, div_entry by assumption. rewrite (Rsum_concat (fun o => P o i j)), (len_concat (fun o => P o i j)).
  split; [reflexivity|]. split; [reflexivity|]. apply mean_div.
Qed.

Lemma mean_bounds l lo hi : l <> [] -> Forall (fun x => lo <= x <= hi) l -> exists m, mean l = Fin m /\ lo <= m <= hi.
Proof.
  intros NE F. destruct l as [|a l]; [contradiction|]. unfold mean. eexists. split; [reflexivity|].
  assert (G : INR (length (a :: l)) * lo <= Rsum (a :: l) <= INR (length (a :: l)) * hi).
  { clear NE. generalize dependent (a :: l). clear a l. intros l F. induction F as [|x l Hx F IH]; [unfold Rsum; cbn; lra|].
    change (length (x :: l)) with (S (length l)). rewrite S_INR. unfold Rsum in *. cbn [fold_right]. lra. }
  assert (0 < INR (length (a :: l))) by (apply lt_0_INR; cbn; lia).
  split.
  - apply Rmult_le_reg_l with (INR (length (a :: l))); [assumption|]. field_simplify; lra.
  - apply Rmult_le_reg_l with (INR (length (a :: l))); [assumption|]. field_simplify; lra.
Qed.

Section Scripts.
Variables (nz nm nms nsf : nat).

Lemma smdpl_rank_all process (o : nat -> Out) ages part : (forall i, In i part -> process i = Contributes (o i) /\ td_age (fst (o i)) = ages) ->
  forall w la, smdpl_rank process part w la = Some (w ++ map (fun i => (i, o i)) part, match part with [] => la | _ => Some ages end).
Proof.
  intros H. induction part as [|i part IH]; intros w la; [cbn; rewrite app_nil_r; reflexivity|].
  cbn [smdpl_rank]. destruct (H i (or_introl eq_refl)) as [-> ->]. rewrite IH by (intros; apply H; now right).
  cbn [map]. rewrite <- app_assoc. cbn [app]. destruct part; reflexivity.
Qed.
Lemma smdpl_rank_in process part : forall w la w' la', smdpl_rank process part w la = Some (w', la') ->
  forall i q, In (i, q) w' -> In (i, q) w \/ process i = Contributes q.
Proof.
  induction part as [|k part IH]; intros w la w' la' H i q Hq; cbn [smdpl_rank] in H; [inversion H; subst; auto|].
  destruct (process k) as [x| |] eqn:e; [|eauto|discriminate].
  destruct (IH _ _ _ _ H i q Hq) as [C|C]; [|auto]. apply in_app_or in C. destruct C as [C|[C|[]]]; [auto|]. inversion C; subst. auto.
Qed.
Lemma find_out_in i l q : find_out i l = Some q -> In (i, q) l.
Proof.
  induction l as [|[k r] l IH]; cbn [find_out]; [discriminate|]. destruct (Nat.eqb_spec k i); intros H; [inversion H; subst; now left|right; auto].
Qed.
Lemma find_out_map (o : nat -> Out) i l : In i l -> find_out i (map (fun k => (k, o k)) l) = Some (o i).
Proof.
  induction l as [|k l IH]; intros H; [contradiction|]. cbn [map find_out]. destruct (Nat.eqb_spec k i) as [->|N]; [reflexivity|].
  apply IH. destruct H; [contradiction|assumption].
Qed.
Lemma find_out_none i (l : list (nat * Out)) : (forall q, ~ In (i, q) l) -> find_out i l = None.
Proof. intros H. destruct (find_out i l) eqn:e; [|reflexivity]. apply find_out_in in e. exfalso. eapply H, e. Qed.

Lemma upd_nth1 (u : list nat) i k : nth k (upd u i 1%nat) 0%nat = if Nat.eqb k i && Nat.ltb i (length u) then 1%nat else nth k u 0%nat.
Proof.
  revert i k. induction u as [|x u IH]; intros [|i] [|k]; cbn; try reflexivity.
  - destruct (Nat.eqb k i); reflexivity.
  - rewrite IH. reflexivity.
Qed.
Lemma upd_len (u : list nat) i : length (upd u i 1%nat) = length u.
Proof. revert i. induction u as [|x u IH]; intros [|i]; cbn; auto. Qed.
Lemma used_value subs : forall u k, Forall (fun i => (i < length u)%nat) subs ->
  nth k (fold_left (fun u i => upd u i 1%nat) subs u) 0%nat = if existsb (Nat.eqb k) subs then 1%nat else nth k u 0%nat.
Proof.
  induction subs as [|i subs IH]; intros u k F; [reflexivity|]. inversion F; subst. cbn [fold_left existsb].
  rewrite IH by (rewrite upd_len; assumption). rewrite upd_nth1. rewrite (proj2 (Nat.ltb_lt i (length u))) by assumption. rewrite andb_true_r.
  destruct (Nat.eqb k i), (existsb (Nat.eqb k) subs); reflexivity.
Qed.

Theorem smdpl_value process (o : nat -> Out) ages subvols nmax nranks : subvols <> [] -> (0 < nranks)%nat ->
  (forall i, In i subvols -> process i = Contributes (o i) /\ td_age (fst (o i)) = ages /\ (i < nmax)%nat) ->
  smdpl_script process subvols nmax nz nm nms nsf nranks
  = option_map (fun f => (f, map (fun k => if existsb (Nat.eqb k) subvols then 1%nat else 0%nat) (seq 0 nmax)))
      (collect nz nm nms nsf ages (map o subvols)).
Proof.
  intros NE Hr H. unfold smdpl_script.
  destruct (array_split subvols nranks) as [parts|] eqn:EP; [|exfalso].
  2:{ rewrite array_split_sizes in EP by exact Hr. discriminate. }
  destruct (array_split_concat _ _ _ EP) as (CP & LP & SP).
  assert (IP : forall part, In part parts -> forall i, In i part -> In i subvols).
  { intros part Hp i Hi. rewrite <- CP. apply in_concat. eauto. }
  rewrite (vmap_map_some _ (fun part => (map (fun i => (i, o i)) part, match part with [] => None | _ => Some ages end))).
  2:{ intros part Hp. rewrite (smdpl_rank_all process o ages); [reflexivity|]. intros i Hi.
      destruct (H i (IP part Hp i Hi)) as (A & B & _). auto. }
  rewrite !map_map. cbn [fst snd].
  assert (W : List.concat (map (fun part => map (fun i => (i, o i)) part) parts) = map (fun i => (i, o i)) subvols).
  { rewrite <- concat_map, CP. reflexivity. }
  cbv zeta. rewrite W. rewrite (vmap_map_some _ o) by (intros i Hi; apply find_out_map; exact Hi).
  assert (HD : hd None (map (fun part : list nat => match part with [] => None | _ => Some ages end) parts) = Some ages).
  { destruct parts as [|part parts]; [cbn in LP; lia|]. cbn [map hd]. specialize (SP 0%nat part eq_refl).
    destruct part; [exfalso|reflexivity]. cbn [length] in SP. rewrite rank_load_value in SP by exact Hr.
    assert (LN : (0 < length subvols)%nat) by (destruct subvols; [contradiction|cbn; lia]).
    pose proof (Nat.div_mod (length subvols) nranks ltac:(lia)). destruct (Nat.ltb_spec 0 (length subvols mod nranks)); [lia|].
    assert (length subvols / nranks = 0)%nat by lia. nia. }
  rewrite HD.
  assert (FB' : forallb (fun i => Nat.ltb i nmax) subvols = true).
  { apply forallb_forall. intros i Hi. apply Nat.ltb_lt. apply H, Hi. }
  rewrite FB'. destruct (collect nz nm nms nsf ages (map o subvols)); [|reflexivity]. cbn [option_map]. f_equal. f_equal.
  apply nth_ext with (d := 0%nat) (d' := 0%nat).
  - assert (G : forall s u, length (fold_left (fun u i => upd u i 1%nat) s u) = length u).
    { induction s as [|i s IH]; intros u; [reflexivity|]. cbn [fold_left]. rewrite IH. apply upd_len. }
    rewrite G, map_length, seq_length, repeat_length. reflexivity.
  - intros k Hk. rewrite used_value by (rewrite repeat_length; apply Forall_forall; intros i Hi; apply H, Hi).
    assert (Hk' : (k < nmax)%nat).
    { assert (G : forall s u, length (fold_left (fun u i => upd u i 1%nat) s u) = length u).
      { induction s as [|i s IH]; intros u; [reflexivity|]. cbn [fold_left]. rewrite IH. apply upd_len. }
      rewrite G, repeat_length in Hk. exact Hk. }
    rewrite (nth_map_nat _ _ k 0%nat) by (rewrite seq_length; exact Hk'). rewrite seq_nth by exact Hk'. rewrite nth_repeat. reflexivity.
Qed.

Theorem smdpl_needs_all process subvols nmax nranks r : smdpl_script process subvols nmax nz nm nms nsf nranks = Some r ->
  forall i, In i subvols -> exists q, process i = Contributes q.
Proof.
  unfold smdpl_script. destruct (array_split subvols nranks) as [parts|]; [|discriminate].
  destruct (vmap _ parts) as [ranks|] eqn:ER; [|discriminate]. cbv zeta.
  destruct (vmap _ subvols) as [outs|] eqn:EO; [|discriminate]. intros _ i Hi.
  apply vmap_spec in EO. assert (exists q, find_out i (List.concat (map fst ranks)) = Some q) as [q Hq].
  { clear ER. induction EO as [|a b l l' HA HB IH]; [contradiction|]. destruct Hi as [->|Hi]; eauto. }
  exists q. apply find_out_in in Hq. apply in_concat in Hq. destruct Hq as (w & Hw & Hq).
  apply in_map_iff in Hw. destruct Hw as ([w' la] & <- & Hw). cbn [fst] in Hq.
  apply vmap_spec in ER. assert (exists part, smdpl_rank process part [] None = Some (w', la)) as [part Hp].
  { clear - ER Hw. induction ER as [|a b l l' HA HB IH]; [contradiction|]. destruct Hw as [->|Hw]; eauto. }
  destruct (smdpl_rank_in _ _ _ _ _ _ Hp i q Hq) as [[]|C]. exact C.
Qed.

(** TNG *)
Lemma chunk_past n r : (NCHUNKS <= r)%nat -> chunk_indices n r = None.
Proof.
  intros H. unfold chunk_indices, indices_for_rank. destruct (array_split (seq 0 n) NCHUNKS) as [parts|] eqn:e; [|reflexivity].
  apply array_split_concat in e. destruct e as (_ & L & _). apply nth_error_None. rewrite L. exact H.
Qed.
Lemma vmap_in_some {A B} (f : A -> option B) l r a : vmap f l = Some r -> In a l -> exists b, f a = Some b /\ In b r.
Proof.
  intros H. apply vmap_spec in H. induction H as [|x y l l' HA HB IH]; intros Hi; [contradiction|].
  destruct Hi as [->|Hi]; [exists y; split; [exact HA|now left]|]. destruct (IH Hi) as (b & K & J). exists b. split; [exact K|now right].
Qed.

Theorem tng_needs_chunks process nranks f : (forall r, (NCHUNKS <= r)%nat -> process r = None) ->
  tng_measure_script process nz nm nms nsf nranks = Some f -> nranks = NCHUNKS.
Proof.
  intros HN. unfold tng_measure_script. destruct (vmap _ (seq 0 nranks)) as [w|] eqn:EW; [|discriminate].
  destruct (vmap _ (seq 0 NCHUNKS)) as [outs|] eqn:EO; [|discriminate]. intros _.
  destruct (Nat.lt_trichotomy nranks NCHUNKS) as [C|[C|C]]; [exfalso|exact C|exfalso].
  - destruct (vmap_in_some _ _ _ nranks EO) as (q & Hq & _); [apply in_seq; lia|].
    apply find_out_in in Hq. apply vmap_spec in EW.
    assert (G : forall s (l' : list (nat * Out)), Forall2 (fun a b => option_map (fun o => (a, o)) (process a) = Some b) s l' ->
       forall i q, In (i, q) l' -> In i s).
    { clear. intros s l' F. induction F as [|a b l l' HA HB IH]; intros i q Hi; [contradiction|].
      destruct Hi as [->|Hi]; [|right; eauto]. destruct (process a); [|discriminate]. inversion HA; subst. now left. }
    apply (G _ _ EW) in Hq. apply in_seq in Hq. lia.
  - destruct (vmap_in_some _ _ _ NCHUNKS EW) as (q & Hq & _); [apply in_seq; lia|].
    rewrite HN in Hq by lia. discriminate.
Qed.
Theorem tng_value process (o : nat -> Out) : (forall r, (r < NCHUNKS)%nat -> process r = Some (o r)) ->
  tng_measure_script process nz nm nms nsf NCHUNKS = collect nz nm nms nsf (td_age (fst (o 0%nat))) (map o (seq 0 NCHUNKS)).
Proof.
  intros H. unfold tng_measure_script.
  rewrite (vmap_map_some _ (fun r => (r, o r))) by (intros r Hr; apply in_seq in Hr; rewrite H by lia; reflexivity).
  rewrite (vmap_map_some _ o) by (intros i Hi; apply find_out_map; exact Hi).
  rewrite find_out_map by (apply in_seq; unfold NCHUNKS; lia). reflexivity.
Qed.
Theorem galacticus_value process o nranks : (0 < nranks)%nat -> (forall r, (r < nranks)%nat -> process r <> None) -> process 0%nat = Some o ->
  galacticus_measure_script process nz nm nms nsf nranks = collect nz nm nms nsf (td_age (fst o)) [o].
Proof.
  intros Hr H H0. unfold galacticus_measure_script.
  rewrite (vmap_map_some _ (fun r => (r, match process r with Some q => q | None => o end))).
  2:{ intros r Hi. apply in_seq in Hi. specialize (H r ltac:(lia)). destruct (process r); [reflexivity|contradiction]. }
  rewrite (find_out_map (fun r => match process r with Some q => q | None => o end)) by (apply in_seq; lia). rewrite H0. reflexivity.
Qed.
End Scripts.

Lemma tng_chunk_past kern sing age choice dm ds is_cen r zs lgt0 : (NCHUNKS <= r)%nat ->
  tng_chunk kern sing age choice dm ds is_cen r zs lgt0 = None.
Proof.
  intros H. unfold tng_chunk. rewrite (chunk_past (length is_cen) r H). destruct (load_diffstar_sfh_tables_tng _ _ _ _ _ _) as [[? ?]|]; reflexivity.
Qed.

(** ** Which snapshot *)
Lemma count_below_spec T a : increasing T ->
  (count (below a) T <= length T)%nat /\
  (forall i, (i < count (below a) T)%nat -> nth i T 0 < a) /\ (forall i, (count (below a) T <= i < length T)%nat -> a <= nth i T 0).
Proof.
  intros H. split; [apply filter_len_le|]. unfold count. induction T as [|t T IH]; [split; intros; simpl in *; lia|].
  pose proof (increasing_tail _ _ H) as H'. specialize (IH H'). cbn [filter].
  assert (EB : below a t = if Rlt_dec t a then true else false) by reflexivity. rewrite EB. clear EB. destruct (Rlt_dec t a) as [l|l].
  - cbn [length]. destruct IH as [I1 I2]. split; intros [|i] Hi; cbn [nth]; try lra; try lia; [apply I1|apply I2]; lia.
  - assert (Z : filter (below a) T = []).
    { destruct (filter (below a) T) as [|b r] eqn:e; [reflexivity|exfalso].
      assert (Hb : In b (filter (below a) T)) by (rewrite e; now left). apply filter_In in Hb. destruct Hb as [Hb Q].
      unfold below in Q. destruct (Rlt_dec b a); [|discriminate].
      apply In_nth with (d := 0) in Hb. destruct Hb as (i & Hi & <-).
      pose proof (increasing_nth_lt _ H 0 (S i) ltac:(lia) ltac:(cbn [length]; lia)) as K. cbn [nth] in K. lra. }
    rewrite Z. split; intros i Hi; cbn [length] in Hi; [lia|]. destruct i as [|i]; cbn [nth]; [lra|].
    pose proof (increasing_nth_lt _ H 0 (S i) ltac:(lia) ltac:(cbn [length]; lia)) as K. cbn [nth] in K. lra.
Qed.
Lemma age_at_bounds A z a : (forall z z', 0 <= z < z' -> z' <= 10 -> A z' < A z) -> 0 <= z < 10 -> age_at A z a ->
  exists lo hi, lo <= z < hi /\ hi - lo = 10 / 1999 /\ 0 <= lo /\ hi <= 10 /\ A hi < a <= A lo.
Proof.
  intros HA Hz (j & Hj & [K1 K2] & ->). exists (knot j), (knot (S j)).
  assert (D : knot (S j) - knot j = 10 / 1999) by (unfold knot; rewrite S_INR; field).
  assert (K0 : 0 <= knot j) by (unfold knot; pose proof (pos_INR j); lra).
  assert (KL : knot (S j) <= 10).
  { unfold knot. assert (INR (S j) <= 1999); [|lra]. replace 1999 with (INR 1999) by (rewrite INR_IZR_INZ; reflexivity). apply le_INR. lia. }
  pose proof (HA (knot j) (knot (S j)) ltac:(lra) KL) as KA.
  set (r := (z - knot j) / (knot (S j) - knot j)).
  assert (R0 : 0 <= r). { apply Rmult_le_pos; [lra|]. left. apply Rinv_0_lt_compat. lra. }
  assert (R1 : r < 1). { apply Rmult_lt_reg_r with (knot (S j) - knot j); [lra|]. unfold r. field_simplify; lra. }
  repeat split; try lra; nra.
Qed.

Lemma column_past w X t : (w <= t)%nat -> column w X t = None.
Proof. intros H. unfold column. rewrite (proj2 (Nat.ltb_ge t w) H). reflexivity. Qed.
Theorem snapshot_past age choice tb cen sat upid skip per_bin zs E ids t : 
  return_target_redshift_index age (tb_t tb) zs = Some ids -> In t ids -> (length (tb_t tb) <= t)%nat ->
  create_target_data age choice tb cen sat upid skip per_bin zs E = None.
Proof.
  intros Hids Ht Hl. unfold create_target_data. rewrite Hids. cbv zeta.
  destruct (vmap _ ids) as [cols|] eqn:e; [|reflexivity]. exfalso.
  destruct (vmap_in_some _ _ _ t e Ht) as (b & Hb & _). rewrite column_past in Hb by exact Hl. discriminate.
Qed.

(** ** A small example: ages 14 - z, two table times, two halos *)
Definition ex_age (z : xr) : xr := (Fin 14 - z)%X.
Definition ex_mah : MahParams (list xr) := mkMah [Fin 12] [Fin 0] [Fin 2] [Fin 1] [Fin 14].
Definition ex_sfh : DiffstarParams (list xr) := mkDiffstar [Fin 12] [Fin (-1)] [Fin 1] [Fin (-1)] [Fin 1] [Fin 0] [Fin (-1)] [Fin 0].
Definition two (x : list xr) : list xr := x ++ x.
Definition ex_mah2 : MahParams (list xr) := mkMah (two (logm0 ex_mah)) (two (logtc ex_mah)) (two (early_index ex_mah)) (two (late_index ex_mah)) (two (t_peak ex_mah)).
Definition ex_sfh2 : DiffstarParams (list xr) := map_d two ex_sfh.
(** the second halo is too massive for the bins *)
Definition ex_M (m : R) : list (list R) := [[11; m]; [11; 15]].
Definition ex_S : list (list R) := [[10; 11]; [10; 12]].
Definition ex_F : list (list R) := [[-10; -11]; [-10; -12]].
Definition ex_tables (m : R) : Tables := mkTab [Fin 10; Fin 14] (map (map Fin) (ex_M m)) (map (map Fin) ex_S) (map (map Fin) ex_F) ex_mah2 ex_sfh2.
Definition ex_choice (i j : nat) (a : list nat) (k : nat) (replace : bool) : list nat := firstn k a.

Lemma ex_tables_are m : tables_are (ex_tables m) 2 [10; 14] (ex_M m) ex_S ex_F.
Proof. constructor; try reflexivity; repeat constructor. Qed.
Lemma ex_choice_ok : choice_ok ex_choice.
Proof.
  intros i j a k N L. unfold ex_choice. split; [apply firstn_length_le; exact L|].
  rewrite <- (firstn_skipn k a) in N. split.
  - revert N. generalize (firstn k a), (skipn k a). intros x y N. induction x as [|b x IH]; [constructor|]. inversion N; subst.
    constructor; [rewrite in_app_iff in *; tauto|]. apply IH. assumption.
  - intros b Hb. rewrite <- (firstn_skipn k a). apply in_app_iff. now left.
Qed.
Lemma ex_ids m : return_target_redshift_index ex_age (tb_t (ex_tables m)) [Fin 0] = Some [1%nat].
Proof.
  destruct (snapshot ex_age (fun z => 14 - z) ltac:(intros; reflexivity) ltac:(intros; lra) [10; 14] [0]) as (ids & H & F).
  - simpl; lra.
  - simpl; lia.
  - simpl; lra.
  - simpl; lra.
  - repeat constructor; lra.
  - change (tb_t (ex_tables m)) with (map Fin [10; 14]). change [Fin 0] with (map Fin [0]). rewrite H. f_equal.
    inversion F as [|z n zs ns (a & (j & Hj & [K1 K2] & ->) & ->) F']; subst. inversion F'; subst. f_equal.
    assert (Z : (j = 0)%nat).
    { destruct j; [reflexivity|exfalso]. unfold knot in K1. rewrite S_INR in K1. pose proof (pos_INR j). lra. }
    subst j. unfold count, below, knot. cbn [filter INR].
    replace (14 - 10 * 0 / 1999 + (14 - 10 * 1 / 1999 - (14 - 10 * 0 / 1999)) * ((0 - 10 * 0 / 1999) / (10 * 1 / 1999 - 10 * 0 / 1999))) with 14 by field.
    destruct (Rlt_dec 10 14); [|lra]. destruct (Rlt_dec 14 14); [lra|]. reflexivity.
Qed.

(** ** The statements *)
Lemma map_ids {A} (f : nat -> A) (ids : list nat) : map f ids = map (fun i => f (nth i ids 0%nat)) (seq 0 (length ids)).
Proof. rewrite (list_as_seq ids 0%nat) at 1. rewrite map_map. reflexivity. Qed.

Section Final.
Variable age : xr -> xr.
Variable choice : nat -> nat -> list nat -> nat -> bool -> list nat.
Hypothesis CH : choice_ok choice.

Theorem targets tb n T M S F zs ids cen sat upid skip per_bin E :
  tables_are tb n T M S F -> return_target_redshift_index age (tb_t tb) zs = Some ids -> Forall (fun t => (t < length T)%nat) ids ->
  zs <> [] -> In true cen -> In true sat -> length cen = n -> length sat = n -> length upid = n -> increasing E -> (2 <= length E)%nat ->
  (skip = true -> forall t, In t ids -> exists j k, (j < length E - 1)%nat /\ (k < n)%nat /\ half_open E j (val M t k) = true) ->
  exists td, create_target_data age choice tb cen sat upid skip per_bin zs (map Fin E) = Some td /\
    (let table := tbl (length ids) (length E - 1) in
     let t i := nth i ids 0%nat in
     let here P i j := those n (fun k => P k && inbin E j (val M (t i) k)) in
     let smooth i j k := tw_mass (val M (t i) k) (mean_bin E) (nth j E 0) (nth (j + 1) E 0) in
     td_counts td = table (fun i j => INR (length (here (fun _ => true) i j))) /\
     td_hist td = table (fun i j => Rsum (map (val S (t i)) (here (fun _ => true) i j))) /\
     td_wcounts td = table (fun i j => Rsum (map (smooth i j) (seq 0 n))) /\
     td_whist td = table (fun i j => Rsum (map (fun k => smooth i j k * val S (t i) k) (seq 0 n))) /\
     td_counts_cen td = table (fun i j => INR (length (here (fun k => nth k cen false) i j))) /\
     td_counts_sat td = table (fun i j => INR (length (here (fun k => nth k sat false) i j))) /\
     td_age td = map (fun t => Fin (nth t T 0)) ids) /\
    exists L, sample_is tb upid E ids zs (td_haloes td) L /\ NoDup L /\
      (forall r, In r L -> (tgt r < length ids)%nat /\ (bin r < length E - 1)%nat /\ (halo r < n)%nat /\
        nth (bin r) E 0 <= val M (nth (tgt r) ids 0%nat) (halo r) < nth (bin r + 1) E 0) /\
      (forall i j, (i < length ids)%nat -> (j < length E - 1)%nat ->
        count (fun r => Nat.eqb (tgt r) i && Nat.eqb (bin r) j) L
        = Nat.min per_bin (length (those n (fun k => half_open E j (val M (nth i ids 0%nat) k))))).
Proof.
  intros TA Hids Hlt Hz Tc Ts Lc Ls Lu HE H2 NE.
  destruct (target_value age choice CH tb n T M S F TA zs ids Hids Hlt cen sat upid skip per_bin E Hz Tc Ts Lc Ls Lu HE H2 NE) as (h & EQ & SI).
  eexists. split; [exact EQ|]. split.
  - cbv zeta. cbn [td_counts td_hist td_wcounts td_whist td_counts_cen td_counts_sat td_age].
    assert (G : forall c : nat -> nat -> R, map (fun t => map Fin (map (c t) (seq 0 (length E - 1)))) ids
       = tbl (length ids) (length E - 1) (fun i j => c (nth i ids 0%nat) j)).
    { intros c. unfold tbl. rewrite map_ids. apply map_ext. intros i. apply map_map. }
    assert (TE : forall (c d : nat -> nat -> R), (forall i j, (i < length ids)%nat -> c i j = d i j) -> tbl (length ids) (length E - 1) c = tbl (length ids) (length E - 1) d).
    { intros c d e. unfold tbl. apply map_ext_in. intros i Hi. apply in_seq in Hi. apply map_ext. intros j. rewrite e by lia. reflexivity. }
    unfold rcount, rhist, rdiff. repeat split.
    + rewrite (G (fun t j => _)). reflexivity.
    + rewrite (G (fun t j => _)). reflexivity.
    + rewrite (G (fun t j => _)). apply TE. intros i j _. f_equal. apply map_ext. intros k. rewrite Nat.add_1_r. ring.
    + rewrite (G (fun t j => _)). apply TE. intros i j _. f_equal. apply map_ext. intros k. rewrite Nat.add_1_r. ring.
    + rewrite (G (fun t j => _)). reflexivity.
    + rewrite (G (fun t j => _)). reflexivity.
    + apply map_ext_in. intros t Ht. rewrite (ta_t _ _ _ _ _ _ TA). apply nth_map_nat. rewrite Forall_forall in Hlt. apply Hlt, Ht.
  - exists (samples choice n M ids per_bin E). split; [exact SI|]. split; [apply samples_NoDup; assumption|]. split.
    + intros r Hr. apply samples_in in Hr; try assumption. destruct Hr as (A & B & C & D). apply half_open_true in D. rewrite Nat.add_1_r. tauto.
    + intros i j Hi Hj. apply samples_count; assumption.
Qed.

(** Galacticus: no halo strictly below the last edge in any bin raises *)
Theorem targets_empty tb n T M S F zs ids cen sat upid per_bin E t :
  tables_are tb n T M S F -> return_target_redshift_index age (tb_t tb) zs = Some ids -> In t ids -> (2 <= length E)%nat ->
  (forall j k, (j < length E - 1)%nat -> (k < n)%nat -> half_open E j (val M t k) = false) ->
  create_target_data age choice tb cen sat upid true per_bin zs (map Fin E) = None.
Proof.
  intros TA Hids Ht H2 NH. unfold create_target_data. rewrite Hids. cbv zeta.
  destruct (vmap _ ids) as [cols|] eqn:EC; [|reflexivity].
  destruct (vmap _ cols) as [d1|]; [|reflexivity]. destruct (vmap _ cols) as [d2|]; [|reflexivity].
  destruct (vmap _ cols) as [d3|]; [|reflexivity]. destruct (vmap _ cols) as [d4|]; [|reflexivity].
  destruct (rows _) as [r1|]; [|reflexivity]. destruct (rows _) as [r2|]; [|reflexivity].
  destruct (vmap (nth_error (tb_t tb)) ids) as [ages|] eqn:EA; [|reflexivity].
  destruct (vmap _ (combine _ _)) as [data|] eqn:ED; [exfalso|reflexivity].
  apply In_nth with (d := 0%nat) in Ht. destruct Ht as (i & Hi & Ht).
  pose proof (redshift_index_length _ _ _ _ Hids) as Lz.
  apply vmap_spec in EC. apply vmap_spec in EA. pose proof (F2_len _ _ _ EC) as LC. pose proof (F2_len _ _ _ EA) as LA.
  destruct (vmap_in_some _ _ _ (i, (nth i cols ([], []), (nth i ages NaN, nth i zs NaN))) ED) as (q & Hq & _).
  { assert (CN : forall A B (l : list A) (m : list B) k da db, (k < length l)%nat -> length l = length m -> In (nth k l da, nth k m db) (combine l m)).
    { intros A B l m k da db Hk Hl. rewrite <- (combine_nth l m k da db Hl). apply nth_In. rewrite combine_length. lia. }
    replace i with (nth i (seq 0 (length ids)) 0%nat) at 1 by (rewrite seq_nth by exact Hi; reflexivity).
    rewrite <- (combine_nth ages zs i NaN NaN) by congruence.
    rewrite <- (combine_nth cols (combine ages zs) i ([], []) (NaN, NaN)) by (rewrite combine_length; lia).
    apply CN; [rewrite seq_length; exact Hi|]. rewrite seq_length, !combine_length. lia. }
  pose proof (F2_nth _ _ _ EC i 0%nat ([], []) Hi) as EV. cbv beta in EV. rewrite Ht in EV.
  pose proof TA as [tT tM tS tF nM nS nF wM wS wF cM cS].
  destruct (Nat.ltb_spec t (length T)) as [LT|LT].
  - rewrite tT, tM, tS, map_length in EV. rewrite !column_fin in EV by assumption. rewrite nM, nS in EV. inversion EV as [e]. rewrite <- e in Hq.
    cbv beta iota in Hq. change (fun k : nat => val M t k) with (val M t) in Hq. unfold sample_halos in Hq. rewrite (sels_empty choice i n per_bin E (val M t)) in Hq by assumption. discriminate.
  - rewrite column_past in EV by (rewrite tT, map_length; exact LT). discriminate.
Qed.
End Final.

Section Pdfs.
Variable age : xr -> xr.
Theorem pdf_targets tb n T M S F zs ids cen sat E Em Es :
  tables_are tb n T M S F -> return_target_redshift_index age (tb_t tb) zs = Some ids -> Forall (fun t => (t < length T)%nat) ids ->
  length cen = n -> length sat = n -> increasing Em -> (2 <= length Em)%nat -> increasing Es -> (2 <= length Es)%nat ->
  exists pd, create_pdf_target_data age tb cen sat zs (map Fin E) (map Fin Em) (map Fin Es) = Some pd /\
    (let each {A} (v : nat -> nat -> A) := map (fun t => map (v t) (seq 0 (length E - 1))) ids in
     let inside P t j := those n (fun k => interior E j (val M t k) && P k) in
     let mpart t a k := tw_mass (val S t k) (mean_bin Em) (nth a Em 0) (nth (a + 1) Em 0) in
     let spart t b k := tw_mass (Rmax (val F t k) (-12)) (mean_bin Es) (nth b Es 0) (nth (b + 1) Es 0) in
     let mrow (c : nat -> R) := map (fun a => Fin (c a)) (seq 0 (length Em - 1)) in
     let joint P := each (fun t j => tbl (length Em - 1) (length Es - 1) (fun a b =>
                      Rsum (map (fun k => mpart t a k * spart t b k) (inside P t j)))) in
     pd_wcounts pd = each (fun t j => mrow (fun a => Rsum (map (mpart t a) (inside (fun _ => true) t j)))) /\
     pd_counts pd = each (fun t j => mrow (fun a => INR (length (filter (fun k => inbin Em a (val S t k)) (inside (fun _ => true) t j))))) /\
     pd_cent pd = joint (fun k => nth k cen false) /\ pd_sat pd = joint (fun k => nth k sat false)).
Proof.
  intros TA Hids Hlt Lc Ls I1 L1 I2 L2.
  eexists. split; [exact (pdf_value age tb n T M S F TA zs ids Hids Hlt cen sat E Em Es Lc Ls I1 L1 I2 L2)|].
  cbv zeta. cbn [pd_wcounts pd_counts pd_cent pd_sat]. unfold joint2, table2, members, joint_mass, cssfr, tbl.
  assert (A1 : forall a, (a + 1)%nat = Datatypes.S a) by (intros; lia).
  repeat split; apply map_ext; intros t; apply map_ext; intros j; rewrite ?map_map; apply map_ext; intros a; rewrite ?A1; try reflexivity;
    apply map_ext; intros b; rewrite ?A1; reflexivity.
Qed.

Lemma xsum_row (c : nat -> R) m : xsum (map (fun b => Fin (c b)) (seq 0 m)) = Fin (Rsum (map c (seq 0 m))).
Proof. rewrite <- (map_map c Fin). apply xsum_fin. Qed.

(** Summed over sSFR, centrals and satellites make up the mass counts *)
Theorem pdf_marginal tb n T M S F zs ids cen sat E Em Es pd i j a :
  tables_are tb n T M S F -> return_target_redshift_index age (tb_t tb) zs = Some ids -> Forall (fun t => (t < length T)%nat) ids ->
  length cen = n -> length sat = n -> increasing Em -> (2 <= length Em)%nat -> increasing Es -> (2 <= length Es)%nat ->
  (forall k, (k < n)%nat -> nth k sat false = negb (nth k cen false)) ->
  hd 0 Es + 3 * mean_bin Es <= -12 -> 
  (forall t k, In t ids -> (k < n)%nat -> Rmax (val F t k) (-12) <= last Es 0 - 3 * mean_bin Es) ->
  create_pdf_target_data age tb cen sat zs (map Fin E) (map Fin Em) (map Fin Es) = Some pd ->
  (i < length ids)%nat -> (j < length E - 1)%nat -> (a < length Em - 1)%nat ->
  (xsum (nth a (nth j (nth i (pd_cent pd) []) []) []) + xsum (nth a (nth j (nth i (pd_sat pd) []) []) []))%X
  = nth a (nth j (nth i (pd_wcounts pd) []) []) NaN.
Proof.
  intros TA Hids Hlt Lc Ls I1 L1 I2 L2 CS Lo Up Epd Hi Hj Ha.
  rewrite (pdf_value age tb n T M S F TA zs ids Hids Hlt cen sat E Em Es Lc Ls I1 L1 I2 L2) in Epd. inversion Epd as [e]. clear e Epd pd.
  cbn [pd_cent pd_sat pd_wcounts]. unfold joint2, table2.
  rewrite !(nth_map_nat _ ids i 0%nat) by exact Hi.
  rewrite !(nth_map_nat _ (seq 0 (length E - 1)) j 0%nat) by (rewrite seq_length; exact Hj). rewrite seq_nth by exact Hj.
  rewrite map_map. rewrite !(nth_map_nat _ (seq 0 (length Em - 1)) a 0%nat) by (rewrite seq_length; exact Ha). rewrite seq_nth by exact Ha.
  cbn [Nat.add]. rewrite !xsum_row. cbn [xadd].
  set (t := nth i ids 0%nat). assert (Ht : In t ids) by (apply nth_In; exact Hi).
  assert (CV : forall P k, In k (members n M E P t j) -> hd 0 Es <= cssfr F t k - 3 * mean_bin Es /\ cssfr F t k + 3 * mean_bin Es <= last Es 0).
  { intros P k Hk. apply in_those in Hk. destruct Hk as [Hk _]. specialize (Up t k Ht Hk). unfold cssfr. pose proof (Rmax_r (val F t k) (-12)). lra. }
  rewrite !joint_marginal by (assumption || apply CV). f_equal.
  unfold members. rewrite (Rsum_split n (fun k => interior E j (val M t k)) (fun k => nth k cen false) (fun k => nth k sat false)) by exact CS.
  f_equal. f_equal. apply those_ext. intros k _. rewrite andb_true_r. reflexivity.
Qed.
End Pdfs.

(** Baryon fractions of the fits *)
Lemma fb_larger fb : fb = FB_SMDPL \/ fb = FB_TNG \/ fb = FB_GALACTICUS -> exists c, 1002 / 1000 < c /\ fb = Fin (c * (156 / 1000)).
Proof.
  intros [ -> | [ -> | -> ] ]; unfold FB_SMDPL, FB_TNG, FB_GALACTICUS.
  - exists (48206 / 1000000 / (307115 / 1000000) / (156 / 1000)). split; [lra|f_equal; lra].
  - exists (486 / 10000 / (3089 / 10000) / (156 / 1000)). split; [lra|f_equal; lra].
  - exists (493 / 10000 / (3153 / 10000) / (156 / 1000)). split; [lra|f_equal; lra].
Qed.
Theorem table_sfr_low kern p mah t lgt0 m fb s1 s2 : fb = FB_SMDPL \/ fb = FB_TNG \/ fb = FB_GALACTICUS ->
  0 < t -> kern mah (Fin t) lgt0 = Fin m ->
  calc_sfh_singlegal kern (map_d Fin p) mah [Fin t] lgt0 FB = [Fin s1] ->
  calc_sfh_singlegal kern (map_d Fin p) mah [Fin t] lgt0 fb = [Fin s2] ->
  1 / 10 ^ 14 < s1 -> 1002 / 1000 * s1 < s2.
Proof.
  intros Hfb Ht Hm E1 E2 H1. destruct (fb_larger fb Hfb) as (c & Hc & ->).
  assert (P14 : 0 < 1 / 10 ^ 14) by (apply Rdiv_lt_0_compat; [lra|apply pow_lt; lra]).
  assert (HH : halo_history kern mah lgt0 (fun _ => m) [t]) by (constructor; [split; [exact Ht|exact Hm]|constructor]).
  pose proof (calc_sfh_value kern p mah [t] lgt0 (156 / 1000) (fun _ => m) HH) as V1.
  pose proof (calc_sfh_value kern p mah [t] lgt0 (c * (156 / 1000)) (fun _ => m) HH) as V2.
  unfold FB in E1. cbn [map] in V1, V2. rewrite E1 in V1. rewrite E2 in V2. inversion V1 as [e1]. inversion V2 as [e2].
  subst s1 s2. clear V1 V2 E1 E2. unfold sfr_spec in *. rewrite ms_spec_scale.
  set (q := quench_spec _ _ _ _ _) in *. set (w := ms_spec p (156 / 1000) m) in *. set (fl := 1 / 10 ^ 14) in *.
  replace (q * (c * w)) with (c * (q * w)) by ring. generalize dependent (q * w). intros x H1.
  rewrite (Rmax_right fl x) in * by (unfold Rmax in H1; destruct (Rle_dec fl x); lra).
  pose proof (Rmax_r fl (c * x)). nra.
Qed.

(** ** Halos on bin edges *)
Definition ex_edges : list R := [11; 12; 13].
Lemma ex_edges_inc : increasing ex_edges. Proof. simpl; lra. Qed.

Lemma ex_targets m cen sat upid skip per_bin : In true cen -> In true sat -> length cen = 2%nat -> length sat = 2%nat -> length upid = 2%nat ->
  (skip = true -> 11 <= m < 13) ->
  exists td, create_target_data ex_age ex_choice (ex_tables m) cen sat upid skip per_bin [Fin 0] (map Fin ex_edges) = Some td /\
    td_counts td = tbl 1 2 (fun _ j => INR (length (those 1 (fun _ => inbin ex_edges j m)))) /\
    exists L, sample_is (ex_tables m) upid ex_edges [1%nat] [Fin 0] (td_haloes td) L /\
      forall r, In r L -> (bin r < 2)%nat /\ nth (bin r) ex_edges 0 <= m < nth (bin r + 1) ex_edges 0.
Proof.
  intros Tc Ts Lc Ls Lu Hs.
  destruct (targets ex_age ex_choice ex_choice_ok (ex_tables m) 2 [10; 14] (ex_M m) ex_S ex_F [Fin 0] [1%nat] cen sat upid skip per_bin ex_edges)
    as (td & E & (C & _) & L & SI & _ & IN & _); try assumption.
  - apply ex_tables_are.
  - apply ex_ids.
  - repeat constructor.
  - discriminate.
  - apply ex_edges_inc.
  - simpl; lia.
  - intros Sk t [<-|[]]. destruct (Rlt_dec m 12).
    + exists 0%nat, 0%nat. split; [simpl; lia|]. split; [lia|]. apply half_open_true. cbn. specialize (Hs Sk). lra.
    + exists 1%nat, 0%nat. split; [simpl; lia|]. split; [lia|]. apply half_open_true. cbn. specialize (Hs Sk). lra.
  - assert (N15 : forall j, (j < 2)%nat -> inbin ex_edges j 15 = false).
    { intros j Hj. destruct (inbin ex_edges j 15) eqn:e; [exfalso|reflexivity]. apply inbin_true in e. destruct j as [|[|j]]; [| |lia]; cbn in e; lra. }
    exists td. split; [exact E|]. split.
    { rewrite C. unfold tbl. apply map_ext_in. intros i Hi. apply in_seq in Hi. assert (i = 0)%nat by (cbn in Hi; lia). subst i.
      apply map_ext_in. intros j Hj. apply in_seq in Hj. cbn in Hj. unfold those. cbn [seq filter andb].
      change (val (ex_M m) (nth 0 [1%nat] 0%nat) 0) with m. change (val (ex_M m) (nth 0 [1%nat] 0%nat) 1) with 15. rewrite N15 by lia. reflexivity. }
    exists L. split; [exact SI|].
    intros r Hr. destruct (IN r Hr) as (A & B & D & Q). cbn in A.
    assert (H : tgt r = 0%nat) by lia. rewrite H in Q. destruct (halo r) as [|[|q]]; [| |lia].
    + cbn in B. split; [lia|exact Q].
    + exfalso. change (val (ex_M m) (nth 0 [1%nat] 0%nat) 1) with 15 in Q. destruct (bin r) as [|[|b]]; cbn in B, Q; try lia; lra.
Qed.

Theorem last_edge_not_sampled : exists td,
  create_target_data ex_age ex_choice (ex_tables 13) [true; false] [false; true] [(-1)%Z; 7%Z] false 5 [Fin 0] (map Fin ex_edges) = Some td /\
  entry (td_counts td) 0 1 = Fin 1 /\ h_logmh_id (td_haloes td) = [].
Proof.
  destruct (ex_targets 13 [true; false] [false; true] [(-1)%Z; 7%Z] false 5) as (td & E & C & L & SI & IN); try reflexivity; [now left|right; now left|discriminate|].
  exists td. split; [exact E|]. split.
  - rewrite C, nth_tbl by lia. unfold those. cbn [seq filter].
    replace (inbin ex_edges 1 13) with true; [reflexivity|]. symmetry. apply inbin_true. cbn. lra.
  - rewrite (si_bin _ _ _ _ _ _ _ SI). destruct L as [|r L]; [reflexivity|exfalso].
    destruct (IN r (or_introl eq_refl)) as [B Q]. destruct (bin r) as [|[|b]]; [| |lia]; cbn in Q; lra.
Qed.
Theorem last_edge_galacticus : forall upid per_bin cen sat,
  create_target_data ex_age ex_choice (ex_tables 13) cen sat upid true per_bin [Fin 0] (map Fin ex_edges) = None.
Proof.
  intros upid per_bin cen sat.
  apply (targets_empty ex_age ex_choice (ex_tables 13) 2 [10; 14] (ex_M 13) ex_S ex_F [Fin 0] [1%nat] cen sat upid per_bin ex_edges 1%nat).
  - apply ex_tables_are.
  - apply ex_ids.
  - now left.
  - simpl; lia.
  - intros j k Hj Hk. cbn in Hj. destruct (half_open ex_edges j (val (ex_M 13) 1 k)) eqn:e; [exfalso|reflexivity].
    apply half_open_true in e. destruct k as [|[|k]]; [| |lia]; destruct j as [|[|j]]; try lia; cbn in e; lra.
Qed.

Theorem inner_edge_not_in_pdf : exists td pd,
  create_target_data ex_age ex_choice (ex_tables 12) [true; false] [false; true] [(-1)%Z; 7%Z] false 5 [Fin 0] (map Fin ex_edges) = Some td /\
  create_pdf_target_data ex_age (ex_tables 12) [true; false] [false; true] [Fin 0] (map Fin ex_edges) (map Fin [10; 11; 12]) (map Fin [-13; -10; -7]) = Some pd /\
  entry (td_counts td) 0 1 = Fin 1 /\ pd_wcounts pd = [[[Fin 0; Fin 0]; [Fin 0; Fin 0]]] /\ pd_counts pd = [[[Fin 0; Fin 0]; [Fin 0; Fin 0]]].
Proof.
  destruct (ex_targets 12 [true; false] [false; true] [(-1)%Z; 7%Z] false 5) as (td & E & C & L & SI & IN); try reflexivity; [now left|right; now left|discriminate|].
  destruct (pdf_targets ex_age (ex_tables 12) 2 [10; 14] (ex_M 12) ex_S ex_F [Fin 0] [1%nat] [true; false] [false; true] ex_edges [10; 11; 12] [-13; -10; -7])
    as (pd & EP & P1 & P2 & _ & _).
  - apply ex_tables_are.
  - apply ex_ids.
  - repeat constructor.
  - reflexivity.
  - reflexivity.
  - simpl; lra.
  - simpl; lia.
  - simpl; lra.
  - simpl; lia.
  - exists td, pd. split; [exact E|]. split; [exact EP|]. split.
    + rewrite C, nth_tbl by lia. unfold those. cbn [seq filter].
      replace (inbin ex_edges 1 12) with true; [reflexivity|]. symmetry. apply inbin_true. cbn. lra.
    + assert (I0 : interior ex_edges 0 12 = false) by (destruct (interior ex_edges 0 12) eqn:e; [apply interior_true in e; cbn in e; lra|reflexivity]).
      assert (I1 : interior ex_edges 1 12 = false) by (destruct (interior ex_edges 1 12) eqn:e; [apply interior_true in e; cbn in e; lra|reflexivity]).
      assert (J : forall j, (j < 2)%nat -> interior ex_edges j 15 = false).
      { intros j Hj. destruct (interior ex_edges j 15) eqn:e; [exfalso|reflexivity]. apply interior_true in e. destruct j as [|[|j]]; [| |lia]; cbn in e; lra. }
      assert (E0 : those 2 (fun k => interior ex_edges 0 (val (ex_M 12) 1 k) && true) = []).
      { unfold those. cbn [seq filter]. change (val (ex_M 12) 1 0) with 12. change (val (ex_M 12) 1 1) with 15. rewrite I0, J by lia. reflexivity. }
      assert (E1 : those 2 (fun k => interior ex_edges 1 (val (ex_M 12) 1 k) && true) = []).
      { unfold those. cbn [seq filter]. change (val (ex_M 12) 1 0) with 12. change (val (ex_M 12) 1 1) with 15. rewrite I1, J by lia. reflexivity. }
      rewrite P1, P2. change (length ex_edges - 1)%nat with 2%nat. cbn [map seq]. rewrite E0, E1. split; reflexivity.
Qed.

(** ** Instances of the hypotheses *)
Lemma ex_mid : exists td,
  create_target_data ex_age ex_choice (ex_tables (25 / 2)) [true; false] [false; true] [(-1)%Z; 7%Z] true 5 [Fin 0] (map Fin ex_edges) = Some td /\
  entry (td_counts td) 0 0 = Fin 0 /\ entry (td_counts td) 0 1 = Fin 1.
Proof.
  destruct (ex_targets (25 / 2) [true; false] [false; true] [(-1)%Z; 7%Z] true 5) as (td & E & C & _); try reflexivity; [now left|right; now left|intros; lra|].
  exists td. split; [exact E|]. rewrite C, !nth_tbl by lia. unfold those. cbn [seq filter].
  replace (inbin ex_edges 1 (25 / 2)) with true; [|symmetry; apply inbin_true; cbn; lra].
  replace (inbin ex_edges 0 (25 / 2)) with false; [split; reflexivity|].
  destruct (inbin ex_edges 0 (25 / 2)) eqn:e; [apply inbin_true in e; cbn in e; lra|reflexivity].
Qed.

Lemma counts_split n M (ids : list nat) (E : list R) (cen sat : list bool) i j : (forall k, (k < n)%nat -> nth k sat false = negb (nth k cen false)) ->
  INR (length (those n (fun k => nth k cen false && inbin E j (val M (nth i ids 0%nat) k)))) +
  INR (length (those n (fun k => nth k sat false && inbin E j (val M (nth i ids 0%nat) k)))) =
  INR (length (those n (fun k => inbin E j (val M (nth i ids 0%nat) k)))).
Proof. intros H. rewrite <- plus_INR. f_equal. apply those_split. exact H. Qed.
Lemma smdpl_masks upid k : (k < length upid)%nat -> nth k (sat_smdpl upid) false = negb (nth k (cen_smdpl upid) false).
Proof.
  intros H. unfold sat_smdpl, cen_smdpl. rewrite (nth_map_nat negb _ k false) by (rewrite map_length; exact H). reflexivity.
Qed.
Lemma flag_masks c k : Forall (fun u => u = 0%Z \/ u = 1%Z) c -> (k < length c)%nat -> nth k (sat_flag c) false = negb (nth k (cen_flag c) false).
Proof.
  intros F H. unfold sat_flag, cen_flag. rewrite !(nth_map_nat _ _ k 0%Z) by exact H. rewrite Forall_forall in F.
  destruct (F (nth k c 0%Z) (nth_In _ _ H)) as [-> | ->]; reflexivity.
Qed.

(** Centrals and satellites make up the counts; the bins of a row make up the halos between
    the first and the last edge. *)
Theorem counts_add age choice tb n T M S F zs ids cen sat upid skip per_bin E td :
  choice_ok choice -> tables_are tb n T M S F -> return_target_redshift_index age (tb_t tb) zs = Some ids -> Forall (fun t => (t < length T)%nat) ids ->
  zs <> [] -> In true cen -> In true sat -> length cen = n -> length sat = n -> length upid = n -> increasing E -> (2 <= length E)%nat ->
  (skip = true -> forall t, In t ids -> exists j k, (j < length E - 1)%nat /\ (k < n)%nat /\ half_open E j (val M t k) = true) ->
  create_target_data age choice tb cen sat upid skip per_bin zs (map Fin E) = Some td ->
  (forall k, (k < n)%nat -> nth k sat false = negb (nth k cen false)) ->
  add2 (td_counts_cen td) (td_counts_sat td) = td_counts td /\
  forall i, (i < length ids)%nat ->
    xsum (nth i (td_counts td) []) = Fin (INR (length (those n (fun k => within E (val M (nth i ids 0%nat) k))))).
Proof.
  intros CH TA Hids Hlt Hz Tc Ts Lc Ls Lu HE H2 NE Etd CS.
  destruct (targets age choice CH tb n T M S F zs ids cen sat upid skip per_bin E TA Hids Hlt Hz Tc Ts Lc Ls Lu HE H2 NE) as (td' & E' & (C1 & _ & _ & _ & C2 & C3 & _) & _).
  rewrite Etd in E'. inversion E'; subst td'. rewrite C1, C2, C3. split.
  - rewrite add2_tbl. unfold tbl. apply map_ext. intros i. apply map_ext. intros j. f_equal. apply (counts_split n M ids E cen sat i j CS).
  - intros i Hi. unfold tbl. rewrite (nth_map_nat _ _ i 0%nat) by (rewrite seq_length; exact Hi). rewrite seq_nth by exact Hi.
    rewrite xsum_row. f_equal. exact (counts_total E n (fun _ => true) (val M (nth i ids 0%nat)) HE H2).
Qed.

(** ** Everything the scripts add up *)
Lemma add3_tbl a b c f g : add3 (tbl3 a b c f) (tbl3 a b c g) = tbl3 a b c (fun i j k => f i j k + g i j k).
Proof. unfold add3, tbl3. rewrite map2_map_same. apply map_ext. intros i. apply add2_tbl. Qed.
Lemma add4_tbl a b c d f g : add4 (tbl4 a b c d f) (tbl4 a b c d g) = tbl4 a b c d (fun i j k l => f i j k l + g i j k l).
Proof. unfold add4, tbl4. rewrite map2_map_same. apply map_ext. intros i. apply add3_tbl. Qed.
Lemma repeat_seq {A} (x : A) m : repeat x m = map (fun _ : nat => x) (seq 0 m).
Proof. generalize 0%nat. induction m as [|m IH]; intros s; [reflexivity|]. cbn [repeat seq map]. rewrite (IH (S s)). reflexivity. Qed.
Lemma zeros3_tbl a b c : zeros3 a b c = tbl3 a b c (fun _ _ _ => 0).
Proof. unfold zeros3, tbl3. rewrite zeros2_tbl. apply repeat_seq. Qed.
Lemma zeros4_tbl a b c d : zeros4 a b c d = tbl4 a b c d (fun _ _ _ _ => 0).
Proof. unfold zeros4, tbl4. rewrite zeros3_tbl. apply repeat_seq. Qed.
Lemma tbl_ext a b f g : (forall i j, f i j = g i j) -> tbl a b f = tbl a b g.
Proof. intros H. unfold tbl. apply map_ext. intros i. apply map_ext. intros j. now rewrite H. Qed.
Lemma tbl3_ext a b c f g : (forall i j k, f i j k = g i j k) -> tbl3 a b c f = tbl3 a b c g.
Proof. intros H. unfold tbl3. apply map_ext. intros i. apply tbl_ext. intros. apply H. Qed.
Lemma tbl4_ext a b c d f g : (forall i j k l, f i j k l = g i j k l) -> tbl4 a b c d f = tbl4 a b c d g.
Proof. intros H. unfold tbl4. apply map_ext. intros i. apply tbl3_ext. intros. apply H. Qed.
Lemma fold_sum {O X I} (add : X -> X -> X) (mk : (I -> R) -> X) (f : O -> X) (c : O -> I -> R) outs :
  (forall g h, add (mk g) (mk h) = mk (fun i => g i + h i)) -> (forall g h, (forall i, g i = h i) -> mk g = mk h) ->
  (forall o, In o outs -> f o = mk (c o)) ->
  fold_left (fun s o => add s (f o)) outs (mk (fun _ => 0)) = mk (fun i => Rsum (map (fun o => c o i) outs)).
Proof.
  intros HA HE HF.
  assert (G : forall z, fold_left (fun s o => add s (f o)) outs (mk z) = mk (fun i => z i + Rsum (map (fun o => c o i) outs))).
  { induction outs as [|o outs IH]; intros z.
    - cbn. apply HE. intros i. unfold Rsum. cbn. lra.
    - cbn [fold_left]. rewrite (HF o (or_introl eq_refl)), HA, IH by (intros; apply HF; now right).
      apply HE. intros i. unfold Rsum. cbn [map fold_right]. lra. }
  rewrite G. apply HE. intros i. lra.
Qed.
Lemma sum3_zeros {O} a b c (f : O -> list (list (list xr))) (v : O -> nat -> nat -> nat -> R) outs : (forall o, In o outs -> f o = tbl3 a b c (v o)) ->
  fold_left (fun s o => add3 s (f o)) outs (zeros3 a b c) = tbl3 a b c (fun i j k => Rsum (map (fun o => v o i j k) outs)).
Proof.
  intros H. rewrite zeros3_tbl.
  exact (fold_sum (I := nat * nat * nat) add3 (fun g => tbl3 a b c (fun i j k => g (i, j, k))) f (fun o p => v o (fst (fst p)) (snd (fst p)) (snd p)) outs
    (fun g h => add3_tbl a b c _ _) (fun g h E => tbl3_ext a b c _ _ (fun i j k => E (i, j, k))) H).
Qed.
Lemma sum4_zeros {O} a b c d (f : O -> list (list (list (list xr)))) (v : O -> nat -> nat -> nat -> nat -> R) outs : (forall o, In o outs -> f o = tbl4 a b c d (v o)) ->
  fold_left (fun s o => add4 s (f o)) outs (zeros4 a b c d) = tbl4 a b c d (fun i j k l => Rsum (map (fun o => v o i j k l) outs)).
Proof.
  intros H. rewrite zeros4_tbl.
  exact (fold_sum (I := nat * nat * nat * nat) add4 (fun g => tbl4 a b c d (fun i j k l => g (i, j, k, l))) f
    (fun o p => v o (fst (fst (fst p))) (snd (fst (fst p))) (snd (fst p)) (snd p)) outs
    (fun g h => add4_tbl a b c d _ _) (fun g h E => tbl4_ext a b c d _ _ (fun i j k l => E (i, j, k, l))) H).
Qed.

Theorem collect_totals nz nm nms nsf ages outs f
    (cw hw cc cs : Out -> nat -> nat -> R) (w c : Out -> nat -> nat -> nat -> R) (jc js : Out -> nat -> nat -> nat -> nat -> R) :
  collect nz nm nms nsf ages outs = Some f ->
  (forall o, In o outs ->
     td_wcounts (fst o) = tbl nz nm (cw o) /\ td_whist (fst o) = tbl nz nm (hw o) /\
     td_counts_cen (fst o) = tbl nz nm (cc o) /\ td_counts_sat (fst o) = tbl nz nm (cs o) /\
     pd_wcounts (snd o) = tbl3 nz nm nms (w o) /\ pd_counts (snd o) = tbl3 nz nm nms (c o) /\
     pd_cent (snd o) = tbl4 nz nm nms nsf (jc o) /\ pd_sat (snd o) = tbl4 nz nm nms nsf (js o)) ->
  let total (g : Out -> R) := Rsum (map g outs) in
  f_counts_diff f = tbl nz nm (fun i j => total (fun o => cw o i j)) /\
  f_hist_diff f = tbl nz nm (fun i j => total (fun o => hw o i j)) /\
  f_counts_cen f = tbl nz nm (fun i j => total (fun o => cc o i j)) /\
  f_counts_sat f = tbl nz nm (fun i j => total (fun o => cs o i j)) /\
  f_mstar_wcounts f = tbl3 nz nm nms (fun i j a => total (fun o => w o i j a)) /\
  f_mstar_counts f = tbl3 nz nm nms (fun i j a => total (fun o => c o i j a)) /\
  f_cent f = tbl4 nz nm nms nsf (fun i j a b => total (fun o => jc o i j a b)) /\
  f_sat f = tbl4 nz nm nms nsf (fun i j a b => total (fun o => js o i j a b)) /\
  (forall i j, (i < nz)%nat -> (j < nm)%nat -> total (fun o => cw o i j) <> 0 ->
     entry (f_smhm_diff f) i j = Fin (total (fun o => hw o i j) / total (fun o => cw o i j))) /\
  let samples {A} (g : Haloes -> list A) := List.concat (map (fun o => g (td_haloes (fst o))) outs) in
  f_haloes f = mkHaloes (samples h_logmh_id) (samples h_logmh_val) (samples h_mah) (samples h_ms) (samples h_q)
                 (samples h_upid) (samples h_tobs_id) (samples h_tobs_val) (samples h_redshift).
Proof.
  intros E H. unfold collect in E. cbv zeta in E.
  destruct (concatenate_samples_haloes (map (fun o => td_haloes (fst o)) outs)) as [hh|] eqn:eh; [|discriminate].
  inversion E; subst f; clear E. cbv zeta. cbn [f_counts_diff f_hist_diff f_counts_cen f_counts_sat f_mstar_wcounts f_mstar_counts f_cent f_sat f_smhm_diff f_haloes].
  rewrite (sum2_zeros nz nm (fun o => td_wcounts (fst o)) cw) by (intros o Ho; apply H, Ho).
  rewrite (sum2_zeros nz nm (fun o => td_whist (fst o)) hw) by (intros o Ho; apply H, Ho).
  rewrite (sum2_zeros nz nm (fun o => td_counts_cen (fst o)) cc) by (intros o Ho; apply H, Ho).
  rewrite (sum2_zeros nz nm (fun o => td_counts_sat (fst o)) cs) by (intros o Ho; apply H, Ho).
  rewrite (sum3_zeros nz nm nms (fun o => pd_wcounts (snd o)) w) by (intros o Ho; apply H, Ho).
  rewrite (sum3_zeros nz nm nms (fun o => pd_counts (snd o)) c) by (intros o Ho; apply H, Ho).
  rewrite (sum4_zeros nz nm nms nsf (fun o => pd_cent (snd o)) jc) by (intros o Ho; apply H, Ho).
  rewrite (sum4_zeros nz nm nms nsf (fun o => pd_sat (snd o)) js) by (intros o Ho; apply H, Ho).
  do 8 (split; [reflexivity|]). split.
  - intros i j Hi Hj HN. rewrite div_entry by assumption. apply xdiv_fin. exact HN.
  - unfold concatenate_samples_haloes in eh. destruct (map (fun o => td_haloes (fst o)) outs) eqn:e; [discriminate|].
    rewrite <- e in eh. cbv zeta in eh. rewrite !map_map in eh. inversion eh. reflexivity.
Qed.

(** The scripts' target redshifts and a subvolume without its files. *)
Theorem smdpl_missing nz nm nms nsf process subvols nmax nranks i : In i subvols -> process i = FileMissing ->
  smdpl_script process subvols nmax nz nm nms nsf nranks = None.
Proof.
  intros Hi Hm. destruct (smdpl_script process subvols nmax nz nm nms nsf nranks) as [r|] eqn:e; [|reflexivity].
  destruct (smdpl_needs_all nz nm nms nsf process subvols nmax nranks r e i Hi) as (q & Hq). congruence.
Qed.
Theorem tng_ranks nz nm nms nsf kern sing age choice dm ds is_cen zs lgt0 nranks : nranks <> NCHUNKS ->
  tng_measure_script (fun r => tng_chunk kern sing age choice dm ds is_cen r zs lgt0) nz nm nms nsf nranks = None.
Proof.
  intros H. destruct (tng_measure_script _ nz nm nms nsf nranks) as [f|] eqn:e; [|reflexivity].
  apply tng_needs_chunks in e; [contradiction|]. intros r Hr. apply tng_chunk_past, Hr.
Qed.

Lemma ex_rates : exists s1 s2,
  calc_sfh_singlegal (fun _ _ _ => Fin 12) (map_d Fin (mkDiffstar 12 (-10) 1 (-1) 1 (-1) 0 0)) (gal_mah ex_mah 0) [Fin 5] LGT0 FB = [Fin s1] /\
  calc_sfh_singlegal (fun _ _ _ => Fin 12) (map_d Fin (mkDiffstar 12 (-10) 1 (-1) 1 (-1) 0 0)) (gal_mah ex_mah 0) [Fin 5] LGT0 FB_TNG = [Fin s2] /\
  1 / 10 ^ 14 < s1.
Proof.
  destruct (fb_larger FB_TNG (or_intror (or_introl eq_refl))) as (c & Hc & ->).
  assert (HH : halo_history (fun _ _ _ => Fin 12) (gal_mah ex_mah 0) LGT0 (fun _ => 12) [5]) by (constructor; [split; [lra|reflexivity]|constructor]).
  do 2 eexists. split; [exact (calc_sfh_value _ _ _ _ _ (156 / 1000) _ HH)|]. split; [exact (calc_sfh_value _ _ _ _ _ (c * (156 / 1000)) _ HH)|].
  unfold sfr_spec, quench_spec, ms_spec, eff_spec. cbn [d_lgmcrit d_lgy_at_mcrit d_indx_lo d_indx_hi d_lg_qt d_qlglgdt d_lg_drop d_lg_rejuv].
  rewrite !Rmult_0_l, Rminus_0_r, Rmult_0_l, Rplus_0_l, pow10_0.
  replace (12 - 12) with 0 by lra. rewrite Rmult_0_l, Rplus_0_r, Rmult_1_l, Rmult_assoc, <- pow10_plus.
  replace (12 + -10) with 2 by lra. 
  eapply Rlt_le_trans; [|apply Rmax_r].
  assert (1 <= pow10R 2) by (rewrite <- pow10_0; apply pow10_le; lra).
  assert (1 / 10 ^ 14 < 156 / 1000) by lra. nra.
Qed.

Lemma ex_tables_hyp T : T = evenly (1 / 100) (pow10R 1) N_TABLE_TIMES ->
  1 / 100 < pow10R 1 /\ cols_len_mah 1 ex_mah /\ cols_len_d 1 ex_sfh /\
  forall k, (k < 1)%nat -> gal_d ex_sfh k = map_d Fin (mkDiffstar 12 (-1) 1 (-1) 1 0 (-1) 0) /\
    halo_history (fun _ _ _ => Fin 12) (gal_mah ex_mah k) LGT0 (fun _ => 12) T /\
    snd ((fun (_ : MahParams xr) (t : list xr) (_ : xr) => (t, map (fun _ => Fin 12) t)) (gal_mah ex_mah k) (map Fin T) LGT0) = map Fin (map (fun _ => 12) T) /\
    length (map (fun _ : R => 12) T) = length T.
Proof.
  intros HT. assert (P : 1 / 100 < pow10R 1) by (rewrite pow10_1; lra).
  split; [exact P|]. split; [repeat split|]. split; [repeat split|]. intros k Hk. replace k with 0%nat by lia. split; [reflexivity|].
  split.
  - apply Forall_forall. intros t Ht. split; [|reflexivity]. rewrite HT in Ht. apply evenly_ge in Ht; [lra|exact P].
  - split; [cbn [snd]; rewrite !map_map; reflexivity|apply map_length].
Qed.

(** The two halves of [targets]. *)
Theorem targets_counts : forall age choice, choice_ok choice -> forall tb n T M S F zs ids cen sat upid skip per_bin E,
  tables_are tb n T M S F -> return_target_redshift_index age (tb_t tb) zs = Some ids -> Forall (fun t => (t < length T)%nat) ids ->
  zs <> [] -> In true cen -> In true sat -> length cen = n -> length sat = n -> length upid = n -> increasing E -> (2 <= length E)%nat ->
  (skip = true -> forall t, In t ids -> exists j k, (j < length E - 1)%nat /\ (k < n)%nat /\ half_open E j (val M t k) = true) ->
  exists td, create_target_data age choice tb cen sat upid skip per_bin zs (map Fin E) = Some td /\
    (let table := tbl (length ids) (length E - 1) in
     let t i := nth i ids 0%nat in
     let here P i j := those n (fun k => P k && inbin E j (val M (t i) k)) in
     let smooth i j k := tw_mass (val M (t i) k) (mean_bin E) (nth j E 0) (nth (j + 1) E 0) in
     td_counts td = table (fun i j => INR (length (here (fun _ => true) i j))) /\
     td_hist td = table (fun i j => Rsum (map (val S (t i)) (here (fun _ => true) i j))) /\
     td_wcounts td = table (fun i j => Rsum (map (smooth i j) (seq 0 n))) /\
     td_whist td = table (fun i j => Rsum (map (fun k => smooth i j k * val S (t i) k) (seq 0 n))) /\
     td_counts_cen td = table (fun i j => INR (length (here (fun k => nth k cen false) i j))) /\
     td_counts_sat td = table (fun i j => INR (length (here (fun k => nth k sat false) i j))) /\
     td_age td = map (fun t => Fin (nth t T 0)) ids).
Proof.
  intros age choice CH tb n T M S F zs ids cen sat upid skip per_bin E H1 H2 H3 H4 H5 H6 H7 H8 H9 H10 H11 H12.
  destruct (targets age choice CH tb n T M S F zs ids cen sat upid skip per_bin E H1 H2 H3 H4 H5 H6 H7 H8 H9 H10 H11 H12) as (td & A & B & _). exists td. split; [exact A|exact B].
Qed.
Theorem targets_samples : forall age choice, choice_ok choice -> forall tb n T M S F zs ids cen sat upid skip per_bin E,
  tables_are tb n T M S F -> return_target_redshift_index age (tb_t tb) zs = Some ids -> Forall (fun t => (t < length T)%nat) ids ->
  zs <> [] -> In true cen -> In true sat -> length cen = n -> length sat = n -> length upid = n -> increasing E -> (2 <= length E)%nat ->
  (skip = true -> forall t, In t ids -> exists j k, (j < length E - 1)%nat /\ (k < n)%nat /\ half_open E j (val M t k) = true) ->
  exists td, create_target_data age choice tb cen sat upid skip per_bin zs (map Fin E) = Some td /\
    exists L, sample_is tb upid E ids zs (td_haloes td) L /\ NoDup L /\
      (forall r, In r L -> (tgt r < length ids)%nat /\ (bin r < length E - 1)%nat /\ (halo r < n)%nat /\
        nth (bin r) E 0 <= val M (nth (tgt r) ids 0%nat) (halo r) < nth (bin r + 1) E 0) /\
      (forall i j, (i < length ids)%nat -> (j < length E - 1)%nat ->
        count (fun r => Nat.eqb (tgt r) i && Nat.eqb (bin r) j) L
        = Nat.min per_bin (length (those n (fun k => half_open E j (val M (nth i ids 0%nat) k))))).
Proof.
  intros age choice CH tb n T M S F zs ids cen sat upid skip per_bin E H1 H2 H3 H4 H5 H6 H7 H8 H9 H10 H11 H12.
  destruct (targets age choice CH tb n T M S F zs ids cen sat upid skip per_bin E H1 H2 H3 H4 H5 H6 H7 H8 H9 H10 H11 H12) as (td & A & _ & B). exists td. split; [exact A|exact B].
Qed.

(** ** Nothing to count *)
Lemma keep_none {A} (P : list bool) (l : list A) : ~ In true P -> keep P l = [].
Proof.
  revert l. induction P as [|b P IH]; intros [|a l] H; try reflexivity. destruct b; [exfalso; apply H; now left|].
  cbn [keep]. apply IH. intros C. apply H. now right.
Qed.
Lemma histogram_none E P a b : ~ In true P -> match mask P a, mask P b with Some m, Some s => compute_histograms_atz E m s | _, _ => None end = None.
Proof.
  intros H. unfold mask. destruct (same_len P a); [|reflexivity]. destruct (same_len P b); [|reflexivity].
  rewrite !keep_none by exact H. reflexivity.
Qed.
Lemma vmap_none {A B} (f : A -> option B) l : l <> [] -> (forall a, f a = None) -> vmap f l = None.
Proof. destruct l as [|a l]; [contradiction|]. intros _ H. unfold vmap. cbn [map sequence]. now rewrite H. Qed.
Theorem one_kind age choice tb n T M S F zs ids cen sat upid skip per_bin E :
  tables_are tb n T M S F -> return_target_redshift_index age (tb_t tb) zs = Some ids -> zs <> [] ->
  (~ In true cen \/ ~ In true sat) ->
  create_target_data age choice tb cen sat upid skip per_bin zs (map Fin E) = None.
Proof.
  intros _ Hids Hz H. unfold create_target_data. rewrite Hids. cbv zeta.
  pose proof (redshift_index_length _ _ _ _ Hids) as Lz.
  destruct (vmap _ ids) as [cols|] eqn:EC; [|reflexivity]. apply vmap_spec in EC. apply F2_len in EC.
  assert (NC : cols <> []) by (destruct cols; [|discriminate]; destruct zs; [contradiction|]; cbn in *; lia).
  destruct (vmap _ cols) as [d1|]; [|reflexivity]. destruct (vmap _ cols) as [d2|]; [|reflexivity].
  destruct H as [H|H].
  - rewrite (vmap_none (fun ms => match mask cen (fst ms), mask cen (snd ms) with Some m, Some s => compute_histograms_atz (map Fin E) m s | _, _ => None end) cols NC); [reflexivity|].
    intros ms. apply histogram_none. exact H.
  - destruct (vmap _ cols) as [d3|]; [|reflexivity].
    rewrite (vmap_none (fun ms => match mask sat (fst ms), mask sat (snd ms) with Some m, Some s => compute_histograms_atz (map Fin E) m s | _, _ => None end) cols NC); [reflexivity|].
    intros ms. apply histogram_none. exact H.
Qed.
