(** Smooth histograms. *)
From Coq Require Import Reals Lra Lia List Bool Permutation.
From Coquelicot Require Import Coquelicot.
From Verif Require Import XReal XFacts RealFacts ModelUtils ModelKernels ModelSfh ModelPop ModelHist SpecCore SpecHist
  TriweightProofs SfhProofs PopProofs.
Import List ListNotations.
Open Scope R_scope.

Lemma tw_cuml_lax_fin x m h : h <> 0 ->
  tw_cuml_lax_kern (Fin x) (Fin m) (Fin h) = Fin (twR ((x - m) / h)).
Proof.
  intros H. unfold tw_cuml_lax_kern, twR. xr_simp. rewrite xdiv_fin by exact H.
  rewrite tw_poly_fin. cbn [xlt]. unfold Rltb. change (x + - m) with (x - m).
  destruct (Rlt_dec ((x - m) / h) (-3)), (Rlt_dec 3 ((x - m) / h)); try reflexivity. lra.
Qed.

Lemma tw_pdf_even y : tw_pdf (- y) = tw_pdf y.
Proof. rewrite !tw_pdf_max. replace ((- y / 3) ^ 2) with ((y / 3) ^ 2) by field. reflexivity. Qed.

Lemma tw_mass_eq x s lo hi : 0 < s -> tw_mass x s lo hi = twR ((x - lo) / s) - twR ((x - hi) / s).
Proof.
  intros Hs. unfold tw_mass.
  set (F := fun t => - twR ((x - t) / s)).
  replace (twR ((x - lo) / s) - twR ((x - hi) / s)) with (minus (F hi) (F lo)).
  2:{ unfold F, minus, plus, opp; simpl. ring. }
  apply (is_RInt_unique (V := R_CompleteNormedModule)).
  apply (is_RInt_derive F).
  - intros t _. unfold F.
    replace (tw_pdf ((t - x) / s) / s) with (- (- / s * tw_pdf ((x - t) / s))).
    2:{ rewrite <- (tw_pdf_even ((t - x) / s)). replace (- ((t - x) / s)) with ((x - t) / s) by (field; lra). field. lra. }
    apply (is_derive_opp (fun t => twR ((x - t) / s))).
    apply (is_derive_comp twR (fun t => (x - t) / s)); [apply is_derive_tw|].
    auto_derive; [auto|]. field. lra.
  - intros t _.
    apply (continuous_ext (fun t => scal (/ s) (tw_pdf ((t - x) / s)))).
    { intros. unfold scal; simpl; unfold mult; simpl. unfold Rdiv. ring. }
    apply (continuous_scal_r (/ s) (fun t => tw_pdf ((t - x) / s))).
    apply (continuous_comp (fun t => (t - x) / s) tw_pdf); [|apply continuous_tw_pdf].
    apply (ex_derive_continuous (fun t => (t - x) / s)). auto_derive. auto.
Qed.

Lemma tw_bin_weight_fin x s lo hi : 0 < s ->
  tw_bin_weight_lax_kern (Fin x) (Fin s) (Fin lo) (Fin hi) = Fin (tw_mass x s lo hi).
Proof.
  intros H. unfold tw_bin_weight_lax_kern. rewrite !tw_cuml_lax_fin by lra. rewrite tw_mass_eq by exact H. reflexivity.
Qed.

Lemma div_le_s a b s : 0 < s -> a <= b -> a / s <= b / s.
Proof. intros. unfold Rdiv. apply Rmult_le_compat_r; [|assumption]. left. apply Rinv_0_lt_compat. assumption. Qed.
Lemma div_lt_s a b s : 0 < s -> a < b -> a / s < b / s.
Proof. intros. unfold Rdiv. apply Rmult_lt_compat_r; [|assumption]. apply Rinv_0_lt_compat. assumption. Qed.

Lemma tw_mass_range x s lo hi : 0 < s -> lo <= hi -> 0 <= tw_mass x s lo hi <= 1.
Proof.
  intros Hs Hb. rewrite tw_mass_eq by exact Hs.
  pose proof (twR_range ((x - lo) / s)). pose proof (twR_range ((x - hi) / s)).
  pose proof (twR_mono ((x - hi) / s) ((x - lo) / s) (div_le_s (x - hi) (x - lo) s Hs ltac:(lra))). lra.
Qed.

Lemma tw_mass_chasles x s a b c : 0 < s -> tw_mass x s a b + tw_mass x s b c = tw_mass x s a c.
Proof. intros. rewrite !tw_mass_eq by assumption. ring. Qed.

Lemma tw_mass_full x s lo hi : 0 < s -> lo <= x - 3 * s -> x + 3 * s <= hi -> tw_mass x s lo hi = 1.
Proof.
  intros Hs Hl Hh. rewrite tw_mass_eq by assumption.
  rewrite twR_hi, twR_lo; [ring| |].
  - replace (-3) with ((-3 * s) / s) by (field; lra). apply div_le_s; lra.
  - replace 3 with ((3 * s) / s) by (field; lra). apply div_le_s; lra.
Qed.

Lemma tw_mass_zero_iff x s lo hi : 0 < s -> lo < hi ->
  (tw_mass x s lo hi = 0 <-> x + 3 * s <= lo \/ hi <= x - 3 * s).
Proof.
  intros Hs Hb. rewrite tw_mass_eq by assumption. split.
  - intros H. destruct (Rle_lt_dec (x + 3 * s) lo); [left; assumption|].
    destruct (Rle_lt_dec hi (x - 3 * s)); [right; assumption|exfalso].
    set (u := (x - hi) / s) in *. set (v := (x - lo) / s) in *.
    assert (u < v) by (apply div_lt_s; lra).
    assert (u < 3). { replace 3 with ((3 * s) / s) by (field; lra). apply div_lt_s; lra. }
    assert (-3 < v). { replace (-3) with ((-3 * s) / s) by (field; lra). apply div_lt_s; lra. }
    pose proof (twR_strict (Rmax (-3) u) (Rmin 3 v)) as S.
    pose proof (twR_mono u (Rmax (-3) u) (Rmax_r _ _)). pose proof (twR_mono (Rmin 3 v) v (Rmin_r _ _)).
    assert (twR (Rmax (-3) u) = twR u).
    { destruct (Rle_lt_dec u (-3)); [rewrite Rmax_left, !twR_lo by lra; reflexivity|rewrite Rmax_right by lra; reflexivity]. }
    assert (-3 <= Rmax (-3) u) by apply Rmax_l. assert (Rmin 3 v <= 3) by apply Rmin_l.
    assert (Rmax (-3) u < Rmin 3 v). { apply Rmax_lub_lt; apply Rmin_glb_lt; lra. }
    specialize (S ltac:(lra) ltac:(lra) ltac:(lra)). lra.
  - intros [H|H].
    + rewrite !twR_lo; [ring| |]; replace (-3) with ((-3 * s) / s) by (field; lra); apply div_le_s; lra.
    + rewrite !twR_hi; [ring| |]; replace 3 with ((3 * s) / s) by (field; lra); apply div_le_s; lra.
Qed.

Lemma tw_mass_pos x s lo hi : 0 < s -> lo < hi -> lo < x + 3 * s -> x - 3 * s < hi -> 0 < tw_mass x s lo hi.
Proof.
  intros Hs Hb H1 H2. pose proof (tw_mass_range x s lo hi Hs ltac:(lra)) as [[h|h] _]; [exact h|exfalso].
  symmetry in h. apply tw_mass_zero_iff in h; lra.
Qed.

(** *** n-dimensional kernels *)
Lemma same_len_true {A B} (l : list A) (m : list B) : length l = length m -> same_len l m = true.
Proof. intros H. unfold same_len, len. rewrite H. apply Nat.eqb_refl. Qed.
Lemma same_len_inv {A B} (l : list A) (m : list B) : same_len l m = true -> length l = length m.
Proof. apply Nat.eqb_eq. Qed.

Lemma kern_fin : forall x s lo hi, length s = length x -> length lo = length x -> length hi = length x ->
  Forall (fun w => 0 < w) s ->
  tw_ndhist_kern (map Fin x) (map Fin s) (map Fin lo) (map Fin hi) = Some (Fin (cell_mass x s lo hi)).
Proof.
  intros x s lo hi H1 H2 H3 Hs. unfold tw_ndhist_kern, tw_bin_weight_vmap.
  rewrite !same_len_true by (rewrite !map_length; congruence). cbn [andb option_map]. apply f_equal.
  revert s lo hi H1 H2 H3 Hs. induction x as [|a x IH]; intros s lo hi H1 H2 H3 Hs.
  - destruct s; [|discriminate]. reflexivity.
  - destruct s as [|b s]; [discriminate|]. destruct lo as [|c lo]; [discriminate|]. destruct hi as [|d hi]; [discriminate|].
    inversion Hs; subst. cbn [map combine cell_mass]. unfold xprod in *. cbn [fold_right].
    rewrite IH by (simpl in *; try lia; assumption). rewrite tw_bin_weight_fin by assumption. reflexivity.
Qed.

Lemma wkern_fin x s y lo hi : length s = length x -> length lo = length x -> length hi = length x ->
  Forall (fun w => 0 < w) s ->
  tw_ndhist_weighted_sum_kern (map Fin x) (map Fin s) (Fin y) (map Fin lo) (map Fin hi) = Some (Fin (cell_mass x s lo hi * y)).
Proof.
  intros H1 H2 H3 Hs. pose proof (kern_fin x s lo hi H1 H2 H3 Hs) as K.
  unfold tw_ndhist_kern in K. unfold tw_ndhist_weighted_sum_kern.
  destruct (tw_bin_weight_vmap _ _ _ _) as [ws|]; [|discriminate]. cbn [option_map] in K.
  cbv zeta. injection K as ->. reflexivity.
Qed.

Lemma points_len d X S : points d X S -> length X = length S.
Proof. apply F2_length. Qed.

Lemma sumkern_fin d X S lo hi : points d X S -> length lo = d -> length hi = d ->
  tw_ndhist_sumkern (map (map Fin) X) (map (map Fin) S) (map Fin lo) (map Fin hi)
  = Some (Fin (Rsum (map (fun p => cell_mass (fst p) (snd p) lo hi) (combine X S)))).
Proof.
  intros H Hl Hh. unfold tw_ndhist_sumkern.
  rewrite same_len_true by (rewrite !map_length; apply (points_len d), H).
  enough (vmap (fun a => tw_ndhist_kern (fst a) (snd a) (map Fin lo) (map Fin hi))
            (combine (map (map Fin) X) (map (map Fin) S))
          = Some (map Fin (map (fun p => cell_mass (fst p) (snd p) lo hi) (combine X S)))) as ->.
  { cbn [option_map]. now rewrite xsum_fin. }
  induction H as [|x s X S (Hx & Hs & Hp) H IH]; [reflexivity|].
  cbn [map combine]. unfold vmap in *. cbn [map sequence fst snd].
  rewrite kern_fin by (try congruence; assumption). rewrite IH. reflexivity.
Qed.

Lemma wsumkern_fin d X S Y lo hi : points d X S -> length Y = length X -> length lo = d -> length hi = d ->
  tw_ndhist_weighted_kern (map (map Fin) X) (map (map Fin) S) (map Fin Y) (map Fin lo) (map Fin hi)
  = Some (Fin (Rsum (map (fun p => cell_mass (fst (fst p)) (snd (fst p)) lo hi * snd p) (combine (combine X S) Y)))).
Proof.
  intros H HY Hl Hh. unfold tw_ndhist_weighted_kern. pose proof (points_len _ _ _ H) as HL.
  rewrite !same_len_true by (rewrite !map_length; congruence). cbn [andb].
  enough (vmap (fun a => let '(x, s, y) := a in tw_ndhist_weighted_sum_kern x s y (map Fin lo) (map Fin hi))
            (combine (combine (map (map Fin) X) (map (map Fin) S)) (map Fin Y))
          = Some (map Fin (map (fun p => cell_mass (fst (fst p)) (snd (fst p)) lo hi * snd p) (combine (combine X S) Y)))) as ->.
  { cbn [option_map]. now rewrite xsum_fin. }
  clear HL. revert Y HY. induction H as [|x s X S (Hx & Hs & Hp) H IH]; intros Y HY; [reflexivity|].
  destruct Y as [|y Y]; [discriminate|].
  cbn [map combine]. unfold vmap in *. cbn [map sequence fst snd].
  rewrite wkern_fin by (try congruence; assumption). rewrite IH by (simpl in HY; lia). reflexivity.
Qed.

Definition boxes (d : nat) (LO HI : list (list R)) : Prop :=
  Forall2 (fun lo hi => length lo = d /\ length hi = d) LO HI.

Lemma hist_fin d X S LO HI : points d X S -> boxes d LO HI ->
  tw_ndhist (map (map Fin) X) (map (map Fin) S) (map (map Fin) LO) (map (map Fin) HI)
  = Some (map Fin (map (fun b => Rsum (map (fun p => cell_mass (fst p) (snd p) (fst b) (snd b)) (combine X S))) (combine LO HI))).
Proof.
  intros H HB. unfold tw_ndhist.
  rewrite same_len_true by (rewrite !map_length; apply (F2_length _ _ _ HB)).
  induction HB as [|lo hi LO HI (Hl & Hh) HB IH]; [reflexivity|].
  cbn [map combine]. unfold vmap in *. cbn [map sequence fst snd].
  rewrite (sumkern_fin d) by assumption. rewrite IH. reflexivity.
Qed.

Lemma whist_fin d X S Y LO HI : points d X S -> length Y = length X -> boxes d LO HI ->
  tw_ndhist_weighted (map (map Fin) X) (map (map Fin) S) (map Fin Y) (map (map Fin) LO) (map (map Fin) HI)
  = Some (map Fin (map (fun b => Rsum (map (fun p => cell_mass (fst (fst p)) (snd (fst p)) (fst b) (snd b) * snd p)
                                        (combine (combine X S) Y))) (combine LO HI))).
Proof.
  intros H HY HB. unfold tw_ndhist_weighted.
  rewrite same_len_true by (rewrite !map_length; apply (F2_length _ _ _ HB)).
  induction HB as [|lo hi LO HI (Hl & Hh) HB IH]; [reflexivity|].
  cbn [map combine]. unfold vmap in *. cbn [map sequence fst snd].
  rewrite (wsumkern_fin d) by assumption. rewrite IH. reflexivity.
Qed.

Lemma cell_mass_range : forall x s lo hi, Forall (fun w => 0 < w) s -> Forall2 Rle lo hi -> 0 <= cell_mass x s lo hi <= 1.
Proof.
  induction x as [|a x IH]; intros s lo hi Hs Hb; [simpl; lra|].
  destruct Hs as [|b s Hb0 Hs]; [simpl; lra|]. destruct Hb as [|c e lo hi Hce Hb]; [simpl; lra|].
  cbn [cell_mass]. pose proof (tw_mass_range a b c e Hb0 Hce). pose proof (IH s lo hi Hs Hb).
  split; [apply Rmult_le_pos; lra|]. rewrite <- (Rmult_1_r 1). apply Rmult_le_compat; lra.
Qed.

(** *** Sums over grids *)
Lemma Rsum_app l m : Rsum (l ++ m) = Rsum l + Rsum m.
Proof. unfold Rsum. induction l; simpl; [ring|]. rewrite IHl. ring. Qed.
Lemma Rsum_scal c l : Rsum (map (Rmult c) l) = c * Rsum l.
Proof. unfold Rsum. induction l; simpl; [ring|]. rewrite IHl. ring. Qed.
Lemma Rsum_ext {A} (f g : A -> R) l : (forall a, In a l -> f a = g a) -> Rsum (map f l) = Rsum (map g l).
Proof. intros H. apply f_equal. apply map_ext_in. exact H. Qed.
Lemma Rsum_plus {A} (f g : A -> R) l : Rsum (map (fun a => f a + g a) l) = Rsum (map f l) + Rsum (map g l).
Proof. unfold Rsum. induction l; simpl; [ring|]. rewrite IHl. ring. Qed.
Lemma Rsum_zero {A} (l : list A) : Rsum (map (fun _ => 0) l) = 0.
Proof. unfold Rsum. induction l; simpl; [ring|]. rewrite IHl. ring. Qed.
Lemma Rsum_swap {A B} (f : A -> B -> R) l m :
  Rsum (map (fun a => Rsum (map (f a) m)) l) = Rsum (map (fun b => Rsum (map (fun a => f a b) l)) m).
Proof.
  induction l as [|a l IH]; simpl.
  - rewrite Rsum_zero. reflexivity.
  - rewrite Rsum_plus. unfold Rsum in *. simpl. rewrite IH. reflexivity.
Qed.
Lemma Rsum_one {A} (l : list A) : Rsum (map (fun _ => 1) l) = INR (length l).
Proof. unfold Rsum. induction l as [|a l IH]; [reflexivity|]. simpl length. rewrite S_INR. simpl map. simpl fold_right. rewrite IH. ring. Qed.
Lemma Rsum_nonneg l : Forall (fun x => 0 <= x) l -> 0 <= Rsum l.
Proof. unfold Rsum. induction 1; simpl; lra. Qed.
Lemma Rsum_pos l : Forall (fun x => 0 <= x) l -> Exists (fun x => 0 < x) l -> 0 < Rsum l.
Proof.
  induction 1 as [|x l Hx Hl IH]; intros E; inversion E as [? ? E'|? ? E']; subst; unfold Rsum in *; simpl.
  - pose proof (Rsum_nonneg l Hl). unfold Rsum in *. lra.
  - specialize (IH E'). lra.
Qed.

Lemma bins_cons a b E : bins_of (a :: b :: E) = (a, b) :: bins_of (b :: E).
Proof. reflexivity. Qed.

Lemma telescope x s E : 0 < s -> E <> [] ->
  Rsum (map (fun b => tw_mass x s (fst b) (snd b)) (bins_of E)) = tw_mass x s (hd 0 E) (last E 0).
Proof.
  intros Hs. induction E as [|a E IH]; [contradiction|]. intros _.
  destruct E as [|b E].
  - simpl. rewrite tw_mass_eq by assumption. ring.
  - rewrite bins_cons. cbn [map fst snd]. unfold Rsum in *. cbn [fold_right].
    rewrite IH by discriminate. cbn [hd]. change (last (a :: b :: E) 0) with (last (b :: E) 0).
    apply tw_mass_chasles, Hs.
Qed.

Definition span (Es : list (list R)) : list R * list R := (map (hd 0) Es, map (fun E => last E 0) Es).

Lemma grid_sum : forall Es x s, length x = length Es -> length s = length Es ->
  Forall (fun w => 0 < w) s -> Forall (fun E => E <> []) Es ->
  Rsum (map (fun g => cell_mass x s (map fst g) (map snd g)) (grid Es)) = cell_mass x s (fst (span Es)) (snd (span Es)).
Proof.
  induction Es as [|E Es IH]; intros x s Hx Hs Hp He.
  - destruct x; [|discriminate]. unfold Rsum. simpl. ring.
  - destruct x as [|a x]; [discriminate|]. destruct s as [|b s]; [discriminate|].
    inversion Hp; inversion He; subst. cbn [span fst snd map cell_mass grid].
    rewrite <- telescope by assumption.
    rewrite flat_map_concat_map, concat_map, map_map.
    simpl in Hx, Hs. specialize (IH x s ltac:(lia) ltac:(lia) ltac:(assumption) ltac:(assumption)).
    unfold span in IH. cbn [fst snd] in IH. rewrite <- IH.
    set (T := Rsum (map (fun g => cell_mass x s (map fst g) (map snd g)) (grid Es))).
    clear -T. induction (bins_of E) as [|c l IHl]; [unfold Rsum; simpl; ring|].
    cbn [map concat]. rewrite Rsum_app, IHl.
    change (Rsum (tw_mass a b (fst c) (snd c) :: map (fun b0 => tw_mass a b (fst b0) (snd b0)) l))
      with (tw_mass a b (fst c) (snd c) + Rsum (map (fun b0 => tw_mass a b (fst b0) (snd b0)) l)).
    rewrite Rmult_plus_distr_r. f_equal.
    unfold T. rewrite <- Rsum_scal, !map_map. reflexivity.
Qed.

Lemma grid_full : forall Es x s, length x = length Es -> length s = length Es ->
  Forall (fun w => 0 < w) s -> covers Es x s -> cell_mass x s (fst (span Es)) (snd (span Es)) = 1.
Proof.
  induction Es as [|E Es IH]; intros x s Hx Hs Hp Hc.
  - destruct x; [reflexivity|discriminate].
  - destruct x as [|a x]; [discriminate|]. destruct s as [|b s]; [discriminate|]. inversion Hp; subst.
    cbn [span fst snd map cell_mass].
    rewrite tw_mass_full; [|assumption|apply (Hc 0%nat); simpl; lia|apply (Hc 0%nat); simpl; lia].
    specialize (IH x s). unfold span in IH; cbn [fst snd] in IH. rewrite IH; [ring| | | |]; simpl in *; try lia; auto.
    intros k Hk. apply (Hc (S k)). simpl. lia.
Qed.

Lemma grid_len Es : Forall (fun g => length g = length Es) (grid Es).
Proof.
  induction Es as [|E Es IH]; [repeat constructor|].
  cbn [grid]. apply Forall_flat_map. apply Forall_forall. intros b _. apply Forall_map.
  eapply Forall_impl; [|exact IH]. intros g Hg. simpl. congruence.
Qed.

Lemma grid_boxes Es : boxes (length Es) (lows (grid Es)) (highs (grid Es)).
Proof.
  unfold boxes, lows, highs. pose proof (grid_len Es) as H. induction H; simpl; constructor; auto.
  rewrite !map_length. auto.
Qed.

Lemma combine_lows_highs g : combine (lows g) (highs g) = map (fun b => (map fst b, map snd b)) g.
Proof. unfold lows, highs. apply combine_map_seq. Qed.

Lemma points_in d X S p : points d X S -> In p (combine X S) ->
  length (fst p) = d /\ length (snd p) = d /\ Forall (fun w => 0 < w) (snd p).
Proof.
  intros H Hi. destruct p as [x s]. cbn [fst snd].
  induction H as [|x' s' X S Hh H IH]; [contradiction|]. destruct Hi as [[= -> ->]|Hi]; auto.
Qed.

Lemma hist_total Es X S : points (length Es) X S -> Forall (fun E => E <> []) Es ->
  exists h, tw_ndhist (map (map Fin) X) (map (map Fin) S) (map (map Fin) (lows (grid Es))) (map (map Fin) (highs (grid Es)))
    = Some (map Fin h) /\
  Rsum h = Rsum (map (fun p => cell_mass (fst p) (snd p) (map (hd 0) Es) (map (fun E => last E 0) Es)) (combine X S)).
Proof.
  intros HP HE. eexists. split; [apply (hist_fin (length Es)); [exact HP|apply grid_boxes]|].
  rewrite combine_lows_highs, map_map. cbn [fst snd].
  rewrite (Rsum_swap (fun g p => cell_mass (fst p) (snd p) (map fst g) (map snd g))).
  apply Rsum_ext. intros p Hp. destruct (points_in _ _ _ _ HP Hp) as (H1 & H2 & H3).
  apply grid_sum; assumption.
Qed.

Lemma hist_count Es X S : points (length Es) X S -> Forall (fun E => E <> []) Es -> Forall2 (covers Es) X S ->
  exists h, tw_ndhist (map (map Fin) X) (map (map Fin) S) (map (map Fin) (lows (grid Es))) (map (map Fin) (highs (grid Es)))
    = Some (map Fin h) /\ Rsum h = INR (length X).
Proof.
  intros HP HE HC. destruct (hist_total Es X S HP HE) as (h & H1 & H2). exists h. split; [exact H1|]. rewrite H2.
  replace (length X) with (length (combine X S)) by (rewrite combine_length, <- (points_len _ _ _ HP); lia).
  rewrite <- Rsum_one. apply Rsum_ext. intros p Hp. destruct (points_in _ _ _ _ HP Hp) as (L1 & L2 & L3).
  apply grid_full; auto. clear -HC Hp. induction HC as [|x s X S h H IH]; [contradiction|].
  destruct Hp as [<-|Hp]; auto.
Qed.

Lemma combine_snd_sum {A} (l : list A) Y : length Y = length l -> Rsum (map snd (combine l Y)) = Rsum Y.
Proof. revert Y; induction l; intros [|y Y] H; simpl in *; try discriminate; auto. unfold Rsum in *; simpl. rewrite IHl; auto. Qed.

Lemma whist_count Es X S Y : points (length Es) X S -> length Y = length X -> Forall (fun E => E <> []) Es -> Forall2 (covers Es) X S ->
  exists h, tw_ndhist_weighted (map (map Fin) X) (map (map Fin) S) (map Fin Y)
      (map (map Fin) (lows (grid Es))) (map (map Fin) (highs (grid Es)))
    = Some (map Fin h) /\ Rsum h = Rsum Y.
Proof.
  intros HP HY HE HC. eexists. split; [apply (whist_fin (length Es)); [exact HP|exact HY|apply grid_boxes]|].
  rewrite combine_lows_highs, map_map. cbn [fst snd].
  rewrite (Rsum_swap (fun g p => cell_mass (fst (fst p)) (snd (fst p)) (map fst g) (map snd g) * snd p)).
  rewrite <- (combine_snd_sum (combine X S) Y) by (rewrite combine_length, <- (points_len _ _ _ HP); lia).
  apply Rsum_ext. intros [p y] Hp. apply in_combine_l in Hp. destruct (points_in _ _ _ _ HP Hp) as (L1 & L2 & L3).
  cbn [fst snd].
  rewrite (Rsum_ext _ (fun g => y * cell_mass (fst p) (snd p) (map fst g) (map snd g))) by (intros; ring).
  rewrite <- (map_map (fun g => cell_mass (fst p) (snd p) (map fst g) (map snd g)) (Rmult y)), Rsum_scal.
  rewrite grid_sum by assumption.
  rewrite grid_full; auto; [ring|]. clear -HC Hp. induction HC as [|x s X S h H IH]; [contradiction|].
  destruct Hp as [<-|Hp]; auto.
Qed.

(** *** Additivity and order independence, for any extended reals *)
Lemma xadd_comm a b : xadd a b = xadd b a.
Proof. destruct a, b; simpl; auto. now rewrite Rplus_comm. Qed.
Lemma xadd_assoc a b c : xadd a (xadd b c) = xadd (xadd a b) c.
Proof. destruct a, b, c; simpl; auto. now rewrite Rplus_assoc. Qed.
Lemma xadd_0_l a : xadd (Fin 0) a = a.
Proof. destruct a; simpl; auto. now rewrite Rplus_0_l. Qed.
Lemma xsum_app l m : xsum (l ++ m) = xadd (xsum l) (xsum m).
Proof. unfold xsum. induction l; simpl; [symmetry; apply xadd_0_l|]. rewrite IHl. apply xadd_assoc. Qed.
Lemma xsum_perm l m : Permutation l m -> xsum l = xsum m.
Proof.
  induction 1; unfold xsum in *; simpl; auto; try congruence.
  rewrite !xadd_assoc, (xadd_comm y x). reflexivity.
Qed.

Lemma vmap_app {A B} (f : A -> option B) l m rl rm : vmap f l = Some rl -> vmap f m = Some rm -> vmap f (l ++ m) = Some (rl ++ rm).
Proof. rewrite !vmap_spec. apply Forall2_app. Qed.
Lemma vmap_perm {A B} (f : A -> option B) l m r : Permutation l m -> vmap f l = Some r -> exists r', vmap f m = Some r' /\ Permutation r r'.
Proof.
  intros P. revert r. induction P; intros r H.
  - exists r. auto.
  - apply vmap_spec in H. inversion H; subst. match goal with h : Forall2 _ l _ |- _ => apply vmap_spec in h; apply IHP in h as (r' & h1 & h2) end.
    exists (y :: r'). split; [|auto]. apply vmap_spec. constructor; auto. apply vmap_spec, h1.
  - apply vmap_spec in H. inversion H; subst. match goal with h : Forall2 _ (_ :: l) _ |- _ => inversion h; subst end.
    eexists. split; [apply vmap_spec; do 2 (constructor; [eassumption|]); eassumption|]. constructor.
  - apply IHP1 in H as (r1 & H1 & H2). apply IHP2 in H1 as (r2 & H3 & H4). exists r2. split; auto. eapply perm_trans; eauto.
Qed.

Lemma combine_app {A B} (a a' : list A) (b b' : list B) : length a = length b -> combine (a ++ a') (b ++ b') = combine a b ++ combine a' b'.
Proof. revert b; induction a; intros [|y b] H; simpl in *; try discriminate; auto. rewrite IHa; auto. Qed.

Lemma sumkern_add d1 s1 d2 s2 lo hi a b : tw_ndhist_sumkern d1 s1 lo hi = Some a -> tw_ndhist_sumkern d2 s2 lo hi = Some b ->
  tw_ndhist_sumkern (d1 ++ d2) (s1 ++ s2) lo hi = Some (xadd a b).
Proof.
  unfold tw_ndhist_sumkern. destruct (same_len d1 s1) eqn:E1; [|discriminate]. destruct (same_len d2 s2) eqn:E2; [|discriminate].
  apply same_len_inv in E1, E2. rewrite same_len_true by (rewrite !app_length; congruence).
  rewrite combine_app by exact E1.
  destruct (vmap _ (combine d1 s1)) as [u|] eqn:V1; [|discriminate]. destruct (vmap _ (combine d2 s2)) as [v|] eqn:V2; [|discriminate].
  intros [= <-] [= <-]. rewrite (vmap_app _ _ _ _ _ V1 V2). cbn [option_map]. now rewrite xsum_app.
Qed.

Lemma hist_add d1 s1 d2 s2 lo hi h1 h2 : tw_ndhist d1 s1 lo hi = Some h1 -> tw_ndhist d2 s2 lo hi = Some h2 ->
  tw_ndhist (d1 ++ d2) (s1 ++ s2) lo hi = Some (map2 xadd h1 h2).
Proof.
  unfold tw_ndhist. destruct (same_len lo hi); [|discriminate]. rewrite !vmap_spec. intros H.
  revert h2. induction H as [|b x bs xs Hb H IH]; intros h2 H2; inversion H2; subst; simpl; constructor; auto.
  apply sumkern_add; assumption.
Qed.

Lemma wkern_add d1 s1 y1 d2 s2 y2 lo hi a b : tw_ndhist_weighted_kern d1 s1 y1 lo hi = Some a -> tw_ndhist_weighted_kern d2 s2 y2 lo hi = Some b ->
  tw_ndhist_weighted_kern (d1 ++ d2) (s1 ++ s2) (y1 ++ y2) lo hi = Some (xadd a b).
Proof.
  unfold tw_ndhist_weighted_kern.
  destruct (same_len d1 s1) eqn:E1; [|discriminate]. destruct (same_len d1 y1) eqn:F1; [|discriminate].
  destruct (same_len d2 s2) eqn:E2; [|discriminate]. destruct (same_len d2 y2) eqn:F2; [|discriminate].
  apply same_len_inv in E1, E2, F1, F2. cbn [andb]. rewrite !same_len_true by (rewrite !app_length; congruence). cbn [andb].
  rewrite combine_app, combine_app by (rewrite ?combine_length; lia).
  destruct (vmap _ (combine (combine d1 s1) y1)) as [u|] eqn:V1; [|discriminate].
  destruct (vmap _ (combine (combine d2 s2) y2)) as [v|] eqn:V2; [|discriminate].
  intros [= <-] [= <-]. rewrite (vmap_app _ _ _ _ _ V1 V2). cbn [option_map]. now rewrite xsum_app.
Qed.

Lemma whist_add d1 s1 y1 d2 s2 y2 lo hi h1 h2 :
  tw_ndhist_weighted d1 s1 y1 lo hi = Some h1 -> tw_ndhist_weighted d2 s2 y2 lo hi = Some h2 ->
  tw_ndhist_weighted (d1 ++ d2) (s1 ++ s2) (y1 ++ y2) lo hi = Some (map2 xadd h1 h2).
Proof.
  unfold tw_ndhist_weighted. destruct (same_len lo hi); [|discriminate]. rewrite !vmap_spec. intros H.
  revert h2. induction H as [|b x bs xs Hb H IH]; intros h2 H2; inversion H2; subst; simpl; constructor; auto.
  apply wkern_add; assumption.
Qed.

Lemma sumkern_perm d s d' s' lo hi : length d = length s -> length d' = length s' -> Permutation (combine d s) (combine d' s') ->
  tw_ndhist_sumkern d s lo hi = tw_ndhist_sumkern d' s' lo hi.
Proof.
  intros H H' P. unfold tw_ndhist_sumkern. rewrite !same_len_true by assumption.
  destruct (vmap _ (combine d s)) as [u|] eqn:V.
  - destruct (vmap_perm _ _ _ _ P V) as (u' & V' & P'). rewrite V'. cbn [option_map]. now rewrite (xsum_perm _ _ P').
  - destruct (vmap _ (combine d' s')) as [u'|] eqn:V'; [|reflexivity].
    destruct (vmap_perm _ _ _ _ (Permutation_sym P) V') as (v & V1 & _). congruence.
Qed.

Lemma hist_perm d s d' s' lo hi : length d = length s -> length d' = length s' -> Permutation (combine d s) (combine d' s') ->
  tw_ndhist d s lo hi = tw_ndhist d' s' lo hi.
Proof.
  intros H H' P. unfold tw_ndhist. destruct (same_len lo hi); [|reflexivity]. unfold vmap. apply f_equal.
  apply map_ext. intros b. apply sumkern_perm; assumption.
Qed.

Lemma whist_perm d s y d' s' y' lo hi : length d = length s -> length d = length y -> length d' = length s' -> length d' = length y' ->
  Permutation (combine (combine d s) y) (combine (combine d' s') y') ->
  tw_ndhist_weighted d s y lo hi = tw_ndhist_weighted d' s' y' lo hi.
Proof.
  intros H1 H2 H3 H4 P. unfold tw_ndhist_weighted. destruct (same_len lo hi); [|reflexivity]. unfold vmap at 1 2. apply f_equal.
  apply map_ext. intros b. unfold tw_ndhist_weighted_kern. rewrite !same_len_true by assumption. cbn [andb].
  destruct (vmap _ (combine (combine d s) y)) as [u|] eqn:V.
  - destruct (vmap_perm _ _ _ _ P V) as (u' & V' & P'). rewrite V'. cbn [option_map]. now rewrite (xsum_perm _ _ P').
  - destruct (vmap _ (combine (combine d' s') y')) as [u'|] eqn:V'; [|reflexivity].
    destruct (vmap_perm _ _ _ _ (Permutation_sym P) V') as (v & V1 & _). congruence.
Qed.

Lemma weight_range x s lo hi : length s = length x -> length lo = length x -> length hi = length x ->
  Forall (fun w => 0 < w) s -> Forall2 Rle lo hi ->
  exists w, tw_ndhist_kern (map Fin x) (map Fin s) (map Fin lo) (map Fin hi) = Some (Fin w) /\
    w = cell_mass x s lo hi /\ 0 <= w <= 1.
Proof. intros. eexists. split; [apply kern_fin; assumption|]. split; [reflexivity|]. apply cell_mass_range; assumption. Qed.

Lemma tw_lax_copy x m h : 0 < h ->
  tw_cuml_lax_kern (Fin x) (Fin m) (Fin h) = Fin (tw_cdf ((x - m) / h)) /\
  tw_cuml_lax_kern (Fin x) (Fin m) (Fin h) = tw_cuml_jax_kern (Fin x) (Fin m) (Fin h).
Proof.
  intros H. rewrite tw_cuml_lax_fin by lra. rewrite <- tw_cdf_eq. split; [reflexivity|].
  symmetry. apply (proj1 triweight_kernel). exact H.
Qed.

Lemma tw_lax_bin x s lo hi : 0 < s -> lo <= hi ->
  tw_bin_weight_lax_kern (Fin x) (Fin s) (Fin lo) (Fin hi) = Fin (RInt (fun t => tw_pdf ((t - x) / s) / s) lo hi) /\
  0 <= RInt (fun t => tw_pdf ((t - x) / s) / s) lo hi <= 1.
Proof. intros Hs Hb. split; [apply tw_bin_weight_fin; exact Hs|apply tw_mass_range; assumption]. Qed.
