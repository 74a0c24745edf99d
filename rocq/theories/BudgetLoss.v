(** A target with galaxies at specific rates no prediction reaches. *)
From Coq Require Import Reals Lra Lia List Bool ZArith String.
From Verif Require Import XReal XFacts RealFacts ModelUtils ModelKernels ModelSfh ModelPop ModelHist SpecCore SpecPop SpecHist SpecBudget SpecTargets ModelTargets
  SfhProofs PopProofs HistProofs SmhmProofs LossProofs PopParamProofs PopMcProofs PopLossProofs PopGradLoss WrapperProofs MeasureTopProofs BudgetPop.
Import List ListNotations.
Open Scope R_scope.
Local Notation length := List.length.

Lemma shape_inv {A B} (p : list (list A)) : forall t : list (list B), forallb (fun b => b) (map2 Nat.eqb (shape2 p) (shape2 t)) = true -> length p = length t ->
  map (@List.length A) p = map (@List.length B) t.
Proof.
  induction p as [|a p IH]; intros [|b t] H L; try discriminate L; [reflexivity|]. cbn in H. apply andb_prop in H as [H1 H2]. apply Nat.eqb_eq in H1.
  cbn [map]. apply f_equal2; [exact H1|]. apply IH; [exact H2|cbn in L; lia].
Qed.
Lemma shape3_of {A B} (p : list (list (list A))) : forall t : list (list (list B)), map (@List.length _) p = map (@List.length _) t ->
  map (@List.length _) (List.concat p) = map (@List.length _) (List.concat t) -> map (map (@List.length A)) p = map (map (@List.length B)) t.
Proof.
  induction p as [|a p IH]; intros [|b t] H K; try discriminate H; [reflexivity|]. cbn [map List.concat] in *. injection H as H1 H2. rewrite !map_app in K.
  assert (Q : map (@List.length A) a = map (@List.length B) b /\ map (@List.length A) (List.concat p) = map (@List.length B) (List.concat t)).
  { apply app_inj_len in K; [exact K|]. rewrite !map_length. exact H1. }
  destruct Q as [Q1 Q2]. rewrite Q1. apply f_equal. apply IH; assumption.
Qed.

Lemma term_le (f : R -> R -> R) : (forall a b, 0 <= f a b) -> forall a b i, length a = length b -> (i < length a)%nat ->
  f (nth i a 0) (nth i b 0) <= Rsum (map2 f a b).
Proof.
  intros F. induction a as [|x a IH]; intros [|y b] i L Hi; try discriminate L; [cbn in Hi; lia|]. cbn [map2]. unfold Rsum. cbn [fold_right].
  fold (Rsum (map2 f a b)). assert (N : 0 <= Rsum (map2 f a b)).
  { clear -F. revert b. induction a as [|x a IH]; intros [|y b]; try (unfold Rsum; cbn; lra). cbn [map2]. unfold Rsum in *. cbn [fold_right]. specialize (IH b). specialize (F x y). lra. }
  destruct i as [|i]; cbn [nth]; [lra|]. specialize (IH b i ltac:(cbn in L; lia) ltac:(cbn in Hi; lia)). specialize (F x y). lra.
Qed.
Lemma sum_app a b : Rsum (a ++ b) = Rsum a + Rsum b.
Proof. unfold Rsum. induction a as [|x a IH]; cbn; [lra|]. rewrite IH. lra. Qed.
Lemma map2_app {A B C} (f : A -> B -> C) a b : forall a' b', length a = length b -> map2 f (a ++ a') (b ++ b') = map2 f a b ++ map2 f a' b'.
Proof. revert b. induction a as [|x a IH]; intros [|y b] a' b' L; try discriminate L; [reflexivity|]. cbn. rewrite IH by (cbn in L; lia). reflexivity. Qed.
Lemma sum_nonneg (f : R -> R -> R) : (forall a b, 0 <= f a b) -> forall a b, 0 <= Rsum (map2 f a b).
Proof.
  intros F. induction a as [|x a IH]; intros [|y b]; try (unfold Rsum; cbn; lra). cbn [map2]. unfold Rsum in *. cbn [fold_right]. specialize (IH b). specialize (F x y). lra.
Qed.
Lemma part_le (f : R -> R -> R) : (forall a b, 0 <= f a b) -> forall A B i, map (@List.length R) A = map (@List.length R) B -> (i < length A)%nat ->
  Rsum (map2 f (nth i A []) (nth i B [])) <= Rsum (map2 f (List.concat A) (List.concat B)).
Proof.
  intros F. induction A as [|a A IH]; intros [|b B] i L Hi; try discriminate L; [cbn in Hi; lia|]. cbn [map] in L. injection L as L1 L2.
  cbn [List.concat]. rewrite map2_app, sum_app by exact L1. pose proof (sum_nonneg f F a b). pose proof (sum_nonneg f F (List.concat A) (List.concat B)).
  destruct i as [|i]; cbn [nth]; [lra|]. specialize (IH B i L2 ltac:(cbn in Hi; lia)). lra.
Qed.

Lemma concat_entry {A} (l : list (list (list A))) z : forall t, (z < length l)%nat -> (t < length (nth z l []))%nat ->
  exists i, (i < length (List.concat l))%nat /\ nth i (List.concat l) [] = nth t (nth z l []) [].
Proof. intros t Hz Ht. apply In_nth. apply in_concat. exists (nth z l []). split; [apply nth_In, Hz|apply nth_In, Ht]. Qed.
Lemma concat_entry2 {A} : forall (l : list (list (list A))) z t, (z < length l)%nat -> (t < length (nth z l []))%nat ->
  exists i, (i < length (List.concat l))%nat /\ nth i (List.concat l) [] = nth t (nth z l []) [] /\
    forall B (m : list (list (list B))), map (@List.length _) m = map (@List.length _) l -> nth i (List.concat m) [] = nth t (nth z m []) [].
Proof.
  induction l as [|a l IH]; intros z t Hz Ht; [cbn in Hz; lia|]. destruct z as [|z]; cbn [nth] in Ht.
  - exists t. cbn [List.concat nth]. split; [rewrite app_length; lia|]. split; [apply app_nth1, Ht|].
    intros B [|b m] E; [discriminate E|]. cbn [map] in E. injection E as E1 _. cbn [List.concat nth]. apply app_nth1. lia.
  - destruct (IH z t ltac:(cbn in Hz; lia) Ht) as (i & Hi & E & G). exists (length a + i)%nat. cbn [List.concat nth].
    split; [rewrite app_length; lia|]. split; [rewrite app_nth2_plus; exact E|].
    intros B [|b m] E'; [discriminate E'|]. cbn [map] in E'. injection E' as E1 E2. cbn [List.concat nth]. rewrite <- E1, app_nth2_plus. apply G, E2.
Qed.

Section Pop.
Variable key : Type.
Variable split : key -> nat -> list key.
Variable uniform : key -> xr.
Variable mvn : key -> list xr -> matrix -> list xr.
Variable lmk : MahParams xr -> xr -> xr -> xr.
Hypothesis Hsplit : splits_ok split.
Hypothesis Hmvn : mvn_ok mvn.

Lemma loss_floor E1 E2 u p P zs lgt0 fb Wt idx ids target v j z t : increasing E1 -> (2 <= length E1)%nat -> increasing E2 -> (j < length E2 - 1)%nat ->
  get_bounded_diffstarpop_params u = Some p -> holds "" p P -> pop_in_bounds P -> slopes_nonzero P ->
  Forall (fun z => exists n tobs, sim_ok lmk lgt0 n tobs z /\
    (ssfr_limit tobs + 3 * mean_bin E2 <= nth j E2 0 \/ nth (S j) E2 0 <= -12 - 3 * mean_bin E2)) zs ->
  loss_mstar_ssfr_kern_tobs key split uniform mvn lmk u zs lgt0 (Fin fb)
    (mkSsfr (map (map Fin) (lows (grid [E1; E2]))) (map (map Fin) (highs (grid [E1; E2]))) (map Fin E1) (map Fin E2) (map (map Fin) Wt) idx ids)
    (map (map (map Fin)) target) = Some (Fin v) ->
  (z < length target)%nat -> (t < length (nth z target []))%nat -> (j < length (nth t (nth z target []) []))%nat ->
  1000 * (nth j (nth t (nth z target []) []) 0) ^ 2 / INR (length (List.concat (List.concat target))) <= v.
Proof.
  intros I1 L1 I2 Hj Hu Hp Hb Hs Hz HL Lz Lt Lj. unfold loss_mstar_ssfr_kern_tobs in HL.
  destruct (mstar_ssfr_kern_tobs _ _ _ _ _ _ _ _ _ _) as [r|] eqn:ER; [|discriminate HL].
  pose proof (prediction_dead key split uniform mvn lmk Hsplit Hmvn E1 E2 u p P zs lgt0 fb Wt idx ids r j I1 L1 I2 Hj Hu Hp Hb Hs Hz ER z t) as D.
  destruct (mse3 r (map (map (map Fin)) target)) as [[m| | |]|] eqn:EM; cbn [option_map] in HL; try discriminate HL.
  2:{ exfalso. cbn [xmul] in HL. apply Some_inj in HL. exact (PopGradHist.signed_not_fin _ _ HL). }
  2:{ exfalso. cbn [xmul] in HL. apply Some_inj in HL. exact (PopGradHist.signed_not_fin _ _ HL). }
  cbn [xmul] in HL. assert (V : v = m * 1000) by congruence. clear HL.
  destruct (mse3_all_fin _ _ _ EM) as [NE FF]. destruct (fin_list3 r FF) as (pr & ->).
  assert (SH : map (map (@List.length R)) pr = map (map (@List.length R)) target).
  { unfold mse3 in EM. destruct (_ && _) eqn:C1 in EM; [|discriminate EM]. apply andb_prop in C1 as [C1 C2]. apply same_len_inv in C2.
    pose proof (shape_inv _ _ C1 C2) as S1. unfold mse2 in EM. destruct (_ && _) eqn:C3 in EM; [|discriminate EM]. apply andb_prop in C3 as [C3 C4]. apply same_len_inv in C4.
    pose proof (shape_inv _ _ C3 C4) as S2. pose proof (shape3_of _ _ S1 S2) as S3.
    rewrite !map_map in S3. transitivity (map (fun x => map (@List.length xr) (map (map Fin) x)) pr); [|rewrite S3]; apply map_ext; intros x; rewrite map_map; apply map_ext; intros y; [symmetry|]; apply map_length. }
  destruct (shape3_12 _ _ SH) as [S1 S2].
  assert (NE' : List.concat (List.concat pr) <> []).
  { intros Z. apply NE. rewrite concat_fin3, concat_fin, Z. reflexivity. }
  destruct (mse3_props pr target SH NE') as (m' & EM' & _ & _ & V'). rewrite EM in EM'. assert (MM : m' = m) by congruence. rewrite MM in V'. clear EM' MM m'.
  assert (LL : length (List.concat (List.concat pr)) = length (List.concat (List.concat target))).
  { clear -S2. revert S2. generalize (List.concat pr) (List.concat target). induction l as [|a l IH]; intros [|b l'] S; try discriminate S; [reflexivity|].
    cbn [map] in S. injection S as A B. cbn [List.concat]. rewrite !app_length, A, (IH _ B). reflexivity. }
  rewrite LL in V'. assert (N0 : 0 < INR (length (List.concat (List.concat target)))).
  { rewrite <- LL. apply lt_0_INR. destruct (List.concat (List.concat pr)); [contradiction|cbn; lia]. }
  pose (sq := fun a b : R => (a - b) ^ 2). assert (SQ : forall a b, 0 <= sq a b) by (intros a b; apply pow2_ge_0).
  destruct (concat_entry2 target z t Lz Lt) as (i & Hi & Ei & Gi). specialize (Gi R pr S1).
  assert (Hi' : (i < length (List.concat pr))%nat) by (rewrite <- (map_length (@List.length R)), S2, map_length; exact Hi).
  pose proof (part_le sq SQ _ _ i S2 Hi') as Q1. rewrite Ei, Gi in Q1.
  assert (LR : length (nth t (nth z pr []) []) = length (nth t (nth z target []) [])).
  { rewrite <- Gi, <- Ei. change (@List.length R) with (@List.length R). pose proof (f_equal (fun l => nth i l 0%nat) S2) as W. cbv beta in W.
    rewrite !(nth_map (@List.length R) _ i []) in W by assumption. exact W. }
  pose proof (term_le sq SQ _ _ j LR ltac:(rewrite LR; exact Lj)) as Q2.
  assert (Z : nth j (nth t (nth z pr []) []) 0 = 0).
  { assert (NN : nth j (nth t (nth z (map (map (map Fin)) pr) []) []) NaN = Fin (nth j (nth t (nth z pr []) []) 0)).
    { change (@nil (list xr)) with (map (map Fin) []). rewrite map_nth. change (@nil xr) with (map Fin []). rewrite map_nth. apply nth_map. rewrite LR. exact Lj. }
    rewrite NN in D. destruct D as [D|D]; [congruence|discriminate D]. }
  rewrite Z in Q2. unfold sq in Q1, Q2.
  rewrite V, V'. set (N := INR _) in *. set (S := Rsum _) in *. set (x := nth j (nth t (nth z target []) []) 0) in *.
  replace (S / N * 1000) with (1000 * S / N) by (unfold Rdiv; ring). apply Rmult_le_compat_r; [left; apply Rinv_0_lt_compat, N0|].
  apply Rmult_le_compat_l; [lra|]. replace ((0 - x) ^ 2) with (x ^ 2) in Q2 by ring. fold S in Q1. lra.
Qed.
End Pop.

(** The bins of the measured targets *)
Lemma edge_sf j : (j < 30)%nat -> nth j E_sf 0 = -13 + INR j * (5 / 29).
Proof.
  intros H. unfold E_sf, evenly. rewrite nth_map_seq by exact H. replace (INR (30 - 1)) with 29 by (rewrite INR_IZR_INZ; reflexivity).
  replace (-8 - -13) with 5 by ring. reflexivity.
Qed.
Lemma mean_sf : mean_bin E_sf = 5 / 29.
Proof.
  unfold mean_bin. replace (last E_sf 0) with (nth 29 E_sf 0) by reflexivity. replace (hd 0 E_sf) with (nth 0 E_sf 0) by reflexivity.
  rewrite !edge_sf by lia. replace (length E_sf - 1)%nat with 29%nat by reflexivity. rewrite !INR_IZR_INZ. cbn. field.
Qed.
Lemma top_bins j : (26 <= j < 29)%nat -> ssfr_limit (138 / 10) + 3 * mean_bin E_sf <= nth j E_sf 0.
Proof.
  intros [H1 H2]. pose proof limit_today as L. rewrite edge_sf, mean_sf by lia.
  assert (J : 26 <= INR j) by (replace 26 with (INR 26) by (rewrite INR_IZR_INZ; reflexivity); apply le_INR, H1). lra.
Qed.
Lemma low_bins j : (j < 2)%nat -> nth (S j) E_sf 0 <= -12 - 3 * mean_bin E_sf.
Proof.
  intros H. rewrite edge_sf, mean_sf by lia. assert (J : INR (S j) <= 2) by (replace 2 with (INR 2) by (rewrite INR_IZR_INZ; reflexivity); apply le_INR; lia). lra.
Qed.
Lemma today_bins : exists E, LOGSSFR_BINS_PDF = map Fin E /\ increasing E /\ length E = 30%nat /\
  (forall j, (26 <= j < 29)%nat -> ssfr_limit (138 / 10) + 3 * mean_bin E <= nth j E 0) /\
  (forall j, (j < 2)%nat -> nth (S j) E 0 <= -12 - 3 * mean_bin E).
Proof. exists E_sf. destruct bins_ok as (_ & _ & _ & I & _ & _ & _ & L). split; [exact bins_sf|]. split; [exact I|]. split; [exact L|]. split; [exact top_bins|exact low_bins]. Qed.
