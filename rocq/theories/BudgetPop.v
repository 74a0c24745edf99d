(** Specific rates reached by a simulated population. *)
From Coq Require Import Reals Lra Lia List Bool ZArith String.
From Coquelicot Require Rcomplements.
From Verif Require Import XReal XFacts RealFacts ModelUtils ModelKernels ModelSfh ModelPop ModelHist SpecCore SpecPop SpecHist SpecBudget
  SfhProofs PopProofs HistProofs SmhmProofs LossProofs PopParamProofs PopMcProofs PopLossProofs BudgetProofs.
Import List ListNotations.
Open Scope R_scope.
Local Notation length := List.length.

Lemma obs_18 tobs : nth 18 (obs_times tobs) 0 = exp ((-1 + 18 / 19 * (ln tobs / ln 10 + 1)) * ln 10).
Proof. unfold obs_times. cbn [seq map nth]. replace (INR 18) with 18 by (rewrite INR_IZR_INZ; reflexivity). reflexivity. Qed.
Lemma obs_19 tobs : 0 < tobs -> nth 19 (obs_times tobs) 0 = tobs.
Proof.
  intros T. unfold obs_times. cbn [seq map nth]. replace (INR 19) with 19 by (rewrite INR_IZR_INZ; reflexivity).
  pose proof ln10_pos. replace ((-1 + 19 / 19 * (ln tobs / ln 10 + 1)) * ln 10) with (ln tobs) by (field; lra). apply exp_ln, T.
Qed.
Lemma last_20 (l : list R) : length l = 20%nat -> last l 0 = nth 19 l 0.
Proof. intros H. do 20 (destruct l as [|? l]; [discriminate H|]). destruct l; [reflexivity|discriminate H]. Qed.

Lemma row_limit lmk p mah tobs lgt0 fb h s M : halo_history lmk mah lgt0 h (obs_times tobs) -> 1 / 10 < tobs ->
  obs_row tobs (calc_sfh_singlegal lmk (map_d Fin p) mah (map Fin (obs_times tobs)) lgt0 (Fin fb)) s M ->
  0 < last_gap tobs /\ s / M < 2 / (10 ^ 9 * last_gap tobs).
Proof.
  intros H T (E1 & S0 & mass & E2 & E3 & M0).
  destruct (ssfr_step lmk p mah (obs_times tobs) lgt0 fb h H (obs_times_incr tobs T)) as (Ms & E & L & Q).
  rewrite (calc_sfh_value lmk p mah _ lgt0 fb h H) in E1, E2.
  unfold calc_sfh_singlegal_smh in E. cbv zeta in E. fold (calc_sfh_singlegal lmk (map_d Fin p) mah (map Fin (obs_times tobs)) lgt0 (Fin fb)) in E.
  rewrite (calc_sfh_value lmk p mah _ lgt0 fb h H) in E.
  assert (L20 : length (obs_times tobs) = 20%nat) by (unfold obs_times; rewrite map_length; apply seq_length).
  destruct (Q 19%nat ltac:(rewrite L20; lia)) as (_ & Q2 & _).
  rewrite obs_19 in Q2 by lra. change (nth 19 (1 / 1000 :: obs_times tobs) 0) with (nth 18 (obs_times tobs) 0) in Q2. rewrite obs_18 in Q2. fold (last_gap tobs) in Q2.
  set (s' := map (fun t => sfr_spec p fb (h t) t) (obs_times tobs)) in *. rewrite E2 in E. apply Some_inj in E. apply pair_equal_spec in E as [_ E].
  assert (LS : length s' = 20%nat) by (unfold s'; rewrite map_length; exact L20). rewrite L20 in L. subst mass.
  rewrite last_fin in E1 by (intros Z; rewrite Z in LS; discriminate LS). rewrite last_fin in E3 by (intros Z; rewrite Z in L; discriminate L).
  rewrite last_20 in E1, E3 by assumption. assert (FI : forall a b, Fin a = Fin b -> a = b) by (intros a b Z; congruence). apply FI in E1. apply FI in E3. rewrite E1, E3 in Q2. split; [|exact Q2].
  pose proof (DtProofs.increasing_nth_lt (1 / 1000 :: obs_times tobs) (obs_times_incr tobs T) 19 20 ltac:(lia) ltac:(cbn [List.length]; lia)) as Z.
  change (nth 18 (obs_times tobs) 0 < nth 19 (obs_times tobs) 0) in Z. rewrite obs_18, obs_19 in Z by lra. unfold last_gap. lra.
Qed.

(** ** Histograms *)
Lemma dead_div x y : no_signal x -> no_signal (x / y)%X.
Proof.
  intros [->| ->]; [|right; destruct y; reflexivity]. destruct y as [b| | |]; cbn; try (left; reflexivity); try (right; reflexivity).
  destruct (Req_EM_T b 0) as [e|e]; [right; unfold signed_inf; destruct (Rlt_dec 0 0); [lra|]; destruct (Rlt_dec 0 0); [lra|reflexivity]|left; unfold Rdiv; rewrite Rmult_0_l; reflexivity].
Qed.
Lemma dead_mul x w : no_signal x -> no_signal (x * Fin w)%X.
Proof. intros [->| ->]; [left; cbn; rewrite Rmult_0_l; reflexivity|right; reflexivity]. Qed.
Lemma dead_sum l : Forall no_signal l -> no_signal (xsum l).
Proof.
  induction 1 as [|x l Hx Hl IH]; [left; reflexivity|]. change (xsum (x :: l)) with (x + xsum l)%X.
  destruct Hx as [->| ->]; [|right; reflexivity]. destruct IH as [->| ->]; [left; cbn; rewrite Rplus_0_l; reflexivity|right; reflexivity].
Qed.

Lemma cell_dead X Y W LO HI E1 E2 r k : length X = length Y -> length W = length X -> increasing E1 -> (2 <= length E1)%nat ->
  increasing E2 -> (2 <= length E2)%nat -> cells LO HI ->
  compute_diff_histograms_mstar_ssfr_atz (map Fin X) (map Fin Y) (map Fin W) (map (map Fin) LO) (map (map Fin) HI) (map Fin E1) (map Fin E2) = Some r ->
  (k < length LO)%nat -> (forall y, In y Y -> y + 3 * mean_bin E2 <= nth 1 (nth k LO []) 0 \/ nth 1 (nth k HI []) 0 <= y - 3 * mean_bin E2) -> no_signal (nth k r NaN).
Proof.
  intros H1 HW I1 L1 I2 L2 HC. unfold compute_diff_histograms_mstar_ssfr_atz. cbv zeta. unfold len. rewrite !map_length.
  rewrite !mean_sigma by assumption. rewrite !pairs2_fin by (rewrite ?repeat_length; auto).
  pose proof (mean_bin_pos E1 I1 L1) as P1. pose proof (mean_bin_pos E2 I2 L2) as P2.
  assert (LX : length (map2 (fun x y : R => [x; y]) X Y) = length X) by (rewrite map2_length; lia).
  rewrite (whist_fin 2);
    [|apply points2; assumption|rewrite LX; exact HW|clear -HC; induction HC as [|? ? ? ? [? [? ?]]]; constructor; auto].
  rewrite combine2_nth by assumption. intros E Hk Hy. apply Some_inj in E. subst r. pose proof (F2_length _ _ _ HC) as LC.
  rewrite (nth_map _ _ k NaN) by (rewrite !map_length, combine_length; lia). apply dead_div. left.
  rewrite (nth_map Fin _ k 0) by (rewrite map_length, combine_length; lia). apply f_equal.
  rewrite (nth_map _ _ k ([], [])) by (rewrite combine_length; lia). rewrite combine_nth by exact LC. cbn [fst snd]. rewrite map_map. cbn [fst snd].
  pose proof (F2_nth _ _ _ HC k [] [] Hk) as (C1 & C2 & C3).
  assert (Z : forall i, In i (seq 0 (length X)) -> cell_mass [nth i X 0; nth i Y 0] [mean_bin E1; mean_bin E2] (nth k LO []) (nth k HI []) * nth i W 0 = 0).
  { intros i Hi. apply in_seq in Hi. destruct (nth k LO []) as [|a [|b [|]]]; try discriminate C1. destruct (nth k HI []) as [|c [|d [|]]]; try discriminate C2.
    inversion C3 as [|? ? ? ? _ C4]; subst. inversion C4 as [|? ? ? ? C5 _]; subst. cbn [cell_mass nth] in *.
    rewrite (proj2 (tw_mass_zero_iff (nth i Y 0) (mean_bin E2) b d P2 C5)); [ring|]. apply Hy, nth_In. lia. }
  rewrite (map_ext_in _ _ _ Z). clear. induction (seq 0 (length X)); cbn; [reflexivity|]. unfold Rsum in *. rewrite IHl. ring.
Qed.

Lemma matrices_dead nms nsf ps Wt idx ids r j : (j < nsf)%nat ->
  Forall (fun m => forall a, (a < nms)%nat -> no_signal (nth j (nth a m []) NaN)) ps ->
  conditional_pdfs nms nsf ps (map (map Fin) Wt) idx ids = Some r ->
  forall z t, no_signal (nth j (nth t (nth z r []) []) NaN).
Proof.
  intros Hj Hp HR z t. unfold conditional_pdfs in HR. destruct (same_len _ _) eqn:SL; [|discriminate HR]. apply vmap_spec in HR.
  destruct (Nat.lt_ge_cases z (length r)) as [Hz|Hz]; [|right; rewrite (nth_overflow r) by exact Hz; destruct t, j; reflexivity].
  pose proof (F2_length _ _ _ HR) as LR. pose proof (F2_nth _ _ _ HR z ([], []) [] ltac:(lia)) as Ez. cbv beta in Ez.
  destruct (nth z (combine (map (map Fin) Wt) idx) ([], [])) as [w ix] eqn:EN. destruct (same_len w ix); [|discriminate Ez]. apply Some_inj in Ez. rewrite <- Ez.
  assert (FW : exists w', w = map Fin w').
  { destruct (Nat.lt_ge_cases z (length (combine (map (map Fin) Wt) idx))) as [A|A]; [|rewrite nth_overflow in EN by exact A; exists []; inversion EN; reflexivity].
    pose proof (nth_In _ ([], []) A) as B. rewrite EN in B. apply in_combine_l in B. apply in_map_iff in B as (w' & <- & _). exists w'. reflexivity. }
  destruct FW as (w' & ->).
  destruct (Nat.lt_ge_cases t (length ids)) as [Ht|Ht]; [|right; rewrite (nth_overflow (map _ _)) by (rewrite !map_length; exact Ht); destruct j; reflexivity].
  rewrite (nth_map _ _ t (repeat NaN nsf)) by (rewrite map_length; exact Ht). rewrite (nth_map _ ids t 0%nat) by exact Ht.
  set (row := take_row _ _ _).
  destruct (Nat.lt_ge_cases j (length row)) as [Lj|Lj]; [|right; apply nth_overflow; rewrite map_length; exact Lj].
  rewrite (nth_map _ _ j NaN) by exact Lj. apply dead_div. unfold row, take_row.
  destruct (Nat.lt_ge_cases (nth t ids 0%nat) nms) as [Ha|Ha].
  - unfold weighted_sum_matrices. rewrite nth_map_seq by exact Ha. rewrite nth_map_seq by exact Hj. apply dead_sum.
    assert (D : Forall (fun m => no_signal (ent m (nth t ids 0%nat) j)) (map (take_matrix nms nsf ps) ix)).
    { apply Forall_map, Forall_forall. intros i _. unfold ent, at_, take_matrix. destruct (Nat.lt_ge_cases i (length ps)) as [Li|Li].
      - apply (F_nth _ _ i (nan_matrix nms nsf) Hp Li _ Ha).
      - rewrite (nth_overflow ps) by exact Li. right. unfold nan_matrix. rewrite MatrixProofs.nth_repeat_lt by exact Ha. apply MatrixProofs.nth_repeat_lt, Hj. }
    clear -D. revert w'. induction D as [|m ms Hm D IH]; intros [|x w']; cbn [map map2]; constructor; [apply dead_mul, Hm|apply IH].
  - right. rewrite (nth_overflow (weighted_sum_matrices _ _ _ _)) by (unfold weighted_sum_matrices; rewrite map_length, seq_length; exact Ha). apply MatrixProofs.nth_repeat_lt, Hj.
Qed.

Lemma first_entry {A} k (l : list A) : forall j d, (j < k)%nat -> nth j (firstn k l) d = nth j l d.
Proof. revert l. induction k as [|k IH]; intros [|x l] [|j] d H; try lia; try reflexivity. cbn. apply IH. lia. Qed.
Lemma skip_entry {A} k (l : list A) : forall j d, nth j (skipn k l) d = nth (k + j) l d.
Proof. revert l. induction k as [|k IH]; intros [|x l] j d; try reflexivity; [destruct j; reflexivity|]. cbn. apply IH. Qed.
Lemma chunks_entry {A} k d : forall n (l : list A) a j, (a < n)%nat -> (j < k)%nat -> nth j (nth a (chunks n k l) []) d = nth (a * k + j) l d.
Proof.
  induction n as [|n IH]; intros l a j Ha Hj; [lia|]. cbn [chunks]. destruct a as [|a]; cbn [nth Nat.mul].
  - apply first_entry, Hj.
  - rewrite IH by lia. rewrite skip_entry, Nat.add_assoc. reflexivity.
Qed.
Lemma flat_entry {A B} (f : A -> list B) k d d' : (forall x, length (f x) = k) -> forall l a j, (a < length l)%nat -> (j < k)%nat ->
  nth (a * k + j) (flat_map f l) d = nth j (f (nth a l d')) d.
Proof.
  intros Hf. induction l as [|x l IH]; intros a j Ha Hj; [cbn in Ha; lia|]. cbn [flat_map]. destruct a as [|a]; cbn [nth Nat.mul].
  - apply app_nth1. rewrite Hf. exact Hj.
  - rewrite app_nth2 by (rewrite Hf; lia). rewrite Hf. replace (k + a * k + j - k)%nat with (a * k + j)%nat by lia. apply IH; [cbn in Ha; lia|exact Hj].
Qed.
Lemma flat_length {A B} (f : A -> list B) k : (forall x, length (f x) = k) -> forall l, length (flat_map f l) = (length l * k)%nat.
Proof. intros Hf. induction l as [|x l IH]; [reflexivity|]. cbn [flat_map]. rewrite app_length, Hf, IH. reflexivity. Qed.
Lemma grid1 E : grid [E] = map (fun c => [c]) (bins_of E).
Proof. cbn [grid]. induction (bins_of E) as [|c l IH]; [reflexivity|]. cbn [flat_map map app]. apply f_equal. exact IH. Qed.
Lemma bins_len E : length (bins_of E) = (length E - 1)%nat.
Proof. unfold bins_of. rewrite combine_length. destruct E as [|x E]; [reflexivity|]. pose proof (app_removelast_last x (l := x :: E) ltac:(discriminate)) as H.
  apply (f_equal (@List.length R)) in H. rewrite app_length in H. cbn [List.length tl] in *. lia. Qed.
Lemma remove_entry (E : list R) : forall j, (S j < length E)%nat -> nth j (removelast E) 0 = nth j E 0.
Proof. induction E as [|x [|y E] IH]; intros j H; try (cbn in H; lia). destruct j as [|j]; [reflexivity|]. change (nth j (removelast (y :: E)) 0 = nth j (y :: E) 0). apply IH. cbn in *. lia. Qed.
Lemma bins_entry E j : (j < length E - 1)%nat -> nth j (bins_of E) (0, 0) = (nth j E 0, nth (S j) E 0).
Proof.
  intros H. pose proof (bins_len E) as L. unfold bins_of in *. assert (LR : length (removelast E) = length (tl E)).
  { rewrite combine_length in L. destruct E as [|x E]; [reflexivity|]. pose proof (app_removelast_last x (l := x :: E) ltac:(discriminate)) as Q.
    apply (f_equal (@List.length R)) in Q. rewrite app_length in Q. cbn [List.length tl] in *. lia. }
  rewrite combine_nth by exact LR. rewrite remove_entry by lia. destruct E as [|x E]; [cbn in H; lia|]. reflexivity.
Qed.
Lemma grid2 E1 E2 : grid [E1; E2] = flat_map (fun b => map (fun c => [b; c]) (bins_of E2)) (bins_of E1).
Proof. change (grid [E1; E2]) with (flat_map (fun b => map (cons b) (grid [E2])) (bins_of E1)). rewrite grid1. apply flat_map_ext. intros b. rewrite map_map. reflexivity. Qed.
Lemma grid_length2 E1 E2 : length (lows (grid [E1; E2])) = ((length E1 - 1) * (length E2 - 1))%nat.
Proof. unfold lows. rewrite map_length, grid2, (flat_length _ (length E2 - 1)), bins_len by (intros x; rewrite map_length; apply bins_len). reflexivity. Qed.
Lemma grid_lo2 E1 E2 a j : (a < length E1 - 1)%nat -> (j < length E2 - 1)%nat ->
  nth 1 (nth (a * (length E2 - 1) + j) (lows (grid [E1; E2])) []) 0 = nth j E2 0.
Proof.
  intros Ha Hj. transitivity (nth 1 (map fst (nth (a * (length E2 - 1) + j) (grid [E1; E2]) [])) 0).
  { unfold lows. apply f_equal2; [|reflexivity]. exact (map_nth (map fst) (grid [E1; E2]) [] _). }
  rewrite grid2.
  rewrite (flat_entry _ (length E2 - 1) [] (0, 0)); [|intros x; rewrite map_length; apply bins_len|rewrite bins_len; exact Ha|exact Hj].
  rewrite (nth_map _ _ j (0, 0)) by (rewrite bins_len; exact Hj). cbn [map nth]. rewrite bins_entry by exact Hj. reflexivity.
Qed.
Lemma grid_hi2 E1 E2 a j : (a < length E1 - 1)%nat -> (j < length E2 - 1)%nat ->
  nth 1 (nth (a * (length E2 - 1) + j) (highs (grid [E1; E2])) []) 0 = nth (S j) E2 0.
Proof.
  intros Ha Hj. transitivity (nth 1 (map snd (nth (a * (length E2 - 1) + j) (grid [E1; E2]) [])) 0).
  { unfold highs. apply f_equal2; [|reflexivity]. exact (map_nth (map snd) (grid [E1; E2]) [] _). }
  rewrite grid2.
  rewrite (flat_entry _ (length E2 - 1) [] (0, 0)); [|intros x; rewrite map_length; apply bins_len|rewrite bins_len; exact Ha|exact Hj].
  rewrite (nth_map _ _ j (0, 0)) by (rewrite bins_len; exact Hj). cbn [map nth]. rewrite bins_entry by exact Hj. reflexivity.
Qed.
Lemma grid_cells E1 E2 : increasing E1 -> increasing E2 -> cells (lows (grid [E1; E2])) (highs (grid [E1; E2])).
Proof.
  intros I1 I2. unfold cells, lows, highs. rewrite grid2.
  assert (B : forall E, increasing E -> Forall (fun c => fst c < snd c) (bins_of E)).
  { intros E I. apply Forall_forall. intros c Hc. destruct (In_nth _ _ (0, 0) Hc) as (j & Hj & <-). rewrite bins_len in Hj. rewrite bins_entry by exact Hj.
    cbn [fst snd]. apply (DtProofs.increasing_nth_lt E I); lia. }
  pose proof (B E1 I1) as B1. pose proof (B E2 I2) as B2. clear B.
  assert (Q : Forall (fun g => length g = 2%nat /\ Forall2 Rlt (map fst g) (map snd g)) (flat_map (fun b => map (fun c => [b; c]) (bins_of E2)) (bins_of E1))).
  { apply Forall_forall. intros g Hg. apply in_flat_map in Hg as (b & Hb & Hg). apply in_map_iff in Hg as (c & <- & Hc).
    rewrite Forall_forall in B1, B2. specialize (B1 b Hb). specialize (B2 c Hc). split; [reflexivity|]. repeat constructor; assumption. }
  clear -Q. induction Q as [|g l [Q1 Q2] Q IH]; cbn [map]; constructor; [|exact IH]. rewrite !map_length. auto.
Qed.

(** ** Populations *)
Section Pop.
Variable key : Type.
Variable split : key -> nat -> list key.
Variable uniform : key -> xr.
Variable mvn : key -> list xr -> matrix -> list xr.
Variable lmk : MahParams xr -> xr -> xr -> xr.
Hypothesis Hsplit : splits_ok split.
Hypothesis Hmvn : mvn_ok mvn.

Lemma sim_rows p P n tobs z lgt0 fb res : holds "" p P -> pop_in_bounds P -> slopes_nonzero P -> sim_ok lmk lgt0 n tobs z ->
  mc_sfh_at_tobs key split uniform mvn lmk p z lgt0 (Fin fb) = Some res ->
  forall i, (i < n)%nat -> exists pms pq h, halo_history lmk (gal_mah (z_mah key z) i) lgt0 h (obs_times tobs) /\
    nth i (sfh_ms res) [] = calc_sfh_singlegal lmk (map_d Fin pms) (gal_mah (z_mah key z) i) (map Fin (obs_times tobs)) lgt0 (Fin fb) /\
    nth i (sfh_q res) [] = calc_sfh_singlegal lmk (map_d Fin pq) (gal_mah (z_mah key z) i) (map Fin (obs_times tobs)) lgt0 (Fin fb).
Proof.
  intros Hp Hb Hs (m & tp & mu & mh & gy & E1 & E2 & E3 & E4 & E5 & E6 & Ht & L1 & L2 & L3 & L4 & L5 & L6 & Hc & Hh) ER i Hi.
  assert (A : pop_args n (map Fin m) (t_peak (z_mah key z)) (z_upid key z) (map Fin mu) (map Fin mh) (map Fin gy)).
  { unfold pop_args. rewrite E2, !map_length. tauto. }
  unfold mc_sfh_at_tobs in ER. rewrite E1, E3, E4, E5, E6 in ER. rewrite grid_fin in ER by lra.
  destruct (s_pop_inv split uniform mvn lmk Hsplit n _ _ _ _ _ _ _ _ _ _ _ _ Hc A ER) as (_ & _ & _ & _ & _ & _ & _ & _ & HR).
  specialize (HR i Hi). apply sfh_single_consistent in HR as (X1 & X2 & X3).
  cbn [diffstar_params_ms diffstar_params_q sfh_ms sfh_q frac_q mc_is_q] in X1, X2, X3.
  change (t_peak (gal_mah (z_mah key z) i)) with (nth i (t_peak (z_mah key z)) NaN) in X1. rewrite E2 in X1. rewrite !nth_fin in X1 by lia.
  match type of X1 with mc_diffstar_params_singlegal _ _ _ _ _ (Fin ?a) (Fin ?b) ?c (Fin ?d) (Fin ?e) (Fin ?g) ?k = _ =>
    destruct (draws_in_bounds split uniform mvn Hsplit Hmvn p P a b c d e g k Hp Hb Hs) as (pms & pq & f & b0 & Y & _) end.
  rewrite Y in X1. apply Some_inj in X1. apply pair_equal_spec in X1 as [X1 _]. apply pair_equal_spec in X1 as [X1 _].
  apply pair_equal_spec in X1 as [Xa Xb]. rewrite <- Xa in X2. rewrite <- Xb in X3.
  destruct (Hh i Hi) as (h & Hist). exists pms, pq, h. auto.
Qed.

Lemma F2_limit (L : R) : forall S M, length S = length M ->
  (forall i, (i < length S)%nat -> 0 < nth i S 0 /\ 0 < nth i M 0 /\ nth i S 0 / nth i M 0 < L) ->
  forall y, In y (clipped_ssfr S M) -> y <= Rmax (-12) (ln L / ln 10).
Proof.
  pose proof ln10_pos as LT. unfold clipped_ssfr.
  induction S as [|s S IH]; intros [|m M] HL H y Hy; try discriminate HL; [contradiction Hy|]. cbn [map2] in Hy. destruct Hy as [<-|Hy].
  - destruct (H 0%nat ltac:(cbn; lia)) as (A & B & C). cbn [nth] in A, B, C.
    apply Rmax_lub; [|apply Rmax_l]. eapply Rle_trans; [|apply Rmax_r].
    assert (P : 0 < s / m) by (apply Rdiv_lt_0_compat; assumption). pose proof (ln_increasing _ _ P C) as Q.
    unfold Rdiv in Q at 1. rewrite ln_mult, ln_Rinv in Q by (try apply Rinv_0_lt_compat; assumption).
    replace (ln s / ln 10 - ln m / ln 10) with ((ln s + - ln m) / ln 10) by (field; lra).
    left. apply Rmult_lt_compat_r; [apply Rinv_0_lt_compat, LT|exact Q].
  - apply (IH M); [cbn in HL; lia| |exact Hy]. intros i Hi. exact (H (Datatypes.S i) ltac:(cbn; lia)).
Qed.

Lemma tables_limit p P n tobs z lgt0 fb : holds "" p P -> pop_in_bounds P -> slopes_nonzero P -> sim_ok lmk lgt0 n tobs z ->
  exists X Y W, tobs_tables key split uniform mvn lmk p z lgt0 (Fin fb) = Some (map Fin X, map Fin Y, map Fin W) /\
    length X = (2 * n)%nat /\ length Y = (2 * n)%nat /\ length W = (2 * n)%nat /\ Forall (fun y => -12 <= y <= ssfr_limit tobs) Y.
Proof.
  intros Hp Hb Hs Hz.
  destruct (tables_value key split uniform mvn lmk Hsplit Hmvn p P n tobs z lgt0 fb Hp Hb Hs Hz)
    as (res & Sms & Sq & Mms & Mq & f & A1 & A2 & A3 & A4 & A5 & A6 & A7 & A8 & A9 & A10 & A11 & A12).
  pose proof (sim_rows p P n tobs z lgt0 fb res Hp Hb Hs Hz A1) as RW.
  assert (T : 1 / 10 < tobs) by (destruct Hz as (? & ? & ? & ? & ? & _ & _ & _ & _ & _ & _ & T & _); exact T).
  do 3 eexists. split; [exact A12|]. unfold clipped_ssfr at 1. rewrite map2_length, !map_length, !app_length, !map_length.
  split; [lia|]. split; [lia|]. split; [lia|]. apply Forall_forall. intros y Hy. split.
  - clear -Hy. unfold clipped_ssfr in Hy. revert Hy. generalize (Sms ++ Sq) (Mms ++ Mq). induction l as [|s S IH]; intros [|m M] Hy; try contradiction Hy.
    cbn [map2] in Hy. destruct Hy as [<-|Hy]; [apply Rmax_r|apply (IH M Hy)].
  - unfold ssfr_limit. apply (F2_limit _ (Sms ++ Sq) (Mms ++ Mq)); [rewrite !app_length; lia| |exact Hy].
    intros i Hi. rewrite app_length in Hi. destruct (Nat.lt_ge_cases i n) as [Li|Li].
    + rewrite !app_nth1 by lia. destruct (RW i Li) as (pms & pq & h & HH & R1 & R2). destruct (A11 i Li) as [O _].
      rewrite R1 in O. destruct (row_limit lmk pms _ tobs lgt0 fb h _ _ HH T O) as [_ Q]. destruct O as (_ & O1 & m & _ & _ & O2). auto.
    + rewrite !app_nth2 by lia. rewrite A4, A6. assert (Li' : (i - n < n)%nat) by lia. destruct (RW _ Li') as (pms & pq & h & HH & R1 & R2). destruct (A11 _ Li') as [_ O].
      rewrite R2 in O. destruct (row_limit lmk pq _ tobs lgt0 fb h _ _ HH T O) as [_ Q]. destruct O as (_ & O1 & m & _ & _ & O2). auto.
Qed.

Lemma prediction_dead E1 E2 u p P zs lgt0 fb Wt idx ids r j : increasing E1 -> (2 <= length E1)%nat -> increasing E2 -> (j < length E2 - 1)%nat ->
  get_bounded_diffstarpop_params u = Some p -> holds "" p P -> pop_in_bounds P -> slopes_nonzero P ->
  Forall (fun z => exists n tobs, sim_ok lmk lgt0 n tobs z /\
    (ssfr_limit tobs + 3 * mean_bin E2 <= nth j E2 0 \/ nth (S j) E2 0 <= -12 - 3 * mean_bin E2)) zs ->
  mstar_ssfr_kern_tobs key split uniform mvn lmk u zs lgt0 (Fin fb)
    (mkSsfr (map (map Fin) (lows (grid [E1; E2]))) (map (map Fin) (highs (grid [E1; E2]))) (map Fin E1) (map Fin E2) (map (map Fin) Wt) idx ids) = Some r ->
  forall z t, no_signal (nth j (nth t (nth z r []) []) NaN).
Proof.
  intros I1 L1 I2 Hj Hu Hp Hb Hs Hz HR. unfold mstar_ssfr_kern_tobs in HR. rewrite Hu in HR.
  cbn [s_mbins s_sbins s_lo s_hi s_nmhalo s_indx s_ids] in HR. unfold len in HR. rewrite !map_length in HR. cbv zeta in HR.
  destruct (vmap _ zs) as [ps|] eqn:EV; [|discriminate HR]. apply (matrices_dead (length E1 - 1) (length E2 - 1) ps Wt idx ids r j Hj); [|exact HR].
  apply vmap_spec in EV. apply Forall_forall. intros m Hm. destruct (In_nth _ _ [] Hm) as (i & Hi & <-).
  pose proof (F2_length _ _ _ EV) as LV. destruct zs as [|z0 zs'] eqn:EZ; [cbn in LV; lia|]. rewrite <- EZ in *. clear EZ zs'.
  pose proof (F2_nth _ _ _ EV i z0 [] ltac:(lia)) as Em. cbv beta in Em. destruct (F_nth _ _ i z0 Hz ltac:(lia)) as (n & tobs & Hsim & Hlim).
  destruct (tables_limit p P n tobs _ lgt0 fb Hp Hb Hs Hsim) as (X & Y & W & ET & LX & LY & LW & HY). rewrite ET in Em.
  destruct (compute_diff_histograms_mstar_ssfr_atz _ _ _ _ _ _ _) as [h|] eqn:EH; [|discriminate Em].
  unfold reshape2 in Em. destruct (Nat.eqb (len h) _) eqn:EL; [|discriminate Em]. apply Nat.eqb_eq in EL. unfold len in EL. apply Some_inj in Em. rewrite <- Em.
  intros a Ha. rewrite chunks_entry by assumption.
  assert (K : (a * (length E2 - 1) + j < (length E1 - 1) * (length E2 - 1))%nat) by nia.
  apply (cell_dead X Y W (lows (grid [E1; E2])) (highs (grid [E1; E2])) E1 E2 h (a * (length E2 - 1) + j)%nat); try assumption; try lia.
  - apply grid_cells; assumption.
  - rewrite grid_length2. exact K.
  - intros y Hy. rewrite Forall_forall in HY. specialize (HY y Hy). rewrite grid_lo2, grid_hi2 by assumption. destruct Hlim; [left|right]; lra.
Qed.
End Pop.

Lemma pow_strict n a b : 0 <= a -> a < b -> a ^ S n < b ^ S n.
Proof.
  intros A B. induction n as [|n IH]; [simpl; lra|]. change (a * a ^ S n < b * b ^ S n). apply Rle_lt_trans with (b * a ^ S n).
  - apply Rmult_le_compat_r; [apply pow_le, A|lra].
  - apply Rmult_lt_compat_l; lra.
Qed.
Lemma limit_today : ssfr_limit (138 / 10) <= -91 / 10.
Proof.
  pose proof ln10_pos as LT. unfold ssfr_limit. apply Rmax_lub; [lra|].
  set (y := exp ((-1 + 18 / 19 * (ln (138 / 10) / ln 10 + 1)) * ln 10)).
  assert (Y19 : y ^ 19 = (1 / 10) ^ 19 * 138 ^ 18).
  { unfold y. rewrite <- Rpower_pow by apply exp_pos. unfold Rpower. rewrite ln_exp.
    replace (INR 19 * ((-1 + 18 / 19 * (ln (138 / 10) / ln 10 + 1)) * ln 10)) with (18 * ln (138 / 10) + - ln 10) by (rewrite INR_IZR_INZ; cbn; field; lra).
    rewrite exp_plus, exp_Ropp, exp_ln by lra. replace (18 * ln (138 / 10)) with (INR 18 * ln (138 / 10)) by (rewrite INR_IZR_INZ; reflexivity).
    change (exp (INR 18 * ln (138 / 10))) with (Rpower (138 / 10) (INR 18)). rewrite Rpower_pow by lra. field. }
  assert (YL : y <= 1104 / 100).
  { destruct (Rle_lt_dec y (1104 / 100)) as [l|l]; [exact l|exfalso]. assert ((1104 / 100) ^ 19 < y ^ 19).
    { apply (pow_strict 18); lra. }
    rewrite Y19 in H. lra. }
  unfold last_gap. fold y.
  assert (G : 276 / 100 <= 138 / 10 - y) by lra.
  apply Rle_trans with (ln (2 / (10 ^ 9 * (276 / 100))) / ln 10).
  - apply Rmult_le_compat_r; [left; apply Rinv_0_lt_compat, LT|]. apply Rcomplements.ln_le; [apply Rdiv_lt_0_compat; lra|].
    apply Rmult_le_compat_l; [lra|]. apply Rinv_le_contravar; lra.
  - apply Rmult_le_reg_r with (10 * ln 10); [lra|].
    replace (ln (2 / (10 ^ 9 * (276 / 100))) / ln 10 * (10 * ln 10)) with (INR 10 * ln (2 / (10 ^ 9 * (276 / 100)))) by (rewrite INR_IZR_INZ; cbn; field; lra).
    rewrite <- ln_pow by (apply Rdiv_lt_0_compat; lra).
    replace (-91 / 10 * (10 * ln 10)) with (- (INR 91 * ln 10)) by (rewrite INR_IZR_INZ; cbn; field).
    rewrite <- ln_pow, <- ln_Rinv by (try apply pow_lt; lra). apply Rcomplements.ln_le; [apply pow_lt; lra|]. lra.
Qed.
