(** Proofs about the comparison of simulated and fitted histories. *)
From Coq Require Import Reals Lra Lia ZArith List Bool String.
From Verif Require Import XReal RealFacts ModelUtils ModelKernels ModelSfh ModelPop ModelHist ModelFit ModelLoad ModelIO SpecLoad ModelTargets ModelQuality
  SpecCore SpecHist SpecTargets SpecMeasure SpecQuality
  XFacts IntegralProofs SfhProofs DtProofs FstarProofs SmhmProofs FitProofs HistProofs LossProofs PopProofs SplitProofs LoadProofs MoreLoadProofs SnapshotProofs
  TargetProofs TargetDataProofs TargetTopProofs MeasureProofs MeasureTopProofs.
Import List ListNotations.
Open Scope R_scope.
Local Notation length := List.length.

(** ** One value *)
Lemma log10R_zero m : 0 < m -> log10R m = 0 <-> m = 1.
Proof.
  intros H. split.
  - intros E. rewrite <- (pow10_log10 m H), E. unfold pow10R. rewrite Rmult_0_l. apply exp_0.
  - intros ->. unfold log10R. rewrite ln_1. unfold Rdiv. ring.
Qed.
Lemma undo_fit l : undo_log (Fin l) = if Req_EM_T l 0 then NaN else Fin (pow10R l).
Proof. unfold undo_log, xeq, Reqb. destruct (Req_EM_T l 0); reflexivity. Qed.
Lemma undo_mass m : 0 < m -> undo_log (xlog10 (Fin m)) = if Req_EM_T m 1 then NaN else Fin m.
Proof.
  intros H. rewrite xlog10_fin, undo_fit by exact H. pose proof (log10R_zero m H) as [A B].
  destruct (Req_EM_T (log10R m) 0) as [e|e], (Req_EM_T m 1) as [e'|e']; try reflexivity; try tauto. rewrite pow10_log10 by exact H. reflexivity.
Qed.
Lemma undo_sfr s : 0 <= s -> undo_log (log_or_0 (Fin s)) = if Req_EM_T s 0 then NaN else if Req_EM_T s 1 then NaN else Fin s.
Proof.
  intros H. unfold log_or_0. rewrite xlt_dec. destruct (Rlt_dec 0 s) as [h|h], (Req_EM_T s 0) as [e|e]; try lra.
  - rewrite undo_mass by exact h. reflexivity.
  - rewrite undo_fit. destruct (Req_EM_T 0 0); [reflexivity|lra].
Qed.
Lemma floor_product a b : 0 < b -> (np_clip (Fin a / Fin b) SSFR_FLOOR PInf * Fin b)%X = Fin (Rmax a (b / 10 ^ 12)).
Proof.
  intros H. rewrite xdiv_fin by lra. unfold SSFR_FLOOR. rewrite clip_lo_fin. cbn [xmul]. f_equal.
  rewrite Rmult_comm, <- RmaxRmult by lra. f_equal; field; lra.
Qed.
Definition data_sfr (a b : xr) : xr := if (Fin 0 <? b)%X then (np_clip (a / b) SSFR_FLOOR PInf * b)%X else a.
Lemma mass_value m : 0 < m -> nan0 (undo_log (xlog10 (Fin m))) = Fin (mass_seen m).
Proof. intros H. rewrite undo_mass by exact H. unfold mass_seen. destruct (Req_EM_T m 1); reflexivity. Qed.
Lemma clip_nan lo : np_clip NaN lo PInf = NaN.
Proof. reflexivity. Qed.
Lemma sfr_value s m : 0 <= s -> 0 < m -> nan0 (data_sfr (undo_log (log_or_0 (Fin s))) (undo_log (xlog10 (Fin m)))) = Fin (sfr_seen s m).
Proof.
  intros Hs Hm. rewrite undo_mass, undo_sfr by assumption. unfold sfr_seen, data_sfr.
  destruct (Req_EM_T m 1) as [e|e].
  - cbn [xlt]. destruct (Req_EM_T s 0), (Req_EM_T s 1); reflexivity.
  - rewrite xlt_dec. destruct (Rlt_dec 0 m); [|contradiction].
    destruct (Req_EM_T s 0); [reflexivity|]. destruct (Req_EM_T s 1); [reflexivity|]. rewrite floor_product by exact Hm. reflexivity.
Qed.
Lemma pow10_pos l : 0 < pow10R l.
Proof. apply exp_pos. Qed.
Lemma mass_fit_value lm : nan0 (undo_log (Fin lm)) = Fin (mass_fitted lm).
Proof. rewrite undo_fit. unfold mass_fitted. destruct (Req_EM_T lm 0); reflexivity. Qed.
Lemma sfr_fit_value ls lm : nan0 (np_clip (undo_log (Fin ls) / undo_log (Fin lm)) SSFR_FLOOR PInf * undo_log (Fin lm))%X = Fin (sfr_fitted ls lm).
Proof.
  rewrite !undo_fit. unfold sfr_fitted. destruct (Req_EM_T ls 0), (Req_EM_T lm 0); try reflexivity.
  rewrite floor_product by apply pow10_pos. reflexivity.
Qed.

(** ** Interpolation *)
Lemma pwl_segment T : forall Y i x, length T = length Y -> increasing T -> (S i < length T)%nat -> nth i T 0 < x <= nth (S i) T 0 ->
  pwl (combine T Y) x = nth i Y 0 + (nth (S i) Y 0 - nth i Y 0) / (nth (S i) T 0 - nth i T 0) * (x - nth i T 0).
Proof.
  induction T as [|a T IH]; intros Y i x HL HI Hi Hx; [cbn in Hi; lia|].
  destruct Y as [|y Y]; [discriminate|]. destruct T as [|b T]; [cbn in Hi; lia|]. destruct Y as [|z Y]; [discriminate|].
  destruct i as [|i].
  - cbn [combine]. rewrite pwl_first by (cbn in Hx; lra). reflexivity.
  - assert (b < x).
    { pose proof (increasing_nth_lt (a :: b :: T) HI) as M. destruct (Nat.eq_dec i 0) as [->|n]; [cbn in Hx; lra|].
      assert (nth 1 (a :: b :: T) 0 < nth (S i) (a :: b :: T) 0) by (apply M; cbn [length] in *; lia). cbn [nth] in *. lra. }
    cbn [combine]. rewrite pwl_rest by assumption. change ((b, z) :: combine T Y) with (combine (b :: T) (z :: Y)).
    rewrite (IH (z :: Y) i x); [reflexivity|cbn in *; lia|exact (proj2 HI)|cbn in *; lia|exact Hx].
Qed.
Lemma pwl_beyond T : forall Y x, length T = length Y -> T <> [] -> last T 0 < x -> increasing T -> pwl (combine T Y) x = last Y 0.
Proof.
  induction T as [|a T IH]; intros Y x HL HN Hx HI; [contradiction|]. destruct Y as [|y Y]; [discriminate|].
  destruct T as [|b T]; [destruct Y; [reflexivity|discriminate]|]. destruct Y as [|z Y]; [discriminate|].
  change (last (a :: b :: T) 0) with (last (b :: T) 0) in Hx. change (last (y :: z :: Y) 0) with (last (z :: Y) 0).
  cbn [combine]. rewrite pwl_rest.
  - change ((b, z) :: combine T Y) with (combine (b :: T) (z :: Y)). apply IH; [cbn in *; lia|discriminate|exact Hx|exact (proj2 HI)].
  - apply Rle_lt_trans with (last (b :: T) 0); [|exact Hx]. destruct HI as [_ HI]. clear - HI.
    revert b HI. induction T as [|c T IH]; intros b HI; [right; reflexivity|]. change (last (b :: c :: T) 0) with (last (c :: T) 0).
    destruct HI as [h HI]. specialize (IH c HI). lra.
Qed.
Lemma last_nth (l : list R) : last l 0 = nth (length l - 1) l 0.
Proof.
  induction l as [|x [|y l] IH]; [reflexivity..|]. change (last (x :: y :: l) 0) with (last (y :: l) 0). rewrite IH. cbn [length Nat.sub]. rewrite Nat.sub_0_r. reflexivity.
Qed.
Lemma hd_nth (l : list R) : hd 0 l = nth 0 l 0.
Proof. destruct l; reflexivity. Qed.
Lemma interp_value T Y x : length T = length Y -> (2 <= length T)%nat -> increasing T ->
  jnp_interp (Fin x) (map Fin T) (map Fin Y) = Fin (interp T Y x).
Proof.
  intros HL H2 HI. destruct (jnp_interp_fin x T Y HL ltac:(lia) HI) as (v & E & A & B & C). rewrite E. f_equal.
  unfold interp. rewrite !hd_nth. destruct (Rle_dec x (nth 0 T 0)) as [h|h]; [apply A, h|].
  destruct (Rlt_le_dec (nth (length T - 1) T 0) x) as [h'|h'].
  { rewrite B by lra. rewrite pwl_beyond; [rewrite last_nth, HL; reflexivity|exact HL|destruct T; [cbn in H2; lia|discriminate]|rewrite last_nth; exact h'|exact HI]. }
  destruct (locate T x HI H2) as [l|[l|(k & Hk & l)]]; [lra| |].
  - rewrite B by exact l. assert (x = nth (length T - 1) T 0) by lra. subst x.
    assert (M := increasing_nth_lt T HI (length T - 2) (length T - 1) ltac:(lia) ltac:(lia)).
    rewrite (pwl_segment T Y (length T - 2)); [|exact HL|exact HI|lia|replace (S (length T - 2)) with (length T - 1)%nat by lia; lra].
    replace (S (length T - 2)) with (length T - 1)%nat by lia. field. lra.
  - rewrite (C k Hk l). destruct (Req_EM_T x (nth k T 0)) as [e|e].
    + (* on a knot: the segment to the left ends there *)
      destruct k as [|k]; [exfalso; lra|].
      assert (M := increasing_nth_lt T HI k (S k) ltac:(lia) ltac:(lia)).
      rewrite (pwl_segment T Y k); [|exact HL|exact HI|lia|rewrite e; lra]. rewrite e. field.
      assert (M' := increasing_nth_lt T HI (S k) (S (S k)) ltac:(lia) ltac:(lia)). split; lra.
    + rewrite (pwl_segment T Y k); [reflexivity|exact HL|exact HI|exact Hk|lra].
Qed.

(** ** Mass formed *)
Lemma cumR_ge l : forall a fa c, increasing (a :: map fst l) -> 0 <= fa -> Forall (fun p => 0 <= snd p) l -> Forall (fun x => c <= x) (cumR a fa c l).
Proof.
  induction l as [|[b fb] l IH]; intros a fa c HI Hf HF; [constructor|]. inversion HF as [|? ? F1 F2]; subst. cbn [snd] in F1.
  destruct HI as [h HI]. cbn [fst] in h. cbn [cumR].
  assert (0 <= (b - a) * (fb + fa)) by (apply Rmult_le_pos; lra).
  constructor; [lra|]. eapply Forall_impl; [|apply (IH b fb _ HI F1 F2)]. cbv beta. intros. lra.
Qed.
Lemma massR_positive ts ss : length ts = length ss -> increasing (1 / 1000 :: ts) -> Forall (fun s => 0 <= s) ss -> Forall (fun m => 0 < m) (massR ts ss).
Proof.
  intros HL HI HS. unfold massR. rewrite Forall_map. destruct ts as [|t ts]; [constructor|]. destruct ss as [|s ss]; [discriminate|].
  inversion HS as [|? ? S1 S2]; subst. destruct HI as [h HI]. cbn [combine cumR].
  assert (P : 0 < 0 + (t - T_BIRTH_MIN_R) * (s + SFR_MIN_R) / 2).
  { assert (0 < (t - T_BIRTH_MIN_R) * (s + SFR_MIN_R)) by (apply Rmult_lt_0_compat; unfold T_BIRTH_MIN_R, SFR_MIN_R; lra). lra. }
  constructor; [apply Rmult_lt_0_compat; lra|].
  eapply Forall_impl; [|apply (cumR_ge (combine ts ss))].
  - cbv beta. intros x Hx. apply Rmult_lt_0_compat; lra.
  - rewrite map_fst_combine by (cbn in HL; lia). exact HI.
  - exact S1.
  - apply Forall_snd_combine. exact S2.
Qed.

(** ** Arrays of one subvolume *)
Lemma Fin_row (L : list R) w : length L = w -> map Fin L = map (fun k => Fin (nth k L 0)) (seq 0 w).
Proof. intros <-. rewrite (list_as_seq L 0) at 1. rewrite map_map. reflexivity. Qed.
Lemma map_map2 {A B C D} (o : C -> D) (f : A -> B -> C) l : forall m, map o (map2 f l m) = map2 (fun a b => o (f a b)) l m.
Proof. induction l as [|a l IH]; intros [|b m]; cbn [map2 map]; [reflexivity..|]. rewrite IH. reflexivity. Qed.
Lemma map2_rows {A B C D} (o : A -> B -> C) (f : nat -> D -> A) (g : nat -> D -> B) (ks : list D) (G : list nat) :
  map2 (map2 o) (map (fun x => map (f x) ks) G) (map (fun x => map (g x) ks) G) = map (fun x => map (fun k => o (f x k) (g x k)) ks) G.
Proof. rewrite map2_map_same. apply map_ext. intros x. apply map2_map_same. Qed.
Lemma map_rows {A B D} (o : A -> B) (f : nat -> D -> A) (ks : list D) (G : list nat) :
  map (map o) (map (fun x => map (f x) ks) G) = map (fun x => map (fun k => o (f x k)) ks) G.
Proof. rewrite map_map. apply map_ext. intros x. apply map_map. Qed.

Lemma combine_same_map {A B} (f : A -> B) l : combine l (map f l) = map (fun x => (x, f x)) l.
Proof. induction l as [|a l IH]; [reflexivity|]. cbn [map combine]. rewrite IH. reflexivity. Qed.

Section Rows.
Variables (T t : list R) (I : list nat) (sel : nat -> bool) (mpx : nat -> xr) (D MD SF SM : nat -> list R).
Let G := filter sel I.
Let w := length t.
Let ks := seq 0 w.
Hypothesis IT : increasing T.
Hypothesis LT : (2 <= length T)%nat.
Hypothesis LG : forall g, In g G -> length (D g) = w /\ length (MD g) = w /\ length (SF g) = length T /\ length (SM g) = length T.
Variable tb : Tables.
Hypothesis BT : tb_t tb = map Fin T.
Hypothesis BS : tb_log_smh tb = map (fun g => map Fin (map log10R (SM g))) G.
Hypothesis BF : tb_log_ssfr tb = map (fun g => map Fin (map2 (fun a b => log10R a - log10R b) (SF g) (SM g))) G.

Definition d_mass g k := undo_log (xlog10 (Fin (nth k (MD g) 0))).
Definition d_sfr g k := data_sfr (undo_log (log_or_0 (Fin (nth k (D g) 0)))) (d_mass g k).
Definition l_mass g k := interp T (map log10R (SM g)) (nth k t 0).
Definition l_sfr g k := interp T (map log10R (SF g)) (nth k t 0).
Definition f_mass g k := undo_log (Fin (l_mass g k)).
Definition f_sfr g k := (np_clip (undo_log (Fin (l_sfr g k)) / f_mass g k) SSFR_FLOOR PInf * f_mass g k)%X.

Lemma log_sfh_rows : map2 (map2 xadd) (tb_log_ssfr tb) (tb_log_smh tb) = map (fun g => map Fin (map log10R (SF g))) G.
Proof.
  rewrite BF, BS, map2_map_same. apply map_ext_in. intros g Hg. destruct (LG g Hg) as (_ & _ & L3 & L4).
  revert L3 L4. generalize (length T). generalize (SF g), (SM g).
  intros a b n. revert b n. induction a as [|x a IH]; intros b n La Lb.
  { cbn in La. destruct b; [reflexivity|cbn in Lb; lia]. }
  destruct b as [|y b]; [cbn in *; lia|]. destruct n as [|n]; [discriminate|]. cbn [map2 map]. rewrite (IH b n) by (cbn in *; lia).
  f_equal. cbn [xadd]. f_equal. ring.
Qed.
Lemma interp_row (Y : nat -> list R) : (forall g, In g G -> length (Y g) = length T) ->
  interp_rows (map Fin t) (map Fin T) (map (fun g => map Fin (Y g)) G) = map (fun g => map (fun k => Fin (interp T (Y g) (nth k t 0))) ks) G.
Proof.
  intros H. unfold interp_rows. rewrite map_map. apply map_ext_in. intros g Hg.
  rewrite (Fin_row t w eq_refl), map_map. apply map_ext. intros k. apply interp_value; [symmetry; apply H, Hg|exact LT|exact IT].
Qed.

Lemma quality_rows_value :
  quality_rows tb (map sel I) (map (fun g => map xlog10 (map Fin (MD g))) I) (map (fun g => map Fin (D g)) I) (map mpx I) (map Fin t)
  = Some (mkRows (map mpx G) (map (fun g => map (d_mass g) ks) G) (map (fun g => map (f_mass g) ks) G)
            (map (fun g => map (d_sfr g) ks) G) (map (fun g => map (f_sfr g) ks) G)).
Proof.
  unfold quality_rows. rewrite log_sfh_rows, BT, BS, map_map, !mask_map. fold G. cbv zeta.
  rewrite !interp_row by (intros g Hg; rewrite map_length; apply LG; exact Hg).
  replace (map (fun g => map xlog10 (map Fin (MD g))) G) with (map (fun g => map (fun k => xlog10 (Fin (nth k (MD g) 0))) ks) G).
  2:{ apply map_ext_in. intros g Hg. rewrite (Fin_row (MD g) w) by (apply LG; exact Hg). rewrite map_map. reflexivity. }
  replace (map (fun x => map log_or_0 (map Fin (D x))) G) with (map (fun g => map (fun k => log_or_0 (Fin (nth k (D g) 0))) ks) G).
  2:{ apply map_ext_in. intros g Hg. rewrite (Fin_row (D g) w) by (apply LG; exact Hg). rewrite map_map. reflexivity. }
  rewrite !map_rows, !map2_rows, !map_rows, !map2_rows.
  reflexivity.
Qed.

(** *** Adding to the bins *)
Variables (E : list R) (mp : nat -> R).
Hypothesis MP : forall g, In g G -> mpx g = Fin (mp g).
Hypothesis POS : forall g, In g G -> Forall (fun s => 0 <= s) (D g) /\ Forall (fun m => 0 < m) (MD g).
Definition part_sum (v : nat -> nat -> R) (H : list nat) (i k : nat) : xr := Fin (Rsum (map (fun g => v g k) (filter (fun g => interior E i (mp g)) H))).
Definition v_md g k := mass_seen (nth k (MD g) 0).
Definition v_mf g k := mass_fitted (l_mass g k).
Definition v_sd g k := sfr_seen (nth k (D g) 0) (nth k (MD g) 0).
Definition v_sf g k := sfr_fitted (l_sfr g k) (l_mass g k).
Definition sums_of (H : list nat) : list BinSums :=
  map (fun i => mkSums (map (part_sum v_md H i) ks) (map (part_sum v_mf H i) ks) (map (part_sum v_sd H i) ks) (map (part_sum v_sf H i) ks)
                  (Fin (INR (count (fun g => interior E i (mp g)) H)))) (seq 0 (length E - 1)).

Lemma total_value (x : nat -> nat -> xr) (v : nat -> nat -> R) i : (forall g k, In g G -> (k < w)%nat -> nan0 (x g k) = Fin (v g k)) ->
  nansum0 w (map (fun g => map (x g) ks) (filter (fun g => interior E i (mp g)) G)) = Some (map (part_sum v G i) ks).
Proof.
  intros H. unfold nansum0. rewrite (proj2 (forallb_forall _ _)).
  2:{ intros r Hr. apply in_map_iff in Hr. destruct Hr as (g & <- & _). unfold ks. rewrite map_length, seq_length. apply Nat.eqb_refl. }
  f_equal. apply map_ext_in. intros k Hk. apply in_seq in Hk. unfold part_sum. rewrite map_map.
  rewrite <- xsum_fin, map_map. f_equal. apply map_ext_in. intros g Hg. apply filter_In in Hg.
  unfold at_. rewrite (nth_map_nat _ _ k 0%nat) by (unfold ks; rewrite seq_length; lia). unfold ks. rewrite seq_nth by lia. apply H; [apply Hg|lia].
Qed.

Lemma all_nan0 g k : In g G -> (k < w)%nat ->
  nan0 (d_mass g k) = Fin (v_md g k) /\ nan0 (f_mass g k) = Fin (v_mf g k) /\ nan0 (d_sfr g k) = Fin (v_sd g k) /\ nan0 (f_sfr g k) = Fin (v_sf g k).
Proof.
  intros Hg Hk. destruct (LG g Hg) as (L1 & L2 & _ & _). destruct (POS g Hg) as [P1 P2]. rewrite Forall_forall in P1, P2.
  assert (0 <= nth k (D g) 0) by (apply P1, nth_In; lia). assert (0 < nth k (MD g) 0) by (apply P2, nth_In; lia).
  split; [apply mass_value; assumption|]. split; [apply mass_fit_value|]. split; [apply sfr_value; assumption|apply sfr_fit_value].
Qed.
Lemma masksel_value i : (S i < length E)%nat -> map (in_open_bin (map Fin E) i) (map mpx G) = map (fun g => interior E i (mp g)) G.
Proof.
  intros H. rewrite map_map. apply map_ext_in. intros g Hg. rewrite MP by exact Hg. apply in_open_bin_fin. lia.
Qed.
Lemma part_sum_app v H i : map2 xadd (map (part_sum v H i) ks) (map (part_sum v G i) ks) = map (part_sum v (H ++ G) i) ks.
Proof.
  rewrite map2_map_same. apply map_ext. intros k. unfold part_sum. rewrite filter_app, map_app, Rsum_app. reflexivity.
Qed.
Lemma add_rows_value H :
  add_rows w w (map Fin E) (mkRows (map mpx G) (map (fun g => map (d_mass g) ks) G) (map (fun g => map (f_mass g) ks) G)
            (map (fun g => map (d_sfr g) ks) G) (map (fun g => map (f_sfr g) ks) G)) (sums_of H) = Some (sums_of (H ++ G)).
Proof.
  unfold add_rows, sums_of at 1. rewrite nbins_fin, combine_same_map.
  rewrite (vmap_map_some _ (fun ib => nth (fst ib) (sums_of (H ++ G)) (no_sums 0))).
  2:{ intros [i b] Hib. apply in_map_iff in Hib. destruct Hib as (i' & Ei & Hi). inversion Ei; subst i' b; clear Ei. apply in_seq in Hi.
      unfold add_bin. cbn [r_logmp0 r_smahs_data r_smahs_fits r_sfrh r_sfrh_fits s_mstar_data s_mstar_fit s_sfr_data s_sfr_fit s_ngals fst].
      rewrite masksel_value by lia. cbv zeta. rewrite !mask_map, Nat.eqb_refl.
      rewrite (total_value d_mass v_md) by (intros; apply all_nan0; assumption).
      rewrite (total_value f_mass v_mf) by (intros; apply all_nan0; assumption).
      rewrite (total_value d_sfr v_sd) by (intros; apply all_nan0; assumption).
      rewrite (total_value f_sfr v_sf) by (intros; apply all_nan0; assumption).
      rewrite !part_sum_app. unfold sums_of. rewrite (nth_map_nat _ _ i 0%nat) by (rewrite seq_length; lia). rewrite seq_nth by lia. cbn [Nat.add].
      f_equal. f_equal. unfold xcount, count. cbn [xadd]. rewrite TargetProofs.filter_map, map_length, filter_app, app_length, plus_INR. reflexivity. }
  f_equal. rewrite map_map. cbn [fst]. symmetry. unfold sums_of at 1. apply map_ext_in. intros i Hi. apply in_seq in Hi.
  unfold sums_of. rewrite (nth_map_nat _ _ i 0%nat) by (rewrite seq_length; lia). rewrite seq_nth by lia. reflexivity.
Qed.
End Rows.
