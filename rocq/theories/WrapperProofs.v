(** Proofs about the prediction wrappers and about the transforms of arrays of galaxies. *)
From Coq Require Import Reals Lra Lia ZArith List Bool String.
From Verif Require Import XReal XFacts RealFacts ModelUtils ModelKernels ModelSfh ModelPop ModelHist ModelFit ModelGrad ModelPopTables ModelPopGrad ModelWrappers
  SpecCore SpecFit SpecPop SpecHist SpecGrad SpecPopProgram SpecPopGrad SpecPopNaN SpecWrappers SigmoidProofs LossProofs PopProofs PopParamProofs
  PopProgramProofs PopGradLoss GradTop PopGradClaims PopGradNaN PopGradDemo PopNaNDemo CholeskyProofs.
Import List ListNotations.
Local Notation length := List.length (only parsing).
Open Scope R_scope.

(** ** Predictions *)
Lemma square_sum_eq a : forall b, Rsum (map2 (fun x y => (x - y) ^ 2) a b) = square_sum a b.
Proof. induction a as [|x a IH]; intros [|y b]; try reflexivity. cbn [map2 square_sum]. rewrite <- IH. reflexivity. Qed.

Lemma fin_list l : Forall fin l -> exists r, l = map Fin r.
Proof. induction 1 as [|x l [y ->] _ [r ->]]; [exists []; reflexivity|exists (y :: r); reflexivity]. Qed.
Lemma fin_list2 l : Forall (Forall fin) l -> exists r, l = map (map Fin) r.
Proof. induction 1 as [|x l H _ [r ->]]; [exists []; reflexivity|]. destruct (fin_list _ H) as [y ->]. exists (y :: r); reflexivity. Qed.
Lemma fin_list3 l : Forall (Forall (Forall fin)) l -> exists r, l = map (map (map Fin)) r.
Proof. induction 1 as [|x l H _ [r ->]]; [exists []; reflexivity|]. destruct (fin_list2 _ H) as [y ->]. exists (y :: r); reflexivity. Qed.

Lemma check_inv {A B} (p : list (list A)) : forall t : list (list B),
  forallb (fun b => b) (map2 Nat.eqb (shape2 p) (shape2 t)) && same_len p t = true -> map (@length A) p = map (@length B) t.
Proof.
  induction p as [|a p IH]; intros [|b t] H; try reflexivity; try discriminate H.
  cbn in H. apply andb_prop in H as [H1 H2]. apply andb_prop in H1 as [H0 H1].
  cbn. f_equal; [apply Nat.eqb_eq, H0|]. apply IH. apply andb_true_intro. split; [exact H1|exact H2].
Qed.
Lemma len2 p : map (@length xr) (map (map Fin) p) = map (@length R) p.
Proof. rewrite map_map. apply map_ext. intros. apply map_length. Qed.
Lemma mse2_shape p t v : mse2 (map (map Fin) p) (map (map Fin) t) = Some v -> map (@length R) p = map (@length R) t.
Proof. unfold mse2. destruct (_ && _) eqn:E; [|discriminate]. intros _. apply check_inv in E. rewrite !len2 in E. exact E. Qed.
Lemma app_inj_len {A} (a b c d : list A) : length a = length b -> a ++ c = b ++ d -> a = b /\ c = d.
Proof.
  revert b. induction a as [|x a IH]; intros [|y b] L H; try discriminate L; [split; [reflexivity|exact H]|].
  cbn in H. injection H as -> H. destruct (IH b ltac:(cbn in L; lia) H) as [-> ->]. split; reflexivity.
Qed.
Lemma regroup (p : list (list (list R))) : forall t, map (@length (list R)) p = map (@length (list R)) t ->
  map (@length R) (List.concat p) = map (@length R) (List.concat t) -> map (map (@length R)) p = map (map (@length R)) t.
Proof.
  induction p as [|a p IH]; intros [|b t] H1 H2; try discriminate H1; [reflexivity|].
  cbn in H1. injection H1 as Ha H1. cbn [List.concat] in H2. rewrite !map_app in H2.
  assert (E : map (@length R) a = map (@length R) b /\ map (@length R) (List.concat p) = map (@length R) (List.concat t)).
  { apply app_inj_len; [|exact H2]. rewrite !map_length. exact Ha. }
  destruct E as [E1 E2]. cbn [map]. rewrite E1. f_equal. apply IH; assumption.
Qed.
Lemma mse3_shape p t v : mse3 (map (map (map Fin)) p) (map (map (map Fin)) t) = Some v -> map (map (@length R)) p = map (map (@length R)) t.
Proof.
  unfold mse3. destruct (_ && _) eqn:E; [|discriminate]. rewrite !concat_fin3. intros H. apply mse2_shape in H. apply check_inv in E.
  rewrite !map_map in E. apply regroup; [|exact H].
  rewrite (map_ext _ (@length (list R))) in E by (intros; apply map_length).
  rewrite (map_ext (fun x => length (map (map Fin) x)) (@length (list R)) (fun a => map_length _ a) t) in E. exact E.
Qed.

Section Pred.
Variable key : Type.
Variable split : key -> nat -> list key.
Variable uniform : key -> xr.
Variable normal : key -> nat -> list xr.
Variable lmk : MahParams xr -> xr -> xr -> xr.
Notation mvn := (mvn_of normal).

Lemma mstar_score u (d : MstarLossData key) T v : ml_target key d = map (map Fin) T ->
  loss_mstar key split uniform mvn lmk u d = Some (Fin v) ->
  exists pred, mstar_kern_tobs key split uniform mvn lmk u (ml_zs key d) (ml_lgt0 key d) (ml_fb key d) (ml_bins key d) = Some (map (map Fin) pred) /\
    scores2 v pred T.
Proof.
  intros HT H. unfold loss_mstar, loss_mstar_kern_tobs in H.
  destruct (mstar_kern_tobs _ _ _ _ _ _ _ _ _ _) as [pr|] eqn:E; [|discriminate H]. rewrite HT in H.
  destruct (scaled_fin _ _ H) as [w Hw]. destruct (mse2_all_fin _ _ _ Hw) as [N F]. destruct (fin_list2 _ F) as [pred ->].
  exists pred. split; [reflexivity|]. pose proof (mse2_shape _ _ _ Hw) as S.
  assert (N' : List.concat pred <> []) by (intros Z; apply N; rewrite concat_fin, Z; reflexivity).
  destruct (loss_mstar_props _ _ _ _ _ _ _ _ _ _ pred T E S N') as (v' & E' & P & Z & V).
  unfold loss_mstar_kern_tobs in E'. rewrite E, H in E'. injection E' as <-.
  split; [exact S|]. split; [exact P|]. split; [exact Z|]. rewrite V, square_sum_eq. reflexivity.
Qed.
Lemma ssfr_score u (d : SsfrLossData key) T v : sl_target key d = map (map (map Fin)) T ->
  loss_ssfr key split uniform mvn lmk u d = Some (Fin v) ->
  exists pred, mstar_ssfr_kern_tobs key split uniform mvn lmk u (sl_zs key d) (sl_lgt0 key d) (sl_fb key d) (sl_data key d) = Some (map (map (map Fin)) pred) /\
    scores3 v pred T.
Proof.
  intros HT H. unfold loss_ssfr, loss_mstar_ssfr_kern_tobs in H.
  destruct (mstar_ssfr_kern_tobs _ _ _ _ _ _ _ _ _ _) as [pr|] eqn:E; [|discriminate H]. rewrite HT in H.
  destruct (scaled_fin _ _ H) as [w Hw]. destruct (mse3_all_fin _ _ _ Hw) as [N F]. destruct (fin_list3 _ F) as [pred ->].
  exists pred. split; [reflexivity|]. pose proof (mse3_shape _ _ _ Hw) as S.
  assert (N' : List.concat (List.concat pred) <> []) by (intros Z; apply N; rewrite concat_fin3, concat_fin, Z; reflexivity).
  destruct (loss_ssfr_props _ _ _ _ _ _ _ _ _ _ pred T E S N') as (v' & E' & P & Z & V).
  unfold loss_mstar_ssfr_kern_tobs in E'. rewrite E, H in E'. injection E' as <-.
  split; [exact S|]. split; [exact P|]. split; [exact Z|]. rewrite V, square_sum_eq. reflexivity.
Qed.

Lemma pred_ssfr_flat U (d : SsfrLossData key) : get_pred_mstar_ssfr_data_wrapper key split uniform mvn lmk (flat U) d =
  mstar_ssfr_kern_tobs key split uniform mvn lmk (pop_u_params U) (sl_zs key d) (sl_lgt0 key d) (sl_fb key d) (sl_data key d).
Proof. unfold get_pred_mstar_ssfr_data_wrapper. rewrite make_flat. reflexivity. Qed.
Lemma pred_mstar_flat U (d : MstarLossData key) : get_pred_mstar key split uniform mvn lmk (flat U) d =
  mstar_kern_tobs key split uniform mvn lmk (pop_u_params U) (ml_zs key d) (ml_lgt0 key d) (ml_fb key d) (ml_bins key d).
Proof. unfold get_pred_mstar, get_pred_mstar_data_wrapper. rewrite make_flat. reflexivity. Qed.

Hypothesis SP : splits_ok split.
Hypothesis NO : normals_ok normal.

Lemma mstar_scored U P : get_bounded_diffstarpop_params (pop_u_params U) = Some (pop_params P) -> slopes_nonzero P ->
  forall (d : MstarLossData key) fb v g, mstar_data_ok key lmk d fb ->
  loss_mstar_kern_tobs_grad_wrapper key split normal lmk (flat U) d = Some (Fin v, g) ->
  exists pred target, get_pred_mstar key split uniform mvn lmk (flat U) d = Some (map (map Fin) pred) /\
    ml_target key d = map (map Fin) target /\ scores2 v pred target.
Proof.
  intros HB HS d fb v g HD HW. pose proof (@mstar_together key split uniform normal lmk SP NO U P HB HS d fb HD) as TG.
  assert (L : loss_mstar key split uniform mvn lmk (pop_u_params U) d = Some (Fin v)).
  { destruct TG as [[_ E]|[(v' & g' & E1 & _ & E2)|[_ (g' & _ & E)]]].
    - rewrite HW in E. discriminate E.
    - rewrite HW in E2. injection E2 as -> _. exact E1.
    - rewrite HW in E. discriminate E. }
  destruct HD as (E & T & ED & _). assert (HT : ml_target key d = map (map Fin) T) by (rewrite ED; reflexivity).
  destruct (mstar_score _ _ _ _ HT L) as (pred & E1 & S). exists pred, T. rewrite pred_mstar_flat. auto.
Qed.
Lemma ssfr_scored U P : get_bounded_diffstarpop_params (pop_u_params U) = Some (pop_params P) -> slopes_nonzero P ->
  forall (d : SsfrLossData key) fb v g, ssfr_data_ok key lmk d fb -> counts_ok key d ->
  loss_mstar_ssfr_kern_tobs_grad_wrapper key split normal lmk (flat U) d = Some (Fin v, g) ->
  exists pred target, get_pred_mstar_ssfr_data_wrapper key split uniform mvn lmk (flat U) d = Some (map (map (map Fin)) pred) /\
    sl_target key d = map (map (map Fin)) target /\ scores3 v pred target.
Proof.
  intros HB HS d fb v g HD HC HW. pose proof (@ssfr_together key split uniform normal lmk SP NO U P HB HS d fb HD HC) as TG.
  assert (L : loss_ssfr key split uniform mvn lmk (pop_u_params U) d = Some (Fin v)).
  { destruct TG as [[_ E]|[(v' & g' & E1 & _ & E2)|[_ (g' & _ & E)]]].
    - rewrite HW in E. discriminate E.
    - rewrite HW in E2. injection E2 as -> _. exact E1.
    - rewrite HW in E. discriminate E. }
  destruct HD as (LO & HI & Em & Es & W & idx & ids & T & ED & _). assert (HT : sl_target key d = map (map (map Fin)) T) by (rewrite ED; reflexivity).
  destruct (ssfr_score _ _ _ _ HT L) as (pred & E1 & S). exists pred, T. rewrite pred_ssfr_flat. auto.
Qed.

Lemma mstar_back U P : get_bounded_diffstarpop_params (pop_u_params U) = Some (pop_params P) -> slopes_nonzero P ->
  forall (d : MstarLossData key) fb pred target, mstar_data_ok key lmk d fb ->
  get_pred_mstar key split uniform mvn lmk (flat U) d = Some (map (map Fin) pred) -> ml_target key d = map (map Fin) target ->
  map (@length R) pred = map (@length R) target -> List.concat pred <> [] ->
  exists v g, loss_mstar_kern_tobs_grad_wrapper key split normal lmk (flat U) d = Some (Fin v, map Fin g) /\ length g = 88%nat /\ scores2 v pred target.
Proof.
  intros HB HS d fb pred T HD HP HT S N. rewrite pred_mstar_flat in HP.
  destruct (loss_mstar_props _ _ _ _ _ _ _ _ _ _ pred T HP S N) as (v & E & P0 & Z & V). rewrite <- HT in E.
  pose proof (@mstar_together key split uniform normal lmk SP NO U P HB HS d fb HD) as TG.
  destruct TG as [[E1 _]|[(v' & g' & E1 & L & E2)|[E1 _]]]; unfold loss_mstar in E1; rewrite E in E1; try discriminate E1.
  injection E1 as <-. exists v, g'. split; [exact E2|]. split; [exact L|].
  split; [exact S|]. split; [exact P0|]. split; [exact Z|]. rewrite V, square_sum_eq. reflexivity.
Qed.
Lemma ssfr_back U P : get_bounded_diffstarpop_params (pop_u_params U) = Some (pop_params P) -> slopes_nonzero P ->
  forall (d : SsfrLossData key) fb pred target, ssfr_data_ok key lmk d fb -> counts_ok key d ->
  get_pred_mstar_ssfr_data_wrapper key split uniform mvn lmk (flat U) d = Some (map (map (map Fin)) pred) -> sl_target key d = map (map (map Fin)) target ->
  map (map (@length R)) pred = map (map (@length R)) target -> List.concat (List.concat pred) <> [] ->
  exists v g, loss_mstar_ssfr_kern_tobs_grad_wrapper key split normal lmk (flat U) d = Some (Fin v, map Fin g) /\ length g = 88%nat /\ scores3 v pred target.
Proof.
  intros HB HS d fb pred T HD HC HP HT S N. rewrite pred_ssfr_flat in HP.
  destruct (loss_ssfr_props _ _ _ _ _ _ _ _ _ _ pred T HP S N) as (v & E & P0 & Z & V). rewrite <- HT in E.
  pose proof (@ssfr_together key split uniform normal lmk SP NO U P HB HS d fb HD HC) as TG.
  destruct TG as [[E1 _]|[(v' & g' & E1 & L & E2)|[E1 _]]]; unfold loss_ssfr in E1; rewrite E in E1; try discriminate E1.
  injection E1 as <-. exists v, g'. split; [exact E2|]. split; [exact L|].
  split; [exact S|]. split; [exact P0|]. split; [exact Z|]. rewrite V, square_sum_eq. reflexivity.
Qed.
End Pred.

Lemma pred_wrong_length key split uniform mvn lmk l (dm : MstarLossData key) (dc : SsfrLossData key) : length l <> 88%nat ->
  get_pred_mstar key split uniform mvn lmk l dm = None /\ get_pred_mstar_ssfr_data_wrapper key split uniform mvn lmk l dc = None.
Proof.
  intros H. unfold get_pred_mstar, get_pred_mstar_data_wrapper, get_pred_mstar_ssfr_data_wrapper, nt_make. rewrite unames_length.
  replace (Nat.eqb 88 (length l)) with false by (symmetry; apply Nat.eqb_neq; congruence). split; reflexivity.
Qed.
Lemma pred_ignores_target key split uniform mvn lmk l zs lgt0 fb bins data t t' t3 t3' :
  get_pred_mstar key split uniform mvn lmk l (mkML key zs lgt0 fb bins t) = get_pred_mstar key split uniform mvn lmk l (mkML key zs lgt0 fb bins t') /\
  get_pred_mstar_ssfr_data_wrapper key split uniform mvn lmk l (mkSL key zs lgt0 fb data t3)
  = get_pred_mstar_ssfr_data_wrapper key split uniform mvn lmk l (mkSL key zs lgt0 fb data t3').
Proof. split; reflexivity. Qed.

Lemma demo_scored : exists U P dm vm gm dc vc gc, get_bounded_diffstarpop_params (pop_u_params U) = Some (pop_params P) /\ slopes_nonzero P /\
  mstar_data_ok unit ex_lmk dm 10 /\ ssfr_data_ok unit ex_lmk dc 10 /\ counts_ok unit dc /\
  loss_mstar_kern_tobs_grad_wrapper unit demo_split demo_normal ex_lmk (flat U) dm = Some (Fin vm, gm) /\
  loss_mstar_ssfr_kern_tobs_grad_wrapper unit demo_split demo_normal ex_lmk (flat U) dc = Some (Fin vc, gc).
Proof.
  destruct demo_finite as (U & P & dm & vm & dc & vc & HB & HS & A1 & A2 & A3 & A4 & A5).
  pose proof (@mstar_together unit demo_split demo_uniform demo_normal ex_lmk demo_split_ok demo_normal_ok U P HB HS dm 10 A1) as TM.
  pose proof (@ssfr_together unit demo_split demo_uniform demo_normal ex_lmk demo_split_ok demo_normal_ok U P HB HS dc 10 A2 A3) as TS.
  destruct TM as [[E _]|[(v1 & g1 & E1 & _ & F1)|[E _]]]; [rewrite A4 in E; discriminate E| |rewrite A4 in E; discriminate E].
  destruct TS as [[E _]|[(v2 & g2 & E2 & _ & F2)|[E _]]]; [rewrite A5 in E; discriminate E| |rewrite A5 in E; discriminate E].
  exists U, P, dm, v1, (map Fin g1), dc, v2, (map Fin g2). auto 8.
Qed.

(** ** Arrays of galaxies *)
Lemma bounded_ms_row u : get_bounded_sfr_params_galpop_kern (ms_row u) = Some (ms_row (bounded_msR u)).
Proof.
  change (ms_row u) with (ms_array (map_ms Fin u)). unfold get_bounded_sfr_params_galpop_kern.
  destruct u as [a b c d]. cbn [ms_array map_ms ms_make lgmcrit lgy_at_mcrit indx_lo indx_hi option_map].
  change (mkMS (Fin a) (Fin b) (Fin c) (Fin d)) with (map_ms Fin (mkMS a b c d)). rewrite bounded_ms_fin. reflexivity.
Qed.
Lemma unbounded_ms_row p : ms_in_bounds p -> get_unbounded_sfr_params_galpop_kern (ms_row p) = Some (ms_row (unbounded_msR p)).
Proof.
  intros (H1 & H2 & H3 & H4). pose proof (unbounded_ms_fin p H1 H2 H3 H4) as E. destruct p as [a b c d].
  unfold get_unbounded_sfr_params_galpop_kern, ms_row. cbn [map ms_make lgmcrit lgy_at_mcrit indx_lo indx_hi option_map].
  change (mkMS (Fin a) (Fin b) (Fin c) (Fin d)) with (map_ms Fin (mkMS a b c d)). rewrite E. reflexivity.
Qed.
Lemma bounded_q_row u : get_bounded_q_params_galpop_kern (q_row u) = Some (q_row (bounded_qR u)).
Proof.
  destruct u as [a b c d]. unfold get_bounded_q_params_galpop_kern, q_row. cbn [map q_make lg_qt qlglgdt lg_drop lg_rejuv option_map].
  change (mkQ (Fin a) (Fin b) (Fin c) (Fin d)) with (map_q Fin (mkQ a b c d)). rewrite bounded_q_fin. reflexivity.
Qed.
Lemma unbounded_q_row p : q_in_bounds p -> get_unbounded_q_params_galpop_kern (q_row p) = Some (q_row (unbounded_qR p)).
Proof.
  intros (H1 & H2 & H3 & H4). pose proof (unbounded_q_fin p H1 H2 H3 H4) as E. destruct p as [a b c d].
  unfold get_unbounded_q_params_galpop_kern, q_row. cbn [map q_make lg_qt qlglgdt lg_drop lg_rejuv option_map].
  change (mkQ (Fin a) (Fin b) (Fin c) (Fin d)) with (map_q Fin (mkQ a b c d)). rewrite E. reflexivity.
Qed.
Lemma bounded_ms_in u : ms_in_bounds (bounded_msR u).
Proof. unfold ms_in_bounds, bounded_msR. cbn. repeat split; apply bnd_range; lra. Qed.
Lemma bounded_q_in u : q_in_bounds (bounded_qR u).
Proof.
  unfold q_in_bounds, bounded_qR. cbn. pose proof (bnd_range (lg_drop u) (-3) 0).
  repeat match goal with |- _ /\ _ /\ _ => split end; try (apply bnd_range; lra). apply (sigR_range (lg_rejuv u)). lra.
Qed.
Lemma un_bounded_ms u : unbounded_msR (bounded_msR u) = u.
Proof. destruct u. unfold unbounded_msR, bounded_msR. cbn. rewrite !ubnd_bnd by lra. reflexivity. Qed.
Lemma un_bounded_q u : unbounded_qR (bounded_qR u) = u.
Proof.
  destruct u as [a b g h]. unfold unbounded_qR, bounded_qR. cbn. rewrite !ubnd_bnd by lra.
  rewrite isig_sig; [reflexivity| |lra]. pose proof (bnd_range g (-3) 0). lra.
Qed.
Lemma bounded_un_ms p : ms_in_bounds p -> bounded_msR (unbounded_msR p) = p.
Proof. intros (H1 & H2 & H3 & H4). destruct p. unfold unbounded_msR, bounded_msR. cbn in *. rewrite !bnd_ubnd by lra. reflexivity. Qed.
Lemma bounded_un_q p : q_in_bounds p -> bounded_qR (unbounded_qR p) = p.
Proof.
  intros (H1 & H2 & H3 & H4). destruct p as [a b g h]. unfold unbounded_qR, bounded_qR. cbn in *. rewrite !bnd_ubnd by lra.
  rewrite sig_isig; [reflexivity|lra|lra].
Qed.

Lemma vmap_rows {A B} (f : list xr -> option (list xr)) (row : A -> list xr) (row' : B -> list xr) g l :
  (forall a, In a l -> f (row a) = Some (row' (g a))) -> vmap f (map row l) = Some (map row' (map g l)).
Proof.
  intros H. unfold vmap. induction l as [|a l IH]; [reflexivity|]. cbn [map sequence]. rewrite (H a (or_introl eq_refl)).
  rewrite IH; [reflexivity|]. intros b Hb. apply H. right. exact Hb.
Qed.

Lemma ms_vmap us : exists ps, get_bounded_sfr_params_vmap (map ms_row us) = Some (map ms_row ps) /\
  length ps = length us /\ Forall ms_in_bounds ps /\ get_unbounded_sfr_params_vmap (map ms_row ps) = Some (map ms_row us).
Proof.
  exists (map bounded_msR us). split; [apply vmap_rows; intros; apply bounded_ms_row|]. split; [apply map_length|].
  assert (F : Forall ms_in_bounds (map bounded_msR us)) by (apply Forall_map, Forall_forall; intros; apply bounded_ms_in).
  split; [exact F|]. unfold get_unbounded_sfr_params_vmap. rewrite (vmap_rows _ ms_row ms_row unbounded_msR).
  - rewrite (map_map bounded_msR), (map_ext _ (fun u => u)) by apply un_bounded_ms. rewrite map_id. reflexivity.
  - intros a Ha. apply unbounded_ms_row. rewrite Forall_forall in F. apply F, Ha.
Qed.
Lemma q_vmap us : exists ps, get_bounded_q_params_vmap (map q_row us) = Some (map q_row ps) /\
  length ps = length us /\ Forall q_in_bounds ps /\ get_unbounded_q_params_vmap (map q_row ps) = Some (map q_row us).
Proof.
  exists (map bounded_qR us). split; [apply vmap_rows; intros; apply bounded_q_row|]. split; [apply map_length|].
  assert (F : Forall q_in_bounds (map bounded_qR us)) by (apply Forall_map, Forall_forall; intros; apply bounded_q_in).
  split; [exact F|]. unfold get_unbounded_q_params_vmap. rewrite (vmap_rows _ q_row q_row unbounded_qR).
  - rewrite (map_map bounded_qR), (map_ext _ (fun u => u)) by apply un_bounded_q. rewrite map_id. reflexivity.
  - intros a Ha. apply unbounded_q_row. rewrite Forall_forall in F. apply F, Ha.
Qed.
Lemma ms_vmap_back ps : Forall ms_in_bounds ps -> exists us, get_unbounded_sfr_params_vmap (map ms_row ps) = Some (map ms_row us) /\
  get_bounded_sfr_params_vmap (map ms_row us) = Some (map ms_row ps).
Proof.
  intros F. rewrite Forall_forall in F. exists (map unbounded_msR ps). split; [apply vmap_rows; intros; apply unbounded_ms_row, F; assumption|].
  unfold get_bounded_sfr_params_vmap. rewrite (vmap_rows _ ms_row ms_row bounded_msR) by (intros; apply bounded_ms_row).
  rewrite (map_map unbounded_msR), (map_ext_in _ (fun u => u)) by (intros; apply bounded_un_ms, F; assumption). rewrite map_id. reflexivity.
Qed.
Lemma q_vmap_back ps : Forall q_in_bounds ps -> exists us, get_unbounded_q_params_vmap (map q_row ps) = Some (map q_row us) /\
  get_bounded_q_params_vmap (map q_row us) = Some (map q_row ps).
Proof.
  intros F. rewrite Forall_forall in F. exists (map unbounded_qR ps). split; [apply vmap_rows; intros; apply unbounded_q_row, F; assumption|].
  unfold get_bounded_q_params_vmap. rewrite (vmap_rows _ q_row q_row bounded_qR) by (intros; apply bounded_q_row).
  rewrite (map_map unbounded_qR), (map_ext_in _ (fun u => u)) by (intros; apply bounded_un_q, F; assumption). rewrite map_id. reflexivity.
Qed.

(** Rows are handled like single galaxies. *)
Lemma rows_single (us : list (DiffstarParams R)) :
  exists ms q, get_bounded_sfr_params_vmap (map (fun u => ms_row (slice_ms u)) us) = Some ms /\
    get_bounded_q_params_vmap (map (fun u => q_row (slice_q u)) us) = Some q /\
    map2 (fun a b => a ++ b) ms q = map (fun u => d_array (get_bounded_diffstar_params (map_d Fin u))) us.
Proof.
  exists (map ms_row (map bounded_msR (map slice_ms us))), (map q_row (map bounded_qR (map slice_q us))).
  split; [rewrite <- (map_map slice_ms ms_row); apply vmap_rows; intros; apply bounded_ms_row|].
  split; [rewrite <- (map_map slice_q q_row); apply vmap_rows; intros; apply bounded_q_row|].
  rewrite !map_map. induction us as [|u us IH]; [reflexivity|]. cbn [map map2]. rewrite IH. f_equal.
  rewrite bounded_diffstar_fin. reflexivity.
Qed.
Lemma row_length_raises l l1 l2 : length l <> 4%nat ->
  get_bounded_sfr_params_vmap (l1 ++ l :: l2) = None /\ get_unbounded_sfr_params_vmap (l1 ++ l :: l2) = None /\
  get_bounded_q_params_vmap (l1 ++ l :: l2) = None /\ get_unbounded_q_params_vmap (l1 ++ l :: l2) = None.
Proof.
  intros H.
  assert (V : forall f : list xr -> option (list xr), f l = None -> vmap f (l1 ++ l :: l2) = None).
  { intros f E. unfold vmap. induction l1 as [|a l1 IH]; cbn [app map sequence]; [rewrite E; reflexivity|].
    rewrite IH. destruct (f a); reflexivity. }
  assert (A : @ms_make xr l = None) by (destruct l as [|? [|? [|? [|? [|]]]]]; try reflexivity; now elim H).
  assert (B : @q_make xr l = None) by (destruct l as [|? [|? [|? [|? [|]]]]]; try reflexivity; now elim H).
  repeat split; apply V; unfold get_bounded_sfr_params_galpop_kern, get_unbounded_sfr_params_galpop_kern,
    get_bounded_q_params_galpop_kern, get_unbounded_q_params_galpop_kern; rewrite ?A, ?B; reflexivity.
Qed.

Lemma single_drop u : exists v, get_bounded_lg_drop (Fin u) = Fin v /\ -3 < v < 0 /\ get_unbounded_lg_drop (Fin v) = Fin u.
Proof.
  exists (bndR u (-3) 0). unfold get_bounded_lg_drop, get_unbounded_lg_drop, Q_SIG, Q_BOUNDS. cbn [lg_drop].
  rewrite sigmoid_b_fin by lra. split; [reflexivity|]. split; [apply bnd_range; lra|].
  pose proof (bnd_range u (-3) 0 ltac:(lra)). rewrite inverse_sigmoid_b_fin by lra. rewrite ubnd_bnd by lra. reflexivity.
Qed.
Lemma single_qt u : exists v, get_bounded_qt (Fin u) = Fin v /\ 1 / 10 < v < 2.
Proof.
  exists (bndR u (1 / 10) 2). unfold get_bounded_qt, Q_SIG, Q_BOUNDS. cbn [lg_qt].
  rewrite sigmoid_b_fin by lra. split; [reflexivity|apply bnd_range; lra].
Qed.
Lemma single_agree (u : QParams xr) : get_bounded_qt (lg_qt u) = lg_qt (get_bounded_q_params u) /\ get_bounded_lg_drop (lg_drop u) = lg_drop (get_bounded_q_params u) /\
  get_bounded_lg_rejuv (lg_rejuv u) (get_bounded_lg_drop (lg_drop u)) = lg_rejuv (get_bounded_q_params u) /\
  get_unbounded_lg_drop (lg_drop u) = lg_drop (get_unbounded_q_params u).
Proof. repeat split. Qed.
