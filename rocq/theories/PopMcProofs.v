(** Proofs about the Monte Carlo generators (C36-C41). *)
From Coq Require Import Reals Lra Lia String QArith Qreals ZArith.
From Coquelicot Require Import Coquelicot.
From Coq Require Import List Bool.
From Verif Require Import XReal ModelUtils ModelKernels ModelSfh ModelPopTables ModelPop SpecCore SpecPop
  RealFacts XFacts SigmoidProofs TriweightProofs QuenchProofs SfhProofs PopProofs PopParamProofs PopKernelProofs MatrixProofs.
Import List ListNotations.
Open Scope R_scope.


Section Mc.
Context {key : Type}.
Variable split : key -> nat -> list key.
Variable uniform : key -> xr.
Variable mvn : key -> list xr -> matrix -> list xr.
Variable lmk : MahParams xr -> xr -> xr -> xr.

Notation u_single := (mc_diffstar_u_params_singlegal key split uniform mvn).
Notation u_cen := (mc_diffstar_u_params_singlegal_cen key split uniform mvn).
Notation p_single := (mc_diffstar_params_singlegal key split uniform mvn).
Notation s_single := (mc_diffstar_sfh_singlegal key split uniform mvn lmk).
Notation u_pop := (mc_diffstar_u_params_galpop key split uniform mvn).
Notation p_pop := (mc_diffstar_params_galpop key split uniform mvn).
Notation s_pop := (mc_diffstar_sfh_galpop key split uniform mvn lmk).

(** ** C36 *)
Lemma satq_some (p : nt xr) ws : vmap (getattr p) SATQ_NAMES = Some ws -> exists s, nt_make SATQ_NAMES ws = Some s.
Proof.
  intros H. apply vmap_spec, F2_length in H. unfold nt_make. rewrite <- H, Nat.eqb_refl. eauto.
Qed.
Lemma means_covs_switch p m tp mu mh gy :
  (forall n, In n SATQ_NAMES -> getattr p n <> None) ->
  match diffstarpop_means_covs_cen p m tp with
  | None => diffstarpop_means_covs p m tp mu mh gy = None
  | Some mc => exists s, diffstarpop_means_covs p m tp mu mh gy
      = Some (mkMC (mc_frac_cen mc) s (mu_mseq mc) (mu_qseq mc) (cov_mseq_ms mc) (cov_qseq_ms mc) (cov_qseq_q mc))
  end.
Proof.
  intros H. unfold diffstarpop_means_covs_cen, diffstarpop_means_covs.
  destruct (vmap (getattr p) QSEQ_NAMES) as [vs|]; [|reflexivity].
  destruct (vmap_total (getattr p) (fun _ => True) SATQ_NAMES) as (ws & Ew & _).
  { intros n Hn. specialize (H n Hn). destruct (getattr p n) as [v|]; [|congruence]. eauto. }
  rewrite Ew. destruct (satq_some _ _ Ew) as (s & Es). rewrite Es.
  destruct (nt_make QSEQ_NAMES vs) as [q|]; [|reflexivity]. eexists. reflexivity.
Qed.

Lemma cen_is_upid_m1 : forall p m tp mu mh gy k, (forall n, In n SATQ_NAMES -> getattr p n <> None) ->
  u_cen p m tp k = u_single p m tp (-1)%Z mu mh gy k.
Proof.
  intros p m tp mu mh gy k H. assert (S := means_covs_switch p m tp mu mh gy H).
  unfold mc_diffstar_u_params_singlegal_cen, mc_diffstar_u_params_singlegal.
  destruct (diffstarpop_means_covs_cen p m tp) as [mc|].
  - destruct S as (s & ->). reflexivity.
  - rewrite S. reflexivity.
Qed.

Lemma upid_switch : forall p m tp upid mu mh gy k ms q f b,
  u_single p m tp upid mu mh gy k = Some (ms, q, f, b) ->
  exists mc, diffstarpop_means_covs p m tp mu mh gy = Some mc /\
    (upid = (-1)%Z -> f = mc_frac_cen mc) /\ (upid <> (-1)%Z -> f = mc_frac_sat mc) /\
    b = xlt (uniform (nth 3 (split k 4) k)) f.
Proof.
  intros p m tp upid mu mh gy k ms q f b. unfold mc_diffstar_u_params_singlegal.
  destruct (diffstarpop_means_covs p m tp mu mh gy) as [mc|]; [|discriminate].
  destruct (split k 4) as [|k1 [|k2 [|k3 [|k4 [|]]]]]; try discriminate. cbv zeta.
  destruct (unpack_d _) as [uq|]; [|discriminate]. destruct (unpack_d _) as [ums|]; [|discriminate].
  intros E. apply Some_inj in E. injection E as _ _ <- <-. exists mc. split; [reflexivity|].
  cbn [nth]. destruct (Z.eqb_spec upid (-1)); split; try split; try tauto; congruence.
Qed.

(** The parameters drawn do not depend on the quenched fraction or the switch. *)
Lemma upid_same_params : forall p m tp upid upid' mu mh gy k ms q f b,
  u_single p m tp upid mu mh gy k = Some (ms, q, f, b) ->
  exists f' b', u_single p m tp upid' mu mh gy k = Some (ms, q, f', b').
Proof.
  intros p m tp upid upid' mu mh gy k ms q f b. unfold mc_diffstar_u_params_singlegal.
  destruct (diffstarpop_means_covs p m tp mu mh gy) as [mc|]; [|discriminate].
  destruct (split k 4) as [|k1 [|k2 [|k3 [|k4 [|]]]]]; try discriminate. cbv zeta.
  destruct (unpack_d _) as [uq|]; [|discriminate]. destruct (unpack_d _) as [ums|]; [|discriminate].
  intros E. apply Some_inj in E. injection E as -> -> _ _. eauto.
Qed.

(** ** C37, C38 *)
Lemma len4 {A} (l : list A) : List.length l = 4%nat -> exists a b c d, l = [a; b; c; d].
Proof. intros H. destruct l as [|a [|b [|c [|d [|]]]]]; try discriminate. eauto. Qed.

Definition Q5 : QParams R := mkQ 5 5 5 5.

Hypothesis Hsplit : splits_ok split.
Hypothesis Hmvn : mvn_ok mvn.

Lemma mvn4 k mean cov : List.length mean = 4%nat -> positive_definite 4 cov ->
  exists a b c d, mvn k (map Fin mean) cov = [Fin a; Fin b; Fin c; Fin d].
Proof.
  intros L H. rewrite <- L in H. destruct (Hmvn k mean cov H) as (r & E & Lr). rewrite L in Lr.
  destruct (len4 r Lr) as (a & b & c & d & ->). rewrite E. exists a, b, c, d. reflexivity.
Qed.

Lemma u_single_value : forall p P m tp upid mu mh gy k,
  holds "" p P -> pop_in_bounds P -> slopes_nonzero P ->
  exists ums uq f, 0 < f < 1 /\ slice_q ums = Q5 /\
    u_single p (Fin m) (Fin tp) upid (Fin mu) (Fin mh) (Fin gy) k
    = Some (map_d Fin ums, map_d Fin uq, Fin f, xlt (uniform (nth 3 (split k 4) k)) (Fin f)).
Proof.
  intros p P m tp upid mu mh gy k Hp Hb Hs.
  destruct (covariances_pd p P m tp (Fin mu) (Fin mh) (Fin gy) Hp Hb Hs)
    as (mc & E & C1 & C2 & C3 & (a1 & M1 & L1) & (a2 & M2 & L2)).
  destruct (quenched_fractions p P m tp mu mh gy Hp Hb) as (mc2 & fc & fs & E2 & F1 & F2 & R1 & R2).
  rewrite E in E2. apply Some_inj in E2. subst mc2.
  unfold mc_diffstar_u_params_singlegal. rewrite E.
  destruct (len4 _ (Hsplit k 4%nat)) as (k1 & k2 & k3 & k4 & ->). cbv zeta.
  rewrite M1, M2, firstn_map, skipn_map.
  assert (La : List.length (firstn 4 a2) = 4%nat) by (rewrite firstn_length; lia).
  assert (Lb : List.length (skipn 4 a2) = 4%nat) by (rewrite skipn_length; lia).
  destruct (mvn4 k1 a1 _ L1 C1) as (x1 & x2 & x3 & x4 & ->).
  destruct (mvn4 k2 _ _ La C2) as (y1 & y2 & y3 & y4 & ->).
  destruct (mvn4 k3 _ _ Lb C3) as (z1 & z2 & z3 & z4 & ->).
  cbn [firstn app unpack_d skipn unpack_ms unpack_q nth].
  exists (mkDiffstar x1 x2 x3 x4 5 5 5 5), (mkDiffstar y1 y2 y3 y4 z1 z2 z3 z4).
  exists (if Z.eqb upid (-1) then fc else fs). rewrite F1, F2.
  split; [destruct (Z.eqb upid (-1)); assumption|]. split; [reflexivity|].
  destruct (Z.eqb upid (-1)); reflexivity.
Qed.

Lemma p_single_value : forall p P m tp upid mu mh gy k,
  holds "" p P -> pop_in_bounds P -> slopes_nonzero P ->
  exists pms pq f, p_single p (Fin m) (Fin tp) upid (Fin mu) (Fin mh) (Fin gy) k
    = Some (map_d Fin pms, map_d Fin pq, Fin f, xlt (uniform (nth 3 (split k 4) k)) (Fin f)) /\
    in_bounds pms /\ in_bounds pq /\ 0 < f < 1 /\ slice_q pms = bounded_qR Q5.
Proof.
  intros p P m tp upid mu mh gy k Hp Hb Hs.
  destruct (u_single_value p P m tp upid mu mh gy k Hp Hb Hs) as (ums & uq & f & R & S & E).
  unfold mc_diffstar_params_singlegal. rewrite E.
  rewrite (bounded_diffstar_fin ums), (bounded_diffstar_fin uq).
  do 2 eexists. exists f. split; [reflexivity|]. split; [apply bounded_in_bounds|].
  split; [apply bounded_in_bounds|]. split; [exact R|]. rewrite S. reflexivity.
Qed.

Lemma draws_in_bounds : forall p P m tp upid mu mh gy k,
  holds "" p P -> pop_in_bounds P -> slopes_nonzero P ->
  exists pms pq f b, p_single p (Fin m) (Fin tp) upid (Fin mu) (Fin mh) (Fin gy) k
    = Some (map_d Fin pms, map_d Fin pq, Fin f, b) /\
    in_bounds pms /\ in_bounds pq /\ 0 < f < 1.
Proof.
  intros p P m tp upid mu mh gy k Hp Hb Hs.
  destruct (p_single_value p P m tp upid mu mh gy k Hp Hb Hs) as (pms & pq & f & E & B1 & B2 & R & _).
  exists pms, pq, f. eexists. split; [exact E|]. auto.
Qed.

Lemma p_single_flag : forall p m tp upid mu mh gy k ms q f b u,
  p_single p m tp upid mu mh gy k = Some (ms, q, Fin f, b) ->
  uniform (nth 3 (split k 4) k) = Fin u -> (b = true <-> u < f).
Proof.
  intros p m tp upid mu mh gy k ms q f b u. unfold mc_diffstar_params_singlegal.
  destruct (u_single p m tp upid mu mh gy k) as [[[[ums uq] f'] b']|] eqn:E; [|discriminate].
  intros X. apply Some_inj in X. injection X as _ _ -> ->. intros Eu.
  destruct (upid_switch _ _ _ _ _ _ _ _ _ _ _ _ E) as (_ & _ & _ & _ & ->). rewrite Eu.
  apply xlt_fin.
Qed.

(** C40 (single galaxy) *)
Lemma sfh_single_consistent : forall p mah m upid mu mh gy k ts lgt0 fb r,
  s_single p mah m upid mu mh gy k ts lgt0 fb = Some r ->
  p_single p m (t_peak mah) upid mu mh gy k = Some (diffstar_params_ms r, diffstar_params_q r, frac_q r, mc_is_q r) /\
  sfh_ms r = calc_sfh_singlegal lmk (diffstar_params_ms r) mah ts lgt0 fb /\
  sfh_q r = calc_sfh_singlegal lmk (diffstar_params_q r) mah ts lgt0 fb.
Proof.
  intros p mah m upid mu mh gy k ts lgt0 fb r. unfold mc_diffstar_sfh_singlegal.
  destruct (p_single _ _ _ _ _ _ _ _) as [[[[pms pq] f] b]|]; [|discriminate].
  intros E. apply Some_inj in E. subst r. cbn. auto.
Qed.

Lemma exp_ge_cube x : 0 <= x -> (1 + x / 3) ^ 3 <= exp x.
Proof.
  intros H. replace x with (x / 3 + (x / 3 + x / 3)) at 2 by field. rewrite !exp_plus.
  assert (1 + x / 3 <= exp (x / 3)) by (apply exp_ineq1_le). set (a := 1 + x / 3) in *. set (e := exp (x / 3)) in *.
  assert (0 < a) by (unfold a; lra). replace (a ^ 3) with (a * (a * a)) by ring.
  apply Rmult_le_compat; try nra; apply Rmult_le_compat; nra.
Qed.
Lemma drop_Q5 : -1/100 < lg_drop (bounded_qR Q5) < 0.
Proof.
  unfold bounded_qR, Q5. cbn [lg_drop]. unfold bndR, sigR.
  set (L := logisticR _). assert (HL := logistic_range ((4 / (0 - -3)) * (5 - (-3 + 0) / 2))).
  assert (299/300 < L < 1).
  { split; [|apply HL]. unfold L, logisticR.
    replace (- (4 / (0 - -3) * (5 - (-3 + 0) / 2))) with (- (26 / 3)) by field.
    rewrite exp_Ropp. assert (299 < exp (26/3)).
    { assert (X : exp (26/3) = exp (13/6) ^ 4).
      { replace (26/3) with (13/6 + (13/6 + (13/6 + 13/6))) by field. rewrite !exp_plus. ring. }
      assert (Y := exp_ge_cube (13/6) ltac:(lra)). rewrite X.
      assert (Z : 5 <= (1 + 13 / 6 / 3) ^ 3) by (simpl; lra). set (e := exp (13/6)) in *.
      assert (25 <= e ^ 2) by nra. replace (e ^ 4) with (e ^ 2 * e ^ 2) by ring. nra. }
    assert (/ exp (26/3) < / 299) by (apply Rinv_lt_contravar; nra).
    assert (0 < / exp (26/3)) by (apply Rinv_0_lt_compat; lra). set (z := / exp (26/3)) in *.
    apply Rmult_lt_reg_r with (1 + z); [lra|]. rewrite ?Rmult_assoc, Rinv_l; [|lra].
    lra. }
  nra.
Qed.

Lemma ms_barely_quenched : forall p P m tp upid mu mh gy k,
  holds "" p P -> pop_in_bounds P -> slopes_nonzero P ->
  exists pms pq f b, p_single p (Fin m) (Fin tp) upid (Fin mu) (Fin mh) (Fin gy) k
    = Some (map_d Fin pms, pq, f, b) /\
    map_q Fin (slice_q pms) = DEFAULT_Q_PARAMS_UNQUENCHED /\ -1/100 < d_lg_drop pms < 0.
Proof.
  intros p P m tp upid mu mh gy k Hp Hb Hs.
  destruct (p_single_value p P m tp upid mu mh gy k Hp Hb Hs) as (pms & pq & f & E & _ & _ & _ & S).
  exists pms. do 3 eexists. split; [exact E|]. rewrite S. split.
  - unfold DEFAULT_Q_PARAMS_UNQUENCHED. change DEFAULT_Q_U_PARAMS_UNQUENCHED with (map_q Fin Q5).
    symmetry. apply bounded_q_fin.
  - change (d_lg_drop pms) with (lg_drop (slice_q pms)). rewrite S. apply drop_Q5.
Qed.

(** Star formation of a drawn main-sequence galaxy *)
Lemma ms_sfr_lower : forall p P m tp upid mu mh gy k mah ts lgt0 fb h,
  holds "" p P -> pop_in_bounds P -> slopes_nonzero P -> halo_history lmk mah lgt0 h ts -> 0 <= fb ->
  exists pms pq f b sfr, p_single p (Fin m) (Fin tp) upid (Fin mu) (Fin mh) (Fin gy) k
    = Some (map_d Fin pms, pq, f, b) /\
    calc_sfh_singlegal lmk (map_d Fin pms) mah (map Fin ts) lgt0 (Fin fb) = map Fin sfr /\
    List.length sfr = List.length ts /\
    forall i, (i < List.length ts)%nat ->
      pow10R (-1/100) * ms_spec pms fb (h (nth i ts 0)) <= nth i sfr 0
      <= Rmax (1 / 10 ^ 14) (ms_spec pms fb (h (nth i ts 0))).
Proof.
  intros p P m tp upid mu mh gy k mah ts lgt0 fb h Hp Hb Hs Hh Hf.
  destruct (p_single_value p P m tp upid mu mh gy k Hp Hb Hs) as (pms & pq & f & E & B & _ & _ & S).
  exists pms. do 3 eexists. exists (map (fun t => sfr_spec pms fb (h t) t) ts). split; [exact E|].
  split; [now apply calc_sfh_value|]. split; [apply map_length|].
  intros i Hi. rewrite (nth_map _ ts i 0) by auto. unfold sfr_spec.
  rewrite <- quench_spec_eq by apply pow10_pos.
  destruct B as (_ & _ & _ & _ & _ & _ & B7 & B8).
  assert (Q := quench_range (log10R (nth i ts 0)) (d_lg_qt pms) (pow10R (d_qlglgdt pms)) (d_lg_drop pms)
    (d_lg_rejuv pms) ltac:(lra) ltac:(lra)).
  assert (D : -1/100 < d_lg_drop pms).
  { change (d_lg_drop pms) with (lg_drop (slice_q pms)). rewrite S. apply drop_Q5. }
  assert (G := pow10_le (-1/100) (d_lg_drop pms) ltac:(lra)).
  assert (M : 0 <= ms_spec pms fb (h (nth i ts 0))).
  { unfold ms_spec. assert (X1 := pow10_pos (h (nth i ts 0))).
    assert (X2 := pow10_pos (eff_spec pms (h (nth i ts 0)))).
    apply Rmult_le_pos; [apply Rmult_le_pos|]; lra. }
  set (q := quenchR _ _ _ _ _) in *. set (M0 := ms_spec _ _ _) in *. split.
  - eapply Rle_trans; [|apply Rmax_r]. apply Rmult_le_compat_r; lra.
  - apply Rmax_lub; [apply Rmax_l|]. eapply Rle_trans; [|apply Rmax_r]. nra.
Qed.

(** ** C39 *)
Definition gal6 (a b : list xr) (c : list Z) (d e f : list xr) (ks : list key) (k0 : key) (i : nat) :=
  (nth i a NaN, nth i b NaN, nth i c 0%Z, nth i d NaN, nth i e NaN, nth i f NaN, nth i ks k0).

Lemma list_map_nth {A} (l : list A) d : l = map (fun i => nth i l d) (seq 0 (List.length l)).
Proof.
  apply nth_ext with d d; [now rewrite map_length, seq_length|]. intros i Hi. now rewrite nth_map_seq.
Qed.
Lemma zip6_ok n a b c d e f ks k0 : List.length a = n -> List.length b = n -> List.length c = n ->
  List.length d = n -> List.length e = n -> List.length f = n -> List.length ks = n ->
  zip6 key a b c d e f ks = Some (map (gal6 a b c d e f ks k0) (seq 0 n)).
Proof.
  intros La Lb Lc Ld Le Lf Lk. unfold zip6. rewrite La, Lb, Lc, Ld, Le, Lf, Lk, Nat.eqb_refl. cbn [andb].
  rewrite (list_map_nth a NaN), (list_map_nth b NaN), (list_map_nth c 0%Z), (list_map_nth d NaN),
    (list_map_nth e NaN), (list_map_nth f NaN), (list_map_nth ks k0) at 1.
  rewrite La, Lb, Lc, Ld, Le, Lf, Lk. rewrite !combine_map_seq. reflexivity.
Qed.

Lemma gal_stack l i : (i < List.length l)%nat ->
  gal_d (stack_d l) i = nth i l (mkDiffstar NaN NaN NaN NaN NaN NaN NaN NaN).
Proof.
  intros H. set (d0 := mkDiffstar NaN NaN NaN NaN NaN NaN NaN NaN). unfold gal_d, stack_d, map_d.
  cbn [d_lgmcrit d_lgy_at_mcrit d_indx_lo d_indx_hi d_lg_qt d_qlglgdt d_lg_drop d_lg_rejuv].
  rewrite !(nth_map _ l i d0) by auto. destruct (nth i l d0). reflexivity.
Qed.
Lemma len_stack l : cols_len_d (List.length l) (stack_d l).
Proof. unfold cols_len_d, stack_d. cbn. rewrite !map_length. repeat split. Qed.

Definition d0 : DiffstarParams xr := mkDiffstar NaN NaN NaN NaN NaN NaN NaN NaN.
Definition dr0 : draw := (d0, d0, NaN, false).

Lemma u_pop_inv n p m tp upid mu mh gy k ms q f b : pop_args n m tp upid mu mh gy ->
  u_pop p m tp upid mu mh gy k = Some (ms, q, f, b) ->
  cols_len_d n ms /\ cols_len_d n q /\ List.length f = n /\ List.length b = n /\
  forall i, (i < n)%nat ->
    u_single p (nth i m NaN) (nth i tp NaN) (nth i upid 0%Z) (nth i mu NaN) (nth i mh NaN) (nth i gy NaN)
      (nth i (split k n) k) = Some (gal_d ms i, gal_d q i, nth i f NaN, nth i b false).
Proof.
  intros (L1 & L2 & L3 & L4 & L5 & L6). unfold mc_diffstar_u_params_galpop. rewrite L1.
  rewrite (zip6_ok n _ _ _ _ _ _ _ k) by (auto; apply Hsplit).
  destruct (vmap _ _) as [ds|] eqn:E; [|discriminate]. intros X. apply Some_inj in X.
  apply vmap_seq_inv in E as [Ln E]. unfold stack_draws in X. injection X as <- <- <- <-.
  assert (Ls1 := len_stack (map (fun d : draw => fst (fst (fst d))) ds)).
  assert (Ls2 := len_stack (map (fun d : draw => snd (fst (fst d))) ds)).
  rewrite map_length, Ln in Ls1, Ls2.
  split; [exact Ls1|]. split; [exact Ls2|]. split; [now rewrite map_length|]. split; [now rewrite map_length|].
  intros i Hi. specialize (E i dr0 Hi). unfold gal6 in E. rewrite E. apply f_equal.
  unfold draw in *. rewrite !gal_stack by (rewrite map_length; lia). fold d0.
  rewrite !(nth_map _ ds i dr0) by lia. destruct (nth i ds dr0) as [[[? ?] ?] ?]. reflexivity.
Qed.

Lemma u_pop_total n p m tp upid mu mh gy k : pop_args n m tp upid mu mh gy ->
  (forall i, (i < n)%nat ->
    u_single p (nth i m NaN) (nth i tp NaN) (nth i upid 0%Z) (nth i mu NaN) (nth i mh NaN) (nth i gy NaN)
      (nth i (split k n) k) <> None) ->
  exists r, u_pop p m tp upid mu mh gy k = Some r.
Proof.
  intros (L1 & L2 & L3 & L4 & L5 & L6) H. unfold mc_diffstar_u_params_galpop. rewrite L1.
  rewrite (zip6_ok n _ _ _ _ _ _ _ k) by (auto; apply Hsplit).
  match goal with |- context [vmap ?g ?l] => destruct (vmap_total g (fun _ => True) l) as (r & E & _) end.
  - intros a Ha. apply in_map_iff in Ha as (i & <- & Hi). apply in_seq in Hi.
    specialize (H i ltac:(lia)). unfold gal6. destruct (u_single _ _ _ _ _ _ _ _) as [x|]; [|congruence]. eauto.
  - rewrite E. eauto.
Qed.

Lemma gal_unpack (u : DiffstarParams (list xr)) i :
  unpack_d (map (fun c => at_ c i) (cols_d u)) = Some (gal_d u i).
Proof. destruct u. reflexivity. Qed.
Lemma bounded_galpop n u : cols_len_d n u ->
  exists b, get_bounded_diffstar_params_galpop u = Some b /\ cols_len_d n b /\
    forall i, (i < n)%nat -> gal_d b i = get_bounded_diffstar_params (gal_d u i).
Proof.
  intros (D1 & D2 & D3 & D4 & D5 & D6 & D7 & D8). unfold get_bounded_diffstar_params_galpop.
  rewrite (rows_ok n); [|discriminate|repeat constructor; assumption].
  assert (E : vmap unpack_d (map (fun i => map (fun c => at_ c i) (cols_d u)) (seq 0 n))
     = Some (map (gal_d u) (seq 0 n))).
  { unfold vmap. rewrite map_map. rewrite (map_ext _ (fun i => Some (gal_d u i))) by apply gal_unpack.
    apply sequence_map_Some. }
  rewrite E. eexists. split; [reflexivity|]. rewrite map_map.
  assert (L := len_stack (map (fun x => get_bounded_diffstar_params (gal_d u x)) (seq 0 n))).
  rewrite map_length, seq_length in L. split; [exact L|].
  intros i Hi. rewrite gal_stack by (rewrite map_length, seq_length; exact Hi). now rewrite nth_map_seq.
Qed.

Lemma p_pop_inv n p m tp upid mu mh gy k ms q f b : pop_args n m tp upid mu mh gy ->
  p_pop p m tp upid mu mh gy k = Some (ms, q, f, b) ->
  cols_len_d n ms /\ cols_len_d n q /\ List.length f = n /\ List.length b = n /\
  forall i, (i < n)%nat ->
    p_single p (nth i m NaN) (nth i tp NaN) (nth i upid 0%Z) (nth i mu NaN) (nth i mh NaN) (nth i gy NaN)
      (nth i (split k n) k) = Some (gal_d ms i, gal_d q i, nth i f NaN, nth i b false).
Proof.
  intros A. unfold mc_diffstar_params_galpop.
  destruct (u_pop p m tp upid mu mh gy k) as [[[[ums uq] f'] b']|] eqn:E; [|discriminate].
  destruct (u_pop_inv n p m tp upid mu mh gy k _ _ _ _ A E) as (C1 & C2 & Lf & Lb & H).
  destruct (bounded_galpop n ums C1) as (bm & Em & Lm & Gm).
  destruct (bounded_galpop n uq C2) as (bq & Eq & Lq & Gq). rewrite Em, Eq.
  intros X. apply Some_inj in X. injection X as <- <- <- <-. repeat (split; [assumption|]).
  intros i Hi. unfold mc_diffstar_params_singlegal. rewrite (H i Hi), (Gm i Hi), (Gq i Hi). reflexivity.
Qed.

Lemma p_single_none p m tp upid mu mh gy k :
  p_single p m tp upid mu mh gy k = None <-> u_single p m tp upid mu mh gy k = None.
Proof.
  unfold mc_diffstar_params_singlegal. destruct (u_single p m tp upid mu mh gy k) as [[[[? ?] ?] ?]|]; split; easy.
Qed.
Lemma p_pop_total n p m tp upid mu mh gy k : pop_args n m tp upid mu mh gy ->
  (forall i, (i < n)%nat ->
    p_single p (nth i m NaN) (nth i tp NaN) (nth i upid 0%Z) (nth i mu NaN) (nth i mh NaN) (nth i gy NaN)
      (nth i (split k n) k) <> None) ->
  exists ms q f b, p_pop p m tp upid mu mh gy k = Some (ms, q, f, b).
Proof.
  intros A H. destruct (u_pop_total n p m tp upid mu mh gy k A) as ([[[ums uq] f] b] & E).
  { intros i Hi X. apply (H i Hi). now apply p_single_none. }
  destruct (u_pop_inv n p m tp upid mu mh gy k _ _ _ _ A E) as (C1 & C2 & _).
  destruct (bounded_galpop n ums C1) as (bm & Em & _).
  destruct (bounded_galpop n uq C2) as (bq & Eq & _).
  unfold mc_diffstar_params_galpop. rewrite E, Em, Eq. eauto.
Qed.

Lemma s_pop_inv n p mah m upid mu mh gy k ts lgt0 fb r : cols_len_mah n mah ->
  pop_args n m (t_peak mah) upid mu mh gy ->
  s_pop p mah m upid mu mh gy k ts lgt0 fb = Some r ->
  cols_len_d n (diffstar_params_ms r) /\ cols_len_d n (diffstar_params_q r) /\
  List.length (sfh_ms r) = n /\ List.length (sfh_q r) = n /\ List.length (frac_q r) = n /\ List.length (mc_is_q r) = n /\
  calc_sfh_galpop lmk (diffstar_params_ms r) mah ts lgt0 fb = Some (sfh_ms r) /\
  calc_sfh_galpop lmk (diffstar_params_q r) mah ts lgt0 fb = Some (sfh_q r) /\
  forall i, (i < n)%nat ->
    s_single p (gal_mah mah i) (nth i m NaN) (nth i upid 0%Z) (nth i mu NaN) (nth i mh NaN) (nth i gy NaN)
      (nth i (split k n) k) ts lgt0 fb
    = Some (mkMCDiffstar (gal_d (diffstar_params_ms r) i) (gal_d (diffstar_params_q r) i)
              (nth i (sfh_ms r) []) (nth i (sfh_q r) []) (nth i (frac_q r) NaN) (nth i (mc_is_q r) false)).
Proof.
  intros Hm A. unfold mc_diffstar_sfh_galpop.
  destruct (p_pop p m (t_peak mah) upid mu mh gy k) as [[[[ms q] f] b]|] eqn:E; [|discriminate].
  destruct (p_pop_inv n p m _ upid mu mh gy k _ _ _ _ A E) as (C1 & C2 & Lf & Lb & H).
  rewrite (galpop_eq lmk n ms mah ts lgt0 fb C1 Hm), (galpop_eq lmk n q mah ts lgt0 fb C2 Hm).
  intros X. apply Some_inj in X. subst r. cbn [diffstar_params_ms diffstar_params_q sfh_ms sfh_q frac_q mc_is_q].
  rewrite !map_length, !seq_length. split; [exact C1|]. split; [exact C2|]. repeat (split; [auto; fail|]).
split; [now apply galpop_eq|]. split; [now apply galpop_eq|].
  intros i Hi. unfold mc_diffstar_sfh_singlegal. cbn [gal_mah map_mah t_peak].
  change (t_peak (gal_mah mah i)) with (nth i (t_peak mah) NaN). rewrite (H i Hi).
  now rewrite !nth_map_seq by auto.
Qed.
Lemma s_pop_total n p mah m upid mu mh gy k ts lgt0 fb : cols_len_mah n mah ->
  pop_args n m (t_peak mah) upid mu mh gy ->
  (forall i, (i < n)%nat ->
    p_single p (nth i m NaN) (nth i (t_peak mah) NaN) (nth i upid 0%Z) (nth i mu NaN) (nth i mh NaN) (nth i gy NaN)
      (nth i (split k n) k) <> None) ->
  exists r, s_pop p mah m upid mu mh gy k ts lgt0 fb = Some r.
Proof.
  intros Hm A H. destruct (p_pop_total n p m _ upid mu mh gy k A H) as (ms & q & f & b & E).
  destruct (p_pop_inv n p m _ upid mu mh gy k _ _ _ _ A E) as (C1 & C2 & _).
  unfold mc_diffstar_sfh_galpop. rewrite E.
  rewrite (galpop_eq lmk n ms mah ts lgt0 fb C1 Hm), (galpop_eq lmk n q mah ts lgt0 fb C2 Hm). eauto.
Qed.

(** C37 for populations *)
Lemma nth_fin (l : list R) i : (i < List.length l)%nat -> nth i (map Fin l) NaN = Fin (nth i l 0).
Proof. intros H. now rewrite (nth_map _ l i 0). Qed.
Lemma pop_draws_in_bounds : forall p P n m tp upid mu mh gy k,
  holds "" p P -> pop_in_bounds P -> slopes_nonzero P ->
  List.length m = n -> List.length tp = n -> List.length upid = n ->
  List.length mu = n -> List.length mh = n -> List.length gy = n ->
  exists ms q f b, p_pop p (map Fin m) (map Fin tp) upid (map Fin mu) (map Fin mh) (map Fin gy) k
      = Some (ms, q, f, b) /\
    cols_len_d n ms /\ cols_len_d n q /\ List.length f = n /\ List.length b = n /\
    forall i, (i < n)%nat -> exists pms pq r, gal_d ms i = map_d Fin pms /\ gal_d q i = map_d Fin pq /\
      nth i f NaN = Fin r /\ in_bounds pms /\ in_bounds pq /\ 0 < r < 1.
Proof.
  intros p P n m tp upid mu mh gy k Hp Hb Hs L1 L2 L3 L4 L5 L6.
  assert (A : pop_args n (map Fin m) (map Fin tp) upid (map Fin mu) (map Fin mh) (map Fin gy)).
  { unfold pop_args. rewrite !map_length. tauto. }
  assert (S : forall i, (i < n)%nat -> exists pms pq f b,
     p_single p (nth i (map Fin m) NaN) (nth i (map Fin tp) NaN) (nth i upid 0%Z) (nth i (map Fin mu) NaN)
      (nth i (map Fin mh) NaN) (nth i (map Fin gy) NaN)
      (nth i (split k n) k) = Some (map_d Fin pms, map_d Fin pq, Fin f, b) /\
    in_bounds pms /\ in_bounds pq /\ 0 < f < 1).
  { intros i Hi. rewrite !nth_fin by lia. now apply draws_in_bounds with P. }
  destruct (p_pop_total n p _ _ upid _ _ _ k A) as (ms & q & f & b & E).
  { intros i Hi. destruct (S i Hi) as (? & ? & ? & ? & -> & _). discriminate. }
  destruct (p_pop_inv n p _ _ upid _ _ _ k _ _ _ _ A E) as (C1 & C2 & Lf & Lb & H).
  exists ms, q, f, b. split; [exact E|]. repeat (split; [assumption|]).
  intros i Hi. specialize (H i Hi). destruct (S i Hi) as (pms & pq & r & b' & E' & B). rewrite H in E'.
  apply Some_inj in E'. apply pair_equal_spec in E' as [E' _]. apply pair_equal_spec in E' as [E' X3].
  apply pair_equal_spec in E' as [X1 X2]. exists pms, pq, r. tauto.
Qed.
End Mc.

(** C38: for a uniform variate the flag is raised with probability [frac_q]. *)
Lemma is_RInt_cst (c a b l : R) : l = (b - a) * c -> is_RInt (fun _ => c) a b l.
Proof. intros ->. exact (is_RInt_const (V := R_NormedModule) a b c). Qed.
Lemma indicator_RInt f : 0 < f < 1 -> is_RInt (fun u => if Rlt_dec u f then 1 else 0) 0 1 f.
Proof.
  intros H. assert (X : is_RInt (fun u => if Rlt_dec u f then 1 else 0) 0 1 (f + 0)).
  2:{ rewrite Rplus_0_r in X. exact X. }
  refine (is_RInt_Chasles (V := R_NormedModule) _ 0 f 1 f 0 _ _).
  - apply (is_RInt_ext (V := R_NormedModule) (fun _ => 1)); [|apply is_RInt_cst; ring].
    intros x Hx. rewrite Rmin_left, Rmax_right in Hx by lra. destruct (Rlt_dec x f); [reflexivity|lra].
  - apply (is_RInt_ext (V := R_NormedModule) (fun _ => 0)); [|apply is_RInt_cst; ring].
    intros x Hx. rewrite Rmin_left, Rmax_right in Hx by lra. destruct (Rlt_dec x f); [lra|reflexivity].
Qed.
Lemma flag_probability : forall (key : Type) (split : key -> nat -> list key) mvn, splits_ok split -> mvn_ok mvn ->
  forall p P m tp upid mu mh gy k, holds "" p P -> pop_in_bounds P -> slopes_nonzero P ->
  exists pms pq f (flag : R -> bool),
    (forall u, mc_diffstar_params_singlegal key split (fun _ => Fin u) mvn p (Fin m) (Fin tp) upid
                 (Fin mu) (Fin mh) (Fin gy) k = Some (pms, pq, Fin f, flag u)) /\
    is_RInt (fun u => if flag u then 1 else 0) 0 1 f.
Proof.
  intros key split mvn Hs Hm p P m tp upid mu mh gy k Hp Hb Hsl.
  destruct (u_single_value split (fun _ => Fin 0) mvn Hs Hm p P m tp upid mu mh gy k Hp Hb Hsl)
    as (ums & uq & f & R & _ & E).
  exists (get_bounded_diffstar_params (map_d Fin ums)), (get_bounded_diffstar_params (map_d Fin uq)), f.
  exists (fun u => if Rlt_dec u f then true else false). split.
  - intros u. unfold mc_diffstar_params_singlegal, mc_diffstar_u_params_singlegal in *.
    destruct (diffstarpop_means_covs _ _ _ _ _ _) as [mc|]; [|discriminate].
    destruct (split k 4%nat) as [|k1 [|k2 [|k3 [|k4 [|]]]]]; try discriminate. cbv zeta in *.
    destruct (unpack_d _) as [a|]; [|discriminate]. destruct (unpack_d _) as [b|]; [|discriminate].
    apply Some_inj in E. injection E as -> -> -> _. reflexivity.
  - apply (is_RInt_ext (V := R_NormedModule) (fun u => if Rlt_dec u f then 1 else 0)); [|now apply indicator_RInt].
    intros x _. destruct (Rlt_dec x f); reflexivity.
Qed.

(** C41 *)
Lemma where_ok mask a b : List.length a = List.length mask -> List.length b = List.length mask ->
  where_ mask a b = Some (map (fun i => if nth i mask false then nth i a NaN else nth i b NaN) (seq 0 (List.length mask))).
Proof.
  intros La Lb. unfold where_. rewrite La, Lb, Nat.eqb_refl. cbn [andb]. apply f_equal.
  rewrite (list_map_nth mask false), (list_map_nth a NaN), (list_map_nth b NaN) at 1.
  rewrite La, Lb, combine_map_seq, map2_rows. reflexivity.
Qed.
Lemma where_bad mask a b : where_ mask a b <> None -> List.length a = List.length mask /\ List.length b = List.length mask.
Proof.
  unfold where_. destruct (Nat.eqb_spec (List.length mask) (List.length a)); [|easy].
  destruct (Nat.eqb_spec (List.length mask) (List.length b)); [|easy]. lia.
Qed.
Lemma select_spec : forall n p1 p0 mask, cols_len_d n p1 -> cols_len_d n p0 -> List.length mask = n ->
  exists r, mc_select_diffstar_params p1 p0 mask = Some r /\ cols_len_d n r /\
    forall i, (i < n)%nat -> gal_d r i = if nth i mask false then gal_d p1 i else gal_d p0 i.
Proof.
  intros n p1 p0 mask (A1 & A2 & A3 & A4 & A5 & A6 & A7 & A8) (B1 & B2 & B3 & B4 & B5 & B6 & B7 & B8) <-.
  unfold mc_select_diffstar_params. rewrite !where_ok by assumption. eexists. split; [reflexivity|].
  split; [unfold cols_len_d; cbn; rewrite !map_length, !seq_length; repeat split|].
  intros i Hi. unfold gal_d, map_d at 1.
  cbn [d_lgmcrit d_lgy_at_mcrit d_indx_lo d_indx_hi d_lg_qt d_qlglgdt d_lg_drop d_lg_rejuv].
  rewrite !nth_map_seq by auto. destruct (nth i mask false); reflexivity.
Qed.
