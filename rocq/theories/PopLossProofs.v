(** Predicted PDFs of a simulated population. *)
From Coq Require Import Reals Lra Lia List Bool ZArith String.
From Coquelicot Require Import Coquelicot.
From Verif Require Import XReal XFacts RealFacts ModelUtils ModelKernels ModelSfh ModelPop ModelHist SpecCore SpecPop SpecHist
  SfhProofs PopProofs HistProofs SmhmProofs LossProofs PopParamProofs PopMcProofs.
Import List ListNotations.
Open Scope R_scope.

Lemma choice_list {A} (P : nat -> A -> Prop) n d : (forall i, (i < n)%nat -> exists x, P i x) ->
  exists l, length l = n /\ forall i, (i < n)%nat -> P i (nth i l d).
Proof.
  induction n as [|n IH]; intros H; [exists []; split; [reflexivity|lia]|].
  destruct IH as (l & L & Hl); [intros; apply H; lia|]. destruct (H n ltac:(lia)) as (x & Hx).
  exists (l ++ [x]). split; [rewrite app_length; simpl; lia|]. intros i Hi.
  destruct (Nat.eq_dec i n) as [->|Ne].
  - rewrite app_nth2, L, Nat.sub_diag by lia. exact Hx.
  - rewrite app_nth1 by lia. apply Hl. lia.
Qed.

Lemma grid_fin tobs : 0 < tobs -> tobs_grid (Fin tobs) = map Fin (obs_times tobs).
Proof.
  intros H. unfold tobs_grid, logspace, obs_times. rewrite map_map. apply map_ext. intros i.
  rewrite xlog10_fin by exact H. xr_simp. change (INR (N_TIMES - 1)) with (INR 19).
  rewrite xdiv_fin by (apply not_0_INR; lia). xr_simp. apply f_equal. unfold pow10R, log10R.
  replace (INR 19) with 19 by (simpl; lra). f_equal. field. apply Rgt_not_eq. rewrite <- ln_1. apply ln_increasing; lra.
Qed.

Lemma ln10_pos : 0 < ln 10. Proof. rewrite <- ln_1. apply ln_increasing; lra. Qed.

Lemma increasing_map_seq (f : nat -> R) : (forall i, f i < f (S i)) -> forall n s, increasing (map f (seq s n)).
Proof.
  intros H. induction n as [|n IH]; intros s; [exact I|]. cbn [seq map]. destruct n; [exact I|].
  cbn [seq map increasing] in *. split; [apply H|apply (IH (S s))].
Qed.

Lemma obs_times_incr tobs : 1 / 10 < tobs -> increasing (1 / 1000 :: obs_times tobs).
Proof.
  intros H. pose proof ln10_pos as L.
  assert (P : 0 < ln tobs / ln 10 + 1).
  { replace 1 with (ln 10 / ln 10) by (field; lra). replace (ln tobs / ln 10 + ln 10 / ln 10) with (ln (tobs * 10) / ln 10).
    - apply Rdiv_lt_0_compat; [|exact L]. rewrite <- ln_1. apply ln_increasing; lra.
    - rewrite ln_mult by lra. field. lra. }
  set (f := fun i => exp (((-1) + INR i / 19 * (ln tobs / ln 10 + 1)) * ln 10)).
  assert (I : increasing (map f (seq 0 20))).
  { apply increasing_map_seq. intros i. apply exp_increasing. apply Rmult_lt_compat_r; [exact L|]. rewrite S_INR.
    apply Rplus_lt_compat_l. apply Rmult_lt_compat_r; [exact P|]. unfold Rdiv. lra. }
  change (obs_times tobs) with (map f (seq 0 20)). revert I. change (seq 0 20) with (0%nat :: seq 1 19). cbn [map].
  intros I. split; [|exact I]. unfold f. replace ((-1 + INR 0 / 19 * (ln tobs / ln 10 + 1)) * ln 10) with (- ln 10) by (simpl; field; lra).
  rewrite exp_Ropp, exp_ln by lra. lra.
Qed.

Lemma last_fin l : l <> [] -> last_ (map Fin l) = Fin (last l 0).
Proof.
  intros H. unfold last_. induction l as [|a [|b l] IH]; [contradiction|reflexivity|].
  change (last (map Fin (a :: b :: l)) NaN) with (last (map Fin (b :: l)) NaN). rewrite IH by discriminate. reflexivity.
Qed.
Lemma last_In {A} (l : list A) d : l <> [] -> In (last l d) l.
Proof. intros H. rewrite (app_removelast_last d H) at 2. apply in_or_app. right. now left. Qed.

(** Final SFR and stellar mass of one galaxy. *)
Lemma final_values lmk p mah ts lgt0 fb h : halo_history lmk mah lgt0 h ts -> increasing (1 / 1000 :: ts) -> ts <> [] ->
  exists s mass M, last_ (calc_sfh_singlegal lmk (map_d Fin p) mah (map Fin ts) lgt0 (Fin fb)) = Fin s /\ 0 < s /\
    cumulative_mstar_formed (map Fin ts) (calc_sfh_singlegal lmk (map_d Fin p) mah (map Fin ts) lgt0 (Fin fb)) = Some mass /\
    last_ mass = Fin M /\ 0 < M.
Proof.
  intros Hh Hi Hn. destruct (calc_sfh_floor lmk p mah ts lgt0 fb h Hh) as (s & E & L & F).
  assert (sn : s <> []) by (intros ->; destruct ts; [contradiction|discriminate]).
  destruct (smh_increasing lmk p mah ts lgt0 fb h Hh Hi) as (sfh & smh & E2 & L2 & _ & P).
  assert (E3 : cumulative_mstar_formed (map Fin ts) (calc_sfh_singlegal lmk (map_d Fin p) mah (map Fin ts) lgt0 (Fin fb)) = Some (map Fin smh)).
  { unfold calc_sfh_singlegal_smh in E2. unfold calc_sfh_singlegal. cbv zeta in E2.
    destruct (cumulative_mstar_formed _ _) as [m|]; [|discriminate].
    apply Some_inj in E2. apply pair_equal_spec in E2 as [_ ->]. reflexivity. }
  assert (mn : smh <> []) by (intros ->; destruct ts; [contradiction|discriminate]).
  exists (last s 0), (map Fin smh), (last smh 0). rewrite E, last_fin by exact sn.
  rewrite Forall_forall in F, P. pose proof (F _ (last_In s 0 sn)). pose proof (P _ (last_In smh 0 mn)).
  split; [reflexivity|]. split; [lra|]. rewrite <- E. split; [exact E3|]. split; [apply last_fin, mn|assumption].
Qed.

Lemma list_eq_nth {A} (l l' : list A) d : length l = length l' -> (forall i, (i < length l)%nat -> nth i l d = nth i l' d) -> l = l'.
Proof. intros H1 H2. apply (nth_ext l l' d d H1). exact H2. Qed.

Section P.
Variable key : Type.
Variable split : key -> nat -> list key.
Variable uniform : key -> xr.
Variable mvn : key -> list xr -> list (list xr) -> list xr.
Variable lmk : MahParams xr -> xr -> xr -> xr.
Hypothesis Hsplit : splits_ok split.
Hypothesis Hmvn : mvn_ok mvn.

Notation sample := (sample key split uniform mvn lmk).
Notation zs_ok := (zs_ok key lmk).
Notation sim := (mc_sfh_at_tobs key split uniform mvn lmk).
Notation tables := (tobs_tables key split uniform mvn lmk).

Lemma clip_fin lo x : clip_lo (Fin lo) (Fin x) = Fin (Rmax x lo).
Proof.
  unfold clip_lo, xmax. simpl. unfold Rltb.
  destruct (Rlt_dec x lo); [rewrite Rmax_right by lra|rewrite Rmax_left by lra]; reflexivity.
Qed.

Lemma cum_rows tobs rows (S M : list R) n : List.length rows = n -> List.length S = n -> List.length M = n ->
  (forall i, (i < n)%nat -> obs_row tobs (nth i rows []) (nth i S 0) (nth i M 0)) ->
  exists masses, cumulative_mstar_formed_galpop (map Fin (obs_times tobs)) rows = Some masses /\
    map last_ masses = map Fin M /\ map last_ rows = map Fin S.
Proof.
  intros H1 H2 H3 H.
  destruct (choice_list (fun i mass => cumulative_mstar_formed (map Fin (obs_times tobs)) (nth i rows []) = Some mass /\ last_ mass = Fin (nth i M 0)) n []) as (ms & L & Hm).
  { intros i Hi. destruct (H i Hi) as (_ & _ & mass & A & B & _). eauto. }
  exists ms. split; [|split].
  - unfold cumulative_mstar_formed_galpop. apply vmap_spec.
    assert (Hm' : forall i, (i < n)%nat -> cumulative_mstar_formed (map Fin (obs_times tobs)) (nth i rows []) = Some (nth i ms [])) by (intros; apply Hm; assumption).
    clear Hm H H2 H3 S M. subst n. revert ms L Hm'. induction rows as [|r rows IH]; intros [|m ms] L Hm; try discriminate; constructor.
    + apply (Hm 0%nat). simpl. lia.
    + apply IH; [simpl in L; lia|]. intros i Hi. apply (Hm (S i)). simpl. lia.
  - apply (list_eq_nth _ _ NaN); rewrite !map_length; [lia|]. intros i Hi. rewrite (nth_map _ _ _ []) by exact Hi.
    rewrite nth_fin by lia. apply Hm. lia.
  - apply (list_eq_nth _ _ NaN); rewrite !map_length; [lia|]. intros i Hi. rewrite (nth_map _ _ _ []) by exact Hi.
    rewrite nth_fin by lia. apply H. lia.
Qed.

Lemma map_log10 l : Forall (fun x => 0 < x) l -> map xlog10 (map Fin l) = map Fin (map log10R l).
Proof. induction 1 as [|x l Hx Hl IH]; [reflexivity|]. cbn [map]. rewrite IH, xlog10_fin by exact Hx. reflexivity. Qed.

Lemma ones_mul {A} (l : list A) f : List.length l = List.length f -> map2 xmul (map (fun _ => Fin 1) l) (map Fin f) = map Fin f.
Proof.
  revert f. induction l as [|a l IH]; intros [|b f] H; try discriminate; [reflexivity|].
  cbn [map map2]. rewrite IH by (simpl in H; lia). simpl xmul. now rewrite Rmult_1_l.
Qed.

Lemma clip_map S M : Forall (fun x => 0 < x) S -> Forall (fun x => 0 < x) M ->
  map (clip_lo (Fin (-12))) (map2 xsub (map xlog10 (map Fin S)) (map xlog10 (map Fin M))) = map Fin (clipped_ssfr S M).
Proof.
  intros HS HM. rewrite !map_log10 by assumption. clear HS HM. unfold clipped_ssfr. revert M.
  induction S as [|s S IH]; intros [|m M]; try reflexivity. cbn [map map2]. rewrite IH. apply f_equal2; [|reflexivity].
  exact (clip_fin (-12) (log10R s - log10R m)).
Qed.

Lemma F_of_nth (P : R -> Prop) l n : List.length l = n -> (forall i, (i < n)%nat -> P (nth i l 0)) -> Forall P l.
Proof. intros L H. apply Forall_forall. intros x Hx. destruct (In_nth _ _ 0 Hx) as (i & Hi & <-). apply H. lia. Qed.

Lemma tables_value p P n tobs z lgt0 fb : holds "" p P -> pop_in_bounds P -> slopes_nonzero P ->
  sim_ok lmk lgt0 n tobs z ->
  exists res Sms Sq Mms Mq f,
    sim p z lgt0 (Fin fb) = Some res /\
    List.length (sfh_ms res) = n /\ List.length (sfh_q res) = n /\
    List.length Sms = n /\ List.length Sq = n /\ List.length Mms = n /\ List.length Mq = n /\ List.length f = n /\
    frac_q res = map Fin f /\ Forall (fun x => 0 < x < 1) f /\
    (forall i, (i < n)%nat -> obs_row tobs (nth i (sfh_ms res) []) (nth i Sms 0) (nth i Mms 0) /\
                              obs_row tobs (nth i (sfh_q res) []) (nth i Sq 0) (nth i Mq 0)) /\
    tables p z lgt0 (Fin fb) = Some (map Fin (map log10R (Mms ++ Mq)), map Fin (clipped_ssfr (Sms ++ Sq) (Mms ++ Mq)),
                                     map Fin (map (fun x => 1 - x) f ++ f)).
Proof.
  intros Hp Hb Hs (m & tp & mu & mh & gy & E1 & E2 & E3 & E4 & E5 & E6 & Ht & L1 & L2 & L3 & L4 & L5 & L6 & Hc & Hh).
  assert (A : pop_args n (map Fin m) (t_peak (z_mah key z)) (z_upid key z) (map Fin mu) (map Fin mh) (map Fin gy)).
  { unfold pop_args. rewrite E2, !map_length. tauto. }
  assert (D : forall i, (i < n)%nat -> exists pms pq f b,
    mc_diffstar_params_singlegal key split uniform mvn p (nth i (map Fin m) NaN) (nth i (t_peak (z_mah key z)) NaN) (nth i (z_upid key z) 0%Z) (nth i (map Fin mu) NaN)
      (nth i (map Fin mh) NaN) (nth i (map Fin gy) NaN) (nth i (split (z_key key z) n) (z_key key z)) = Some (map_d Fin pms, map_d Fin pq, Fin f, b) /\
    in_bounds pms /\ in_bounds pq /\ 0 < f < 1).
  { intros i Hi. rewrite E2, !nth_fin by lia. now apply draws_in_bounds with P. }
  destruct (s_pop_total split uniform mvn lmk Hsplit n p (z_mah key z) (map Fin m) (z_upid key z) (map Fin mu) (map Fin mh) (map Fin gy)
              (z_key key z) (tobs_grid (Fin tobs)) lgt0 (Fin fb) Hc A) as (res & ER).
  { intros i Hi. destruct (D i Hi) as (? & ? & ? & ? & -> & _). discriminate. }
  destruct (s_pop_inv split uniform mvn lmk Hsplit n _ _ _ _ _ _ _ _ _ _ _ _ Hc A ER) as (C1 & C2 & R1 & R2 & R3 & R4 & _ & _ & HR).
  rewrite grid_fin in ER by lra.
  assert (G : forall i, (i < n)%nat -> exists v : R * R * R * R * R, let '(s1, M1, s2, M2, f) := v in
     obs_row tobs (nth i (sfh_ms res) []) s1 M1 /\ obs_row tobs (nth i (sfh_q res) []) s2 M2 /\ nth i (frac_q res) NaN = Fin f /\ 0 < f < 1).
  { intros i Hi. specialize (HR i Hi). rewrite grid_fin in HR by lra.
    apply sfh_single_consistent in HR as (X1 & X2 & X3).
    cbn [diffstar_params_ms diffstar_params_q sfh_ms sfh_q frac_q mc_is_q] in X1, X2, X3.
    destruct (D i Hi) as (pms & pq & f & b & Y & _ & _ & Rf).
    change (t_peak (gal_mah (z_mah key z) i)) with (nth i (t_peak (z_mah key z)) NaN) in X1. rewrite Y in X1.
    apply Some_inj in X1. apply pair_equal_spec in X1 as [X1 _]. apply pair_equal_spec in X1 as [X1 Xf].
    apply pair_equal_spec in X1 as [Xa Xb]. rewrite <- Xa in X2. rewrite <- Xb in X3.
    destruct (Hh i Hi) as (h & Hist).
    destruct (final_values lmk pms _ _ lgt0 fb h Hist (obs_times_incr tobs Ht) ltac:(discriminate)) as (s1 & m1 & M1 & V1 & V2 & V3 & V4 & V5).
    destruct (final_values lmk pq _ _ lgt0 fb h Hist (obs_times_incr tobs Ht) ltac:(discriminate)) as (s2 & m2 & M2 & U1 & U2 & U3 & U4 & U5).
    exists (s1, M1, s2, M2, f). rewrite X2, X3. split; [|split; [|split; [symmetry; exact Xf|exact Rf]]].
    - split; [exact V1|]. split; [exact V2|]. exists m1. auto.
    - split; [exact U1|]. split; [exact U2|]. exists m2. auto. }
  destruct (choice_list _ n (0, 0, 0, 0, 0) G) as (vs & Lv & Hv). clear G D.
  pose (pr1 := fun v : R * R * R * R * R => fst (fst (fst (fst v)))). pose (pr2 := fun v : R * R * R * R * R => snd (fst (fst (fst v)))).
  pose (pr3 := fun v : R * R * R * R * R => snd (fst (fst v))). pose (pr4 := fun v : R * R * R * R * R => snd (fst v)).
  pose (pr5 := fun v : R * R * R * R * R => snd v).
  set (Sms := map pr1 vs). set (Mms := map pr2 vs). set (Sq := map pr3 vs). set (Mq := map pr4 vs). set (f := map pr5 vs).
  assert (N : forall (pr : R * R * R * R * R -> R) i, pr (0,0,0,0,0) = 0 -> nth i (map pr vs) 0 = pr (nth i vs (0,0,0,0,0))).
  { intros pr i H0. rewrite <- H0 at 1. apply map_nth. }
  assert (Hv' : forall i, (i < n)%nat -> obs_row tobs (nth i (sfh_ms res) []) (nth i Sms 0) (nth i Mms 0) /\
     obs_row tobs (nth i (sfh_q res) []) (nth i Sq 0) (nth i Mq 0) /\ nth i (frac_q res) NaN = Fin (nth i f 0) /\ 0 < nth i f 0 < 1).
  { intros i Hi. specialize (Hv i Hi). unfold Sms, Mms, Sq, Mq, f. rewrite !N by reflexivity.
    destruct (nth i vs (0, 0, 0, 0, 0)) as [[[[a b] c] d] e]. exact Hv. }
  assert (Ls : List.length Sms = n /\ List.length Sq = n /\ List.length Mms = n /\ List.length Mq = n /\ List.length f = n).
  { unfold Sms, Sq, Mms, Mq, f. rewrite !map_length. auto. }
  clearbody Sms Sq Mms Mq f. clear N Hv. destruct Ls as (Q1 & Q2 & Q3 & Q4 & Q5).
  assert (Ff : frac_q res = map Fin f).
  { apply (list_eq_nth _ _ NaN); rewrite ?map_length; [lia|]. intros i Hi. rewrite nth_fin by lia. apply Hv'. lia. }
  exists res, Sms, Sq, Mms, Mq, f.
  assert (SIM : sim p z lgt0 (Fin fb) = Some res).
  { unfold mc_sfh_at_tobs. rewrite E1, E3, E4, E5, E6, grid_fin by lra. exact ER. }
  split; [exact SIM|]. repeat (split; [assumption|]).
  split; [apply (F_of_nth (fun x => 0 < x < 1) f n Q5); intros; apply Hv'; assumption|].
  split; [intros i Hi; split; apply Hv'; assumption|].
  unfold tobs_tables. rewrite SIM. unfold calculate_obs_data. rewrite E6, grid_fin by lra. cbv zeta.
  destruct (cum_rows tobs (sfh_ms res) Sms Mms n R1 Q1 Q3) as (ma & A1 & A2 & A3); [intros; apply Hv'; assumption|].
  destruct (cum_rows tobs (sfh_q res) Sq Mq n R2 Q2 Q4) as (mb & B1 & B2 & B3); [intros; apply Hv'; assumption|].
  rewrite A1, B1, A2, B2, A3, B3, Ff.
  assert (P1 : Forall (fun x => 0 < x) Sms) by (apply (F_of_nth _ _ n Q1); intros i Hi; destruct (Hv' i Hi) as ((_ & ? & _) & _); assumption).
  assert (P2 : Forall (fun x => 0 < x) Sq) by (apply (F_of_nth _ _ n Q2); intros i Hi; destruct (Hv' i Hi) as (_ & (_ & ? & _) & _); assumption).
  assert (P3 : Forall (fun x => 0 < x) Mms) by (apply (F_of_nth _ _ n Q3); intros i Hi; destruct (Hv' i Hi) as ((_ & _ & ? & _ & _ & ?) & _); assumption).
  assert (P4 : Forall (fun x => 0 < x) Mq) by (apply (F_of_nth _ _ n Q4); intros i Hi; destruct (Hv' i Hi) as (_ & (_ & _ & ? & _ & _ & ?) & _); assumption).
  rewrite !clip_map by assumption. rewrite !map_log10 by assumption.
  assert (W1 : map (fun f0 => (Fin 1 - f0)%X) (map Fin f) = map Fin (map (fun x => 1 - x) f)) by (rewrite !map_map; reflexivity).
  rewrite W1, !ones_mul by (rewrite !map_length; congruence).
  rewrite <- !map_app. unfold clipped_ssfr.
  assert (MA : forall a b c d : list R, List.length a = List.length c -> map2 (fun s m => Rmax (log10R s - log10R m) (-12)) (a ++ b) (c ++ d)
     = map2 (fun s m => Rmax (log10R s - log10R m) (-12)) a c ++ map2 (fun s m => Rmax (log10R s - log10R m) (-12)) b d).
  { clear. induction a as [|x a IH]; intros b [|y c] d H; try discriminate; [reflexivity|]. cbn [app map2]. rewrite IH by (simpl in H; lia). reflexivity. }
  rewrite MA by congruence. reflexivity.
Qed.

Lemma tables_sample p P n tobs z lgt0 fb : holds "" p P -> pop_in_bounds P -> slopes_nonzero P ->
  sim_ok lmk lgt0 n tobs z -> exists X Y W, sample p z lgt0 fb tobs n X Y W /\
    tables p z lgt0 (Fin fb) = Some (map Fin X, map Fin Y, map Fin W) /\
    List.length X = (2 * n)%nat /\ List.length Y = (2 * n)%nat /\ List.length W = (2 * n)%nat /\ Forall (fun w => 0 < w < 1) W.
Proof.
  intros Hp Hb Hs Hz. destruct (tables_value p P n tobs z lgt0 fb Hp Hb Hs Hz)
    as (res & Sms & Sq & Mms & Mq & f & A1 & A2 & A3 & A4 & A5 & A6 & A7 & A8 & A9 & A10 & A11 & A12).
  do 3 eexists. split; [|split; [exact A12|]].
  - exists res, Sms, Sq, Mms, Mq, f. destruct Hz as (m & tp & mu & mh & gy & E1 & E2 & E3 & E4 & E5 & E6 & Ht & _).
    unfold mc_sfh_at_tobs in A1. rewrite E6, grid_fin in A1 by lra. auto 20.
  - unfold clipped_ssfr. rewrite map2_length, !map_length, !app_length, !map_length.
    split; [lia|]. split; [lia|]. split; [lia|]. apply Forall_app. split; [|exact A10]. apply Forall_map.
    eapply Forall_impl; [|exact A10]. cbv beta. intros; lra.
Qed.

Lemma mstar_prediction u p P zs lgt0 fb E : get_bounded_diffstarpop_params u = Some p ->
  holds "" p P -> pop_in_bounds P -> slopes_nonzero P -> zs_ok lgt0 zs -> increasing E -> (2 <= List.length E)%nat ->
  exists pred, mstar_kern_tobs key split uniform mvn lmk u zs lgt0 (Fin fb) (map Fin E) = Some pred /\
    Forall2 (fun z row => exists n tobs X Y W, sim_ok lmk lgt0 n tobs z /\ sample p z lgt0 fb tobs n X Y W /\
      let hit := exists i, (i < List.length X)%nat /\
           hd 0 E - 3 * ((last E 0 - hd 0 E) / INR (List.length E - 1)) < nth i X 0
           < last E 0 + 3 * ((last E 0 - hd 0 E) / INR (List.length E - 1)) in
      (hit -> exists h, row = map Fin h /\ List.length h = (List.length E - 1)%nat /\ is_pdf h) /\
      (~ hit -> row = repeat NaN (List.length E - 1))) zs pred.
Proof.
  intros Hu Hp Hb Hs Hz HE HL. unfold mstar_kern_tobs. rewrite Hu.
  induction Hz as [|z zs (n & tobs & Hz0) Hz IH]; [exists []; split; [reflexivity|constructor]|].
  destruct IH as (pred & E1 & E2).
  destruct (tables_sample p P n tobs z lgt0 fb Hp Hb Hs Hz0) as (X & Y & W & SA & TA & LX & LY & LW & PW).
  set (hit := exists i, (i < List.length X)%nat /\
           hd 0 E - 3 * ((last E 0 - hd 0 E) / INR (List.length E - 1)) < nth i X 0
           < last E 0 + 3 * ((last E 0 - hd 0 E) / INR (List.length E - 1))).
  assert (ROW : exists row, compute_diff_histograms_mstar_atmobs_z (map Fin E) (map Fin X) (map Fin W) = Some row /\
     (hit -> exists h, row = map Fin h /\ List.length h = (List.length E - 1)%nat /\ is_pdf h) /\
      (~ hit -> row = repeat NaN (List.length E - 1))).
  { assert (Dec : hit \/ ~ hit) by apply Classical_Prop.classic. destruct Dec as [Hy|Hy].
    - destruct Hy as (i & Hi & Hx). destruct (mstar_pdf X W E ltac:(lia) HE HL) as (h & F1 & F2 & F3 & F4 & _).
      + eapply Forall_impl; [|exact PW]. cbv beta. intros; lra.
      + exists i. split; [exact Hi|]. split; [|exact Hx]. apply (F_nth (fun w => 0 < w < 1) W i 0 PW). lia.
      + eexists. split; [exact F1|]. split; [|intros Nh; exfalso; apply Nh; exists i; auto]. intros _. exists h. repeat split; assumption.
    - eexists. split; [apply mstar_pdf_nan; [lia|exact HE|exact HL|]|].
      + intros i Hi. right. destruct (Rle_lt_dec (nth i X 0) (hd 0 E - 3 * ((last E 0 - hd 0 E) / INR (List.length E - 1)))) as [l|l]; [left; exact l|].
        destruct (Rle_lt_dec (last E 0 + 3 * ((last E 0 - hd 0 E) / INR (List.length E - 1))) (nth i X 0)) as [l'|l']; [right; exact l'|].
        exfalso. apply Hy. exists i. auto.
      + split; [intros h; contradiction|reflexivity]. }
  destruct ROW as (row & R1 & R2 & R3).
  exists (row :: pred). split.
  - unfold vmap in *. cbn [map sequence]. rewrite TA, R1, E1. reflexivity.
  - constructor; [|exact E2]. exists n, tobs, X, Y, W. split; [exact Hz0|]. split; [exact SA|]. split; assumption.
Qed.

(** *** sSFR PDFs *)
Lemma chunks_dims {A} n k (l : list A) : List.length l = (n * k)%nat ->
  List.length (chunks n k l) = n /\ Forall (fun r => List.length r = k) (chunks n k l) /\ List.concat (chunks n k l) = l.
Proof.
  revert l. induction n as [|n IH]; intros l H; [destruct l; [repeat constructor|discriminate]|].
  cbn [chunks]. destruct (IH (skipn k l)) as (I1 & I2 & I3); [rewrite skipn_length; simpl in H; lia|].
  split; [simpl; lia|]. split; [constructor; [rewrite firstn_length; simpl in H; lia|exact I2]|].
  cbn [List.concat]. rewrite I3. apply firstn_skipn.
Qed.
Lemma chunks_map {A B} (f : A -> B) n k l : chunks n k (map f l) = map (map f) (chunks n k l).
Proof. revert l. induction n as [|n IH]; intros l; [reflexivity|]. cbn [chunks map]. rewrite firstn_map, skipn_map, IH. reflexivity. Qed.
Lemma chunks_repeat {A} (v : A) n k : chunks n k (repeat v (n * k)) = repeat (repeat v k) n.
Proof.
  induction n as [|n IH]; [reflexivity|]. cbn [chunks repeat]. rewrite <- IH. change (S n * k)%nat with (k + n * k)%nat.
  rewrite repeat_app. rewrite firstn_app, skipn_app, repeat_length, Nat.sub_diag.
  rewrite (firstn_all2 (repeat v k)), (skipn_all2 (repeat v k)) by (rewrite repeat_length; lia).
  cbn [firstn skipn app]. rewrite app_nil_r. reflexivity.
Qed.
Lemma concat_nonneg {A} (Q : A -> Prop) l : Forall Q (List.concat l) -> Forall (Forall Q) l.
Proof. induction l as [|a l IH]; intros H; [constructor|]. cbn [List.concat] in H. apply Forall_app in H as [? ?]. constructor; auto. Qed.

Section Ssfr.
Variables (E1 E2 : list R) (LO HI : list (list R)).
Hypothesis I1 : increasing E1. Hypothesis L1 : (2 <= List.length E1)%nat.
Hypothesis I2 : increasing E2. Hypothesis L2 : (2 <= List.length E2)%nat.
Hypothesis HC : cells LO HI.
Let nms := (List.length E1 - 1)%nat.
Let nsf := (List.length E2 - 1)%nat.
Hypothesis HN : List.length LO = (nms * nsf)%nat.

Notation in_range := (in_range E1 E2 LO HI).
Definition joint_ok (m : list (list xr)) : Prop :=
  exists M, m = map (map Fin) M /\ List.length M = nms /\ Forall (fun r => List.length r = nsf /\ Forall (fun x => 0 <= x) r) M /\
    Rsum (List.concat M) = 1.

Definition hist_of p lgt0 fb z := match tables p z lgt0 (Fin fb) with
            | Some (log_smh, log_ssfrh, weight) =>
              match compute_diff_histograms_mstar_ssfr_atz log_smh log_ssfrh weight (map (map Fin) LO) (map (map Fin) HI)
                      (map Fin E1) (map Fin E2) with
              | Some h => reshape2 nms nsf h
              | None => None
              end
            | None => None end.

Lemma joint_pdf p P n tobs z lgt0 fb : holds "" p P -> pop_in_bounds P -> slopes_nonzero P ->
  sim_ok lmk lgt0 n tobs z -> exists X Y W m, sample p z lgt0 fb tobs n X Y W /\ hist_of p lgt0 fb z = Some m /\
    (in_range X Y -> joint_ok m) /\ (~ in_range X Y -> m = nan_matrix nms nsf).
Proof.
  intros Hp Hb Hs Hz. destruct (tables_sample p P n tobs z lgt0 fb Hp Hb Hs Hz) as (X & Y & W & SA & TA & LX & LY & LW & PW).
  destruct (ssfr_pdf X Y W LO HI E1 E2 ltac:(lia) ltac:(lia) I1 L1 I2 L2 HC) as (r & R1 & R2 & R3).
  { eapply Forall_impl; [|exact PW]. cbv beta. intros; lra. }
  cbv zeta in R3. exists X, Y, W, (chunks nms nsf r). split; [exact SA|]. split; [|].
  { unfold hist_of. rewrite TA, R1. unfold reshape2, len. rewrite R2, HN, Nat.eqb_refl. reflexivity. }
  assert (Q : in_range X Y <-> exists i k, (i < List.length X)%nat /\ (k < List.length LO)%nat /\ 0 < nth i W 0 /\
      overlaps (nth i X 0) (mean_bin E1) (nth 0 (nth k LO []) 0) (nth 0 (nth k HI []) 0) /\
      overlaps (nth i Y 0) (mean_bin E2) (nth 1 (nth k LO []) 0) (nth 1 (nth k HI []) 0)).
  { split; intros (i & k & T); exists i, k; [|tauto]. destruct T as (T1 & T2 & T3 & T4).
    repeat (split; [assumption|]). split; [|auto]. apply (F_nth (fun w => 0 < w < 1) W i 0 PW). lia. }
  rewrite Q. destruct R3 as [(Hh & h & -> & Hpdf)|(Hh & ->)]; (split; [intros Hr|intros Hr]); try contradiction.
  - rewrite chunks_map. rewrite map_length in R2. destruct (chunks_dims nms nsf h ltac:(lia)) as (D1 & D2 & D3).
    exists (chunks nms nsf h). split; [reflexivity|]. split; [exact D1|]. destruct Hpdf as [Hnn Hsum]. rewrite D3. split; [|exact Hsum].
    rewrite <- D3 in Hnn. apply concat_nonneg in Hnn. clear -D2 Hnn. induction D2; constructor; inversion Hnn; auto.
  - rewrite HN. apply chunks_repeat.
Qed.

Lemma cond_row ps W idx ids r z : conditional_pdfs nms nsf ps W idx ids = Some r -> (z < List.length W)%nat ->
  conditional_pdfs nms nsf ps [nth z W []] [nth z idx []] ids = Some [nth z r []] /\ List.length r = List.length W.
Proof.
  unfold conditional_pdfs. destruct (same_len W idx) eqn:SL; [|discriminate]. apply same_len_inv in SL. intros H Hz.
  apply vmap_spec in H. split; [|rewrite <- (F2_length _ _ _ H), combine_length; lia].
  change (same_len [nth z W []] [nth z idx []]) with true. cbn [combine]. apply vmap_spec. constructor; [|constructor].
  pose proof (F2_nth _ _ _ H z ([], []) [] ltac:(rewrite combine_length; lia)) as Ez. cbv beta in Ez.
  rewrite combine_nth in Ez by exact SL. exact Ez.
Qed.

Lemma cond_ext ps ps' w ix ids : map (take_matrix nms nsf ps) ix = map (take_matrix nms nsf ps') ix ->
  conditional_pdfs nms nsf ps [w] [ix] ids = conditional_pdfs nms nsf ps' [w] [ix] ids.
Proof. intros H. unfold conditional_pdfs. cbn [combine]. unfold vmap. cbn [map]. rewrite H. reflexivity. Qed.

Lemma cond_total ps W idx ids : Forall2 (fun w ix => List.length w = List.length ix) W idx ->
  exists r, conditional_pdfs nms nsf ps W idx ids = Some r.
Proof.
  intros H. unfold conditional_pdfs. rewrite same_len_true by apply (F2_length _ _ _ H).
  induction H as [|w ix W idx Hh H IH]; [eexists; reflexivity|]. destruct IH as (r & E). cbn [combine]. unfold vmap in *. cbn [map sequence].
  rewrite same_len_true by exact Hh. rewrite E. eexists. reflexivity.
Qed.

Lemma rows_pdf_or_nan ps W idx ids r : Forall (fun m => joint_ok m \/ m = nan_matrix nms nsf) ps ->
  Forall2 (fun w ix => List.length w = List.length ix /\ Forall (fun x => 0 <= x) w /\ Forall (fun i => (i < List.length ps)%nat) ix) W idx ->
  Forall (fun a => (a < nms)%nat) ids ->
  conditional_pdfs nms nsf ps (map (map Fin) W) idx ids = Some r ->
  forall z t, (z < List.length W)%nat -> (t < List.length ids)%nat ->
    (exists h, nth t (nth z r []) [] = map Fin h /\ List.length h = nsf /\ is_pdf h) \/ nth t (nth z r []) [] = repeat NaN nsf.
Proof.
  intros Hps HW Hids HR z t Hz Ht.
  destruct (cond_row _ _ _ _ _ z HR ltac:(rewrite map_length; exact Hz)) as [HR1 LR].
  pose proof (F2_nth _ _ _ HW z [] [] Hz) as (Lz & Wz & Iz). pose proof (F2_length _ _ _ HW) as LL.
  rewrite (nth_map _ W z []) in HR1 by exact Hz. set (w := nth z W []) in *. set (ix := nth z idx []) in *.
  destruct (Classical_Prop.classic (Exists (fun i => nth i ps (nan_matrix nms nsf) = nan_matrix nms nsf) ix)) as [Ex|Nx].
  - right. apply Exists_exists in Ex as (i & Hi & Hnan). destruct (In_nth _ _ 0%nat Hi) as (m & Hm & <-).
    assert (N : nth 0 [nth z r []] [] = repeat (repeat NaN nsf) (List.length ids)).
    { apply (conditional_nan nms nsf ps [map Fin w] [ix] ids _ 0 m HR1); [simpl; lia|exact Hm|exact Hnan]. }
    change (nth 0 [nth z r []] []) with (nth z r []) in N. rewrite N. apply MatrixProofs.nth_repeat_lt, Ht.
  - apply Forall_Exists_neg in Nx. rewrite Forall_forall in Nx.
    (* finite stand-ins for the matrices; unused NaN ones are replaced by zeros *)
    assert (C : exists P, List.length P = List.length ps /\ forall i, (i < List.length ps)%nat ->
       (List.length (nth i P []) = nms /\ Forall (fun r => List.length r = nsf /\ Forall (fun x => 0 <= x) r) (nth i P [])) /\
       (nth i ps (nan_matrix nms nsf) <> nan_matrix nms nsf -> nth i ps (nan_matrix nms nsf) = map (map Fin) (nth i P []))).
    { apply (choice_list (fun i M => (List.length M = nms /\ Forall (fun r => List.length r = nsf /\ Forall (fun x => 0 <= x) r) M) /\
         (nth i ps (nan_matrix nms nsf) <> nan_matrix nms nsf -> nth i ps (nan_matrix nms nsf) = map (map Fin) M))).
      intros i Hi. destruct (F_nth _ _ i (nan_matrix nms nsf) Hps Hi) as [(M & E & A & B & _)|E].
      - exists M. auto.
      - exists (repeat (repeat 0 nsf) nms). split; [|congruence]. split; [apply repeat_length|].
        apply F_repeat. split; [apply repeat_length|]. apply F_repeat. lra. }
    destruct C as (P & LP & HP).
    assert (TM : map (take_matrix nms nsf ps) ix = map (take_matrix nms nsf (map (map (map Fin)) P)) ix).
    { apply map_ext_in. intros i Hi. pose proof (proj1 (Forall_forall _ _) Iz i Hi) as Li. cbv beta in Li.
      unfold take_matrix. rewrite (nth_map _ P i []) by lia. apply HP; [exact Li|]. apply Nx, Hi. }
    rewrite (cond_ext _ _ _ _ _ TM) in HR1.
    destruct (conditional_pdf nms nsf P [w] [ix] ids) as (r' & ER & Lr & HRr).
    + intros m Hm. destruct (In_nth _ _ [] Hm) as (i & Hi & <-). apply HP. lia.
    + constructor; [|constructor]. rewrite LP. auto.
    + exact Hids.
    + change (map (map Fin) [w]) with [map Fin w] in ER. rewrite ER in HR1. apply Some_inj in HR1. subst r'.
      destruct (HRr 0%nat t ltac:(simpl; lia) Ht) as (_ & [(h & A & B & D & _)|(A & _)]).
      * left. exists h. auto.
      * right. exact A.
Qed.

Lemma ssfr_prediction u p P zs lgt0 fb Wt idx ids : get_bounded_diffstarpop_params u = Some p ->
  holds "" p P -> pop_in_bounds P -> slopes_nonzero P -> zs_ok lgt0 zs ->
  Forall2 (fun w ix => List.length w = List.length ix /\ Forall (fun x => 0 <= x) w /\ Forall (fun i => (i < List.length zs)%nat) ix) Wt idx ->
  Forall (fun a => (a < nms)%nat) ids ->
  exists r, mstar_ssfr_kern_tobs key split uniform mvn lmk u zs lgt0 (Fin fb)
      (mkSsfr (map (map Fin) LO) (map (map Fin) HI) (map Fin E1) (map Fin E2) (map (map Fin) Wt) idx ids) = Some r /\
    List.length r = List.length Wt /\
    (forall z t, (z < List.length Wt)%nat -> (t < List.length ids)%nat ->
      (exists h, nth t (nth z r []) [] = map Fin h /\ List.length h = nsf /\ is_pdf h) \/ nth t (nth z r []) [] = repeat NaN nsf) /\
    exists samples, Forall2 (fun z XY => exists n tobs W, sim_ok lmk lgt0 n tobs z /\ sample p z lgt0 fb tobs n (fst XY) (snd XY) W) zs samples /\
      forall z m, (z < List.length Wt)%nat -> (m < List.length (nth z idx []))%nat ->
        ~ in_range (fst (nth (nth m (nth z idx []) 0%nat) samples ([], []))) (snd (nth (nth m (nth z idx []) 0%nat) samples ([], []))) ->
        nth z r [] = repeat (repeat NaN nsf) (List.length ids).
Proof.
  intros Hu Hp Hb Hs Hz HW Hids. unfold mstar_ssfr_kern_tobs. rewrite Hu. cbn [s_mbins s_sbins s_lo s_hi s_nmhalo s_indx s_ids]. unfold len. rewrite !map_length.
  fold nms nsf. cbv zeta.
  assert (PS : exists ps samples, vmap (hist_of p lgt0 fb) zs = Some ps /\ List.length ps = List.length zs /\ List.length samples = List.length zs /\
     Forall (fun m => joint_ok m \/ m = nan_matrix nms nsf) ps /\
     Forall2 (fun z XY => exists n tobs W, sim_ok lmk lgt0 n tobs z /\ sample p z lgt0 fb tobs n (fst XY) (snd XY) W) zs samples /\
     Forall2 (fun m XY => ~ in_range (fst XY) (snd XY) -> m = nan_matrix nms nsf) ps samples).
  { clear HW. induction Hz as [|z zs (n & tobs & Hz0) Hz IH]; [exists [], []; repeat split; constructor|].
    destruct IH as (ps & sa & V & A1 & A2 & A3 & A4 & A5).
    destruct (joint_pdf p P n tobs z lgt0 fb Hp Hb Hs Hz0) as (X & Y & W & m & B1 & B2 & B3 & B4).
    exists (m :: ps), ((X, Y) :: sa). split; [unfold vmap in *; cbn [map sequence]; rewrite B2, V; reflexivity|].
    split; [simpl; congruence|]. split; [simpl; congruence|]. split; [|split].
    - constructor; [|exact A3]. destruct (Classical_Prop.classic (in_range X Y)); auto.
    - constructor; [|exact A4]. exists n, tobs, W. auto.
    - constructor; auto. }
  destruct PS as (ps & sa & V & A1 & A2 & A3 & A4 & A5).
  change (vmap _ zs) with (vmap (hist_of p lgt0 fb) zs). rewrite V.
  destruct (cond_total ps (map (map Fin) Wt) idx ids) as (r & ER).
  { clear -HW. induction HW as [|? ? ? ? (? & _)]; cbn [map]; constructor; auto. rewrite map_length. assumption. }
  exists r. split; [exact ER|].
  assert (LR : List.length r = List.length Wt).
  { unfold conditional_pdfs in ER. destruct (same_len (map (map Fin) Wt) idx) eqn:SL; [|discriminate]. apply same_len_inv in SL.
    apply vmap_spec, F2_length in ER. rewrite combine_length, <- SL, Nat.min_id, map_length in ER. congruence. }
  split; [exact LR|]. split.
  - apply (rows_pdf_or_nan ps Wt idx ids r A3); [|exact Hids|exact ER]. rewrite A1. exact HW.
  - exists sa. split; [exact A4|]. intros z m Hz0 Hm Hnr.
    apply (conditional_nan nms nsf ps (map (map Fin) Wt) idx ids r z m ER); [rewrite map_length; exact Hz0|exact Hm|].
    set (k := nth m (nth z idx []) 0%nat) in *.
    destruct (Nat.lt_ge_cases k (List.length ps)) as [l|l]; [|apply nth_overflow, l].
    apply (F2_nth _ _ _ A5 k (nan_matrix nms nsf) ([], []) l). exact Hnr.
Qed.
End Ssfr.
End P.
