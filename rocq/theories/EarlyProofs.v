(** Tables whose first time is not after 1 Myr. *)
From Coq Require Import Reals List Lra Lia.
From Verif Require Import XReal XFacts RealFacts ModelUtils ModelKernels ModelSfh ModelHist ModelFit SpecCore SpecFit
  SigmoidProofs IntegralProofs SfhProofs FitProofs LossProofs OptProofs FitTopProofs.
Import List ListNotations.
Open Scope R_scope.

Definition nonfin (x : xr) : Prop := isfinite x = false.
Lemma nf_add_l a b : nonfin a -> nonfin (a + b)%X. Proof. destruct a, b; cbn; intros H; try reflexivity; exact H. Qed.
Lemma nf_add_r a b : nonfin b -> nonfin (a + b)%X. Proof. destruct a, b; cbn; intros H; try reflexivity; exact H. Qed.
Lemma nf_sub a b : nonfin a -> nonfin (a - b)%X. Proof. apply nf_add_l. Qed.
Lemma nf_signed r : nonfin (signed_inf r). Proof. unfold signed_inf. repeat destruct Rlt_dec; reflexivity. Qed.
Lemma nf_div a b : nonfin a -> nonfin (a / b)%X.
Proof. destruct a, b; cbn; intros H; try reflexivity; try exact H; try discriminate H; destruct Rlt_dec; reflexivity. Qed.
Lemma nf_mul a b : nonfin b -> nonfin (a * b)%X.
Proof. destruct a, b; cbn; intros H; try reflexivity; try exact H; try discriminate H; apply nf_signed. Qed.
Lemma nf_sq a : nonfin a -> nonfin (xpown a 2). Proof. intros H. cbn [xpown]. apply nf_mul. destruct a; cbn; try discriminate H; try reflexivity; apply nf_signed. Qed.
Lemma nf_sum l x : In x l -> nonfin x -> nonfin (xsum l).
Proof.
  unfold xsum. induction l as [|a l IH]; intros I H; [destruct I|]. cbn [fold_right]. destruct I as [->|I]; [apply nf_add_l, H|apply nf_add_r, IH; assumption].
Qed.
Lemma nf_mean l x : In x l -> nonfin x -> nonfin (xmean l). Proof. intros I H. apply nf_div, (nf_sum l x I H). Qed.
Lemma mul_nan a : (a * NaN)%X = NaN. Proof. destruct a; reflexivity. Qed.
Lemma mean_nan l : In NaN l -> xmean l = NaN. Proof. intros I. unfold xmean. rewrite (xsum_nan l I). reflexivity. Qed.

Lemma first_mass t ts s ss : massR (t :: ts) (s :: ss) = 10 ^ 9 * ((t - 1 / 1000) * (s + 1 / 10 ^ 14) / 2) :: tl (massR (t :: ts) (s :: ss)).
Proof. unfold massR. cbn [combine cumR map tl]. unfold T_BIRTH_MIN_R, SFR_MIN_R. f_equal. ring. Qed.

Section Loss.
Variable lmk : MahParams xr -> xr -> xr -> xr.
Variables (u : DiffstarParams R) (t : R) (ts : list R) (mah : MahParams xr) (M S LF : list xr) (tau floor : xr) (WF : list xr) (lq lgt0 : xr) (fb : R) (m : R -> R).
Variables (l0 w0 : xr) (LM W : list xr).
Hypothesis H : halo_history lmk mah lgt0 m (t :: ts).
Let d := mkLD (map Fin (t :: ts)) mah M (l0 :: LM) S LF tau floor (w0 :: W) WF lq lgt0 (Fin fb).
Let s0 := sfr_spec (join_params (bounded_msR (slice_ms u)) (bounded_qR (slice_q u))) fb (m t) t.
Let m0 := 10 ^ 9 * ((t - 1 / 1000) * (s0 + 1 / 10 ^ 14) / 2).

Lemma loss_shape : exists (rest : list xr) (a b c e : xr),
  loss_default_clipssfrh lmk (map Fin (params_list u)) d
  = Some (Fin 30 * xmean (xpown ((xlog10 (Fin m0) - l0) / w0) 2 :: rest) + a + b + c + e)%X.
Proof.
  unfold loss_default_clipssfrh, d. rewrite d_make_list, bounded_diffstar_fin. set (p := join_params _ _) in *.
  cbn [ld_mah ld_t ld_lgt0 ld_fb ld_tdelay ld_floor ld_sfh ld_mstar ld_w ld_logmstar ld_wf ld_logfstar ld_lgtmax].
  rewrite (calc_sfh_smh_value lmk p mah (t :: ts) lgt0 fb m H). cbv zeta.
  set (ss := map (fun t => sfr_spec p fb (m t) t) (t :: ts)).
  replace (massR (t :: ts) ss) with (m0 :: tl (massR (t :: ts) ss)) by (unfold ss; cbn [map]; symmetry; apply first_mass).
  set (tail := tl _). generalize (compute_fstar (map Fin (t :: ts)) (map Fin (m0 :: tail)) tau). intros f.
  do 5 eexists. cbn [map map2]. reflexivity.
Qed.
Lemma first_sfr : 0 < s0 + 1 / 10 ^ 14.
Proof. pose proof (sfr_spec_floor (join_params (bounded_msR (slice_ms u)) (bounded_qR (slice_q u))) fb (m t) t) as F. fold s0 in F. lra. Qed.
Lemma loss_nan : t < 1 / 1000 -> loss_default_clipssfrh lmk (map Fin (params_list u)) d = Some NaN.
Proof.
  intros T. destruct loss_shape as (rest & a & b & c & e & ->). f_equal.
  assert (N : m0 < 0). { unfold m0. pose proof first_sfr. set (k := s0 + 1 / 10 ^ 14) in *. assert ((t - 1 / 1000) * k < 0) by (rewrite <- (Rmult_0_l k); apply Rmult_lt_compat_r; lra). lra. }
  replace (xlog10 (Fin m0)) with NaN by (cbn [xlog10]; destruct (Rlt_dec 0 m0); [lra|]; destruct (Req_EM_T m0 0); [lra|reflexivity]).
  rewrite mean_nan by (left; destruct l0, w0; reflexivity). rewrite mul_nan. reflexivity.
Qed.
Lemma loss_not_finite : t = 1 / 1000 -> exists v, loss_default_clipssfrh lmk (map Fin (params_list u)) d = Some v /\ isfinite v = false.
Proof.
  intros T. destruct loss_shape as (rest & a & b & c & e & ->). eexists. split; [reflexivity|].
  assert (N : m0 = 0) by (unfold m0; rewrite T; field).
  replace (xlog10 (Fin m0)) with NInf by (rewrite N; cbn [xlog10]; destruct (Rlt_dec 0 0); [lra|]; destruct (Req_EM_T 0 0); [reflexivity|lra]).
  do 4 apply nf_add_l. apply nf_mul. eapply nf_mean; [left; reflexivity|]. apply nf_sq, nf_div, nf_sub. reflexivity.
Qed.
End Loss.

(** ** The fit gives up *)
Lemma compute_fstar_length ts ms tau : length ts = length ms -> length (compute_fstar ts ms tau) = length ms.
Proof. intros L. unfold compute_fstar. rewrite map_length, map2_length, map_length. lia. Qed.

(** the loss data of any table and any target history, bad numbers included *)
Lemma scan_length {S E O} (f : S -> E -> S * O) l : forall s, length (scan_out f s l) = length l.
Proof. induction l as [|e l IH]; intros s; [reflexivity|]. cbn [scan_out]. destruct (f s e). cbn [length]. rewrite IH. reflexivity. Qed.
Lemma formed_total ts ss : length ts = length ss -> exists M, cumulative_mstar_formed ts ss = Some M /\ length M = length ts.
Proof.
  intros L. rewrite cumulative_unfold by exact L. unfold cumtrapz. cbn [length]. rewrite L, Nat.eqb_refl. cbn [negb combine].
  eexists. split; [reflexivity|]. rewrite map_length. cbn [scan_out]. destruct (cumtrapz_scan_func _ _). cbn [tl]. rewrite scan_length, combine_length. lia.
Qed.
Lemma loss_data_total msh t ts ss M mah dlogm tmin mmin tau floor lgt0 fb mp :
  cumulative_mstar_formed (t :: ts) ss = Some M -> length M = length (t :: ts) -> last (snd (msh mah (t :: ts) lgt0)) NaN = Fin mp ->
  exists S LF W WF lq, length W = length (t :: ts) /\
  get_loss_data_default msh (t :: ts) ss mah dlogm tmin mmin tau floor lgt0 fb
    = Some ((map Fin (params_list (join_params (unbounded_msR (slice_ms (guess_spec mp))) (unbounded_qR (slice_q (guess_spec mp))))), init_err),
            mkLD (t :: ts) mah M (map xlog10 M) S LF tau floor W WF lq lgt0 fb).
Proof.
  intros EM LMs Hmp. unfold get_loss_data_default. rewrite EM.
  destruct M as [|m0 ms]; [discriminate LMs|].
  assert (LF : length (compute_fstar (t :: ts) (m0 :: ms) tau) = length (t :: ts)) by (rewrite compute_fstar_length; auto).
  destruct (compute_fstar (t :: ts) (m0 :: ms) tau) as [|f0 fs] eqn:EF; [discriminate LF|].
  unfold last_. rewrite Hmp, init_ms_value, init_q_value.
  cbn [map map2 np_max]. cbv zeta.
  set (mx := fold_left xmax _ _). set (g := fun f : xr => if xlt f (mx / Fin 1000)%X then (mx / Fin 1000)%X else f).
  unfold get_weights. cbv zeta.
  cbn [length] in LF, LMs. injection LF as LF. injection LMs as LMs.
  unfold same_len, len. cbn [length]. rewrite !map_length, !map2_length, !map_length, ?map2_length, ?map_length, LF, LMs, !Nat.min_id, !Nat.eqb_refl.
  cbn [andb map map2 np_max np_argmax set_where]. do 5 eexists. split; [|reflexivity].
  cbn [length]. f_equal. unfold set_where. rewrite !map2_length, !map_length, !map2_length, !map_length, LMs, !Nat.min_id. reflexivity.
Qed.

Section Fitter.
Variable lmk : MahParams xr -> xr -> xr -> xr.
Variable msh : MahParams xr -> list xr -> xr -> list xr * list xr.
Variable rng : Type.
Variable normal : rng -> list xr -> list xr -> list xr * rng.
Variable loss_grad : LossData -> list xr -> list xr.
Variable minimize : (list xr -> option xr) -> (list xr -> list xr) -> list xr -> list xr * xr * bool.

Lemma gives_up s ts ss mah dlogm tmin mmin tau floor lgt0 fb mp d :
  get_loss_data_default msh ts ss mah dlogm tmin mmin tau floor lgt0 fb
    = Some ((map Fin (params_list (join_params (unbounded_msR (slice_ms (guess_spec mp))) (unbounded_qR (slice_q (guess_spec mp))))), init_err), d) ->
  (forall u, loss_default_clipssfrh lmk (map Fin (params_list u)) d = Some NaN) ->
  (forall L g x, (forall u, exists v, L (map Fin (params_list u)) = Some v) ->
     exists u v ok, minimize L g x = (map Fin (params_list u), v, ok) /\ L (map Fin (params_list u)) = Some v) ->
  exists s', diffstar_fitter lmk msh rng normal loss_grad minimize s ts ss mah dlogm tmin mmin tau floor lgt0 fb
    = Some (map_d Fin (guess_spec mp), Fin (99999 / 100), (-1)%Z, s').
Proof.
  intros E V Hmin. unfold diffstar_fitter. rewrite E. set (pi := (map Fin (params_list _), _)). set (mn := minimize _ _).
  assert (MN : forall x, exists u ok, mn x = (map Fin (params_list u), NaN, ok)).
  { intros x. destruct (Hmin (fun u => loss_default_clipssfrh lmk u d) (loss_grad d) x) as (u & v & ok & E1 & E2); [intros u; exists NaN; apply V|].
    cbv beta in E2. rewrite V in E2. injection E2 as <-. exists u, ok. exact E1. }
  destruct (wrapper_spec rng normal (loss_grad d) mn pi s (1 / 10) 10) as (l & s' & res & Hw & Hat & _ & _ & _ & Hnan & Hbest & _).
  rewrite Hw. exists s'.
  assert (A : forall a, In a l -> a = (fst pi, Fin (99999 / 100), (-1)%Z) \/ snd (fst a) = NaN).
  { intros a Ha. destruct (attempts_In _ _ _ _ _ _ _ _ Hat a Ha) as [->|(p & x & f & ok & E1 & _ & ->)]; [left; reflexivity|right].
    destruct (MN p) as (u & ok' & E2). rewrite E2 in E1. injection E1 as _ <- _. reflexivity. }
  assert (R : res = (fst pi, Fin (99999 / 100), (-1)%Z)).
  { destruct (Classical_Prop.classic (exists a, In a l /\ xlt (snd (fst a)) PInf = true)) as [Hex|Hno].
    - destruct (Hbest Hex) as (k & Hk & Hn). destruct (A res (nth_error_In _ _ Hn)) as [->|N]; [reflexivity|exfalso].
      destruct Hk as (Hl & Hk & _). apply Hk. transitivity (nth k (losses l) (snd (fst res))); [apply nth_indep, Hl|].
      transitivity (snd (fst (nth k l res))); [exact (map_nth (fun a : attempt_result => snd (fst a)) l res k)|]. rewrite (nth_error_nth l k res Hn). exact N.
    - apply Hnan. intros a Ha. destruct (A a Ha) as [->|N]; [|exact N]. exfalso. apply Hno. eexists. split; [exact Ha|reflexivity]. }
  rewrite R. unfold pi. cbn [fst]. rewrite d_make_list, guess_bounded. reflexivity.
Qed.

Lemma never_fitted s t ts ss mah dlogm tmin mmin tau floor lgt0 fb mp h :
  length (t :: ts) = length ss -> t < 1 / 1000 -> halo_history lmk mah lgt0 h (t :: ts) ->
  last (snd (msh mah (map Fin (t :: ts)) lgt0)) NaN = Fin mp ->
  (forall L g x, (forall u, exists v, L (map Fin (params_list u)) = Some v) ->
     exists u v ok, minimize L g x = (map Fin (params_list u), v, ok) /\ L (map Fin (params_list u)) = Some v) ->
  exists s', diffstar_fitter lmk msh rng normal loss_grad minimize s (map Fin (t :: ts)) ss mah dlogm tmin mmin tau floor lgt0 (Fin fb)
    = Some (map_d Fin (guess_spec mp), Fin (99999 / 100), (-1)%Z, s').
Proof.
  intros L T H Hmp Hmin. destruct (formed_total (map Fin (t :: ts)) ss) as (M & EM & LM); [rewrite map_length; exact L|].
  destruct (loss_data_total msh (Fin t) (map Fin ts) ss M mah dlogm tmin mmin tau floor lgt0 (Fin fb) mp EM LM Hmp) as (S & LF & W & WF & lq & LW & E).
  eapply gives_up; [exact E| |exact Hmin]. intros u.
  destruct M as [|m0 M]; [discriminate LM|]. destruct W as [|w0 W]; [discriminate LW|].
  exact (loss_nan lmk u t ts mah (m0 :: M) S LF tau floor WF lq lgt0 fb h (xlog10 m0) w0 (map xlog10 M) W H T).
Qed.

(** ** Targets with a bad number *)
Lemma bad_target_loss u ts mah M LM S LF tau floor W WF lq lgt0 fb m : halo_history lmk mah lgt0 m ts ->
  length LM = length ts -> length W = length ts -> In NaN LM ->
  loss_default_clipssfrh lmk (map Fin (params_list u)) (mkLD (map Fin ts) mah M LM S LF tau floor W WF lq lgt0 (Fin fb)) = Some NaN.
Proof.
  intros H L1 L2 I. unfold loss_default_clipssfrh. rewrite d_make_list, bounded_diffstar_fin. set (p := join_params _ _) in *.
  cbn [ld_mah ld_t ld_lgt0 ld_fb ld_tdelay ld_floor ld_sfh ld_mstar ld_w ld_logmstar ld_wf ld_logfstar ld_lgtmax].
  rewrite (calc_sfh_smh_value lmk p mah ts lgt0 fb m H). cbv zeta.
  set (ss := map (fun t => sfr_spec p fb (m t) t) ts).
  assert (LX : length (map xlog10 (map Fin (massR ts ss))) = length ts) by (rewrite !map_length; apply massR_length; unfold ss; rewrite map_length; reflexivity).
  set (X := map xlog10 _) in *.
  rewrite (mean_nan (map _ (map2 xdiv (map2 xsub X LM) W))); [rewrite mul_nan; reflexivity|].
  destruct (In_nth _ _ NaN I) as (i & Hi & Ni).
  replace NaN with (nth i (map (fun x => xpown x 2) (map2 xdiv (map2 xsub X LM) W)) NaN).
  - apply nth_In. rewrite map_length, !map2_length. lia.
  - transitivity (xpown (nth i (map2 xdiv (map2 xsub X LM) W) NaN) 2); [exact (map_nth (fun x => xpown x 2) _ NaN i)|].
    rewrite (map2_nth xdiv _ _ i NaN NaN NaN) by (rewrite ?map2_length; lia).
    rewrite (map2_nth xsub _ _ i NaN NaN NaN) by lia. rewrite Ni. destruct (nth i X NaN), (nth i W NaN); reflexivity.
Qed.
Lemma bad_target_never_fitted s ts ss M mah dlogm tmin mmin tau floor lgt0 fb mp h :
  ts <> [] -> cumulative_mstar_formed (map Fin ts) ss = Some M -> In NaN (map xlog10 M) -> halo_history lmk mah lgt0 h ts ->
  last (snd (msh mah (map Fin ts) lgt0)) NaN = Fin mp ->
  (forall L g x, (forall u, exists v, L (map Fin (params_list u)) = Some v) ->
     exists u v ok, minimize L g x = (map Fin (params_list u), v, ok) /\ L (map Fin (params_list u)) = Some v) ->
  exists s', diffstar_fitter lmk msh rng normal loss_grad minimize s (map Fin ts) ss mah dlogm tmin mmin tau floor lgt0 (Fin fb)
    = Some (map_d Fin (guess_spec mp), Fin (99999 / 100), (-1)%Z, s').
Proof.
  intros N EM I H Hmp Hmin. destruct ts as [|t ts]; [contradiction|].
  assert (LL : length (map Fin (t :: ts)) = length ss).
  { unfold cumulative_mstar_formed in EM. destruct (Nat.eqb (length (map Fin (t :: ts))) (length ss)) eqn:Q; [apply Nat.eqb_eq, Q|discriminate EM]. }
  destruct (formed_total (map Fin (t :: ts)) ss LL) as (M' & EM' & LM). rewrite EM in EM'. injection EM' as <-.
  destruct (loss_data_total msh (Fin t) (map Fin ts) ss M mah dlogm tmin mmin tau floor lgt0 (Fin fb) mp EM LM Hmp) as (S & LF & W & WF & lq & LW & E).
  eapply gives_up; [exact E| |exact Hmin]. intros u. rewrite map_length in LM. cbn [length] in LW. rewrite map_length in LW.
  apply (bad_target_loss u (t :: ts) mah M (map xlog10 M) S LF tau floor W WF lq lgt0 fb h H); [rewrite map_length; exact LM|exact LW|exact I].
Qed.
End Fitter.

Lemma scan_nan l : forall a fa, In NaN (map snd l) \/ fa = NaN -> l <> [] -> forall c, In NaN (scan_out cumtrapz_scan_func (a, fa, c) l).
Proof.
  induction l as [|[b fb] l IH]; intros a fa I N c; [contradiction|]. cbn [scan_out cumtrapz_scan_func].
  destruct I as [I| ->].
  - cbn [map snd] in I. destruct I as [->|I].
    + left. destruct (b - a)%X, fa; destruct c; cbn; try reflexivity; destruct Req_EM_T; reflexivity.
    + right. apply IH; [left; exact I|]. destruct l; [destruct I|discriminate].
  - left. destruct (b - a)%X, fb; destruct c; cbn; try reflexivity; destruct Req_EM_T; reflexivity.
Qed.
Lemma nan_rate_nan_mass ts ss M : cumulative_mstar_formed ts ss = Some M -> In NaN ss -> In NaN (map xlog10 M).
Proof.
  intros E I. assert (L : length ts = length ss).
  { unfold cumulative_mstar_formed in E. destruct (Nat.eqb (length ts) (length ss)) eqn:Q; [apply Nat.eqb_eq, Q|discriminate E]. }
  rewrite cumulative_unfold in E by exact L. unfold cumtrapz in E. cbn [length] in E. rewrite L, Nat.eqb_refl in E. cbn [negb combine scan_out cumtrapz_scan_func] in E.
  injection E as <-. cbn [tl].
  assert (J : forall c0, In NaN (scan_out cumtrapz_scan_func (T_BIRTH_MIN, SFR_MIN, c0) (combine ts ss))).
  { intros c0. apply scan_nan.
    - left. replace (map snd (combine ts ss)) with ss; [exact I|]. clear - L. revert ss L. induction ts as [|t ts IH]; intros [|s ss] L; try discriminate L; [reflexivity|].
      cbn [combine map snd]. f_equal. apply IH. injection L. auto.
    - destruct ts, ss; try discriminate L; [destruct I|discriminate]. }
  apply in_map_iff. exists NaN. split; [reflexivity|]. apply in_map_iff. exists NaN. split; [reflexivity|apply J].
Qed.

Lemma nan_target_never_fitted lmk msh rng normal loss_grad minimize (s : rng) ts ss mah dlogm tmin mmin tau floor lgt0 fb mp h :
  length ts = length ss -> In NaN ss -> halo_history lmk mah lgt0 h ts ->
  last (snd (msh mah (map Fin ts) lgt0)) NaN = Fin mp ->
  (forall L g x, (forall u, exists v, L (map Fin (params_list u)) = Some v) ->
     exists u v ok, minimize L g x = (map Fin (params_list u), v, ok) /\ L (map Fin (params_list u)) = Some v) ->
  exists s', diffstar_fitter lmk msh rng normal loss_grad minimize s (map Fin ts) ss mah dlogm tmin mmin tau floor lgt0 (Fin fb)
    = Some (map_d Fin (guess_spec mp), Fin (99999 / 100), (-1)%Z, s').
Proof.
  intros L I H Hmp Hmin. destruct (formed_total (map Fin ts) ss) as (M & EM & _); [rewrite map_length; exact L|].
  assert (N : ts <> []). { intros ->. destruct ss; [destruct I|discriminate L]. }
  exact (bad_target_never_fitted lmk msh rng normal loss_grad minimize s ts ss M mah dlogm tmin mmin tau floor lgt0 fb mp h N EM
    (nan_rate_nan_mass _ _ _ EM I) H Hmp Hmin).
Qed.
Lemma negative_mass_never_fitted lmk msh rng normal loss_grad minimize (s : rng) ts ss M r mah dlogm tmin mmin tau floor lgt0 fb mp h :
  cumulative_mstar_formed (map Fin ts) ss = Some M -> In (Fin r) M -> r < 0 -> halo_history lmk mah lgt0 h ts ->
  last (snd (msh mah (map Fin ts) lgt0)) NaN = Fin mp ->
  (forall L g x, (forall u, exists v, L (map Fin (params_list u)) = Some v) ->
     exists u v ok, minimize L g x = (map Fin (params_list u), v, ok) /\ L (map Fin (params_list u)) = Some v) ->
  exists s', diffstar_fitter lmk msh rng normal loss_grad minimize s (map Fin ts) ss mah dlogm tmin mmin tau floor lgt0 (Fin fb)
    = Some (map_d Fin (guess_spec mp), Fin (99999 / 100), (-1)%Z, s').
Proof.
  intros EM I R H Hmp Hmin.
  assert (N : ts <> []). { intros ->. destruct ss; [cbn in EM|discriminate EM]. injection EM as <-. destruct I. }
  assert (J : In NaN (map xlog10 M)).
  { apply in_map_iff. exists (Fin r). split; [|exact I]. cbn [xlog10]. destruct (Rlt_dec 0 r); [lra|]. destruct (Req_EM_T r 0); [lra|reflexivity]. }
  exact (bad_target_never_fitted lmk msh rng normal loss_grad minimize s ts ss M mah dlogm tmin mmin tau floor lgt0 fb mp h N EM J H Hmp Hmin).
Qed.
Lemma negative_example : exists a r, cumulative_mstar_formed (map Fin [1; 2]) (map Fin [0; -10]) = Some [Fin a; Fin r] /\ r < 0.
Proof.
  do 2 eexists. split; [apply (cumulative_fin [1; 2] [0; -10] eq_refl)|]. unfold massR, T_BIRTH_MIN_R, SFR_MIN_R. cbn [combine cumR map]. cbv beta. lra.
Qed.
