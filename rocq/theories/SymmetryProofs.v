(** Scaling laws of star formation histories. *)
From Coq Require Import Reals List Lra Lia.
From Verif Require Import XReal XFacts RealFacts ModelUtils ModelKernels ModelSfh ModelHist ModelFit SpecCore SpecFit SpecSymmetry
  SigmoidProofs IntegralProofs SfhProofs FitProofs.
Import List ListNotations.
Open Scope R_scope.

Lemma ms_shift_mass c p fb m : ms_spec (shift_mass c p) fb (m + c) = pow10R c * ms_spec p fb m.
Proof.
  unfold ms_spec. replace (eff_spec (shift_mass c p) (m + c)) with (eff_spec p m).
  - rewrite pow10_plus. ring.
  - unfold eff_spec, shift_mass. cbn [d_lgmcrit d_lgy_at_mcrit d_indx_lo d_indx_hi].
    replace (m + c - (d_lgmcrit p + c)) with (m - d_lgmcrit p) by ring. reflexivity.
Qed.
Lemma ms_shift_eff c p fb m : ms_spec (shift_efficiency c p) (fb / pow10R c) m = ms_spec p fb m.
Proof.
  unfold ms_spec. replace (eff_spec (shift_efficiency c p) m) with (eff_spec p m + c).
  - rewrite pow10_plus. pose proof (pow10_pos c). field. lra.
  - unfold eff_spec, shift_efficiency. cbn [d_lgmcrit d_lgy_at_mcrit d_indx_lo d_indx_hi]. ring.
Qed.
Lemma quench_shift c qt dt drop rejuv t : 0 < t ->
  quench_spec (qt + c) dt drop rejuv (log10R (pow10R c * t)) = quench_spec qt dt drop rejuv (log10R t).
Proof.
  intros Ht. rewrite (log10_mult (pow10R c) t (pow10_pos c) Ht), log10_pow10. unfold quench_spec.
  replace (c + log10R t - (qt + c - dt / 4)) with (log10R t - (qt - dt / 4)) by ring.
  replace (c + log10R t - (qt + c + dt / 4)) with (log10R t - (qt + dt / 4)) by ring. reflexivity.
Qed.
Lemma pow10_ge1 c : 0 <= c -> 1 <= pow10R c.
Proof. intros H. rewrite <- pow10_0. apply pow10_le, H. Qed.
Lemma sfr_shift_mass c p fb m t : 0 <= c -> 1 / 10 ^ 14 < sfr_spec p fb m t ->
  sfr_spec (shift_mass c p) fb (m + c) t = pow10R c * sfr_spec p fb m t.
Proof.
  intros Hc H. unfold sfr_spec in *. rewrite ms_shift_mass. cbn [shift_mass d_lg_qt d_qlglgdt d_lg_drop d_lg_rejuv].
  set (q := quench_spec _ _ _ _ _) in *. set (x := ms_spec p fb m) in *. pose proof (pow10_ge1 c Hc) as K.
  assert (Hx : 1 / 10 ^ 14 < q * x).
  { unfold Rmax in H. destruct (Rle_dec (1 / 10 ^ 14) (q * x)) as [L|L]; [exact H|lra]. }
  assert (P : 0 < 1 / 10 ^ 14) by (apply Rdiv_lt_0_compat; [lra|apply pow_lt; lra]).
  rewrite (Rmax_right _ (q * x)) by lra. rewrite Rmax_right; [ring|].
  replace (q * (pow10R c * x)) with (pow10R c * (q * x)) by ring. set (k := pow10R c) in *. set (y := q * x) in *. set (e := 1 / 10 ^ 14) in *.
  assert (1 * y <= k * y) by (apply Rmult_le_compat_r; lra). lra.
Qed.

(** trapezoid sums *)
Lemma cumR_scale k d ts : forall ss x y a i, length ts = length ss -> (i < length ts)%nat ->
  nth i (cumR x (k * y) (k * a + d) (combine ts (map (Rmult k) ss))) 0 = k * nth i (cumR x y a (combine ts ss)) 0 + d.
Proof.
  induction ts as [|t ts IH]; intros ss x y a i L Hi; [cbn in Hi; lia|]. destruct ss as [|s ss]; [discriminate L|].
  cbn [combine map cumR]. cbn [length] in L, Hi.
  replace (k * a + d + (t - x) * (k * s + k * y) / 2) with (k * (a + (t - x) * (s + y) / 2) + d) by field.
  destruct i as [|i]; [reflexivity|]. cbn [nth]. apply IH; lia.
Qed.
Lemma cumR_stretch k d ts : forall ss x y a i, length ts = length ss -> (i < length ts)%nat ->
  nth i (cumR (k * x) y (k * a + d) (combine (map (Rmult k) ts) ss)) 0 = k * nth i (cumR x y a (combine ts ss)) 0 + d.
Proof.
  induction ts as [|t ts IH]; intros ss x y a i L Hi; [cbn in Hi; lia|]. destruct ss as [|s ss]; [discriminate L|].
  cbn [combine map cumR]. cbn [length] in L, Hi.
  replace (k * a + d + (k * t - k * x) * (s + y) / 2) with (k * (a + (t - x) * (s + y) / 2) + d) by field.
  destruct i as [|i]; [reflexivity|]. cbn [nth]. apply IH; lia.
Qed.
Lemma nth_scaled {n} (l : list R) i : (i < length l)%nat -> nth i (map (fun m => m * n) l) 0 = nth i l 0 * n.
Proof. intros H. rewrite (nth_indep _ 0 (0 * n)) by (rewrite map_length; exact H). apply (map_nth (fun m => m * n)). Qed.
Lemma massR_scale k ts ss i : length ts = length ss -> (i < length ts)%nat ->
  nth i (massR ts (map (Rmult k) ss)) 0 = k * nth i (massR ts ss) 0 - (k - 1) * (10 ^ 9 * (nth 0 ts 0 - 1 / 1000) * (1 / 10 ^ 14) / 2).
Proof.
  intros L Hi. destruct ts as [|t ts]; [cbn in Hi; lia|]. destruct ss as [|s ss]; [discriminate L|]. cbn [length] in L, Hi.
  unfold massR. rewrite !nth_scaled by (rewrite cumR_length, combine_length; cbn [length map]; rewrite ?map_length; cbn [length]; lia).
  cbn [map combine cumR nth]. unfold T_BIRTH_MIN_R, SFR_MIN_R.
  destruct i as [|i]; [cbn [nth]; field|]. cbn [nth].
  set (a := 0 + (t - 1 / 1000) * (s + 1 / 10 ^ 14) / 2).
  replace (0 + (t - 1 / 1000) * (k * s + 1 / 10 ^ 14) / 2) with (k * a + (1 - k) * ((t - 1 / 1000) * (1 / 10 ^ 14) / 2)) by (unfold a; field).
  rewrite cumR_scale by lia. field.
Qed.
Lemma massR_stretch k ts ss i : length ts = length ss -> (i < length ts)%nat ->
  nth i (massR (map (Rmult k) ts) ss) 0 = k * nth i (massR ts ss) 0 + (k - 1) * (10 ^ 9 * (1 / 1000) * (nth 0 ss 0 + 1 / 10 ^ 14) / 2).
Proof.
  intros L Hi. destruct ts as [|t ts]; [cbn in Hi; lia|]. destruct ss as [|s ss]; [discriminate L|]. cbn [length] in L, Hi.
  unfold massR. rewrite !nth_scaled by (rewrite cumR_length, combine_length; cbn [length map]; rewrite ?map_length; cbn [length]; lia).
  cbn [map combine cumR nth]. unfold T_BIRTH_MIN_R, SFR_MIN_R.
  destruct i as [|i]; [cbn [nth]; field|]. cbn [nth].
  set (a := 0 + (t - 1 / 1000) * (s + 1 / 10 ^ 14) / 2).
  replace (0 + (k * t - 1 / 1000) * (s + 1 / 10 ^ 14) / 2) with (k * a + (k - 1) * ((1 / 1000) * (s + 1 / 10 ^ 14) / 2)) by (unfold a; field).
  rewrite cumR_stretch by lia. field.
Qed.

Lemma nth_map_R {A} (f : A -> R) l i d : (i < length l)%nat -> nth i (map f l) 0 = f (nth i l d).
Proof. intros H. rewrite (nth_indep _ 0 (f d)) by (rewrite map_length; exact H). apply map_nth. Qed.

(** ** C134 *)
Lemma mass_units lmk lmk' p mah mah' ts lgt0 lgt0' fb m c :
  halo_history lmk mah lgt0 m ts -> halo_history lmk' mah' lgt0' (fun t => m t + c) ts -> 0 <= c ->
  exists s M s' M',
    calc_sfh_singlegal_smh lmk (map_d Fin p) mah (map Fin ts) lgt0 (Fin fb) = Some (map Fin s, map Fin M) /\
    calc_sfh_singlegal_smh lmk' (map_d Fin (shift_mass c p)) mah' (map Fin ts) lgt0' (Fin fb) = Some (map Fin s', map Fin M') /\
    length s = length ts /\ length s' = length ts /\ length M = length ts /\ length M' = length ts /\
    (forall i, (i < length ts)%nat -> 1 / 10 ^ 14 < nth i s 0 -> nth i s' 0 = pow10R c * nth i s 0) /\
    (Forall (fun x => 1 / 10 ^ 14 < x) s -> forall i, (i < length ts)%nat ->
       nth i M' 0 = pow10R c * nth i M 0 - (pow10R c - 1) * (10 ^ 9 * (nth 0 ts 0 - 1 / 1000) * (1 / 10 ^ 14) / 2)).
Proof.
  intros H H' Hc. set (s := map (fun t => sfr_spec p fb (m t) t) ts). set (s' := map (fun t => sfr_spec (shift_mass c p) fb (m t + c) t) ts).
  assert (Ls : length s = length ts) by (unfold s; apply map_length). assert (Ls' : length s' = length ts) by (unfold s'; apply map_length).
  exists s, (massR ts s), s', (massR ts s').
  split; [exact (calc_sfh_smh_value lmk p mah ts lgt0 fb m H)|].
  split; [exact (calc_sfh_smh_value lmk' (shift_mass c p) mah' ts lgt0' fb (fun t => m t + c) H')|].
  split; [exact Ls|]. split; [exact Ls'|]. split; [apply massR_length; lia|]. split; [apply massR_length; lia|].
  assert (V : forall i, (i < length ts)%nat -> 1 / 10 ^ 14 < nth i s 0 -> nth i s' 0 = pow10R c * nth i s 0).
  { intros i Hi. unfold s, s'. rewrite !(nth_map_R _ ts i 0 Hi). apply sfr_shift_mass, Hc. }
  split; [exact V|]. intros F i Hi.
  replace s' with (map (Rmult (pow10R c)) s); [apply massR_scale; [lia|exact Hi]|].
  apply nth_ext with (d := 0) (d' := 0); [rewrite map_length; lia|]. rewrite map_length, Ls. intros j Hj.
  rewrite (nth_map_R _ s j 0) by lia. symmetry. apply V; [exact Hj|]. apply (proj1 (Forall_forall _ _) F), nth_In. lia.
Qed.

Lemma efficiency_units lmk p mah ts lgt0 fb m c : halo_history lmk mah lgt0 m ts ->
  calc_sfh_singlegal_smh lmk (map_d Fin (shift_efficiency c p)) mah (map Fin ts) lgt0 (Fin (fb / pow10R c))
  = calc_sfh_singlegal_smh lmk (map_d Fin p) mah (map Fin ts) lgt0 (Fin fb).
Proof.
  intros H. rewrite (calc_sfh_smh_value lmk p mah ts lgt0 fb m H), (calc_sfh_smh_value lmk _ mah ts lgt0 _ m H).
  assert (E : map (fun t => sfr_spec (shift_efficiency c p) (fb / pow10R c) (m t) t) ts = map (fun t => sfr_spec p fb (m t) t) ts).
  { apply map_ext. intros t. unfold sfr_spec. rewrite ms_shift_eff. reflexivity. }
  rewrite E. reflexivity.
Qed.

Lemma time_units lmk lmk' p mah mah' ts lgt0 lgt0' fb m m' c :
  halo_history lmk mah lgt0 m ts -> halo_history lmk' mah' lgt0' m' (map (Rmult (pow10R c)) ts) -> (forall t, In t ts -> m' (pow10R c * t) = m t) ->
  exists s M M',
    calc_sfh_singlegal_smh lmk (map_d Fin p) mah (map Fin ts) lgt0 (Fin fb) = Some (map Fin s, map Fin M) /\
    calc_sfh_singlegal_smh lmk' (map_d Fin (shift_time c p)) mah' (map Fin (map (Rmult (pow10R c)) ts)) lgt0' (Fin fb) = Some (map Fin s, map Fin M') /\
    length s = length ts /\ length M = length ts /\ length M' = length ts /\
    forall i, (i < length ts)%nat ->
      nth i M' 0 = pow10R c * nth i M 0 + (pow10R c - 1) * (10 ^ 9 * (1 / 1000) * (nth 0 s 0 + 1 / 10 ^ 14) / 2).
Proof.
  intros H H' E. set (s := map (fun t => sfr_spec p fb (m t) t) ts).
  assert (Ls : length s = length ts) by (unfold s; apply map_length).
  assert (Es : map (fun t => sfr_spec (shift_time c p) fb (m' t) t) (map (Rmult (pow10R c)) ts) = s).
  { unfold s. rewrite map_map. apply map_ext_in. intros t Ht. rewrite (E t Ht). unfold sfr_spec.
    pose proof (proj1 (Forall_forall _ _) H t Ht) as [T0 _].
    cbn [shift_time d_lg_qt d_qlglgdt d_lg_drop d_lg_rejuv]. rewrite (quench_shift c _ _ _ _ t T0). reflexivity. }
  pose proof (calc_sfh_smh_value lmk' (shift_time c p) mah' (map (Rmult (pow10R c)) ts) lgt0' fb m' H') as V. cbv zeta in V. rewrite Es in V.
  exists s, (massR ts s), (massR (map (Rmult (pow10R c)) ts) s).
  split; [exact (calc_sfh_smh_value lmk p mah ts lgt0 fb m H)|]. split; [exact V|]. split; [exact Ls|].
  split; [apply massR_length; lia|]. split; [rewrite massR_length; rewrite map_length; lia|].
  intros i Hi. apply massR_stretch; lia.
Qed.

(** the fit sees the product of the baryon fraction and the efficiency only *)
Lemma loss_units lmk u u' p ts mah M LM S LF tau floor W WF lq lgt0 fb h c : halo_history lmk mah lgt0 h ts ->
  get_bounded_diffstar_params (map_d Fin u) = map_d Fin p ->
  get_bounded_diffstar_params (map_d Fin u') = map_d Fin (shift_efficiency c p) ->
  let data fb := mkLD (map Fin ts) mah M LM S LF tau floor W WF lq lgt0 (Fin fb) in
  loss_default_clipssfrh lmk (map Fin (params_list u')) (data (fb / pow10R c)) = loss_default_clipssfrh lmk (map Fin (params_list u)) (data fb).
Proof.
  intros H E E' data. unfold loss_default_clipssfrh, data. rewrite !d_make_list, E, E'.
  cbn [ld_mah ld_t ld_lgt0 ld_fb ld_tdelay ld_floor ld_sfh ld_mstar ld_w ld_logmstar ld_wf ld_logfstar ld_lgtmax].
  rewrite (efficiency_units lmk p mah ts lgt0 fb h c H). reflexivity.
Qed.
Lemma loss_units_bounded lmk p ts mah M LM S LF tau floor W WF lq lgt0 fb h c : halo_history lmk mah lgt0 h ts ->
  in_bounds p -> in_bounds (shift_efficiency c p) ->
  exists u u', get_unbounded_diffstar_params (map_d Fin p) = map_d Fin u /\
    get_unbounded_diffstar_params (map_d Fin (shift_efficiency c p)) = map_d Fin u' /\
    loss_default_clipssfrh lmk (map Fin (params_list u')) (mkLD (map Fin ts) mah M LM S LF tau floor W WF lq lgt0 (Fin (fb / pow10R c)))
    = loss_default_clipssfrh lmk (map Fin (params_list u)) (mkLD (map Fin ts) mah M LM S LF tau floor W WF lq lgt0 (Fin fb)).
Proof.
  intros H B B'. pose proof (unbounded_diffstar_fin p B) as E. pose proof (unbounded_diffstar_fin _ B') as E'.
  pose proof (bounded_unbounded_id p B) as I. pose proof (bounded_unbounded_id _ B') as I'. rewrite E in I. rewrite E' in I'.
  eexists. eexists. split; [exact E|]. split; [exact E'|].
  exact (loss_units lmk _ _ p ts mah M LM S LF tau floor W WF lq lgt0 fb h c H I I').
Qed.

(** a galaxy well above the floor *)
Definition usual : DiffstarParams R := mkDiffstar 12 (-10) 1 (-1) 1 (-1) (-1) (-1 / 2).
Lemma usual_in_bounds : in_bounds usual. Proof. unfold in_bounds, usual. cbn. lra. Qed.
Lemma usual_bright t : 1 / 10 ^ 14 < sfr_spec usual (1 / 10) 12 t.
Proof.
  unfold sfr_spec. eapply Rlt_le_trans; [|apply Rmax_r]. cbn [usual d_lg_qt d_qlglgdt d_lg_drop d_lg_rejuv].
  pose proof (quench_spec_range 1 (pow10R (-1)) (-1) (-1 / 2) (log10R t) (pow10_pos _) ltac:(lra) ltac:(lra)) as [Q _].
  assert (E : ms_spec usual (1 / 10) 12 = 10).
  { unfold ms_spec, eff_spec. cbn. replace (12 - 12) with 0 by ring. rewrite Rmult_0_l, Rplus_0_r, Rmult_assoc, <- pow10_plus.
    replace (12 + -10) with (1 + 1) by ring. rewrite pow10_plus, pow10_1. field. }
  rewrite E. replace (pow10R (-1)) with (1 / 10) in Q at 1; [lra|].
  pose proof (pow10_plus (-1) 1) as P. replace (-1 + 1) with 0 in P by ring. rewrite pow10_0, pow10_1 in P. lra.
Qed.
Lemma steady_history m mah lgt0 ts : Forall (fun t => 0 < t) ts -> halo_history (steady m) mah lgt0 (fun _ => m) ts.
Proof. intros H. unfold halo_history. eapply Forall_impl; [|exact H]. intros t Ht. split; [exact Ht|reflexivity]. Qed.
Lemma floor_stays p m c : 0 < c ->
  calc_sfh_singlegal (steady m) (map_d Fin p) (mkMah NaN NaN NaN NaN NaN) [Fin 1] NaN (Fin 0) = [Fin (1 / 10 ^ 14)] /\
  calc_sfh_singlegal (steady (m + c)) (map_d Fin (shift_mass c p)) (mkMah NaN NaN NaN NaN NaN) [Fin 1] NaN (Fin 0) = [Fin (1 / 10 ^ 14)] /\
  1 / 10 ^ 14 <> pow10R c * (1 / 10 ^ 14).
Proof.
  intros C. assert (G : forall p m, sfr_spec p 0 m 1 = 1 / 10 ^ 14).
  { intros q n. unfold sfr_spec, ms_spec. rewrite Rmult_0_l, Rmult_0_l, Rmult_0_r. apply Rmax_left. lra. }
  assert (T : Forall (fun t => 0 < t) [1]) by (constructor; [lra|constructor]).
  pose proof (calc_sfh_value (steady m) p (mkMah NaN NaN NaN NaN NaN) [1] NaN 0 (fun _ => m) (steady_history m _ _ [1] T)) as E1.
  pose proof (calc_sfh_value (steady (m + c)) (shift_mass c p) (mkMah NaN NaN NaN NaN NaN) [1] NaN 0 (fun _ => m + c) (steady_history _ _ _ [1] T)) as E2.
  cbn [map] in E1, E2. rewrite G in E1, E2. split; [exact E1|]. split; [exact E2|].
  pose proof (pow10_lt 0 c C) as K. rewrite pow10_0 in K. set (k := pow10R c) in *. lra.
Qed.
