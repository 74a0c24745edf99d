(** Trapezoid sums of star formation rates against their integrals; directions in which the
    parameters move a history. *)
From Coq Require Import Reals Lra Lia List Bool Rtopology.
From Coquelicot Require Import Coquelicot.
From Verif Require Import XReal XFacts RealFacts ModelUtils ModelKernels ModelSfh SpecCore SpecRefine
  SigmoidProofs TriweightProofs QuenchProofs IntegralProofs SfhProofs FstarProofs.
Import List ListNotations.
Open Scope R_scope.

Definition trap (f : R -> R) (a b : R) : R := (b - a) * (f b + f a) / 2.

Lemma ex_RInt_cont (f : R -> R) a b : a <= b -> (forall t, a <= t <= b -> continuous f t) -> ex_RInt f a b.
Proof.
  intros H C. apply (ex_RInt_continuous (V := R_CompleteNormedModule)). intros z Hz.
  rewrite Rmin_left, Rmax_right in Hz by exact H. apply C, Hz.
Qed.

Lemma trap_mod (f : R -> R) a b w : a <= b -> (forall t, a <= t <= b -> continuous f t) ->
  (forall t, a <= t <= b -> Rabs (f t - f a) <= w /\ Rabs (f t - f b) <= w) ->
  Rabs (trap f a b - RInt f a b) <= w * (b - a).
Proof.
  intros H C B. set (c := (f b + f a) / 2).
  assert (X : ex_RInt f a b) by (apply ex_RInt_cont; assumption).
  assert (E : RInt (fun t => minus (f t) c) a b = minus (RInt f a b) (RInt (fun _ => c) a b)).
  { apply (RInt_minus (V := R_CompleteNormedModule)); [exact X|apply ex_RInt_const]. }
  rewrite RInt_const in E. unfold minus, plus, opp, scal in E. simpl in E. unfold mult in E. simpl in E.
  replace (trap f a b - RInt f a b) with (- RInt (fun t => f t + - c) a b) by (rewrite E; unfold trap, c; field).
  rewrite Rabs_Ropp, Rmult_comm. apply abs_RInt_le_const; [exact H| |].
  - apply (ex_RInt_minus (V := R_CompleteNormedModule) f (fun _ => c)); [exact X|apply ex_RInt_const].
  - intros t Ht. destruct (B t Ht) as [B1 B2]. replace (f t + - c) with (((f t - f a) + (f t - f b)) / 2) by (unfold c; field).
    apply Rabs_le. apply Rabs_le_between in B1. apply Rabs_le_between in B2. lra.
Qed.

(** second-order bound *)
Lemma incr_from (g dg : R -> R) a b : a <= b -> (forall t, a <= t <= b -> is_derive g t (dg t)) ->
  (forall t, a <= t <= b -> 0 <= dg t) -> g a <= g b.
Proof.
  intros H D P. destruct (Req_dec a b) as [<-|N]; [lra|].
  destruct (MVT_gen g a b dg) as (c & Hc & E).
  - intros x Hx. rewrite Rmin_left, Rmax_right in Hx by lra. apply D. lra.
  - intros x Hx. rewrite Rmin_left, Rmax_right in Hx by lra.
    apply continuity_pt_filterlim, (ex_derive_continuous (V := R_NormedModule)). exists (dg x). apply D. lra.
  - rewrite Rmin_left, Rmax_right in Hc by lra. specialize (P c Hc).
    assert (0 <= dg c * (b - a)) by (apply Rmult_le_pos; lra). lra.
Qed.

Lemma mean_value (g dg : R -> R) a b : a <= b -> (forall t, a <= t <= b -> is_derive g t (dg t)) ->
  exists c, a <= c <= b /\ g b - g a = dg c * (b - a).
Proof.
  intros H D. destruct (Req_dec a b) as [<-|N]; [exists a; split; [lra|ring]|].
  destruct (MVT_gen g a b dg) as (c & Hc & E).
  - intros x Hx. rewrite Rmin_left, Rmax_right in Hx by lra. apply D. lra.
  - intros x Hx. rewrite Rmin_left, Rmax_right in Hx by lra.
    apply continuity_pt_filterlim, (ex_derive_continuous (V := R_NormedModule)). exists (dg x). apply D. lra.
  - rewrite Rmin_left, Rmax_right in Hc by lra. exists c. split; [exact Hc|exact E].
Qed.

Lemma convex_below (g g1 g2 : R -> R) a b s : a <= s <= b ->
  (forall t, a <= t <= b -> is_derive g t (g1 t)) -> (forall t, a <= t <= b -> is_derive g1 t (g2 t)) ->
  (forall t, a <= t <= b -> 0 <= g2 t) -> (b - a) * g s <= (b - s) * g a + (s - a) * g b.
Proof.
  intros Hs D1 D2 P.
  destruct (mean_value g g1 a s) as (c1 & C1 & E1); [lra|intros; apply D1; lra|].
  destruct (mean_value g g1 s b) as (c2 & C2 & E2); [lra|intros; apply D1; lra|].
  assert (M : g1 c1 <= g1 c2).
  { apply (incr_from g1 g2); [lra| |]; intros; [apply D2|apply P]; lra. }
  assert (X : g1 c1 * ((s - a) * (b - s)) <= g1 c2 * ((s - a) * (b - s))).
  { apply Rmult_le_compat_r; [apply Rmult_le_pos; lra|exact M]. }
  nra.
Qed.

Lemma chord_second (f f1 f2 : R -> R) K a b s : a < b -> a <= s <= b ->
  (forall t, a <= t <= b -> is_derive f t (f1 t)) -> (forall t, a <= t <= b -> is_derive f1 t (f2 t)) ->
  (forall t, a <= t <= b -> Rabs (f2 t) <= K) ->
  Rabs (f s - (f a + (f b - f a) / (b - a) * (s - a))) <= K / 2 * ((s - a) * (b - s)).
Proof.
  intros Hab Hs D1 D2 B.
  assert (U : (b - a) * (f s + K / 2 * (s * s)) <= (b - s) * (f a + K / 2 * (a * a)) + (s - a) * (f b + K / 2 * (b * b))).
  { apply (convex_below (fun t => f t + K / 2 * (t * t)) (fun t => f1 t + K * t) (fun t => f2 t + K)); [exact Hs| | |].
    - intros t Ht. apply (is_derive_plus (V := R_NormedModule)); [apply D1, Ht|]. auto_derive; [exact I|field].
    - intros t Ht. apply (is_derive_plus (V := R_NormedModule)); [apply D2, Ht|]. auto_derive; [exact I|field].
    - intros t Ht. specialize (B t Ht). apply Rabs_le_between in B. lra. }
  assert (V : (b - a) * (- f s + K / 2 * (s * s)) <= (b - s) * (- f a + K / 2 * (a * a)) + (s - a) * (- f b + K / 2 * (b * b))).
  { apply (convex_below (fun t => - f t + K / 2 * (t * t)) (fun t => - f1 t + K * t) (fun t => - f2 t + K)); [exact Hs| | |].
    - intros t Ht. apply (is_derive_plus (V := R_NormedModule)); [apply (is_derive_opp (V := R_NormedModule)), D1, Ht|]. auto_derive; [exact I|field].
    - intros t Ht. apply (is_derive_plus (V := R_NormedModule)); [apply (is_derive_opp (V := R_NormedModule)), D2, Ht|]. auto_derive; [exact I|field].
    - intros t Ht. specialize (B t Ht). apply Rabs_le_between in B. lra. }
  set (d := f s - (f a + (f b - f a) / (b - a) * (s - a))).
  assert (E : (b - a) * d = (b - a) * f s - ((b - s) * f a + (s - a) * f b)) by (unfold d; field; lra).
  apply Rabs_le. split.
  - apply (Rmult_le_reg_l (b - a)); [lra|]. rewrite E.
    replace ((b - a) * - (K / 2 * ((s - a) * (b - s)))) with (- (K / 2 * ((b - s) * (a * a) + (s - a) * (b * b) - (b - a) * (s * s)))) by field. lra.
  - apply (Rmult_le_reg_l (b - a)); [lra|]. rewrite E.
    replace ((b - a) * (K / 2 * ((s - a) * (b - s)))) with (K / 2 * ((b - s) * (a * a) + (s - a) * (b * b) - (b - a) * (s * s))) by field. lra.
Qed.

Lemma is_RInt_bump K a b : is_RInt (fun s => K / 2 * ((s - a) * (b - s))) a b (K * (b - a) ^ 3 / 12).
Proof.
  set (F := fun s => K / 2 * ((b - a) * (s - a) ^ 2 / 2 - (s - a) ^ 3 / 3)).
  replace (K * (b - a) ^ 3 / 12) with (minus (F b) (F a)) by (unfold minus, plus, opp, F; simpl; field).
  apply (is_RInt_derive F).
  - intros x _. unfold F. auto_derive; [exact I|field].
  - intros x _. apply (ex_derive_continuous (V := R_NormedModule)). auto_derive. exact I.
Qed.

Lemma trap_second (f f1 f2 : R -> R) K a b : a < b ->
  (forall t, a <= t <= b -> is_derive f t (f1 t)) -> (forall t, a <= t <= b -> is_derive f1 t (f2 t)) ->
  (forall t, a <= t <= b -> Rabs (f2 t) <= K) ->
  Rabs (trap f a b - RInt f a b) <= K * (b - a) ^ 3 / 12.
Proof.
  intros H D1 D2 B.
  assert (X : ex_RInt f a b).
  { apply ex_RInt_cont; [lra|]. intros t Ht. apply (ex_derive_continuous (V := R_NormedModule)). exists (f1 t). apply D1, Ht. }
  pose proof (is_RInt_line a (f a) b (f b) H) as L.
  pose proof (is_RInt_minus f _ a b _ _ (RInt_correct f a b X) L) as M.
  replace (trap f a b - RInt f a b) with (- (RInt f a b - trap f a b)) by ring. rewrite Rabs_Ropp.
  assert (T : RInt f a b - trap f a b = minus (RInt f a b) ((b - a) * (f b + f a) / 2)) by reflexivity.
  rewrite T. clear T.
  pose proof (is_RInt_bump K a b) as Q.
  pose proof (is_RInt_opp _ a b _ Q) as Q'.
  apply Rabs_le. split.
  - change (- (K * (b - a) ^ 3 / 12)) with (opp (K * (b - a) ^ 3 / 12)).
    refine (is_RInt_le _ _ a b _ _ _ Q' M _); [lra|]. intros x Hx.
    pose proof (chord_second f f1 f2 K a b x H ltac:(lra) D1 D2 B) as C. apply Rabs_le_between in C.
    exact (proj1 C).
  - refine (is_RInt_le _ _ a b _ _ _ M Q _); [lra|]. intros x Hx.
    pose proof (chord_second f f1 f2 K a b x H ltac:(lra) D1 D2 B) as C. apply Rabs_le_between in C.
    exact (proj2 C).
Qed.

(** from one interval to the table *)
Lemma increasing_nth l : forall i j, increasing l -> (i <= j)%nat -> (j < length l)%nat -> nth i l 0 <= nth j l 0.
Proof.
  induction l as [|a l IH]; intros i j H Hij Hj; [simpl in Hj; lia|].
  destruct j as [|j]; [replace i with 0%nat by lia; lra|]. destruct i as [|i].
  - cbn [nth]. simpl in Hj. left. apply increasing_head_lt; [exact H|lia].
  - cbn [nth]. simpl in Hj. apply IH; [apply increasing_tail in H; exact H|lia|lia].
Qed.
Lemma increasing_step l i : increasing l -> (S i < length l)%nat -> nth i l 0 < nth (S i) l 0.
Proof.
  revert i. induction l as [|a l IH]; intros i H Hi; [simpl in Hi; lia|].
  destruct i as [|i].
  - cbn [nth]. simpl in Hi. apply increasing_head_lt; [exact H|lia].
  - change (nth i l 0 < nth (S i) l 0). simpl in Hi. apply IH; [apply increasing_tail in H; exact H|lia].
Qed.

Lemma table_grows (f : R -> R) ts C : increasing ts ->
  (forall i, (S i < length ts)%nat -> forall t, nth i ts 0 <= t <= nth (S i) ts 0 -> continuous f t) ->
  (forall i, (S i < length ts)%nat ->
     Rabs (trap f (nth i ts 0) (nth (S i) ts 0) - RInt f (nth i ts 0) (nth (S i) ts 0)) <= C * (nth (S i) ts 0 - nth i ts 0)) ->
  grows_by_integral f ts (massR ts (map f ts)) (10 ^ 9 * C).
Proof.
  intros Hinc HC HB i j Hij Hj.
  assert (G : ex_RInt f (nth i ts 0) (nth j ts 0) /\
    Rabs (nth j (massR ts (map f ts)) 0 - nth i (massR ts (map f ts)) 0 - 10 ^ 9 * RInt f (nth i ts 0) (nth j ts 0))
    <= 10 ^ 9 * C * (nth j ts 0 - nth i ts 0)); [|apply G].
  induction Hij as [|j Hij IH].
  - split; [apply (ex_RInt_point (V := R_NormedModule))|].
    rewrite RInt_point. unfold zero; simpl. match goal with |- Rabs ?e <= _ => replace e with 0 by ring end. rewrite Rabs_R0. right. ring.
  - destruct (IH ltac:(lia)) as [X B].
    pose proof (increasing_step ts j Hinc Hj) as S1.
    assert (Y : ex_RInt f (nth j ts 0) (nth (S j) ts 0)) by (apply ex_RInt_cont; [lra|apply HC, Hj]).
    split; [apply (ex_RInt_Chasles (V := R_NormedModule)) with (nth j ts 0); assumption|].
    rewrite <- (RInt_Chasles (V := R_CompleteNormedModule) f _ (nth j ts 0) _ X Y). unfold plus; simpl.
    pose proof (massR_diff ts (map f ts) j ltac:(rewrite map_length; reflexivity) Hj) as D.
    rewrite (nth_map f ts j 0 0), (nth_map f ts (S j) 0 0) in D by (exact Hj || lia).
    specialize (HB j Hj). unfold trap in HB.
    apply Rabs_le_between in HB. apply Rabs_le_between in B. apply Rabs_le.
    change (nth (S j) ?l 0) with (nth (S j) l 0) in *.
    set (ms := nth (S j) (massR ts (map f ts)) 0) in *. set (mj := nth j (massR ts (map f ts)) 0) in *.
    set (mi := nth i (massR ts (map f ts)) 0) in *.
    set (tj := nth j ts 0) in *. set (tS := nth (S j) ts 0) in *. set (ti := nth i ts 0) in *.
    set (R1 := RInt f ti tj) in *. set (R2 := RInt f tj tS) in *. simpl pow in *. lra.
Qed.

(** the model rate is continuous in time *)
Lemma sfr_continuous p fb m t : 0 < t -> continuous m t -> continuous (fun t => sfr_spec p fb (m t) t) t.
Proof.
  intros Ht Hm. unfold sfr_spec.
  assert (QC : continuous (fun t => quench_spec (d_lg_qt p) (pow10R (d_qlglgdt p)) (d_lg_drop p) (d_lg_rejuv p) (log10R t)) t).
  { apply (continuous_comp log10R (quench_spec (d_lg_qt p) (pow10R (d_qlglgdt p)) (d_lg_drop p) (d_lg_rejuv p))).
    - unfold log10R. apply (ex_derive_continuous (V := R_NormedModule)). auto_derive. exact Ht.
    - apply (continuous_ext (fun x => quenchR x (d_lg_qt p) (pow10R (d_qlglgdt p)) (d_lg_drop p) (d_lg_rejuv p))).
      + intros x. apply quench_spec_eq, pow10_pos.
      + apply (ex_derive_continuous (V := R_NormedModule)). eexists. apply is_derive_quench, pow10_pos. }
  assert (MC : continuous (fun t => ms_spec p fb (m t)) t).
  { apply (continuous_comp m (ms_spec p fb)); [exact Hm|]. apply (ex_derive_continuous (V := R_NormedModule)).
    unfold ms_spec, eff_spec, pow10R. auto_derive. pose proof (exp_pos (- (9 * (m t + - d_lgmcrit p)))). lra. }
  set (g := fun t => quench_spec (d_lg_qt p) (pow10R (d_qlglgdt p)) (d_lg_drop p) (d_lg_rejuv p) (log10R t) * ms_spec p fb (m t)).
  assert (GC : continuous g t) by (apply (continuous_mult (K := R_AbsRing)); assumption).
  apply (continuous_ext (fun t => (1 / 10 ^ 14 + g t + Rabs (1 / 10 ^ 14 - g t)) / 2)).
  { intros x. fold (g x). unfold Rmax, Rabs. destruct (Rle_dec (1 / 10 ^ 14) (g x)), (Rcase_abs (1 / 10 ^ 14 - g x)); lra. }
  apply (continuous_mult (K := R_AbsRing) (fun t => 1 / 10 ^ 14 + g t + Rabs (1 / 10 ^ 14 - g t)) (fun _ => / 2)); [|apply continuous_const].
  apply (continuous_plus (V := R_NormedModule)).
  - apply (continuous_plus (V := R_NormedModule)); [apply continuous_const|exact GC].
  - apply (continuous_comp (fun t => 1 / 10 ^ 14 - g t) Rabs); [|apply continuous_Rabs].
    apply (continuous_minus (V := R_NormedModule)); [apply continuous_const|exact GC].
Qed.

Lemma Forall_nth0 (P : R -> Prop) l i : Forall P l -> (i < length l)%nat -> P (nth i l 0).
Proof. intros H Hi. rewrite Forall_forall in H. apply H, nth_In, Hi. Qed.

Section Conv.
Variable log_mah_kern : MahParams xr -> xr -> xr -> xr.

Lemma smh_converges p mah lgt0 fb m a b : 0 < a -> (forall t, a <= t <= b -> continuous m t) ->
  forall eps, 0 < eps -> exists h, 0 < h /\
  forall ts, halo_history log_mah_kern mah lgt0 m ts -> increasing ts -> Forall (fun t => a <= t <= b) ts -> spacing h ts ->
  exists sfh smh,
    calc_sfh_singlegal_smh log_mah_kern (map_d Fin p) mah (map Fin ts) lgt0 (Fin fb) = Some (map Fin sfh, map Fin smh) /\
    length smh = length ts /\
    grows_by_integral (fun t => sfr_spec p fb (m t) t) ts smh eps.
Proof.
  intros Ha Hm eps He. set (f := fun t => sfr_spec p fb (m t) t).
  assert (FC : forall t, a <= t <= b -> continuous f t) by (intros t Ht; apply sfr_continuous; [lra|apply Hm, Ht]).
  pose proof (Heine f (fun c => a <= c <= b) (compact_P3 a b)) as U.
  specialize (U (fun x Hx => proj2 (continuity_pt_filterlim f x) (FC x Hx))).
  assert (Hw : 0 < eps / 10 ^ 9) by (apply Rdiv_lt_0_compat; [exact He|apply pow_lt; lra]).
  destruct (U (mkposreal _ Hw)) as [d Hd]. simpl in Hd.
  exists (d / 2). pose proof (cond_pos d) as Pd. split; [lra|].
  intros ts HH Hinc HF HS. do 2 eexists. split; [apply calc_sfh_smh_value, HH|].
  split; [apply massR_length; rewrite map_length; reflexivity|].
  replace eps with (10 ^ 9 * (eps / 10 ^ 9)) by (field; apply pow_nonzero; lra).
  assert (IN : forall i, (S i < length ts)%nat -> forall t, nth i ts 0 <= t <= nth (S i) ts 0 -> a <= t <= b).
  { intros i Hi t Ht. pose proof (Forall_nth0 _ ts i HF ltac:(lia)). pose proof (Forall_nth0 _ ts (S i) HF Hi). simpl in *. lra. }
  apply (table_grows f ts (eps / 10 ^ 9) Hinc).
  - intros i Hi t Ht. apply FC, (IN i Hi t Ht).
  - intros i Hi. pose proof (increasing_step ts i Hinc Hi) as St. specialize (HS i Hi).
    apply trap_mod; [lra|intros t Ht; apply FC, (IN i Hi t Ht)|].
    intros t Ht. pose proof (IN i Hi t Ht). pose proof (IN i Hi (nth i ts 0) ltac:(lra)). pose proof (IN i Hi (nth (S i) ts 0) ltac:(lra)).
    split; left; apply Hd; try assumption; apply Rabs_def1; lra.
Qed.
End Conv.

Lemma mass_second_order (f f1 f2 : R -> R) K a b h ts :
  (forall t, a <= t <= b -> is_derive f t (f1 t)) -> (forall t, a <= t <= b -> is_derive f1 t (f2 t)) ->
  (forall t, a <= t <= b -> Rabs (f2 t) <= K) ->
  increasing ts -> Forall (fun t => a <= t <= b) ts -> spacing h ts ->
  exists mass, cumulative_mstar_formed (map Fin ts) (map Fin (map f ts)) = Some (map Fin mass) /\
    length mass = length ts /\ grows_by_integral f ts mass (10 ^ 9 * (K * h ^ 2 / 12)).
Proof.
  intros D1 D2 B Hinc HF HS. eexists. split; [apply cumulative_fin; rewrite map_length; reflexivity|].
  split; [apply massR_length; rewrite map_length; reflexivity|].
  assert (IN : forall i, (S i < length ts)%nat -> forall t, nth i ts 0 <= t <= nth (S i) ts 0 -> a <= t <= b).
  { intros i Hi t Ht. pose proof (Forall_nth0 _ ts i HF ltac:(lia)). pose proof (Forall_nth0 _ ts (S i) HF Hi). simpl in *. lra. }
  apply table_grows; [exact Hinc| |].
  - intros i Hi t Ht. apply (ex_derive_continuous (V := R_NormedModule)). exists (f1 t). apply D1, (IN i Hi t Ht).
  - intros i Hi. pose proof (increasing_step ts i Hinc Hi) as St. specialize (HS i Hi).
    eapply Rle_trans.
    + apply (trap_second f f1 f2 K); [exact St| | |]; intros t Ht; [apply D1|apply D2|apply B]; apply (IN i Hi t Ht).
    + set (d := nth (S i) ts 0 - nth i ts 0) in *.
      assert (K0 : 0 <= K).
      { specialize (B (nth i ts 0) (IN i Hi (nth i ts 0) ltac:(lra))). pose proof (Rabs_pos (f2 (nth i ts 0))). lra. }
      assert (d0 : 0 < d) by (unfold d; lra).
      assert (P : d ^ 2 <= h ^ 2) by (apply pow_incr; lra).
      assert (Q : K * d * d ^ 2 <= K * d * h ^ 2) by (apply Rmult_le_compat_l; [apply Rmult_le_pos; lra|exact P]).
      replace (K * d ^ 3 / 12) with (K * d * d ^ 2 / 12) by field.
      replace (K * h ^ 2 / 12 * d) with (K * d * h ^ 2 / 12) by field. lra.
Qed.
