(** Population functions are per-galaxy maps. *)
From Coq Require Import Reals Lra Lia List Bool Arith.
From Verif Require Import XReal XFacts ModelUtils ModelKernels ModelSfh SpecCore RealFacts IntegralProofs SfhProofs.
Import List ListNotations.
Open Scope R_scope.

Lemma rows_ok n cols : cols <> [] -> Forall (fun c => length c = n) cols ->
  rows cols = Some (map (fun i => map (fun c => at_ c i) cols) (seq 0 n)).
Proof.
  intros Hne H. destruct cols as [|c0 cols]; [contradiction|].
  unfold rows. inversion H as [|? ? Hc0 Hcs]; subst.
  replace (forallb _ _) with true; [reflexivity|].
  symmetry. apply forallb_forall. intros c Hc. apply Nat.eqb_eq.
  rewrite Forall_forall in H. apply H, Hc.
Qed.

Lemma rows_inv cols r : rows cols = Some r -> exists n, Forall (fun c => length c = n) cols /\
  r = map (fun i => map (fun c => at_ c i) cols) (seq 0 n).
Proof.
  destruct cols as [|c0 cols]; [discriminate|]. unfold rows.
  destruct (forallb _ _) eqn:E; [|discriminate]. intros H. injection H as <-.
  exists (length c0). split; [|reflexivity].
  rewrite forallb_forall in E. apply Forall_forall. intros c Hc. apply Nat.eqb_eq, E, Hc.
Qed.

Lemma combine_map_seq {A B C} (f : A -> B) (g : A -> C) l :
  combine (map f l) (map g l) = map (fun x => (f x, g x)) l.
Proof. induction l; simpl; congruence. Qed.

Lemma F2_nth {A B} (P : A -> B -> Prop) l l' : Forall2 P l l' -> forall i d d', (i < length l)%nat -> P (nth i l d) (nth i l' d').
Proof.
  induction 1; intros i d d' Hi; simpl in Hi; [lia|]. destruct i; simpl; auto. apply IHForall2. lia.
Qed.

Lemma map_eq_nth {A B} (f : A -> B) l d d' i : (i < length l)%nat -> nth i (map f l) d' = f (nth i l d).
Proof. apply nth_map. Qed.

Lemma F2_map_seq {A B} (P : A -> B -> Prop) (f : nat -> A) n l :
  Forall2 P (map f (seq 0 n)) l -> length l = n /\ forall i d, (i < n)%nat -> P (f i) (nth i l d).
Proof.
  intros H. pose proof (F2_length _ _ _ H) as L. rewrite map_length, seq_length in L.
  split; [auto|]. intros i d Hi.
  pose proof (F2_nth _ _ _ H i (f 0%nat) d) as Q. rewrite map_length, seq_length in Q.
  specialize (Q Hi). rewrite (map_nth f (seq 0 n) 0%nat i), seq_nth in Q by exact Hi. exact Q.
Qed.

Lemma cumulative_some ts ss : length ts = length ss ->
  exists m, cumulative_mstar_formed ts ss = Some m /\ length m = length ts.
Proof.
  intros H. rewrite cumulative_unfold by exact H. unfold cumtrapz. cbn [length]. rewrite H, Nat.eqb_refl.
  cbn [negb combine scan_out].
  destruct (cumtrapz_scan_func _ _) as [st o]. eexists. split; [reflexivity|]. cbn [tl]. rewrite map_length.
  assert (L : forall st l, length (scan_out cumtrapz_scan_func st l) = length l).
  { intros st0 l. revert st0. induction l as [|e l IH]; intros; simpl; auto.
    destruct (cumtrapz_scan_func st0 e). simpl. f_equal. apply IH. }
  rewrite L, combine_length. lia.
Qed.

Lemma vmap_total {A B} (f : A -> option B) (P : B -> Prop) l :
  (forall a, In a l -> exists b, f a = Some b /\ P b) ->
  exists r, vmap f l = Some r /\ Forall P r /\ length r = length l.
Proof.
  intros H. induction l as [|a l IH].
  - exists []. split; [reflexivity|]. split; [constructor|reflexivity].
  - destruct IH as (r & Er & Fr & Lr); [intros b Hb; apply H; right; exact Hb|].
    destruct (H a (or_introl eq_refl)) as (b & Eb & Pb).
    exists (b :: r). unfold vmap in *. cbn [map sequence]. rewrite Eb, Er.
    split; [reflexivity|]. split; [constructor; assumption|]. simpl; lia.
Qed.

Section S.
Variable log_mah_kern : MahParams xr -> xr -> xr -> xr.
Variable mah_singlehalo : MahParams xr -> list xr -> xr -> list xr * list xr.

Lemma galpop_eq n p mah ts lgt0 fb : cols_len_d n p -> cols_len_mah n mah ->
  calc_sfh_galpop log_mah_kern p mah ts lgt0 fb
  = Some (map (fun i => calc_sfh_singlegal log_mah_kern (gal_d p i) (gal_mah mah i) ts lgt0 fb) (seq 0 n)).
Proof.
  intros (D1 & D2 & D3 & D4 & D5 & D6 & D7 & D8) (M1 & M2 & M3 & M4 & M5).
  unfold calc_sfh_galpop.
  rewrite (rows_ok n (cols_mah mah)), (rows_ok n (cols_ms (slice_ms p))), (rows_ok n (cols_q (slice_q p)));
    try (unfold cols_mah, cols_ms, cols_q; discriminate); try (repeat constructor; assumption).
  unfold sfh_galpop_kern. rewrite !map_length, Nat.eqb_refl. cbn [andb].
  rewrite !combine_map_seq. unfold vmap. rewrite map_map. apply sequence_map_Some.
Qed.

Lemma galpop_some_iff p mah ts lgt0 fb :
  calc_sfh_galpop log_mah_kern p mah ts lgt0 fb <> None
  <-> exists n, cols_len_d n p /\ cols_len_mah n mah.
Proof.
  split.
  - unfold calc_sfh_galpop. destruct (rows (cols_mah mah)) as [r1|] eqn:E1; [|congruence].
    destruct (rows (cols_ms (slice_ms p))) as [r2|] eqn:E2; [|congruence].
    destruct (rows (cols_q (slice_q p))) as [r3|] eqn:E3; [|congruence].
    apply rows_inv in E1 as (n1 & F1 & ->). apply rows_inv in E2 as (n2 & F2 & ->).
    apply rows_inv in E3 as (n3 & F3 & ->). unfold sfh_galpop_kern. rewrite !map_length, !seq_length.
    destruct (Nat.eqb n1 n2) eqn:Q1; [|intros X; exfalso; apply X; reflexivity].
    destruct (Nat.eqb n2 n3) eqn:Q2; [|intros X; exfalso; apply X; reflexivity].
    apply Nat.eqb_eq in Q1, Q2. subst n2 n3. intros _. exists n1.
    repeat match goal with H : Forall _ (_ :: _) |- _ => inversion H; subst; clear H
    | H : Forall _ (cols_mah _) |- _ => unfold cols_mah in H
    | H : Forall _ (cols_ms _) |- _ => unfold cols_ms, slice_ms in H
    | H : Forall _ (cols_q _) |- _ => unfold cols_q, slice_q in H end.
    cbn [lgmcrit lgy_at_mcrit indx_lo indx_hi lg_qt qlglgdt lg_drop lg_rejuv] in *.
    split; repeat split; congruence.
  - intros (n & Hd & Hm). rewrite (galpop_eq n) by assumption. discriminate.
Qed.

Lemma galpop_smh_eq n p mah ts lgt0 fb : cols_len_d n p -> cols_len_mah n mah ->
  exists sfh smh, calc_sfh_galpop_smh log_mah_kern p mah ts lgt0 fb = Some (sfh, smh) /\
    calc_sfh_galpop log_mah_kern p mah ts lgt0 fb = Some sfh /\
    length sfh = n /\ length smh = n /\
    forall i, (i < n)%nat ->
      length (nth i sfh []) = length ts /\
      calc_sfh_singlegal_smh log_mah_kern (gal_d p i) (gal_mah mah i) ts lgt0 fb
      = Some (nth i sfh [], nth i smh []).
Proof.
  intros Hd Hm. unfold calc_sfh_galpop_smh. rewrite (galpop_eq n) by assumption.
  set (f := fun i => calc_sfh_singlegal log_mah_kern (gal_d p i) (gal_mah mah i) ts lgt0 fb).
  assert (Hv : exists smh, cumulative_mstar_formed_galpop ts (map f (seq 0 n)) = Some smh).
  { edestruct (vmap_total (cumulative_mstar_formed ts) (fun _ => True)) as (smh & E1 & _).
    2: exists smh; exact E1.
    intros a Ha. apply in_map_iff in Ha as (i & <- & _).
    destruct (cumulative_some ts (f i)) as (m & Em & _); [|exists m; auto].
    unfold f, calc_sfh_singlegal, sfh_singlegal_kern. rewrite map_length. reflexivity. }
  destruct Hv as [smh Hs]. rewrite Hs. exists (map f (seq 0 n)), smh.
  unfold cumulative_mstar_formed_galpop in Hs. apply vmap_spec in Hs.
  apply F2_map_seq in Hs. destruct Hs as [L Hs].
  split; [reflexivity|]. split; [reflexivity|]. split; [rewrite map_length, seq_length; reflexivity|].
  split; [exact L|]. intros i Hi.
  assert (E : nth i (map f (seq 0 n)) [] = f i).
  { rewrite (nth_map f (seq 0 n) i 0%nat) by (rewrite seq_length; exact Hi).
    rewrite seq_nth by exact Hi. reflexivity. }
  rewrite E. split; [unfold f, calc_sfh_singlegal, sfh_singlegal_kern; apply map_length|].
  specialize (Hs i [] Hi). unfold calc_sfh_singlegal_smh. unfold f, calc_sfh_singlegal in *.
  rewrite Hs. reflexivity.
Qed.

Lemma mah_halopop_eq n mah ts lgt0 : cols_len_mah n mah ->
  mah_halopop mah_singlehalo mah ts lgt0
  = Some (map (fun i => fst (mah_singlehalo (gal_mah mah i) ts lgt0)) (seq 0 n),
          map (fun i => snd (mah_singlehalo (gal_mah mah i) ts lgt0)) (seq 0 n)).
Proof.
  intros (M1 & M2 & M3 & M4 & M5). unfold mah_halopop.
  rewrite (rows_ok n) by (try discriminate; repeat constructor; assumption).
  unfold vmap. rewrite map_map.
  replace (map _ (seq 0 n)) with (map (fun i => Some (gal_mah mah i)) (seq 0 n)) by reflexivity.
  rewrite sequence_map_Some, !map_map. reflexivity.
Qed.

Lemma vmap_seq_inv {A B} (f : nat -> A) (g : A -> option B) n r :
  vmap g (map f (seq 0 n)) = Some r ->
  length r = n /\ forall i d, (i < n)%nat -> g (f i) = Some (nth i r d).
Proof. intros H. apply vmap_spec in H. apply F2_map_seq in H. exact H. Qed.

Lemma nth_map_seq {A} (f : nat -> A) n i d : (i < n)%nat -> nth i (map f (seq 0 n)) d = f i.
Proof.
  intros Hi. rewrite (nth_map f (seq 0 n) i 0%nat) by (rewrite seq_length; exact Hi).
  rewrite seq_nth by exact Hi. reflexivity.
Qed.

Lemma mgas_galpop_rows n p mah ts lgt0 fb G : cols_len_d n p -> cols_len_mah n mah ->
  calc_mgas_galpop log_mah_kern mah_singlehalo p mah ts lgt0 fb = Some G ->
  length (g_sfh G) = n /\ length (g_smh G) = n /\ length (g_dmgash G) = n /\ length (g_mgash G) = n /\
  forall i, (i < n)%nat ->
    calc_mgas_singlegal log_mah_kern mah_singlehalo (gal_d p i) (gal_mah mah i) ts lgt0 fb
    = Some (mkGas (nth i (g_sfh G) []) (nth i (g_smh G) []) (nth i (g_dmgash G) []) (nth i (g_mgash G) [])).
Proof.
  intros Hd Hm. unfold calc_mgas_galpop.
  pose proof (galpop_eq n p mah ts lgt0 fb Hd Hm) as E. unfold calc_sfh_galpop in E.
  destruct (rows (cols_mah mah)); [|discriminate].
  destruct (rows (cols_ms (slice_ms p))); [|discriminate].
  destruct (rows (cols_q (slice_q p))); [|discriminate].
  rewrite E, (mah_halopop_eq n) by assumption. clear E. rewrite map_map.
  destruct (vmap _ _) as [smh|] eqn:E1; [|discriminate].
  destruct (vmap (cumulative_mstar_formed ts) (map (fun x => map _ _) _)) as [mi|] eqn:E2; [|discriminate].
  destruct (jax_get_dt_array ts) as [dt|] eqn:Edt; [|discriminate].
  destruct (vmap jax_get_dt_array _) as [dm|] eqn:E3; [|discriminate].
  intros H. injection H as <-. cbn [g_sfh g_smh g_dmgash g_mgash].
  apply vmap_seq_inv in E1 as [L1 E1]. apply vmap_seq_inv in E2 as [L2 E2].
  apply vmap_spec in E3. pose proof (F2_length _ _ _ E3) as L3. rewrite map2_length in L3.
  rewrite !map_length, seq_length, map2_length.
  repeat (split; [lia|]). intros i Hi.
  rewrite nth_map_seq by exact Hi. unfold calc_mgas_singlegal.
  specialize (E1 i [] Hi). specialize (E2 i [] Hi).
  unfold calc_sfh_singlegal in *. cbv beta in E1, E2. rewrite E1.
  destruct (mah_singlehalo (gal_mah mah i) ts lgt0) as [dmh lm]. cbn [fst] in E2. rewrite E2.
  pose proof (F2_nth _ _ _ E3 i [] []) as Q. rewrite map2_length in Q. specialize (Q ltac:(lia)).
  rewrite (map2_nth _ _ _ i [] [] []) in Q by lia.
  rewrite (map2_nth _ _ _ i [] [] []) by lia.
  rewrite Edt. cbv beta in Q. rewrite Q.
  rewrite (nth_map _ dm i []) by lia. reflexivity.
Qed.


Lemma jax_dt_some t : (3 <= length t)%nat -> exists d, jax_get_dt_array t = Some d /\ length d = length t.
Proof.
  intros H. unfold jax_get_dt_array. replace (length t <? 3)%nat with false by (symmetry; apply Nat.ltb_ge; lia).
  eexists. split; [reflexivity|]. rewrite !upd_length, upd_slice_length. apply repeat_length.
Qed.


Lemma F2_map2_length {A} (l m : list (list A)) (f : A -> A -> A) k : Forall (fun a => length a = k) l -> Forall (fun a => length a = k) m ->
  Forall (fun a => length a = k) (map2 (map2 f) l m).
Proof.
  intros Hl. revert m. induction Hl; intros m Hm; simpl; [constructor|].
  destruct Hm; constructor; auto. rewrite map2_length. lia.
Qed.

Lemma mgas_galpop_total n p mah ts lgt0 fb : cols_len_d n p -> cols_len_mah n mah -> (3 <= length ts)%nat ->
  (forall i, (i < n)%nat -> length (fst (mah_singlehalo (gal_mah mah i) ts lgt0)) = length ts) ->
  exists G, calc_mgas_galpop log_mah_kern mah_singlehalo p mah ts lgt0 fb = Some G.
Proof.
  intros Hd Hm Ht Hl. unfold calc_mgas_galpop.
  pose proof (galpop_eq n p mah ts lgt0 fb Hd Hm) as E. unfold calc_sfh_galpop in E.
  destruct (rows (cols_mah mah)); [|discriminate].
  destruct (rows (cols_ms (slice_ms p))); [|discriminate].
  destruct (rows (cols_q (slice_q p))); [|discriminate].
  rewrite E, (mah_halopop_eq n) by assumption. clear E. rewrite map_map.
  edestruct (vmap_total (cumulative_mstar_formed ts) (fun m => length m = length ts)) as (smh & E1 & F1 & L1).
  2: rewrite E1.
  { intros a Ha. apply in_map_iff in Ha as (i & <- & Hi). apply cumulative_some.
    unfold calc_sfh_singlegal, sfh_singlegal_kern. rewrite map_length. reflexivity. }
  edestruct (vmap_total (cumulative_mstar_formed ts) (fun m => length m = length ts)) as (mi & E2 & F2 & L2).
  2: rewrite E2.
  { intros a Ha. apply in_map_iff in Ha as (i & <- & Hi). apply in_seq in Hi. apply cumulative_some.
    rewrite map_length. symmetry. apply Hl. lia. }
  destruct (jax_dt_some ts Ht) as (dt & -> & _).
  edestruct (vmap_total jax_get_dt_array (fun _ => True)) as (dm & E3 & _).
  2: rewrite E3; eexists; reflexivity.
  intros a Ha. pose proof (F2_map2_length mi smh xsub (length ts) F2 F1) as F.
  rewrite Forall_forall in F. destruct (jax_dt_some a) as (d & Ed & _); [rewrite F by exact Ha; exact Ht|].
  exists d; auto.
Qed.
End S.
