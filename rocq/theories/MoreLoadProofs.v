(** Histories, galacticus tables and ragged bins. *)
From Coq Require Import Reals List Bool ZArith Ascii String Lia Lra.
From Verif Require Import XReal ModelUtils ModelKernels ModelSfh ModelPop ModelHist ModelLoad SpecCore SpecLoad
  RealFacts XFacts IntegralProofs DtProofs PopProofs PopParamProofs HistProofs FitProofs TableProofs SplitProofs LoadProofs.
Import List ListNotations.
Open Scope R_scope.

(** *** Running maxima *)
Lemma running_cons : forall l a x i m, is_running_max (Rmax a x :: l) i m -> is_running_max (a :: x :: l) (S i) m.
Proof.
  intros l a x i m [U (j & Hj & Ej)]. split.
  - intros [|[|k]] Hk.
    + specialize (U 0%nat ltac:(lia)). cbn in *. pose proof (Rmax_l a x). lra.
    + specialize (U 0%nat ltac:(lia)). cbn in *. pose proof (Rmax_r a x). lra.
    + specialize (U (S k) ltac:(lia)). exact U.
  - destruct j as [|j].
    + cbn in Ej. unfold Rmax in Ej. destruct (Rle_dec a x).
      * exists 1%nat. split; [lia|exact Ej].
      * exists 0%nat. split; [lia|exact Ej].
    + exists (S (S j)). split; [lia|exact Ej].
Qed.
Lemma cummax_from_fin : forall l a, exists ms, cummax_from (Fin a) (map Fin l) = map Fin ms /\ length ms = length l /\
  forall i, (i < length l)%nat -> is_running_max (a :: l) (S i) (nth i ms 0).
Proof.
  induction l as [|x l IH]; intro a.
  - exists []. split; [reflexivity|]. split; [reflexivity|]. intros i H. cbn in H. lia.
  - destruct (IH (Rmax a x)) as (ms & E & L & M). exists (Rmax a x :: ms). split; [|split].
    + cbn [map cummax_from]. cbv zeta. rewrite xmax_fin, E. reflexivity.
    + cbn. lia.
    + intros [|i] H.
      * cbn [nth]. apply running_cons. split.
        -- intros j Hj. replace j with 0%nat by lia. cbn. lra.
        -- exists 0%nat. split; [lia|reflexivity].
      * cbn [nth]. apply running_cons. apply M. cbn in H. lia.
Qed.
Lemma cummax_fin : forall l, exists ms, cummax (map Fin l) = map Fin ms /\ length ms = length l /\
  forall i, (i < length l)%nat -> is_running_max l i (nth i ms 0).
Proof.
  intros [|a l].
  - exists []. split; [reflexivity|]. split; [reflexivity|]. intros i H. cbn in H. lia.
  - destruct (cummax_from_fin l a) as (ms & E & L & M). exists (a :: ms). split; [|split].
    + cbn [map cummax]. rewrite E. reflexivity.
    + cbn. lia.
    + intros [|i] H.
      * split; [|exists 0%nat; split; [lia|reflexivity]]. intros j Hj. replace j with 0%nat by lia. cbn. lra.
      * cbn [nth]. apply M. cbn in H. lia.
Qed.
Lemma cummax_rows : forall raw, exists ms, map cummax (map (map Fin) raw) = map (map Fin) ms /\ running_max_rows raw ms.
Proof.
  induction raw as [|l raw (ms & E & F)].
  - exists []. split; [reflexivity|constructor].
  - destruct (cummax_fin l) as (m & Em & H). exists (m :: ms). split.
    + cbn [map]. rewrite Em, E. reflexivity.
    + constructor; assumption.
Qed.
Lemma running_mono : forall l i j a b, (i <= j)%nat -> is_running_max l i a -> is_running_max l j b -> a <= b.
Proof. intros l i j a b H [_ (k & Hk & <-)] [U _]. apply U. lia. Qed.

Lemma last_rows : forall raw ms, running_max_rows raw ms -> Forall (fun l => l <> []) raw ->
  exists xs, map last_ (map (map Fin) ms) = map Fin xs /\
    Forall2 (fun l x => is_running_max l (length l - 1) x) raw xs.
Proof.
  intros raw ms F. induction F as [|l m raw ms [L M] F IH]; intro Hne.
  - exists []. split; [reflexivity|constructor].
  - inversion Hne as [|? ? H1 H2]; subst. destruct (IH H2) as (xs & E & G).
    assert (Hm : (0 < length m)%nat) by (rewrite L; destruct l; [congruence|cbn; lia]).
    exists (nth (length m - 1) m 0 :: xs). split.
    + cbn [map]. rewrite E. apply f_equal2; [|reflexivity].
      unfold last_. rewrite last_nth, map_length. change (at_ (map Fin m) (length m - 1) = Fin (nth (length m - 1) m 0)).
      apply at_map. lia.
    + constructor; [|exact G]. rewrite L. apply M. rewrite <- L. lia.
Qed.

Lemma tng_running_max : forall sfh mh t sd, load_tng_data sfh (map (map Fin) mh) t = Some sd ->
  let raw := map (map (fun x => x - log10R (6774 / 10000))) mh in
  (exists ms, sd_log_mahs sd = map (map Fin) ms /\ running_max_rows raw ms) /\
  (Forall (fun l => l <> []) mh ->
   exists xs, sd_logmp0 sd = map Fin xs /\ Forall2 (fun l x => is_running_max l (length l - 1) x) raw xs).
Proof.
  intros sfh mh t sd H raw. unfold load_tng_data in H.
  destruct (cumulative_mstar_formed_galpop t sfh) as [ms0|]; [|discriminate]. apply Some_inj in H. subst sd.
  cbn [sd_log_mahs sd_logmp0].
  assert (E : map (map (fun x => (x - xlog10 (Fin H_TNG))%X)) (map (map Fin) mh) = map (map Fin) raw).
  { unfold raw. rewrite !map_map. apply map_ext. intro l. rewrite !map_map. apply map_ext. intro x.
    rewrite xlog10_fin by (unfold H_TNG; lra). reflexivity. }
  rewrite E. destruct (cummax_rows raw) as (ms & Em & F). split.
  - exists ms. auto.
  - intro Hne. rewrite Em. apply last_rows; [exact F|]. unfold raw. rewrite Forall_map.
    eapply Forall_impl; [|exact Hne]. intros l Hl. destruct l; [congruence|discriminate].
Qed.

Lemma smdpl_running_max : forall sfh mh t sd, load_SMDPL_data sfh (map (map Fin) mh) t = Some sd ->
  let raw := map (map clipped_log) mh in
  (exists ms, sd_log_mahs sd = map (map Fin) ms /\ running_max_rows raw ms) /\
  (Forall (fun l => l <> []) mh ->
   exists xs, sd_logmp0 sd = map Fin xs /\ Forall2 (fun l x => is_running_max l (length l - 1) x) raw xs).
Proof.
  intros sfh mh t sd H raw. unfold load_SMDPL_data in H.
  destruct (cumulative_mstar_formed_galpop t sfh) as [ms0|]; [|discriminate]. apply Some_inj in H. subst sd.
  cbn [sd_log_mahs sd_logmp0].
  assert (E : map (map xlog10) (map (map (fun m => if (m <? MH_MIN)%X then Fin 1 else m)) (map (map Fin) mh)) = map (map Fin) raw).
  { unfold raw. rewrite !map_map. apply map_ext. intro l. rewrite !map_map. apply map_ext. intro x.
    unfold clipped_log, MH_MIN. destruct (Rlt_dec x (10 ^ 7)) as [L|L].
    - rewrite (proj2 (xlt_fin _ _) L). rewrite xlog10_fin by lra. rewrite log10_1. reflexivity.
    - rewrite (proj2 (xlt_fin_false x (10 ^ 7))) by lra. rewrite xlog10_fin by lra. reflexivity. }
  rewrite E. destruct (cummax_rows raw) as (ms & Em & F). split.
  - exists ms. auto.
  - intro Hne. rewrite Em. apply last_rows; [exact F|]. unfold raw. rewrite Forall_map.
    eapply Forall_impl; [|exact Hne]. intros l Hl. destruct l; [congruence|discriminate].
Qed.
Lemma clipped_log_range : forall m, clipped_log m = 0 \/ 7 <= clipped_log m.
Proof.
  intro m. unfold clipped_log. destruct (Rlt_dec m (10 ^ 7)); [left; reflexivity|right].
  replace 7 with (log10R (10 ^ 7)).
  - apply log10_le; lra.
  - unfold log10R. rewrite ln_pow by lra. cbn [INR]. field. pose proof ln10_pos. lra.
Qed.

(** *** Galacticus star formation rates *)
Lemma dtarr_fin : forall ts, galacticus_dtarr (map Fin ts) = map Fin (map (interval ts) (seq 0 (length ts))).
Proof.
  intro ts. apply Fin_ext_nth.
  - unfold galacticus_dtarr. rewrite diff_length. cbn [length]. rewrite map_length. lia.
  - intros i H. unfold galacticus_dtarr, diff_.
    rewrite (map2_nth _ _ _ i NaN NaN).
    + rewrite nth_tail, nth_init by (cbn [length]; rewrite map_length; lia).
      change (Fin 0 :: map Fin ts) with (map Fin (0 :: ts)).
      change (nth (S i) (map Fin (0 :: ts)) NaN) with (at_ (map Fin (0 :: ts)) (S i)).
      change (nth i (map Fin (0 :: ts)) NaN) with (at_ (map Fin (0 :: ts)) i).
      rewrite !at_map by (cbn [length]; lia). xr_simp. destruct i; cbn; apply f_equal; lra.
    + len. cbn [length]. len.
    + len. cbn [length]. len.
Qed.

Lemma interval_pos : forall ts k, increasing (0 :: ts) -> (k < length ts)%nat -> 0 < interval ts k.
Proof.
  intros ts k Hi Hk.
  assert (G : forall l i, increasing l -> (S i < length l)%nat -> nth i l 0 < nth (S i) l 0).
  { induction l as [|a [|b l] IH]; intros i H L; [cbn in L; lia|cbn in L; lia|]. destruct H as [H1 H2].
    destruct i; [exact H1|]. apply (IH i H2). cbn in *. lia. }
  pose proof (G (0 :: ts) k Hi ltac:(cbn; lia)) as H. destruct k; cbn in *; lra.
Qed.

Lemma sfh_row_fin : forall ms dts, length ms = length dts -> Forall (fun d => d <> 0) dts ->
  map2 (fun m dt => m / dt / Fin (10 ^ 9))%X (map Fin ms) (map Fin dts)
  = map Fin (map2 (fun m dt => m / dt / 10 ^ 9) ms dts).
Proof.
  induction ms as [|m ms IH]; intros [|d dts] L F; try discriminate; [reflexivity|].
  inversion F; subst. cbn [map map2]. rewrite IH by (auto; cbn in L; lia).
  rewrite !xdiv_fin by (auto; lra). reflexivity.
Qed.

Lemma rsum_app : forall l m, rsum (l ++ m) = rsum l + rsum m.
Proof. induction l as [|a l IH]; intro m; cbn; [lra|]. rewrite IH. lra. Qed.

(** Cells of a galaxy table. *)
Definition cell (tbl : list (list R)) (g k : nat) : R := nth k (nth g tbl []) 0.

Lemma galacticus_sfh_value : forall ts bulge disk, increasing (0 :: ts) ->
  Forall (fun r => length r = length ts) bulge -> Forall (fun r => length r = length ts) disk -> length bulge = length disk ->
  exists sfh, galacticus_sfh (map Fin ts) (map (map Fin) bulge) (map (map Fin) disk) = Some (map (map Fin) sfh) /\
    length sfh = length bulge /\ Forall (fun r => length r = length ts) sfh /\
    forall g k, (g < length bulge)%nat -> (k < length ts)%nat ->
      nth k (nth g sfh []) 0 * (interval ts k * 10 ^ 9) = nth k (nth g bulge []) 0 + nth k (nth g disk []) 0.
Proof.
  intros ts bulge disk Hi Hb Hd Hl. unfold galacticus_sfh. rewrite dtarr_fin.
  set (dts := map (interval ts) (seq 0 (length ts))).
  assert (Ld : length dts = length ts) by (unfold dts; rewrite map_length, seq_length; reflexivity).
  assert (Nd : Forall (fun d => d <> 0) dts).
  { unfold dts. rewrite Forall_map. apply Forall_forall. intros k I. apply in_seq in I.
    pose proof (interval_pos ts k Hi ltac:(lia)). lra. }
  assert (S1 : same_shape (map (map Fin) bulge) (map (map Fin) disk) = true).
  { unfold same_shape. rewrite !map_length, Hl, Nat.eqb_refl. cbn [andb]. clear - Hb Hd.
    revert disk Hd. induction bulge as [|b bulge IH]; intros [|d disk] Hd; try reflexivity.
    inversion Hb; inversion Hd; subst. cbn [map combine forallb fst snd]. rewrite !map_length.
    replace (length b) with (length d) by congruence. rewrite Nat.eqb_refl. apply IH; assumption. }
  assert (S2 : forallb (fun r => Nat.eqb (length r) (length (map Fin dts))) (map (map Fin) bulge) = true).
  { apply forallb_forall. intros r I. apply in_map_iff in I. destruct I as (b & <- & I). rewrite Forall_forall in Hb.
    rewrite !map_length, (Hb b I), Ld. apply Nat.eqb_refl. }
  rewrite S1, S2. cbn [andb].
  exists (map (fun r => map2 (fun m dt => m / dt / 10 ^ 9) r dts) (map2 (map2 Rplus) bulge disk)).
  assert (Lm : forall r, In r (map2 (map2 Rplus) bulge disk) -> length r = length ts).
  { clear - Hb Hd. revert disk Hd. induction bulge as [|b bulge IH]; intros [|d disk] Hd r I; cbn in I; try contradiction.
    inversion Hb; inversion Hd; subst. destruct I as [<-|I].
    - rewrite map2_length. lia.
    - apply (IH ltac:(assumption) disk); assumption. }
  split; [|split; [|split]].
  - apply f_equal. rewrite map_map.
    assert (E : map2 (map2 xadd) (map (map Fin) bulge) (map (map Fin) disk) = map (map Fin) (map2 (map2 Rplus) bulge disk)).
    { clear. revert disk. induction bulge as [|b bulge IH]; intros [|d disk]; try reflexivity.
      cbn [map map2]. rewrite IH. apply f_equal2; [|reflexivity].
      apply map2_map_fin. reflexivity. }
    rewrite E, map_map. apply map_ext_in. intros r I. apply sfh_row_fin; [|exact Nd]. rewrite Ld. apply Lm, I.
  - rewrite map_length, map2_length. lia.
  - apply Forall_forall. intros r I. apply in_map_iff in I. destruct I as (r' & <- & I).
    rewrite map2_length, (Lm r' I), Ld. lia.
  - intros g k Hg Hk.
    rewrite (nth_map _ _ g []) by (rewrite map2_length; lia).
    rewrite (map2_nth _ _ _ g [] []) by lia.
    assert (Lb : length (nth g bulge []) = length ts) by (rewrite Forall_forall in Hb; apply Hb, nth_In; exact Hg).
    assert (Lk : length (nth g disk []) = length ts) by (rewrite Forall_forall in Hd; apply Hd, nth_In; lia).
    rewrite (map2_nth _ _ _ k 0 0) by (try rewrite map2_length; lia).
    rewrite (map2_nth _ _ _ k 0 0) by lia.
    unfold dts. rewrite (nth_map _ _ k 0%nat) by (rewrite seq_length; exact Hk).
    rewrite seq_nth by exact Hk. cbn [Nat.add].
    pose proof (interval_pos ts k Hi Hk). field. lra.
Qed.

(** Total mass formed equals the sum of the SFR times the intervals. *)
Lemma galacticus_total : forall ts bulge disk sfh g, 
  (forall k, (k < length ts)%nat ->
      nth k (nth g sfh []) 0 * (interval ts k * 10 ^ 9) = nth k (nth g bulge []) 0 + nth k (nth g disk []) 0) ->
  rsum (map (fun k => nth k (nth g sfh []) 0 * (interval ts k * 10 ^ 9)) (seq 0 (length ts)))
  = rsum (map (fun k => nth k (nth g bulge []) 0) (seq 0 (length ts))) + rsum (map (fun k => nth k (nth g disk []) 0) (seq 0 (length ts))).
Proof.
  intros ts bulge disk sfh g H.
  assert (G : forall l, (forall k, In k l -> (k < length ts)%nat) ->
    rsum (map (fun k => nth k (nth g sfh []) 0 * (interval ts k * 10 ^ 9)) l)
    = rsum (map (fun k => nth k (nth g bulge []) 0) l) + rsum (map (fun k => nth k (nth g disk []) 0) l)).
  { induction l as [|k l IH]; intro Hl; [cbn; lra|]. cbn [map rsum]. rewrite IH by (intros; apply Hl; right; assumption).
    rewrite (H k) by (apply Hl; left; reflexivity). lra. }
  apply G. intros k I. apply in_seq in I. lia.
Qed.

(** *** Extraction of the galacticus tables *)
Lemma sum_rows_fin : forall nt rs, Forall (fun r => length r = nt) rs ->
  sum_rows nt (map (map Fin) rs) = map Fin (map (fun k => rsum (map (fun row => nth k row 0) rs)) (seq 0 nt)).
Proof.
  intros nt rs. unfold sum_rows.
  assert (G : forall rs acc, length acc = nt -> Forall (fun r => length r = nt) rs ->
    fold_left (map2 xadd) (map (map Fin) rs) (map Fin acc)
    = map Fin (map (fun k => nth k acc 0 + rsum (map (fun row => nth k row 0) rs)) (seq 0 nt))).
  { induction rs0 as [|r rs0 IH]; intros acc La F.
    - cbn [map fold_left rsum]. apply f_equal. apply nth_ext with (d := 0) (d' := 0).
      + rewrite map_length, seq_length. exact La.
      + intros k Hk. rewrite (nth_map _ _ k 0%nat) by (rewrite seq_length; lia). rewrite seq_nth by lia. cbn. lra.
    - inversion F; subst. cbn [map fold_left]. rewrite (map2_map_fin _ Rplus) by reflexivity.
      rewrite IH by (auto; rewrite map2_length; lia). apply f_equal. apply map_ext_in. intros k I. apply in_seq in I.
      rewrite (map2_nth _ _ _ k 0 0) by lia. cbn [rsum]. lra. }
  intro F. unfold zeros. replace (repeat (Fin 0) nt) with (map Fin (repeat 0 nt)).
  - rewrite G by (auto; apply repeat_length). apply f_equal. apply map_ext_in. intros k I. apply in_seq in I.
    rewrite SplitProofs.nth_repeat_lt by lia. lra.
  - clear. induction nt as [|n IH]; [reflexivity|]. cbn. rewrite IH. reflexivity.
Qed.

Lemma get_rows_fin : forall g nt lo hi, (lo <= hi <= length g)%nat -> Forall (fun r => length r = nt) g ->
  get_rows (map (map Fin) g) nt lo hi = Some (map (map Fin) (rows_from g lo hi)).
Proof.
  intros g nt lo hi H F. unfold get_rows.
  rewrite (vmap_all _ (fun j => map Fin (nth j g []))).
  - apply f_equal. rewrite <- map_map with (g := map Fin) (f := fun j => nth j g []). apply f_equal.
    unfold rows_from. apply nth_ext with (d := []) (d' := []).
    + rewrite map_length, seq_length, firstn_length, skipn_length. lia.
    + intros k Hk. rewrite map_length, seq_length in Hk.
      rewrite (nth_map _ _ k 0%nat) by (rewrite seq_length; exact Hk). rewrite seq_nth by exact Hk.
      rewrite <- (firstn_skipn lo g) at 1. rewrite app_nth2 by (rewrite firstn_length; lia).
      rewrite firstn_length. replace (lo + k - Nat.min lo (length g))%nat with k by lia.
      rewrite <- (firstn_skipn (hi - lo) (skipn lo g)) at 1. rewrite app_nth1; [reflexivity|].
      rewrite firstn_length, skipn_length. lia.
  - intros j I. apply in_seq in I. rewrite nth_error_map. rewrite (nth_error_nth' g []) by lia. cbn [option_map].
    rewrite map_length. rewrite Forall_forall in F. rewrite (F (nth j g [])) by (apply nth_In; lia).
    rewrite Nat.eqb_refl. reflexivity.
Qed.

Lemma In_firstn : forall {A} n (l : list A) x, In x (firstn n l) -> In x l.
Proof. intros A n l x I. rewrite <- (firstn_skipn n l). apply in_or_app. left. exact I. Qed.
Lemma In_skipn : forall {A} n (l : list A) x, In x (skipn n l) -> In x l.
Proof. intros A n l x I. rewrite <- (firstn_skipn n l). apply in_or_app. right. exact I. Qed.
Lemma rows_from_Forall : forall {A} (P : A -> Prop) g lo hi, Forall P g -> Forall P (rows_from g lo hi).
Proof.
  intros A P g lo hi F. unfold rows_from. apply Forall_forall. intros x I. rewrite Forall_forall in F. apply F.
  apply In_firstn, In_skipn in I. exact I.
Qed.

Lemma nth_error_cons_some : forall {A} (l : list A) i d, (i < length l)%nat -> nth_error l i = Some (nth i l d).
Proof. intros. apply nth_error_nth'. assumption. Qed.
Lemma upd_map : forall {A B} (f : A -> B) l i v, upd (map f l) i (f v) = map f (upd l i v).
Proof. intros A B f l. induction l as [|a l IH]; intros [|i] v; cbn; auto. rewrite IH. reflexivity. Qed.

Section Extract.
Variables nm nt : nat.
Variable gals : list (list (list R)).
Hypothesis HC : galcat nm nt gals.
Let G : list galdata := map (map (map Fin)) gals.

Lemma gal_shape : forall i, nth i gals [] = [] \/
  (nth i gals [] <> [] /\ length (nth i gals []) = (2 * nm)%nat /\ Forall (fun r => length r = nt) (nth i gals [])).
Proof.
  intro i. destruct (lt_dec i (length gals)) as [H|H].
  - unfold galcat in HC. rewrite Forall_forall in HC. destruct (HC (nth i gals []) (nth_In _ _ H)) as [E|[E F]].
    + left. exact E.
    + destruct (nth i gals []) as [|r g]; [left; reflexivity|right]. split; [discriminate|]. auto.
  - left. apply nth_overflow. lia.
Qed.

Definition tot_row (i : nat) : list R := gal_row nt (nth i gals []) 0 nm.
Definition ins_row (i : nat) : list R := gal_row nt (nth i gals []) nm (2 * nm).

Lemma loop_step : forall i idx tot ins, (i < length gals)%nat -> nth i gals [] <> [] -> length tot = length ins ->
  extract_loop G nm nt (i :: idx) (map (map Fin) tot, map (map Fin) ins) =
  if (i <? length tot)%nat
  then extract_loop G nm nt idx (map (map Fin) (upd tot i (tot_row i)), map (map Fin) (upd ins i (ins_row i)))
  else None.
Proof.
  intros i idx tot ins Hi Hne HL. cbn [extract_loop]. unfold G at 1. rewrite nth_error_map, (nth_error_nth' gals []) by exact Hi.
  cbn [option_map]. destruct (gal_shape i) as [E|(_ & E & F)]; [contradiction|].
  unfold tot_row, ins_row. destruct (nth i gals []) as [|r g] eqn:Eg; [contradiction|].
  change (map (map Fin) (r :: g)) with (map Fin r :: map (map Fin) g). cbv iota.
  change (map Fin r :: map (map Fin) g) with (map (map Fin) (r :: g)).
  rewrite !get_rows_fin by (auto; lia).
  rewrite !sum_rows_fin by (apply rows_from_Forall; exact F).
  cbn [fst snd]. unfold set_row. rewrite !map_length, <- HL.
  destruct (i <? length tot)%nat; [|reflexivity]. rewrite !upd_map. reflexivity.
Qed.
Lemma loop_skip : forall i idx t, (i < length gals)%nat -> nth i gals [] = [] ->
  extract_loop G nm nt (i :: idx) t = extract_loop G nm nt idx t.
Proof.
  intros i idx t Hi He. cbn [extract_loop]. unfold G at 1. rewrite nth_error_map, (nth_error_nth' gals []) by exact Hi.
  cbn [option_map]. rewrite He. reflexivity.
Qed.

Lemma loop_ok : forall idx tot ins, (forall i, In i idx -> (i < length gals)%nat) -> length tot = length ins ->
  (forall i, In i idx -> (length tot <= i)%nat -> nth i gals [] = []) ->
  exists tot' ins', extract_loop G nm nt idx (map (map Fin) tot, map (map Fin) ins) = Some (map (map Fin) tot', map (map Fin) ins') /\
    length tot' = length tot /\ length ins' = length ins /\
    forall k, nth k tot' [] = (if in_dec Nat.eq_dec k idx then match nth k gals [] with [] => nth k tot [] | _ => tot_row k end else nth k tot []) /\
              nth k ins' [] = (if in_dec Nat.eq_dec k idx then match nth k gals [] with [] => nth k ins [] | _ => ins_row k end else nth k ins []).
Proof.
  induction idx as [|i idx IH]; intros tot ins Hin HL He.
  - exists tot, ins. split; [reflexivity|]. split; [reflexivity|]. split; [reflexivity|]. intro k. split; reflexivity.
  - assert (Hi : (i < length gals)%nat) by (apply Hin; left; reflexivity).
    destruct (list_eq_dec (list_eq_dec Req_EM_T) (nth i gals []) []) as [E|E].
    + rewrite loop_skip by assumption.
      destruct (IH tot ins) as (tot' & ins' & Ex & L1 & L2 & V).
      { intros; apply Hin; right; assumption. } { exact HL. } { intros; apply He; [right; assumption|assumption]. }
      exists tot', ins'. split; [exact Ex|]. split; [exact L1|]. split; [exact L2|]. intro k. destruct (V k) as [V1 V2].
      rewrite V1, V2. destruct (in_dec Nat.eq_dec k idx) as [I|I]; destruct (in_dec Nat.eq_dec k (i :: idx)) as [J|J]; try (split; reflexivity).
      * exfalso. apply J. right. exact I.
      * destruct J as [<-|J]; [|contradiction]. rewrite E. split; reflexivity.
    + assert (Hlt : (i < length tot)%nat).
      { destruct (lt_dec i (length tot)) as [H|H]; [exact H|]. exfalso. apply E. apply He; [left; reflexivity|lia]. }
      rewrite loop_step by assumption. rewrite (proj2 (Nat.ltb_lt _ _) Hlt).
      destruct (IH (upd tot i (tot_row i)) (upd ins i (ins_row i))) as (tot' & ins' & Ex & L1 & L2 & V).
      { intros; apply Hin; right; assumption. } { rewrite !upd_length. exact HL. }
      { rewrite upd_length. intros; apply He; [right; assumption|assumption]. }
      rewrite upd_length in L1, L2. exists tot', ins'. split; [exact Ex|]. split; [exact L1|]. split; [exact L2|].
      intro k. destruct (V k) as [V1 V2]. rewrite V1, V2. rewrite !nth_upd by lia.
      destruct (Nat.eqb_spec k i) as [->|N].
      * destruct (in_dec Nat.eq_dec i (i :: idx)) as [J|J]; [|exfalso; apply J; left; reflexivity].
        destruct (nth i gals []) as [|a g]; [contradiction|]. destruct (in_dec Nat.eq_dec i idx); split; reflexivity.
      * destruct (in_dec Nat.eq_dec k idx) as [I|I]; destruct (in_dec Nat.eq_dec k (i :: idx)) as [J|J]; try (split; reflexivity).
        -- exfalso. apply J. right. exact I.
        -- destruct J as [J|J]; [congruence|contradiction].
Qed.

Lemma loop_fail : forall idx tot ins, (forall i, In i idx -> (i < length gals)%nat) -> length tot = length ins ->
  (exists i, In i idx /\ (length tot <= i)%nat /\ nth i gals [] <> []) ->
  extract_loop G nm nt idx (map (map Fin) tot, map (map Fin) ins) = None.
Proof.
  induction idx as [|i idx IH]; intros tot ins Hin HL (j & Ij & Hj & Ej); [contradiction|].
  assert (Hi : (i < length gals)%nat) by (apply Hin; left; reflexivity).
  destruct (list_eq_dec (list_eq_dec Req_EM_T) (nth i gals []) []) as [E|E].
  - rewrite loop_skip by assumption. apply IH; [intros; apply Hin; right; assumption|exact HL|].
    exists j. destruct Ij as [->|Ij]; [contradiction|]. auto.
  - rewrite loop_step by assumption. destruct (Nat.ltb_spec i (length tot)) as [H|H]; [|reflexivity].
    apply IH; [intros; apply Hin; right; assumption|rewrite !upd_length; exact HL|].
    rewrite upd_length. exists j. destruct Ij as [->|Ij]; [lia|]. auto.
Qed.

Hypothesis Hsome : exists g, In g gals /\ g <> [].
Lemma first_shape : exists x, first_nonempty G = Some x /\ (length x / 2)%nat = nm /\ length (hd [] x) = nt.
Proof.
  unfold G. unfold galcat in HC. revert HC Hsome. clear. induction gals as [|g l IH]; intros HC (g0 & I & N); [contradiction|].
  inversion HC as [|? ? H1 H2]; subst. destruct g as [|r g].
  - cbn [map first_nonempty]. apply IH; [exact H2|]. destruct I as [<-|I]; [contradiction|]. exists g0. auto.
  - destruct H1 as [E|[E F]]; [discriminate|]. exists (map (map Fin) (r :: g)). split; [reflexivity|]. split.
    + rewrite map_length, E. rewrite Nat.mul_comm. apply Nat.div_mul. lia.
    + inversion F; subst. cbn [map hd]. apply map_length.
Qed.
Lemma zeros_fin n k : repeat (zeros n) k = map (map Fin) (repeat (repeat 0 n) k).
Proof.
  assert (Z : zeros n = map Fin (repeat 0 n)).
  { unfold zeros. induction n as [|n IH]; [reflexivity|]. cbn. rewrite IH. reflexivity. }
  rewrite Z. induction k as [|k IH]; [reflexivity|]. cbn. rewrite IH. reflexivity.
Qed.


Lemma extract_rows : forall istart iend, (istart <= end_of gals iend <= length gals)%nat ->
  (forall i, (istart <= i < end_of gals iend)%nat -> (end_of gals iend - istart <= i)%nat -> nth i gals [] = []) ->
  exists tot ins, extract_galacticus_sfh_tables G istart iend = Some (map (map Fin) tot, map (map Fin) ins) /\
    length tot = (end_of gals iend - istart)%nat /\ length ins = (end_of gals iend - istart)%nat /\
    forall k, (k < end_of gals iend - istart)%nat ->
      nth k tot [] = (if (istart <=? k)%nat then gal_row nt (nth k gals []) 0 nm else repeat 0 nt) /\
      nth k ins [] = (if (istart <=? k)%nat then gal_row nt (nth k gals []) nm (2 * nm) else repeat 0 nt).
Proof.
  intros istart iend Hr He. unfold extract_galacticus_sfh_tables.
  assert (LG : length G = length gals) by (unfold G; apply map_length). rewrite LG. fold (end_of gals iend).
  set (e := end_of gals iend) in *. cbv zeta. rewrite (proj2 (Nat.ltb_ge e istart)) by lia.
  destruct first_shape as (x & Ex & E1 & E2). rewrite Ex, E1, E2, zeros_fin.
  destruct (loop_ok (seq istart (e - istart)) (repeat (repeat 0 nt) (e - istart)) (repeat (repeat 0 nt) (e - istart)))
    as (tot & ins & El & L1 & L2 & V).
  - intros i I. apply in_seq in I. lia.
  - reflexivity.
  - rewrite repeat_length. intros i I Hi. apply in_seq in I. apply He; lia.
  - rewrite repeat_length in L1, L2. exists tot, ins. split; [exact El|]. split; [exact L1|]. split; [exact L2|].
    intros k Hk. destruct (V k) as [V1 V2]. rewrite V1, V2. rewrite nth_repeat_lt by exact Hk.
    unfold tot_row, ins_row, gal_row.
    destruct (in_dec Nat.eq_dec k (seq istart (e - istart))) as [I|I].
    + apply in_seq in I. rewrite (proj2 (Nat.leb_le istart k)) by lia.
      destruct (nth k gals []); split; reflexivity.
    + destruct (Nat.leb_spec istart k) as [H|H]; [|split; reflexivity].
      exfalso. apply I. apply in_seq. lia.
Qed.
Lemma extract_fails : forall istart iend i, (istart <= end_of gals iend <= length gals)%nat ->
  (istart <= i < end_of gals iend)%nat -> (end_of gals iend - istart <= i)%nat -> nth i gals [] <> [] ->
  extract_galacticus_sfh_tables G istart iend = None.
Proof.
  intros istart iend i Hr Hi1 Hi2 Hne. unfold extract_galacticus_sfh_tables.
  assert (LG : length G = length gals) by (unfold G; apply map_length). rewrite LG. fold (end_of gals iend).
  set (e := end_of gals iend) in *. cbv zeta. rewrite (proj2 (Nat.ltb_ge e istart)) by lia.
  destruct first_shape as (x & Ex & E1 & E2). rewrite Ex, E1, E2, zeros_fin.
  apply loop_fail.
  - intros j I. apply in_seq in I. lia.
  - reflexivity.
  - exists i. split; [apply in_seq; lia|]. rewrite repeat_length. split; [exact Hi2|exact Hne].
Qed.
Lemma extract_all : forall iend, (end_of gals iend <= length gals)%nat ->
  exists tot ins, extract_galacticus_sfh_tables G 0 iend = Some (map (map Fin) tot, map (map Fin) ins) /\
    length tot = end_of gals iend /\ length ins = end_of gals iend /\
    forall k, (k < end_of gals iend)%nat ->
      nth k tot [] = gal_row nt (nth k gals []) 0 nm /\ nth k ins [] = gal_row nt (nth k gals []) nm (2 * nm).
Proof.
  intros iend H. destruct (extract_rows 0 iend) as (tot & ins & E & L1 & L2 & V).
  - lia.
  - intros i H1 H2. lia.
  - rewrite Nat.sub_0_r in *. exists tot, ins. repeat split; auto; apply V; assumption.
Qed.
End Extract.

(** *** Ragged bins *)
Lemma xsum_zeros_r : forall l n, xsum (l ++ repeat (Fin 0) n) = xsum l.
Proof.
  intros l n. rewrite xsum_app. replace (xsum (repeat (Fin 0) n)) with (Fin 0).
  - rewrite xadd_comm. apply xadd_0_l.
  - induction n as [|n IH]; [reflexivity|]. cbn [repeat]. unfold xsum in *. cbn [fold_right]. rewrite <- IH. cbn. apply f_equal. lra.
Qed.
Lemma map2_app : forall {A B C} (f : A -> B -> C) l m l' m', length l = length m ->
  map2 f (l ++ l') (m ++ m') = map2 f l m ++ map2 f l' m'.
Proof.
  intros A B C f l. induction l as [|a l IH]; intros [|b m] l' m' H; try discriminate; [reflexivity|].
  cbn [app map2]. rewrite IH by (cbn in H; lia). reflexivity.
Qed.
Lemma weighted_pad : forall nms nsf ps ix w n, length ix = length w ->
  (forall a b, (a < nms)%nat -> (b < nsf)%nat -> exists v, ent (nth 0 ps (nan_matrix nms nsf)) a b = Fin v) ->
  weighted_sum_matrices nms nsf (map (take_matrix nms nsf ps) (ix ++ repeat 0%nat n)) (w ++ repeat (Fin 0) n)
  = weighted_sum_matrices nms nsf (map (take_matrix nms nsf ps) ix) w.
Proof.
  intros nms nsf ps ix w n HL HF. unfold weighted_sum_matrices. apply map_ext_in. intros a Ia. apply map_ext_in. intros b Ib.
  apply in_seq in Ia. apply in_seq in Ib. rewrite map_app, map2_app by (rewrite map_length; exact HL).
  replace (map2 (fun m w0 => (ent m a b * w0)%X) (map (take_matrix nms nsf ps) (repeat 0%nat n)) (repeat (Fin 0) n)) with (repeat (Fin 0) n).
  - apply xsum_zeros_r.
  - induction n as [|n IH]; [reflexivity|]. cbn [repeat map map2]. rewrite <- IH. apply f_equal2; [|reflexivity].
    unfold take_matrix. destruct (HF a b) as (v & ->); try lia. cbn. apply f_equal. lra.
Qed.

Lemma Forall2_weaken {A B} (P Q : A -> B -> Prop) l m : (forall a b, P a b -> Q a b) -> Forall2 P l m -> Forall2 Q l m.
Proof. intros H F. induction F; constructor; auto. Qed.
Lemma F2len {A B} (P : A -> B -> Prop) l m : Forall2 P l m -> length l = length m.
Proof. intro F. induction F; cbn; auto. Qed.
Lemma max_len_ge : forall {A} (l : list (list A)) x, In x l -> (length x <= list_max_len l)%nat.
Proof.
  intros A l x I. unfold list_max_len. induction l as [|a l IH]; [contradiction|]. cbn [map fold_right].
  destruct I as [->|I]; [lia|]. specialize (IH I). lia.
Qed.

Lemma ragged_rows : forall ix nm im ixp wp, prepare_ragged ix nm im = Some (ixp, wp) ->
  exists ws, length ws = length ix /\
    Forall2 (fun r s => s = r ++ repeat 0%nat (list_max_len ix - length r)) ix ixp /\
    Forall2 (fun r s => s = r ++ repeat (Fin 0) (list_max_len ix - length r)) ws wp /\
    Forall2 (fun r w => length r = length w) ix ws /\
    forall z, (z < length ix)%nat -> Forall2 (fun i v => nth_error (nth z nm []) i = Some v) (nth z im []) (nth z ws []).
Proof.
  intros ix nm im ixp wp H. unfold prepare_ragged in H. destruct ix as [|i0 ix0]; [discriminate|].
  set (ix := i0 :: ix0) in *. set (M := list_max_len ix) in *. cbv zeta in H.
  match type of H with match vmap ?f _ with _ => _ end = _ => set (f1 := f) in * end.
  destruct (vmap f1 (seq 0 (length ix))) as [l|] eqn:V; [|discriminate]. injection H as <- <-.
  assert (R : forall z p, (z < length ix)%nat -> f1 z = Some p ->
    exists w, p = (nth z ix [] ++ repeat 0%nat (M - length (nth z ix [])), w ++ repeat (Fin 0) (M - length w)) /\
      length (nth z ix []) = length w /\ Forall2 (fun i v => nth_error (nth z nm []) i = Some v) (nth z im []) w).
  { intros z p Hz E. unfold f1 in E. rewrite (nth_error_nth' ix []) in E by exact Hz.
    destruct (nth_error nm z) as [n|] eqn:En; [|discriminate].
    destruct (nth_error im z) as [[|a m]|] eqn:Em; try discriminate.
    rewrite (nth_error_nth _ _ [] En), (nth_error_nth _ _ [] Em).
    destruct (gather n (a :: m)) as [w|] eqn:Gw; [|discriminate]. unfold ragged_row in E.
    destruct (Nat.eqb_spec (length (nth z ix [])) (length w)) as [L|L]; [|discriminate]. injection E as <-.
    exists w. split; [reflexivity|]. split; [exact L|]. apply vmap_spec in Gw. exact Gw. }
  apply vmap_spec in V.
  assert (Gn : forall zs l, (forall z, In z zs -> (z < length ix)%nat) -> Forall2 (fun a b => f1 a = Some b) zs l ->
    exists ws, length ws = length zs /\
      Forall2 (fun z s => s = nth z ix [] ++ repeat 0%nat (M - length (nth z ix []))) zs (map fst l) /\
      Forall2 (fun r s => s = r ++ repeat (Fin 0) (M - length r)) ws (map snd l) /\
      Forall2 (fun z w => length (nth z ix []) = length w /\ Forall2 (fun i v => nth_error (nth z nm []) i = Some v) (nth z im []) w) zs ws).
  { induction zs as [|z zs IH]; intros l' Hz F; inversion F as [|? p ? l'' Ez F']; subst.
    - exists []. repeat split; constructor.
    - destruct (IH l'') as (ws & L & F1 & F2 & F3); [intros; apply Hz; right; assumption|assumption|].
      destruct (R z p) as (w & Ep & Lw & Fw); [apply Hz; left; reflexivity|assumption|]. subst p.
      exists (w :: ws). split; [cbn; lia|]. cbn [map fst snd]. repeat split; constructor; auto. }
  destruct (Gn (seq 0 (length ix)) l) as (ws & L & F1 & F2 & F3); [intros z I; apply in_seq in I; lia|exact V|].
  rewrite seq_length in L. exists ws. split; [exact L|].
  assert (T : forall {B} (P : nat -> B -> Prop) (l : list B), Forall2 P (seq 0 (length ix)) l -> forall z d, (z < length ix)%nat -> P z (nth z l d)).
  { intros B P l' Fl z d Hz.
    assert (Gs : forall k s l, Forall2 P (seq s k) l -> forall z, (z < k)%nat -> P (s + z)%nat (nth z l d)).
    { induction k as [|k IH]; intros s l2 F2' z0 Hz0; [lia|]. inversion F2'; subst. destruct z0; [rewrite Nat.add_0_r; assumption|].
      cbn [nth]. replace (s + S z0)%nat with (S s + z0)%nat by lia. apply IH; [assumption|lia]. }
    apply (Gs (length ix) 0%nat l' Fl z Hz). }
  assert (Q : forall {B} (P : list nat -> B -> Prop) (l : list B), Forall2 (fun z b => P (nth z ix []) b) (seq 0 (length ix)) l -> Forall2 P ix l).
  { intros B P l' Fl.
    assert (Gs : forall (pre suf : list (list nat)) l, Forall2 (fun z b => P (nth z (pre ++ suf) []) b) (seq (length pre) (length suf)) l -> Forall2 P suf l).
    { intros pre suf; revert pre. induction suf as [|s suf IH]; intros pre l2 F2'; inversion F2'; subst; constructor.
      - match goal with X : P _ _ |- _ => rewrite app_nth2, Nat.sub_diag in X by lia; exact X end.
      - apply (IH (pre ++ [s])). rewrite <- app_assoc. cbn [app]. rewrite app_length. cbn [length].
        rewrite Nat.add_1_r. assumption. }
    apply (Gs [] ix l'). exact Fl. }
  split; [apply Q; exact F1|]. split; [exact F2|]. split.
  - apply Q. eapply Forall2_weaken; [|exact F3]. intros a b [X _]. exact X.
  - intros z Hz. apply (T _ _ ws F3 z [] Hz).
Qed.

Lemma padded_width : forall {A} (z : A) M l lp, Forall2 (fun r s => s = r ++ repeat z (M - length r)) l lp ->
  Forall (fun r => (length r <= M)%nat) l -> Forall (fun r => length r = M) lp.
Proof.
  intros A z M l lp F. induction F as [|r s l lp E F IH]; intro H; [constructor|]. inversion H; subst. constructor; [|auto].
  rewrite app_length, repeat_length. lia.
Qed.
Lemma ragged_widths : forall ix nm im ixp wp, prepare_ragged ix nm im = Some (ixp, wp) ->
  Forall (fun r => length r = list_max_len ix) ixp /\ Forall (fun r => length r = list_max_len ix) wp.
Proof.
  intros ix nm im ixp wp H. destruct (ragged_rows _ _ _ _ _ H) as (ws & _ & F1 & F2 & F3 & _).
  assert (B : Forall (fun r => (length r <= list_max_len ix)%nat) ix).
  { apply Forall_forall. intros x I. apply max_len_ge. exact I. }
  split; [apply (padded_width _ _ _ _ F1 B)|]. apply (padded_width _ _ _ _ F2).
  revert F3 B. generalize (list_max_len ix). intros M F3 B. clear - F3 B. induction F3 as [|r w ix ws E F IH]; [constructor|].
  inversion B; subst. constructor; [lia|auto].
Qed.

Lemma ragged_sums : forall ix nm im ixp wp nms nsf ps ids, prepare_ragged ix nm im = Some (ixp, wp) ->
  (forall a b, (a < nms)%nat -> (b < nsf)%nat -> exists v, ent (nth 0 ps (nan_matrix nms nsf)) a b = Fin v) ->
  exists ws, length ws = length ix /\
    (forall z, (z < length ix)%nat -> Forall2 (fun i v => nth_error (nth z nm []) i = Some v) (nth z im []) (nth z ws [])) /\
    conditional_pdfs nms nsf ps wp ixp ids = conditional_pdfs nms nsf ps ws ix ids.
Proof.
  intros ix nm im ixp wp nms nsf ps ids H HF. destruct (ragged_rows _ _ _ _ _ H) as (ws & L & F1 & F2 & F3 & V).
  exists ws. split; [exact L|]. split; [exact V|]. clear V H L.
  unfold conditional_pdfs.
  assert (E1 : same_len ws ix = true).
  { unfold same_len, len. apply Nat.eqb_eq. symmetry. apply (F2len _ _ _ F3). }
  assert (E2 : same_len wp ixp = true).
  { unfold same_len, len. apply Nat.eqb_eq. rewrite <- (F2len _ _ _ F2), <- (F2len _ _ _ F1).
    symmetry. apply (F2len _ _ _ F3). }
  rewrite E1, E2. clear E1 E2.
  revert F1 F2 F3. generalize (list_max_len ix). intros M F1 F2 F3. revert ixp F1 wp F2.
  unfold vmap. induction F3 as [|r w ix ws E F IH]; intros ixp F1 wp F2; inversion F1; inversion F2; subst; [reflexivity|].
  cbn [combine map]. 
  match goal with |- sequence (?a :: _) = sequence (?b :: _) => assert (EE : a = b) end.
  { assert (S1 : same_len w r = true) by (unfold same_len, len; apply Nat.eqb_eq; congruence).
    rewrite S1. match goal with |- (if ?c then _ else _) = _ => assert (S2 : c = true) end.
    { unfold same_len, len. rewrite !app_length, !repeat_length, E. apply Nat.eqb_refl. }
    rewrite S2, E. rewrite weighted_pad by assumption. reflexivity. }
  rewrite EE. match goal with |- sequence (?b :: ?l) = sequence (_ :: ?m) => assert (ES : sequence l = sequence m) end.
  { apply IH; assumption. }
  cbn [sequence]. rewrite ES. reflexivity.
Qed.
Lemma ragged_nan : exists ix nm im ixp wp ps,
  prepare_ragged ix nm im = Some (ixp, wp) /\
  conditional_pdfs 1 1 ps [[Fin 1; Fin 1]; [Fin 1]] ix [0%nat] = Some [[[Fin 1]]; [[Fin 1]]] /\
  conditional_pdfs 1 1 ps wp ixp [0%nat] = Some [[[Fin 1]]; [[NaN]]].
Proof.
  exists [[1; 2]; [1]]%nat, [[Fin 1; Fin 1]; [Fin 1; Fin 1]], [[0; 1]; [0]]%nat,
    [[1; 2]; [1; 0]]%nat, [[Fin 1; Fin 1]; [Fin 1; Fin 0]], [[[NaN]]; [[Fin 1]]; [[Fin 1]]].
  split; [reflexivity|]. split.
  - unfold conditional_pdfs, vmap. cbn -[Rdiv xdiv]. rewrite !xdiv_fin by lra.
    repeat apply f_equal2; try reflexivity; repeat (apply f_equal2 || apply f_equal); try reflexivity; field; lra.
  - unfold conditional_pdfs, vmap. cbn -[Rdiv xdiv]. rewrite !xdiv_fin by lra.
    repeat (apply f_equal2 || apply f_equal); try reflexivity; field; lra.
Qed.
