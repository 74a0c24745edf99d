(** The population-fit program from the measured galaxies: when a fit runs. *)
From Coq Require Import Reals List Bool ZArith Lia Lra String Permutation.
From Verif Require Import XReal ModelUtils ModelKernels ModelSfh ModelPop ModelHist ModelFit ModelLoad ModelIO SpecLoad ModelTargets ModelPopFit ModelSmhmFit ModelSubvol ModelPopProgram
  RealFacts XFacts SpecCore SpecHist SpecPop SpecTargets SpecMeasure SpecPopFit SpecLossChain SpecPopProgram SfhProofs DtProofs FstarProofs PopProofs PopParamProofs HistProofs
  LossProofs PopLossProofs FitProofs TableProofs SmhmProofs SnapshotProofs TargetProofs TargetTopProofs MeasureTopProofs LossDataProofs LossTargetProofs SsfrDataProofs LossChainProofs
  PopFitTop SubvolProofs LossChainTop QualityTopProofs PopProgramProofs.
Import List ListNotations.
Open Scope R_scope.
Local Notation length := List.length.

(** ** When a mean squared error is finite *)
Lemma xsum_isfin l : isfinite (xsum l) = forallb isfinite l.
Proof.
  induction l as [|x l IH]; [reflexivity|]. cbn [xsum fold_right forallb]. rewrite <- IH. fold (xsum l).
  destruct x, (xsum l); reflexivity.
Qed.
Lemma square_isfin x y : isfinite (xpown (xsub x y) 2) = isfinite x && isfinite y.
Proof. destruct x, y; cbn; try reflexivity; unfold signed_inf; repeat destruct (Rlt_dec _ _); try lra; reflexivity. Qed.
Lemma squares_isfin p t : length p = length t -> forallb isfinite (map (fun d => xpown d 2) (map2 xsub p t)) = all_finite p && all_finite t.
Proof.
  revert t. induction p as [|x p IH]; intros [|y t] L; try discriminate; [reflexivity|]. cbn [map2 map forallb all_finite].
  change (forallb isfinite p) with (all_finite p). change (forallb isfinite t) with (all_finite t).
  rewrite square_isfin, IH by (cbn in L; lia). destruct (isfinite x), (isfinite y), (all_finite p), (all_finite t); reflexivity.
Qed.
Lemma mse_isfin p t : length p = length t -> exists v, mse p t = Some v /\
  (isfinite v = true <-> p <> [] /\ all_finite p = true /\ all_finite t = true).
Proof.
  intros L. unfold mse. rewrite same_len_true by exact L. eexists. split; [reflexivity|]. unfold xmean, ModelHist.len.
  set (sq := map _ _). assert (Ls : length sq = length p) by (unfold sq; rewrite map_length, map2_length; lia).
  assert (Q : isfinite (xsum sq) = all_finite p && all_finite t) by (unfold sq; rewrite xsum_isfin; apply squares_isfin, L).
  rewrite Ls. destruct p as [|x p].
  - split; [|intros (N & _); congruence]. assert (sq = []) as -> by (destruct sq; [reflexivity|discriminate]). cbn [xsum fold_right length INR xdiv].
    destruct (Req_EM_T 0 0) as [_|N]; [|congruence]. unfold signed_inf. destruct (Rlt_dec 0 0); [lra|]. discriminate.
  - assert (H : INR (length (x :: p)) <> 0) by (apply not_0_INR; discriminate). revert Q. generalize (xsum sq). intros s Q.
    assert (E : isfinite (s / Fin (INR (length (x :: p))))%X = isfinite s).
    { destruct s as [a| | |]; cbn [xdiv]; [|destruct (Rlt_dec _ _); reflexivity..|reflexivity]. destruct (Req_EM_T _ 0); [contradiction|reflexivity]. }
    rewrite E, Q, andb_true_iff. split; [intros H1; split; [discriminate|exact H1]|tauto].
Qed.
Lemma all_finite_app a b : all_finite (a ++ b) = all_finite a && all_finite b.
Proof. unfold all_finite. apply forallb_app. Qed.
Lemma all_finite_concat l : all_finite (List.concat l) = true <-> Forall (fun r => all_finite r = true) l.
Proof.
  induction l as [|r l IH]; cbn [List.concat]; [split; [constructor|reflexivity]|]. rewrite all_finite_app, andb_true_iff, IH.
  split; [intros (A & B); now constructor|intros H; inversion H; auto].
Qed.
Lemma mse2_isfin p t : map (@length xr) p = map (@length xr) t -> exists v, mse2 p t = Some v /\
  (isfinite v = true <-> List.concat p <> [] /\ Forall (fun r => all_finite r = true) p /\ Forall (fun r => all_finite r = true) t).
Proof.
  intros L. unfold mse2. rewrite shape_check by exact L. destruct (mse_isfin _ _ (concat_len _ _ L)) as (v & E & H).
  exists v. split; [exact E|]. now rewrite H, !all_finite_concat.
Qed.
Lemma all_finite_map {A} (f : A -> R) l : all_finite (map (fun a => Fin (f a)) l) = true.
Proof. apply forallb_forall. intros y Hy. apply in_map_iff in Hy. now destruct Hy as (m & <- & _). Qed.
Lemma all_finite_nan n : (0 < n)%nat -> all_finite (repeat NaN n) = false.
Proof. destruct n; [lia|reflexivity]. Qed.

(** ** Combined losses *)
Lemma add_isfin a b : isfinite (a + b)%X = isfinite a && isfinite b.
Proof. destruct a, b; reflexivity. Qed.

Lemma F2_length {A B} (P : A -> B -> Prop) l m : Forall2 P l m -> length l = length m.
Proof. induction 1; cbn; congruence. Qed.
Lemma total_zero n c : (forall b, (b < n)%nat -> 0 <= c b) -> total n c = 0 -> forall b, (b < n)%nat -> c b = 0.
Proof.
  unfold total. intros P Z b Hb. destruct (P b Hb) as [L|L]; [exfalso|easy].
  assert (0 < Rsum (map c (seq 0 n))); [|lra]. apply Rsum_pos.
  - apply Forall_forall. intros x Hx. apply in_map_iff in Hx. destruct Hx as (y & <- & Hy). apply in_seq in Hy. apply P. lia.
  - apply Exists_exists. exists (c b). split; [apply in_map_iff; exists b; split; [reflexivity|apply in_seq; lia]|exact L].
Qed.

Section Top.
Variables (k : nat) (hm : nat -> MahParams xr) (q : nat -> DiffstarParams xr) (up : nat -> Z) (Gs : list (list nat)) (cen sat : nat -> bool)
  (M S F : nat -> list R) (T : list R) (ids : list nat) (zs E Em Es : list R) (f : Final).
Hypothesis FT : final_tables k hm q up Gs cen sat M S F T ids zs E Em Es f.
Hypothesis HE : (2 <= length E)%nat.
Hypothesis HEm : (2 <= length Em)%nat.
Hypothesis HEs : (2 <= length Es)%nat.
Hypothesis IEm : increasing Em.
Hypothesis IEs : increasing Es.
Hypothesis HK : kinds_agree Gs cen sat up.
Notation G := (List.concat Gs).
Notation pf := (measured f E Em Es).
Notation h := (f_haloes f).
Notation nz := (length ids).
Notation nm := (length E - 1)%nat.
Notation lgt0 := (log10R (138 / 10)).

Variable key : Type.
Variable split : key -> nat -> list key.
Variable uniform : key -> xr.
Variable mvn : key -> list xr -> matrix -> list xr.
Variable sing : MahParams xr -> list xr -> xr -> list xr * list xr.
Variable kern : MahParams xr -> xr -> xr -> xr.
Hypothesis HT : timewise sing kern.
Hypothesis HS : splits_ok split.
Hypothesis HM : mvn_ok mvn.
Variables dm dc ds : Draws key.
Hypothesis HC : draws_ok (dr_choice key dm).
Hypothesis HH : forall g, In g G -> has_history kern lgt0 hm T ids g.
Variable nhalos : nat.

Notation fit_cells := (fit_cells k M E ids Gs).
Notation dist := (mass_dist All up M S F E Em Es ids G).

Lemma mass_simulable d : mstar_data key split sing (dr_choice key dm) All pf nhalos (Fin lgt0) FB (dr_key key dm) = Some d -> zs_ok key kern (Fin lgt0) (ml_zs key d).
Proof using All.
  intros D. pose proof (measured_files _ _ _ _ _ _ _ _ _ _ _ _ _ _ _ _ _ FT HE HEm HEs) as FA.
  apply (mstar_simulable key split sing kern (dr_choice key dm) HT HC pf nz nm (length Em - 1) (length Es - 1) _ _ _ _ _ FA All nhalos lgt0 FB (dr_key key dm) d); [|exact D].
  intros i j n Hi Hn. destruct (ft_sample _ _ _ _ _ _ _ _ _ _ _ _ _ _ _ _ _ FT) as (Ls & SO & FS). cbn [measured pf_f] in *.
  pose proof Hn as Hn'. apply (in_sampled hm q up T ids zs E f Ls SO) in Hn'. destruct Hn' as (Hl & _ & _ & _).
  assert (IG : In (halo (row Ls n)) G).
  { apply (L_in k Gs M ids E Ls FS). unfold row. apply nth_In. exact Hl. }
  destruct (HH _ IG) as ((m & Em1) & (tp & Etp) & HI).
  destruct (HI (nth i ids 0%nat)) as (H1 & hh & H2); [apply nth_In; exact Hi|].
  exists (nth (nth i ids 0%nat) T 0), m, tp, hh. rewrite (mah_at hm q up T ids zs E f Ls SO n Hl).
  split; [apply (age_at_target k hm q up Gs cen sat M S F T ids zs E Em Es f FT HE HEm HEs IEm IEs HK); exact Hi|]. auto.
Qed.


Lemma mass_loss d P0 U0 : mstar_data key split sing (dr_choice key dm) All pf nhalos (Fin lgt0) FB (dr_key key dm) = Some d ->
  get_bounded_diffstarpop_params (pop_u_params U0) = Some (pop_params P0) -> pop_in_bounds P0 -> slopes_nonzero P0 ->
  exists v samples, loss_mstar key split uniform mvn kern (pop_u_params U0) d = Some v /\
    Forall2 (fun z X => exists n tobs Y W, sim_ok kern (Fin lgt0) n tobs z /\ sample key split uniform mvn kern (pop_params P0) z (Fin lgt0) (156 / 1000) tobs n X Y W) (ml_zs key d) samples /\
    (isfinite v = true <-> fit_cells <> [] /\ (forall c, In c fit_cells -> total (length Em - 1) (dist (fst c) (snd c)) <> 0) /\ Forall (reaches Em) samples).
Proof using All.
  intros D EU IB SN. pose proof (mass_simulable d D) as Z.
  pose proof (measured_files _ _ _ _ _ _ _ _ _ _ _ _ _ _ _ _ _ FT HE HEm HEs) as FA.
  rewrite (mstar_data_eq key split sing kern (dr_choice key dm) HT HC pf nz nm (length Em - 1) (length Es - 1) _ _ _ _ _ FA) in D.
  apply Some_inj in D.
  destruct (mstar_prediction key split uniform mvn kern HS HM (pop_u_params U0) (pop_params P0) P0 (ml_zs key d) (Fin lgt0) (156 / 1000) Em EU (holds_params P0) IB SN Z IEm HEm) as (pred & EP & FP).
  assert (UK : usable All (f_haloes (pf_f pf)) nz nm = fit_cells) by (apply (usable_kept k hm q up Gs cen sat M S F T ids zs E Em Es f FT HE HEm HEs IEm IEs HK)).
  set (tgt := map (mass_row (length Em - 1) (length Es - 1) (c3 Gs M S ids E Em) (c4 Gs M S F ids E Em Es cen) (c4 Gs M S F ids E Em Es sat) All) fit_cells).
  assert (Dt : ml_target key d = tgt) by (subst d; cbn [ml_target]; now rewrite UK).
  assert (Dz : length (ml_zs key d) = length fit_cells).
  { subst d. cbn [ml_zs]. rewrite <- UK. apply pops_length. exact HS. }
  assert (Lb : ml_bins key d = map Fin Em /\ ml_lgt0 key d = Fin lgt0 /\ ml_fb key d = Fin (156 / 1000)) by (subst d; auto).
  destruct Lb as (Lb & Ll & Lf).
  assert (R : forall c, In c fit_cells ->
     (total (length Em - 1) (dist (fst c) (snd c)) <> 0 -> exists w, mass_row (length Em - 1) (length Es - 1) (c3 Gs M S ids E Em) (c4 Gs M S F ids E Em Es cen) (c4 Gs M S F ids E Em Es sat) All c = map (fun b => Fin (w b)) (seq 0 (length Em - 1))) /\
     (total (length Em - 1) (dist (fst c) (snd c)) = 0 -> mass_row (length Em - 1) (length Es - 1) (c3 Gs M S ids E Em) (c4 Gs M S F ids E Em Es cen) (c4 Gs M S F ids E Em Es sat) All c = repeat NaN (length Em - 1))).
  { intros c _. unfold mass_row. rewrite (map_ext _ (fun b => Fin (dist (fst c) (snd c) b))).
    2:{ intros b. f_equal. apply counts_dist; assumption. }
    split; intros Ht.
    - exists (fun b => dist (fst c) (snd c) b / total (length Em - 1) (dist (fst c) (snd c))). now apply normalise_row.
    - apply normalise_zero. apply total_zero; [|exact Ht]. intros b Hb. apply dist_nonneg; assumption. }
  assert (Rl : forall r, In r tgt -> length r = (length Em - 1)%nat).
  { intros r Hr. apply in_map_iff in Hr. destruct Hr as (c & <- & Hc). destruct (R c Hc) as (R1 & R2).
    destruct (Req_dec (total (length Em - 1) (dist (fst c) (snd c))) 0) as [X|X].
    - rewrite (R2 X). apply repeat_length.
    - destruct (R1 X) as (w & ->). now rewrite map_length, seq_length. }
  assert (XS : exists samples, Forall2 (fun z X => exists n tobs Y W, sim_ok kern (Fin lgt0) n tobs z /\ sample key split uniform mvn kern (pop_params P0) z (Fin lgt0) (156 / 1000) tobs n X Y W) (ml_zs key d) samples /\
     Forall2 (fun X r => length r = (length Em - 1)%nat /\ (reaches Em X <-> all_finite r = true)) samples pred).
  { clear - FP HEm. induction FP as [|z r l m (n & tobs & X & Y & W & A & B & C) FP IH].
    - exists []. split; constructor.
    - destruct IH as (ss & I1 & I2). exists (X :: ss). split; [constructor; [|exact I1]; exists n, tobs, Y, W; auto|]. constructor; [|exact I2].
      cbn zeta in C. destruct C as (C1 & C2).
      assert (HR : reaches Em X <-> exists i : nat, (i < length X)%nat /\ hd 0 Em - 3 * ((last Em 0 - hd 0 Em) / INR (length Em - 1)) < nth i X 0 < last Em 0 + 3 * ((last Em 0 - hd 0 Em) / INR (length Em - 1))).
      { unfold reaches, mean_bin. split.
        - intros (x & Hx & H). apply (In_nth _ _ 0) in Hx. destruct Hx as (i & Hi & <-). exists i. auto.
        - intros (i & Hi & H). exists (nth i X 0). split; [now apply nth_In|exact H]. }
      rewrite HR. clear HR. match type of C1 with ?Q -> _ => destruct (Classical_Prop.classic Q) as [Hh|Hh] end.
      + destruct (C1 Hh) as (w & -> & Lw & _). rewrite map_length. split; [exact Lw|]. split; [intros _; apply (all_finite_map (fun x => x))|intros _; exact Hh].
      + rewrite (C2 Hh), repeat_length. split; [reflexivity|]. split; [intros Q; elim (Hh Q)|]. intros Q. rewrite all_finite_nan in Q by lia. discriminate Q. }
  destruct XS as (samples & XS1 & XS2).
  assert (Ls : length samples = length fit_cells) by (rewrite <- Dz; symmetry; apply (F2_length _ _ _ XS1)).
  assert (Lp : length pred = length fit_cells) by (rewrite <- Ls; symmetry; apply (F2_length _ _ _ XS2)).
  assert (SH : map (@length xr) pred = map (@length xr) tgt).
  { assert (A : forall l : list (list xr), (forall r, In r l -> length r = (length Em - 1)%nat) -> map (@length xr) l = repeat (length Em - 1)%nat (length l)).
    { clear. induction l as [|r l IH]; intros H; [reflexivity|]. cbn [map length repeat]. rewrite IH by (intros; apply H; now right). rewrite H by now left. reflexivity. }
    rewrite (A tgt Rl), A.
    - f_equal. rewrite Lp. unfold tgt. now rewrite map_length.
    - intros r Hr. clear - XS2 Hr. induction XS2 as [|X r' l m (H & _) XS IH]; [contradiction|]. destruct Hr as [->|Hr]; auto. }
  destruct (mse2_isfin pred tgt SH) as (v & EV & HV).
  exists (v * Fin 1000)%X, samples. split; [|split; [exact XS1|]].
  - unfold loss_mstar, loss_mstar_kern_tobs. rewrite Lb, Ll, Lf, Dt, EP, EV. reflexivity.
  - assert (V : isfinite (v * Fin 1000)%X = isfinite v).
    { destruct v; cbn; try reflexivity; unfold signed_inf; repeat destruct (Rlt_dec _ _); try lra; try reflexivity; destruct (Req_EM_T _ _); try lra; reflexivity. }
    rewrite V, HV. assert (NE : List.concat pred <> [] <-> fit_cells <> []).
    { clear - XS2 Lp HEm. destruct fit_cells as [|c l].
      - destruct pred; [|discriminate]. cbn. tauto.
      - destruct pred as [|r p]; [discriminate|]. inversion XS2 as [|? ? ? ? (H & _)]; subst. split; [discriminate|]. intros _. cbn [List.concat].
        destruct r; [cbn in H; lia|discriminate]. }
    rewrite NE. assert (A1 : Forall (fun r => all_finite r = true) pred <-> Forall (reaches Em) samples).
    { clear - XS2. induction XS2 as [|X r l m (_ & H) XS IH]; [split; constructor|]. split; intros Q; inversion Q; subst; constructor; tauto. }
    assert (A2 : Forall (fun r => all_finite r = true) tgt <-> (forall c, In c fit_cells -> total (length Em - 1) (dist (fst c) (snd c)) <> 0)).
    { unfold tgt. rewrite Forall_map, Forall_forall. split; intros Q c Hc.
      - intros Z0. specialize (Q c Hc). destruct (R c Hc) as (_ & R2). rewrite (R2 Z0), all_finite_nan in Q by lia. discriminate Q.
      - destruct (R c Hc) as (R1 & _). destruct (R1 (Q c Hc)) as (w & ->). apply (all_finite_map w). }
    rewrite A1, A2. tauto.
Qed.
Definition mass_part (d : LossData key) : MstarLossData key := match d with DataM m => m | DataMC m _ => m | DataMCS m _ _ => m end.
Lemma load_mass ty d : load_loss_data key split sing ty dm dc ds pf nhalos = Some d ->
  mstar_data key split sing (dr_choice key dm) All pf nhalos (Fin lgt0) FB (dr_key key dm) = Some (mass_part d).
Proof using.
  unfold load_loss_data. rewrite lgt0_value. cbn [mstar_data]. destruct (get_loss_data_pdfs_mstar key split sing (dr_choice key dm) pf nhalos (Fin lgt0) FB (dr_key key dm)) as [m|].
  - destruct (String.eqb ty "mstar"); [cbn [option_map]; intros H; apply Some_inj in H; now subst d|].
    destruct (String.eqb ty "mstar_ssfr_cen"); [destruct (get_loss_data_pdfs_ssfr_central _ _ _ _ _ _ _ _ _); [|discriminate]; intros H; apply Some_inj in H; now subst d|].
    destruct (String.eqb ty "mstar_ssfr_cen_sat"); [|discriminate].
    destruct (get_loss_data_pdfs_ssfr_central _ _ _ _ _ _ _ _ _); [|discriminate]. destruct (get_loss_data_pdfs_ssfr_satellite _ _ _ _ _ _ _ _ _); [|discriminate].
    intros H; apply Some_inj in H; now subst d.
  - destruct (String.eqb ty "mstar"); [discriminate|]. destruct (String.eqb ty "mstar_ssfr_cen"); [discriminate|]. destruct (String.eqb ty "mstar_ssfr_cen_sat"); discriminate.
Qed.
Lemma loss_part u d r : loss_of key split uniform mvn kern d u = Some (Fin r) -> exists r', loss_mstar key split uniform mvn kern u (mass_part d) = Some (Fin r').
Proof using.
  destruct d as [m|m c|m c s]; cbn [loss_of mass_part].
  - eauto.
  - unfold loss_combined_kern. destruct (loss_ssfr _ _ _ _ _ u c) as [a|]; [|discriminate]. destruct (loss_mstar _ _ _ _ _ u m) as [b|]; [|discriminate].
    intros H. apply Some_inj in H. destruct a, b; try discriminate H. eauto.
  - unfold loss_combined_3loss_kern. destruct (loss_ssfr _ _ _ _ _ u c) as [a|]; [|discriminate]. destruct (loss_ssfr _ _ _ _ _ u s) as [a'|]; [|discriminate].
    destruct (loss_mstar _ _ _ _ _ u m) as [b|]; [|discriminate].
    intros H. apply Some_inj in H. destruct a, b; try discriminate H; destruct a'; try discriminate H; eauto.
Qed.

Section Run.
Variable grads : LossData key -> list xr -> list xr.
Variable St : Type.
Variable opt_init : list xr -> St.
Variable opt_update : nat -> list xr -> St -> St.
Variable get_params : St -> list xr.
Hypothesis H0 : forall p, get_params (opt_init p) = p.
Notation program := (fit_program key split uniform mvn kern sing grads St opt_init opt_update get_params).
Notation simulated P0 := (fun z X => exists n tobs Y W, sim_ok kern (Fin lgt0) n tobs z /\
  sample key split uniform mvn kern (pop_params P0) z (Fin lgt0) (156 / 1000) tobs n X Y W).

(** The stellar-mass fit *)
Theorem mass_runs npz path U0 P0 n pl outdir outname : start_params npz path = Some (flat U0) ->
  get_bounded_diffstarpop_params (pop_u_params U0) = Some (pop_params P0) -> pop_in_bounds P0 -> slopes_nonzero P0 ->
  exists d samples, load_loss_data key split sing "mstar" dm dc ds pf nhalos = Some (DataM key d) /\ Forall2 (simulated P0) (ml_zs key d) samples /\
    (program "mstar" dm dc ds pf nhalos npz path n pl outdir outname = None <->
     (n <= 0)%Z \/ pl = 0%Z \/ fit_cells = [] \/ (exists c, In c fit_cells /\ total (length Em - 1) (dist (fst c) (snd c)) = 0) \/
     exists X, In X samples /\ ~ reaches Em X).
Proof using All.
  intros SP EU IB SN. pose proof (measured_files _ _ _ _ _ _ _ _ _ _ _ _ _ _ _ _ _ FT HE HEm HEs) as FA.
  pose proof (mstar_data_eq key split sing kern (dr_choice key dm) HT HC pf nz nm (length Em - 1) (length Es - 1) _ _ _ _ _ FA nhalos lgt0 All FB (dr_key key dm)) as D.
  set (d := mkML key _ _ _ _ _) in D. clearbody d. destruct (mass_loss d P0 U0 D EU IB SN) as (v & samples & LV & FS & IV).
  exists d, samples. assert (LD : load_loss_data key split sing "mstar" dm dc ds pf nhalos = Some (DataM key d)).
  { unfold load_loss_data. cbn [String.eqb Ascii.eqb Bool.eqb]. rewrite lgt0_value. cbn [mstar_data] in D. now rewrite D. }
  split; [exact LD|]. split; [exact FS|]. rewrite (program_raises key split uniform mvn kern sing grads St opt_init opt_update get_params H0).
  rewrite LD, SP. assert (LW : loss_wrapper key split uniform mvn kern (DataM key d) (flat U0) = Some v) by (unfold loss_wrapper; rewrite make_flat; exact LV).
  split.
  - intros [X|[X|[X|[X|(d' & p' & E1 & E2 & X)]]]]; [discriminate X|discriminate X|now left|right; now left|]. do 2 right.
    apply Some_inj in E1, E2. subst d' p'. rewrite LW in X.
    destruct (Classical_Prop.classic (fit_cells = [])) as [FC|FC]; [now left|right].
    destruct (Classical_Prop.classic (exists c, In c fit_cells /\ total (length Em - 1) (dist (fst c) (snd c)) = 0)) as [Y|Y]; [now left|right].
    destruct (Classical_Prop.classic (exists X, In X samples /\ ~ reaches Em X)) as [W|W]; [exact W|exfalso].
    assert (I : isfinite v = true); [|destruct v as [r| | |]; try discriminate I; exact (X r eq_refl)].
    apply IV. split; [|split].
    + exact FC.
    + intros c Hc Z. apply Y. eauto.
    + apply Forall_forall. intros x Hx. destruct (Classical_Prop.classic (reaches Em x)) as [Q|Q]; [exact Q|]. elim W. eauto.
  - intros [X|[X|X]]; [right; right; now left|do 3 right; now left|]. do 4 right. exists (DataM key d), (flat U0). split; [reflexivity|]. split; [reflexivity|].
    intros r Q. rewrite LW in Q. apply Some_inj in Q. subst v. destruct IV as [IV _]. destruct (IV eq_refl) as (I1 & I2 & I3).
    destruct X as [X|[(c & Hc & X)|(x & Hx & X)]]; [exact (I1 X)|exact (I2 c Hc X)|]. rewrite Forall_forall in I3. exact (X (I3 x Hx)).
Qed.
(** Every kind of fit contains the stellar-mass loss *)
Theorem any_runs ty npz path U0 P0 n pl outdir outname s : start_params npz path = Some (flat U0) ->
  get_bounded_diffstarpop_params (pop_u_params U0) = Some (pop_params P0) -> pop_in_bounds P0 -> slopes_nonzero P0 ->
  program ty dm dc ds pf nhalos npz path n pl outdir outname = Some s ->
  exists s', program "mstar" dm dc ds pf nhalos npz path n pl outdir outname = Some s'.
Proof using All.
  intros SP EU IB SN PR. destruct (mass_runs npz path U0 P0 n pl outdir outname SP EU IB SN) as (d & samples & LD & FS & MR).
  assert (NN : program ty dm dc ds pf nhalos npz path n pl outdir outname <> None) by (rewrite PR; discriminate). clear PR.
  rewrite (program_raises key split uniform mvn kern sing grads St opt_init opt_update get_params H0) in NN. rewrite SP in NN.
  destruct (load_loss_data key split sing ty dm dc ds pf nhalos) as [d'|] eqn:LD'; [|exfalso; apply NN; now left].
  destruct (program "mstar" dm dc ds pf nhalos npz path n pl outdir outname) as [s'|] eqn:Q; [eauto|exfalso].
  rewrite (program_raises key split uniform mvn kern sing grads St opt_init opt_update get_params H0), LD, SP in Q.
  destruct Q as [X|[X|[X|[X|(d2 & p2 & E1 & E2 & X)]]]]; [discriminate X|discriminate X|apply NN; tauto|apply NN; tauto|].
  apply Some_inj in E1, E2. subst d2 p2. apply NN. do 4 right. exists d', (flat U0). split; [reflexivity|]. split; [reflexivity|].
  intros r Lr. pose proof (load_mass ty d' LD') as M1. pose proof (load_mass "mstar" (DataM key d) LD) as M2. cbn [mass_part] in M2. rewrite M2 in M1. apply Some_inj in M1.
  unfold loss_wrapper in Lr, X. rewrite make_flat in Lr, X. destruct (loss_part _ _ _ Lr) as (r' & Lr'). rewrite <- M1 in Lr'. exact (X r' Lr').
Qed.
(** A used cell whose galaxies all lie on its lower edge *)
Theorem edge_raises ty npz path n pl outdir outname i j : (i < nz)%nat -> (j < nm)%nat ->
  (50 <= kept k M E ids Gs i j)%nat -> (forall g, In g G -> interior E j (at_t ids M i g) = false) ->
  program ty dm dc ds pf nhalos npz path n pl outdir outname = None.
Proof using All.
  intros Hi Hj K50 NI. apply (program_raises key split uniform mvn kern sing grads St opt_init opt_update get_params H0).
  destruct (load_loss_data key split sing ty dm dc ds pf nhalos) as [d|] eqn:LD; [|now left].
  destruct (start_params npz path) as [p0|]; [|right; now left]. do 4 right. exists d, p0. split; [reflexivity|]. split; [reflexivity|].
  intros r Lr. unfold loss_wrapper in Lr. destruct (nt_make DIFFSTARPOP_UNAMES p0) as [u|]; [|discriminate Lr].
  destruct (loss_part _ _ _ Lr) as (r' & Lr').
  pose proof (edge_nan k hm q up Gs cen sat M S F T ids zs E Em Es f FT HE HEm HEs IEm IEs HK key split sing kern (dr_choice key dm) HT HC HS
    nhalos lgt0 FB (dr_key key dm) _ i j split uniform mvn u _ (load_mass ty d LD) Hi Hj K50 NI Lr') as X. discriminate X.
Qed.
End Run.
End Top.
