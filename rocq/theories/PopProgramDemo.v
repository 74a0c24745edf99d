(** A population fit that runs: 120 galaxies in one cell, a constant halo history and
    stellar-mass bins wide enough for the simulated masses. *)
From Coq Require Import Reals List Bool ZArith Lia Lra String Permutation.
From Verif Require Import XReal ModelUtils ModelKernels ModelSfh ModelPop ModelHist ModelFit ModelLoad ModelIO SpecLoad ModelTargets ModelPopFit ModelSmhmFit ModelSubvol ModelPopProgram
  RealFacts XFacts SpecCore SpecHist SpecPop SpecTargets SpecMeasure SpecPopFit SpecLossChain SpecPopProgram SfhProofs DtProofs FstarProofs PopProofs PopParamProofs HistProofs
  LossProofs PopLossProofs FitProofs TableProofs SmhmProofs SnapshotProofs TargetProofs TargetTopProofs MeasureTopProofs LossDataProofs LossTargetProofs SsfrDataProofs LossChainProofs
  PopFitTop SubvolProofs LossChainTop QualityTopProofs PopProgramProofs PopProgramTop.
Import List ListNotations.
Open Scope R_scope.
Local Notation length := List.length.

Definition exr_M : nat -> list R := exl_M (23 / 2).
Definition exr_final (Em : list R) : Final := mkFinal
  (tbl 1 2 (fun i j => Rsum (map (fun g => tw_mass (at_t exl_ids exr_M i g) (mean_bin exl_E) (nth j exl_E 0) (nth (j + 1) exl_E 0)) exl_G)))
  (tbl 1 2 (fun i j => Rsum (map (fun g => tw_mass (at_t exl_ids exr_M i g) (mean_bin exl_E) (nth j exl_E 0) (nth (j + 1) exl_E 0) * at_t exl_ids exl_S i g) exl_G)))
  (tbl 1 2 (fun i j => INR (count (fun g => inbin exl_E j (at_t exl_ids exr_M i g)) exl_G)))
  (tbl 1 2 (fun i j => Rsum (map (at_t exl_ids exl_S i) (filter (fun g => inbin exl_E j (at_t exl_ids exr_M i g)) exl_G))))
  (tbl 1 2 (fun i j => INR (count (fun g => exl_cen g && inbin exl_E j (at_t exl_ids exr_M i g)) exl_G)))
  (tbl 1 2 (fun i j => INR (count (fun g => exl_sat g && inbin exl_E j (at_t exl_ids exr_M i g)) exl_G)))
  [] (map (fun i => map (fun j => mean (map (at_t exl_ids exl_S i) (filter (fun g => inbin exl_E j (at_t exl_ids exr_M i g)) exl_G))) (seq 0 2)) (seq 0 1))
  [Fin (138 / 10)] exl_haloes
  (tbl3 1 2 (length Em - 1) (c3 [exl_G] exr_M exl_S exl_ids exl_E Em))
  (tbl3 1 2 (length Em - 1) (fun i j a => INR (count (fun g => interior exl_E j (at_t exl_ids exr_M i g) && inbin Em a (at_t exl_ids exl_S i g)) exl_G)))
  (tbl4 1 2 (length Em - 1) (length exl_Es - 1) (c4 [exl_G] exr_M exl_S exl_F exl_ids exl_E Em exl_Es exl_cen))
  (tbl4 1 2 (length Em - 1) (length exl_Es - 1) (c4 [exl_G] exr_M exl_S exl_F exl_ids exl_E Em exl_Es exl_sat)).
Lemma exr_tables Em : final_tables 1000 exl_hm exl_q exl_up [exl_G] exl_cen exl_sat exr_M exl_S exl_F [138 / 10] exl_ids [0] exl_E Em exl_Es (exr_final Em).
Proof.
  assert (Hx : 11 <= 23 / 2 < 12) by lra. constructor.
  - constructor; reflexivity.
  - intros i j Hi Hj. cbn in Hi, Hj. unfold entry. destruct i; [|lia]. destruct j as [|[|]]; [reflexivity|reflexivity|lia].
  - reflexivity.
  - exact (ft_sample _ _ _ _ _ _ _ _ _ _ _ _ _ _ _ _ _ (exl_tables (23 / 2) Hx)).
Qed.
Definition exr_kern (_ : MahParams xr) (_ _ : xr) : xr := Fin 12.
Definition exr_draws : Draws unit := mkDraws unit the_choice tt.
Definition exr_mvn (_ : unit) (mean : list xr) (_ : matrix) : list xr := mean.
Definition exr_uniform (_ : unit) : xr := Fin (1 / 2).
Lemma exr_mvn_ok : mvn_ok exr_mvn.
Proof. intros k mean cov _. exists mean. split; reflexivity. Qed.
Lemma exr_history g : has_history exr_kern (log10R (138 / 10)) exl_hm [138 / 10] exl_ids g.
Proof.
  split; [exists 12; reflexivity|]. split; [exists 10; reflexivity|]. intros t [<-|[]]. cbn [nth]. split; [lra|]. exists (fun _ => 12).
  apply Forall_forall. intros t Ht. split; [|reflexivity].
  assert (I : increasing (1 / 1000 :: obs_times (138 / 10))) by (apply obs_times_incr; lra).
  apply Rlt_trans with (1 / 1000); [lra|]. revert t Ht I. generalize (obs_times (138 / 10)). generalize (1 / 1000). intros a l. revert a.
  induction l as [|b l IH]; intros a t Ht I; [contradiction|]. cbn [increasing] in I. destruct I as (L & I').
  destruct Ht as [<-|Ht]; [exact L|]. apply Rlt_trans with b; [exact L|]. exact (IH b t Ht I').
Qed.
Lemma exr_cells : fit_cells 1000 exr_M exl_E exl_ids [exl_G] = [(0, 0)%nat].
Proof.
  unfold fit_cells. cbn [exl_ids exl_E List.length seq list_prod map app Nat.sub filter fst snd].
  unfold exr_M at 1. rewrite exl_kept by lra. cbn [Nat.leb].
  assert (K : kept 1000 exr_M exl_E exl_ids [exl_G] 0 1 = 0%nat).
  { unfold kept, count. cbn [map]. rewrite filter_false; [reflexivity|]. intros g _. destruct (exl_half (23 / 2) 1 g ltac:(lra)) as [E|E]; [exact E|lia]. }
  now rewrite K.
Qed.

Lemma exr_usable : usable All exl_haloes 1 2 = [(0, 0)%nat].
Proof.
  destruct exl_sizes as (A & B & C & D & E & _).
  rewrite <- exr_cells. exact (usable_kept _ _ _ _ _ _ _ _ _ _ _ _ _ _ _ _ _ (exl_tables (23 / 2) ltac:(lra)) A B C D E exl_kinds).
Qed.
(** A galaxy's simulated mass is determined *)
Lemma sample_unique key split uniform mvn lmk p (z : ZPop key) lgt0 fb tobs n X Y W tobs' n' X' Y' W' :
  sim_ok lmk lgt0 n tobs z -> sim_ok lmk lgt0 n' tobs' z ->
  sample key split uniform mvn lmk p z lgt0 fb tobs n X Y W -> sample key split uniform mvn lmk p z lgt0 fb tobs' n' X' Y' W' -> X = X'.
Proof.
  intros (m & ? & ? & ? & ? & A1 & _ & _ & _ & _ & A2 & _ & A3 & _) (m' & ? & ? & ? & ? & B1 & _ & _ & _ & _ & B2 & _ & B3 & _).
  rewrite A2 in B2. injection B2 as <-. rewrite A1 in B1. assert (n = n') as <- by (apply (f_equal (@length xr)) in B1; rewrite !map_length in B1; congruence).
  intros (res & Sms & Sq & Mms & Mq & f & E1 & L1 & L2 & L3 & L4 & L5 & L6 & _ & _ & _ & R & -> & _) (res' & Sms' & Sq' & Mms' & Mq' & f' & E1' & L1' & L2' & L3' & L4' & L5' & L6' & _ & _ & _ & R' & -> & _).
  rewrite E1 in E1'. apply Some_inj in E1'. subst res'. assert (Mms = Mms' /\ Mq = Mq') as (-> & ->); [|reflexivity].
  split; (apply nth_ext with (d := 0) (d' := 0); [congruence|]); intros i Hi.
  - destruct (R i ltac:(lia)) as ((_ & _ & mass & C1 & C2 & _) & _). destruct (R' i ltac:(lia)) as ((_ & _ & mass' & C1' & C2' & _) & _).
    rewrite C1 in C1'. apply Some_inj in C1'. subst mass'. rewrite C2 in C2'. now injection C2'.
  - destruct (R i ltac:(lia)) as (_ & (_ & _ & mass & C1 & C2 & _)). destruct (R' i ltac:(lia)) as (_ & (_ & _ & mass' & C1' & C2' & _)).
    rewrite C1 in C1'. apply Some_inj in C1'. subst mass'. rewrite C2 in C2'. now injection C2'.
Qed.

Section Demo.
Variable mvn : unit -> list xr -> matrix -> list xr.
Hypothesis HM : mvn_ok mvn.
Variable grads : LossData unit -> list xr -> list xr.
Variable St : Type.
Variable opt_init : list xr -> St.
Variable opt_update : nat -> list xr -> St -> St.
Variable get_params : St -> list xr.
Hypothesis H0 : forall p, get_params (opt_init p) = p.
Notation program := (fit_program unit the_split exr_uniform mvn exr_kern the_mah grads St opt_init opt_update get_params).
Notation simulated P0 := (fun z X => exists n tobs Y W, sim_ok exr_kern (Fin (log10R (138 / 10))) n tobs z /\
  sample unit the_split exr_uniform mvn exr_kern (pop_params P0) z (Fin (log10R (138 / 10))) (156 / 1000) tobs n X Y W).
Notation files Em := (measured (exr_final Em) exl_E Em exl_Es).

Lemma exr_load : exists z, length (z_logmp0 unit z) = 1%nat /\ forall Em, (2 <= length Em)%nat -> exists d,
  load_loss_data unit the_split the_mah "mstar" exr_draws exr_draws exr_draws (files Em) 1 = Some (DataM unit d) /\ ml_zs unit d = [z].
Proof using.
  assert (HEs : (2 <= length exl_Es)%nat) by apply exl_sizes. assert (HE : (2 <= length exl_E)%nat) by (cbn; lia).
  set (zf := fun Em => popc unit exr_kern the_choice (files Em) All 1 (log10R (138 / 10)) (0, 0)%nat tt).
  assert (X : forall Em, (2 <= length Em)%nat -> exists d,
    load_loss_data unit the_split the_mah "mstar" exr_draws exr_draws exr_draws (files Em) 1 = Some (DataM unit d) /\ ml_zs unit d = [zf Em]).
  { intros Em L. pose proof (measured_files _ _ _ _ _ _ _ _ _ _ _ _ _ _ _ _ _ (exr_tables Em) HE L HEs) as FA.
    pose proof (mstar_data_eq unit the_split the_mah exr_kern the_choice the_mah_ok the_choice_ok (files Em) _ _ _ _ _ _ _ _ _ FA 1 (log10R (138 / 10)) All FB tt) as D.
    eexists. split; [unfold load_loss_data; cbn [String.eqb Ascii.eqb Bool.eqb exr_draws dr_choice dr_key]; rewrite lgt0_value; cbn [mstar_data] in D; rewrite D; reflexivity|].
    cbn [ml_zs]. unfold pops. change (usable All (f_haloes (pf_f (files Em))) (length exl_ids) (length exl_E - 1)) with (usable All exl_haloes 1 2). rewrite exr_usable. reflexivity. }
  exists (zf []). split.
  - unfold zf, popc, pop_of. cbn [z_logmp0 fst snd]. rewrite map_length. apply picked_ok; [exact the_choice_ok|].
    change (f_haloes (pf_f (files []))) with exl_haloes. assert (U : In (0, 0)%nat (usable All exl_haloes 1 2)) by (rewrite exr_usable; now left).
    apply filter_In in U. apply Nat.leb_le, U.
  - intros Em L. destruct (X Em L) as (d & A & B). exists d. split; [exact A|]. rewrite B. reflexivity.
Qed.
Theorem exr_runs npz n pl outdir outname : (0 < n)%Z -> pl <> 0%Z -> exists Em s, increasing Em /\ (2 <= length Em)%nat /\
  program "mstar" exr_draws exr_draws exr_draws (files Em) 1 npz None n pl outdir outname = Some s.
Proof using HM H0.
  intros Hn Hp. destruct exr_load as (z & Lz & LO). destruct exl_sizes as (A & B & C & D & E & _).
  destruct (start_default npz) as (P & U & _ & IB & SN & SP & EU).
  pose proof (fun Em I L => mass_runs 1000 exl_hm exl_q exl_up [exl_G] exl_cen exl_sat exr_M exl_S exl_F [138 / 10] exl_ids [0] exl_E Em exl_Es (exr_final Em)
    (exr_tables Em) A L C I E exl_kinds unit the_split exr_uniform mvn the_mah exr_kern the_mah_ok the_split_ok HM exr_draws exr_draws exr_draws the_choice_ok
    (fun g _ => exr_history g) 1%nat grads St opt_init opt_update get_params H0 npz None U P n pl outdir outname SP EU IB SN) as MR.
  assert (S1 : forall Em, increasing Em -> (2 <= length Em)%nat -> exists X, Forall2 (simulated P) [z] [X] /\
     (program "mstar" exr_draws exr_draws exr_draws (files Em) 1 npz None n pl outdir outname = None ->
      total (length Em - 1) (mass_dist All exl_up exr_M exl_S exl_F exl_E Em exl_Es exl_ids (List.concat [exl_G]) 0 0) = 0 \/ ~ reaches Em X)).
  { intros Em I L. destruct (MR Em I L) as (d & samples & L1 & L2 & L3). destruct (LO Em L) as (d' & L1' & L4). rewrite L1' in L1. apply Some_inj in L1. injection L1 as <-.
    rewrite L4 in L2. inversion L2 as [|? X ? l' F1 F2]; subst. inversion F2; subst. exists X. split; [exact L2|]. intros Q. apply L3 in Q. rewrite exr_cells in Q.
    destruct Q as [Q|[Q|[Q|[(c & [<-|[]] & Q)|(Y & [<-|[]] & Q)]]]]; [lia|elim (Hp Q)|discriminate Q|left; exact Q|right; exact Q]. }
  destruct (S1 exl_Em D B) as (X & F1 & _). inversion F1 as [|? ? ? ? (m & tobs & Y & W & SI & SA) _]; subst.
  assert (NX : exists x, In x X).
  { destruct SA as (res & Sms & Sq & Mms & Mq & f & _ & _ & _ & _ & _ & L5 & _ & _ & _ & _ & _ & -> & _). destruct SI as (m' & ? & ? & ? & ? & S2 & _ & _ & _ & _ & _ & _ & S3 & _).
    rewrite S2, map_length in Lz. destruct Mms as [|a Mms]; [cbn in L5; lia|]. exists (ln a / ln 10). now left. }
  destruct NX as (x & Hx). set (b := 20 + Rabs x). assert (Hb : - b < x < b /\ 20 <= b) by (unfold b; pose proof (Rabs_pos x); pose proof (Rle_abs x); pose proof (Rle_abs (- x)); rewrite Rabs_Ropp in *; lra).
  exists [- b; b]. assert (I : increasing [- b; b]) by (cbn; lra). assert (L : (2 <= length [- b; b])%nat) by (cbn; lia).
  destruct (S1 _ I L) as (X' & F1' & PR). inversion F1' as [|? ? ? ? (m' & tobs' & Y' & W' & SI' & SA') _]; subst.
  rewrite <- (sample_unique _ _ _ _ _ _ _ _ _ _ _ _ _ _ _ _ _ _ _ SI SI' SA SA') in PR. clear X' F1' m' tobs' Y' W' SI' SA'.
  destruct (program "mstar" exr_draws exr_draws exr_draws (files [- b; b]) 1 npz None n pl outdir outname) as [s|]; [exists s; auto|exfalso].
  destruct (PR eq_refl) as [Z|Z].
  - assert (0 < total (length [- b; b] - 1) (mass_dist All exl_up exr_M exl_S exl_F exl_E [- b; b] exl_Es exl_ids (List.concat [exl_G]) 0 0)); [|lra].
    destruct exl_inside as (I1 & _ & I3 & _ & I5).
    apply (dist_positive exl_up [exl_G] exr_M exl_S exl_F exl_ids exl_E [- b; b] exl_Es A L C I E All 0 0 0 I1 eq_refl I3); [cbn; lra|exact I5].
  - apply Z. exists x. split; [exact Hx|]. assert (MB : 0 < mean_bin [- b; b]) by (apply mean_bin_pos; assumption). cbn [hd last]. lra.
Qed.
End Demo.
