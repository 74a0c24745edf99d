(** The population-fit program with Adam (C126). *)
From Coq Require Import Reals Lra Lia ZArith List Bool String.
From Coquelicot Require Import Coquelicot.
From Verif Require Import XReal XFacts ModelUtils ModelKernels ModelSfh ModelPop ModelPopTables ModelHist ModelFit ModelLoad ModelTargets ModelPopFit ModelPopProgram ModelGrad ModelPopGrad ModelAdam
  SpecCore SpecHist SpecPop SpecTargets SpecMeasure SpecPopFit SpecLossChain SpecPopProgram SpecPopGrad SpecAdam SpecAdamPop PopParamProofs CholeskyProofs PopGradClaims PopGradSat
  LossTargetProofs LossChainProofs LossChainTop PopFitTop PopProgramProofs PopProgramTop AdamProofs AdamLoop.
Import List ListNotations.
Local Notation length := List.length (only parsing).
Open Scope R_scope.

Lemma fin_list l : all_finite l = true -> exists x, l = map Fin x.
Proof.
  induction l as [|a l IH]; intros H; [exists []; reflexivity|]. cbn [all_finite forallb] in H. apply andb_prop in H. destruct H as [H1 H2].
  destruct (IH H2) as (x & ->). destruct a as [r| | |]; try discriminate H1. exists (r :: x). reflexivity.
Qed.
Lemma flat_map U : flat U = map Fin (map U pop_names).
Proof. unfold flat. rewrite map_map. reflexivity. Qed.
Lemma fin_inj a b : map Fin a = map Fin b -> a = b.
Proof. revert b. induction a as [|x a IH]; intros [|y b] H; try discriminate H; [reflexivity|]. cbn in H. injection H as -> H. f_equal. apply IH, H. Qed.
Lemma nth_names (U : string -> R) j : (j < 88)%nat -> nth j (map U pop_names) 0 = U (nth j pop_names ""%string).
Proof. intros Hj. rewrite (nth_indep _ 0 (U ""%string)) by (rewrite map_length; exact Hj). apply map_nth. Qed.
Lemma name_index x : In x pop_names -> exists j, (j < 88)%nat /\ nth j pop_names ""%string = x.
Proof. intros H. apply (In_nth _ _ ""%string) in H. exact H. Qed.

Section Any.
Variable key : Type.
Variable split : key -> nat -> list key.
Variable uniform : key -> xr.
Variable mvn : key -> list xr -> matrix -> list xr.
Variable kern : MahParams xr -> xr -> xr -> xr.
Variable sing : MahParams xr -> list xr -> xr -> list xr * list xr.
Variable grads : LossData key -> list xr -> list xr.
Notation program := (fit_program key split uniform mvn kern sing grads AdamState (adam_init (Fin (1 / 100))) (adam_update (Fin (1 / 100))) adam_params).
Notation loss := (loss_wrapper key split uniform mvn kern).

Lemma near_program ty dm dc ds f nhalos npz path U0 n pl outdir outname s d (Z : string -> Prop) :
  load_loss_data key split sing ty dm dc ds f nhalos = Some d -> start_params npz path = Some (flat U0) ->
  (forall U r, (forall x, In x pop_names -> Z x -> U x = U0 x) -> loss d (flat U) = Some (Fin r) -> all_finite (grads d (flat U)) = true ->
     exists g, grads d (flat U) = map Fin g /\ length g = 88%nat /\ forall j, (j < 88)%nat -> Z (nth j pop_names ""%string) -> nth j g 0 = 0) ->
  all_finite (grads d (flat U0)) = true ->
  program ty dm dc ds f nhalos npz path n pl outdir outname = Some s ->
  exists U r r0, sv_u_params s = flat U /\ loss d (flat U0) = Some (Fin r0) /\ loss d (flat U) = Some (Fin r) /\ r <= r0 /\
    (forall x, In x pop_names -> Rabs (U x - U0 x) <= 728 / 10000 * IZR n) /\ (forall x, In x pop_names -> Z x -> U x = U0 x).
Proof.
  intros LD SP HG F0 HP.
  pose proof (program_result key split uniform mvn kern sing grads _ _ _ _ (params_init (Fin (1 / 100))) ty dm dc ds f nhalos npz path n pl outdir outname s HP) as PR.
  cbn zeta in PR. destruct PR as (d' & p0 & r0 & U & P & E1 & E2 & E3 & _ & E4 & _ & _ & _ & _ & E5 & _). rewrite LD in E1. apply Some_inj in E1. subst d'. rewrite SP in E2. apply Some_inj in E2. subst p0.
  destruct E5 as (r & R1 & R2 & _); [unfold flat; apply (all_finite_map U0)|exact F0|].
  exists U, r, r0. split; [exact E4|]. split; [exact E3|]. split; [exact R1|]. split; [exact R2|].
  unfold fit_program in HP. rewrite LD, SP, E3 in HP. destruct ((n <? 0)%Z || (pl =? 0)%Z) eqn:EN; [discriminate HP|].
  apply orb_false_iff in EN. destruct EN as [EN _]. apply Z.ltb_ge in EN.
  destruct (fit_population _ _ _ _ _ _ _) as [b|] eqn:EF; [|discriminate HP].
  destruct (return_params_from_result b) as [q|]; [|discriminate HP]. apply Some_inj in HP. subst s. cbn [sv_u_params] in E4. subst b.
  rewrite !flat_map in EF.
  destruct (fit_near (loss_kernel key split uniform mvn kern grads d) 88 (1 / 100) (map U0 pop_names) (fun j => Z (nth j pop_names ""%string)) (Z.to_nat n) (map Fin (map U pop_names)) r0 (grads d (flat U0))
    ltac:(lra) ltac:(rewrite map_length; reflexivity)) with (2 := EF) as (x & X1 & X2 & X3 & X4).
  - intros x (Lx & Sx) K1 K2. unfold loss_kernel in K1, K2 |- *. cbn [fst snd] in *.
    destruct (as_flat (map Fin x)) as (V & EV); [rewrite map_length; exact Lx|apply (all_finite_map (fun x => x))|]. rewrite EV in K1, K2 |- *.
    destruct (loss d (flat V)) as [[v| | |]|] eqn:EL; try discriminate K1. apply (HG V v); [|exact EL|exact K2].
    intros y Hy Zy. destruct (name_index y Hy) as (j & Hj & <-). rewrite flat_map in EV. apply fin_inj in EV. subst x. specialize (Sx j Hj Zy). now rewrite !nth_names in Sx by exact Hj.
  - rewrite <- flat_map. unfold loss_kernel. rewrite E3. reflexivity.
  - exact F0.
  - apply fin_inj in X1. subst x. split.
    + intros y Hy. destruct (name_index y Hy) as (j & Hj & <-). specialize (X3 j Hj). rewrite !nth_names in X3 by exact Hj. eapply Rle_trans; [exact X3|].
      rewrite INR_IZR_INZ, Z2Nat.id by exact EN. unfold adam_reach. right. field.
    + intros y Hy Zy. destruct (name_index y Hy) as (j & Hj & <-). specialize (X4 j Hj Zy). now rewrite !nth_names in X4 by exact Hj.
Qed.

Lemma program_near : (forall d U, length (grads d (flat U)) = 88%nat) ->
  forall ty dm dc ds f nhalos npz path U0 n pl outdir outname s d,
  load_loss_data key split sing ty dm dc ds f nhalos = Some d -> start_params npz path = Some (flat U0) -> all_finite (grads d (flat U0)) = true ->
  program ty dm dc ds f nhalos npz path n pl outdir outname = Some s ->
  exists U, sv_u_params s = flat U /\ forall x, In x pop_names -> Rabs (U x - U0 x) <= 728 / 10000 * IZR n.
Proof.
  intros HL ty dm dc ds f nhalos npz path U0 n pl outdir outname s d LD SP F0 HP.
  destruct (near_program ty dm dc ds f nhalos npz path U0 n pl outdir outname s d (fun _ => False) LD SP) with (3 := HP) as (U & r & r0 & A & _ & _ & _ & B & _); [|exact F0|eauto].
  intros U r _ _ F. destruct (fin_list _ F) as (g & E). exists g. split; [exact E|]. split; [rewrite <- (map_length Fin g), <- E; apply HL|]. intros j _ [].
Qed.
End Any.

Section Own.
Variable key : Type.
Variable split : key -> nat -> list key.
Variable uniform : key -> xr.
Variable normal : key -> nat -> list xr.
Variable kern : MahParams xr -> xr -> xr -> xr.
Hypothesis Hsplit : splits_ok split.
Hypothesis Hn : normals_ok normal.
Notation loss := (loss_wrapper key split uniform (mvn_of normal) kern).

Lemma wrapper_unused d U P v : data_ok key kern d -> get_bounded_diffstarpop_params (pop_u_params U) = Some (pop_params P) -> slopes_nonzero P ->
  loss d (flat U) = Some (Fin v) ->
  exists g, length g = 88%nat /\ data_wrapper key split normal kern d (flat U) = Some (Fin v, map Fin g) /\
    forall N, Forall (fun z => unused N (z_upid key z)) (data_zs key d) -> forall i, (i < 88)%nat -> In (nth i pop_names ""%string) N -> nth i g 0 = 0.
Proof.
  intros HD EU SN EL. unfold loss_wrapper in EL. rewrite make_flat in EL.
  assert (G : forall (W : option (xr * list xr)) (Q : list string -> Prop), (exists g, length g = 88%nat /\ W = Some (Fin v, map Fin g)) ->
    (forall N, Q N -> exists g, length g = 88%nat /\ W = Some (Fin v, map Fin g) /\ forall i, (i < 88)%nat -> In (nth i pop_names ""%string) N -> nth i g 0 = 0) ->
    exists g, length g = 88%nat /\ W = Some (Fin v, map Fin g) /\ forall N, Q N -> forall i, (i < 88)%nat -> In (nth i pop_names ""%string) N -> nth i g 0 = 0).
  { intros W Q (g & L & E) H. exists g. split; [exact L|]. split; [exact E|]. intros N HN. destruct (H N HN) as (g' & _ & E' & Z). rewrite E in E'. apply Some_inj in E'. injection E' as E'. apply fin_inj in E'. subst g'. exact Z. }
  destruct d as [m|m c|m c s]; cbn [loss_of data_ok data_zs data_wrapper] in *.
  - destruct HD as (fb & H1). apply G.
    + destruct (mstar_gradient split uniform normal kern Hsplit Hn U P EU SN m fb v H1 EL) as (g & A & B & _). eauto.
    + intros N HN. exact (mstar_gradient_unused key split uniform normal kern Hsplit Hn U P EU SN N m fb v H1 EL HN).
  - destruct HD as (fb & fb' & H1 & H2). apply G.
    + destruct (combined_gradient split uniform normal kern Hsplit Hn U P EU SN m c fb fb' v H1 H2 EL) as (g & A & B & _). eauto.
    + intros N HN. exact (combined_gradient_unused key split uniform normal kern Hsplit Hn U P EU SN N m c fb fb' v H1 H2 EL HN).
  - destruct HD as (fb & fb' & fb'' & H1 & H2 & H3). apply G.
    + destruct (combined3_gradient split uniform normal kern Hsplit Hn U P EU SN m c s fb fb' fb'' v H1 H2 H3 EL) as (g & A & B & _). eauto.
    + intros N HN. exact (combined3_gradient_unused key split uniform normal kern Hsplit Hn U P EU SN N m c s fb fb' fb'' v H1 H2 H3 EL HN).
Qed.

Lemma own_program sing grads : own_gradients key split normal kern grads ->
  forall ty dm dc ds f nhalos npz path U0 P0 n pl outdir outname s d,
  load_loss_data key split sing ty dm dc ds f nhalos = Some d -> data_ok key kern d ->
  start_params npz path = Some (flat U0) -> get_bounded_diffstarpop_params (pop_u_params U0) = Some (pop_params P0) -> slopes_nonzero P0 ->
  fit_program key split uniform (mvn_of normal) kern sing grads AdamState (adam_init (Fin (1 / 100))) (adam_update (Fin (1 / 100))) adam_params
    ty dm dc ds f nhalos npz path n pl outdir outname = Some s ->
  exists U r r0, sv_u_params s = flat U /\ loss d (flat U0) = Some (Fin r0) /\ loss d (flat U) = Some (Fin r) /\ r <= r0 /\
    (forall x, In x pop_names -> Rabs (U x - U0 x) <= 728 / 10000 * IZR n) /\
    forall N, Forall (fun z => unused N (z_upid key z)) (data_zs key d) -> forall x, In x pop_names -> In x N -> U x = U0 x.
Proof.
  intros HG ty dm dc ds f nhalos npz path U0 P0 n pl outdir outname s d LD DO SP EU SN HP.
  assert (SL : forall P, slopes_nonzero P \/ ~ slopes_nonzero P) by (intros P; apply Classical_Prop.classic).
  destruct (near_program key split uniform (mvn_of normal) kern sing grads ty dm dc ds f nhalos npz path U0 n pl outdir outname s d
    (fun x => exists N, Forall (fun z => unused N (z_upid key z)) (data_zs key d) /\ In x N) LD SP) with (3 := HP) as (U & r & r0 & A & B & C & D & E & F).
  - intros U r _ EL FG. destruct (return_flat U) as (P & _ & _ & EP & _). destruct (HG d U P EP) as [G1 G2].
    destruct (SL P) as [S|S]; [|rewrite (G2 S) in FG; discriminate FG].
    destruct (wrapper_unused d U P r DO EP S EL) as (g & L & W & Z). exists g. split; [exact (G1 S _ _ W)|]. split; [exact L|].
    intros j Hj (N & HN & IN). exact (Z N HN j Hj IN).
  - destruct (program_result key split uniform (mvn_of normal) kern sing grads _ _ _ _ (params_init (Fin (1 / 100))) ty dm dc ds f nhalos npz path n pl outdir outname s HP)
      as (d' & p0 & r0 & _ & _ & E1 & E2 & E3 & _). rewrite LD in E1. apply Some_inj in E1. subst d'. rewrite SP in E2. apply Some_inj in E2. subst p0.
    destruct (wrapper_unused d U0 P0 r0 DO EU SN E3) as (g & L & W & _). destruct (HG d U0 P0 EU) as [G1 _]. rewrite (G1 SN _ _ W). apply (all_finite_map (fun x => x)).
  - exists U, r, r0. split; [exact A|]. split; [exact B|]. split; [exact C|]. split; [exact D|]. split; [exact E|]. intros N HN x Hx IN. apply F; eauto.
Qed.
End Own.

(** ** Measured galaxies *)
Lemma fin_rows t : Forall (fun r => all_finite r = true) t -> exists T, t = map (map Fin) T.
Proof.
  induction 1 as [|r t H HF (T & ->)]; [exists []; reflexivity|]. destruct (fin_list r H) as (x & ->). exists (x :: T). reflexivity.
Qed.
Lemma lengths_eq (p t : list (list xr)) : forallb (fun b => b) (map2 Nat.eqb (shape2 p) (shape2 t)) && same_len p t = true -> map (@length xr) p = map (@length xr) t.
Proof.
  rewrite andb_true_iff. unfold same_len. rewrite Nat.eqb_eq. intros (A & B). revert t A B. unfold shape2. induction p as [|a p IH]; intros [|b t] A B; try discriminate B; [reflexivity|].
  cbn [map map2 forallb] in A |- *. apply andb_prop in A. destruct A as [A1 A2]. apply Nat.eqb_eq in A1. f_equal; [exact A1|]. apply IH; [exact A2|]. now injection B.
Qed.
Lemma mse2_targets p t v : mse2 p t = Some (Fin v) -> exists T, t = map (map Fin) T.
Proof.
  intros H. assert (L : map (@length xr) p = map (@length xr) t).
  { unfold mse2 in H. destruct (forallb _ _ && _) eqn:E in H; [|discriminate H]. exact (lengths_eq p t E). }
  destruct (mse2_isfin p t L) as (w & E & HW). rewrite H in E. apply Some_inj in E. subst w. apply fin_rows. apply HW. reflexivity.
Qed.

Section Measured.
Variables (k : nat) (hm : nat -> MahParams xr) (q : nat -> DiffstarParams xr) (up : nat -> Z) (Gs : list (list nat)) (cen sat : nat -> bool)
  (M S F : nat -> list R) (T : list R) (ids : list nat) (zs E Em Es : list R) (f : Final).
Hypothesis FT : final_tables k hm q up Gs cen sat M S F T ids zs E Em Es f.
Hypothesis HE : (2 <= length E)%nat.
Hypothesis HEm : (2 <= length Em)%nat.
Hypothesis HEs : (2 <= length Es)%nat.
Hypothesis IEm : increasing Em.
Hypothesis IEs : increasing Es.
Hypothesis HK : kinds_agree Gs cen sat up.
Variable key : Type.
Variable split : key -> nat -> list key.
Variable uniform : key -> xr.
Variable normal : key -> nat -> list xr.
Variable sing : MahParams xr -> list xr -> xr -> list xr * list xr.
Variable kern : MahParams xr -> xr -> xr -> xr.
Hypothesis HT : timewise sing kern.
Hypothesis HS : splits_ok split.
Hypothesis HN : normals_ok normal.
Variables dm dc ds : Draws key.
Hypothesis HC : draws_ok (dr_choice key dm).
Hypothesis HH : forall g, In g (List.concat Gs) -> has_history kern (log10R (138 / 10)) hm T ids g.
Notation pf := (measured f E Em Es).

Lemma measured_ok nhalos d u r : load_loss_data key split sing "mstar"%string dm dc ds pf nhalos = Some d ->
  loss_wrapper key split uniform (mvn_of normal) kern d u = Some (Fin r) -> data_ok key kern d.
Proof using All.
  intros LD LW. pose proof (load_mass E Em Es f key split sing dm dc ds nhalos "mstar"%string d LD) as D.
  assert (exists m, d = DataM key m) as (m & ->).
  { unfold load_loss_data in LD. cbn [String.eqb Ascii.eqb Bool.eqb] in LD. destruct (get_loss_data_pdfs_mstar _ _ _ _ _ _ _ _ _) as [m|]; [|discriminate LD]. apply Some_inj in LD. exists m. now symmetry. }
  cbn [mass_part] in D. cbn [data_ok]. exists (156 / 1000).
  assert (Z : zs_ok key kern (Fin (log10R (138 / 10))) (ml_zs key m)) by exact (mass_simulable k hm q up Gs cen sat M S F T ids zs E Em Es f FT HE HEm HEs IEm IEs HK key split uniform (mvn_of normal) sing kern HT HS (mvn_of_ok normal HN) dm dc ds HC HH nhalos m D).
  pose proof (measured_files _ _ _ _ _ _ _ _ _ _ _ _ _ _ _ _ _ FT HE HEm HEs) as FA.
  rewrite (mstar_data_eq key split sing kern (dr_choice key dm) HT HC pf _ _ _ _ _ _ _ _ _ FA) in D. apply Some_inj in D.
  unfold loss_wrapper in LW. destruct (nt_make _ u) as [p|]; [|discriminate LW]. cbn [loss_of] in LW. unfold loss_mstar, loss_mstar_kern_tobs in LW.
  destruct (mstar_kern_tobs _ _ _ _ _ _ _ _ _ _) as [pred|]; [|discriminate LW]. destruct (mse2 pred (ml_target key m)) as [[v| | |]|] eqn:EV; try discriminate LW.
  - destruct (mse2_targets _ _ _ EV) as (TT & ET). exists Em, TT. rewrite <- ET. subst m. cbn [ml_zs ml_lgt0 ml_target] in *. split; [reflexivity|]. split; [exact Z|]. split; assumption.
  - exfalso. apply Some_inj in LW. cbn [xmul] in LW. unfold signed_inf in LW. destruct (Rlt_dec _ _); [discriminate LW|]. destruct (Rlt_dec _ _); discriminate LW.
  - exfalso. apply Some_inj in LW. cbn [xmul] in LW. unfold signed_inf in LW. destruct (Rlt_dec _ _); [discriminate LW|]. destruct (Rlt_dec _ _); discriminate LW.
Qed.
Lemma measured_program grads : own_gradients key split normal kern grads ->
  forall nhalos npz path U0 P0 n pl outdir outname s,
  start_params npz path = Some (flat U0) -> get_bounded_diffstarpop_params (pop_u_params U0) = Some (pop_params P0) -> slopes_nonzero P0 ->
  fit_program key split uniform (mvn_of normal) kern sing grads AdamState (adam_init (Fin (1 / 100))) (adam_update (Fin (1 / 100))) adam_params
    "mstar"%string dm dc ds pf nhalos npz path n pl outdir outname = Some s ->
  exists d U r r0, load_loss_data key split sing "mstar"%string dm dc ds pf nhalos = Some d /\ sv_u_params s = flat U /\
    loss_wrapper key split uniform (mvn_of normal) kern d (flat U0) = Some (Fin r0) /\ loss_wrapper key split uniform (mvn_of normal) kern d (flat U) = Some (Fin r) /\ r <= r0 /\
    forall x, In x pop_names -> Rabs (U x - U0 x) <= 728 / 10000 * IZR n.
Proof using All.
  intros HG nhalos npz path U0 P0 n pl outdir outname s SP EU SN HP.
  destruct (program_result key split uniform (mvn_of normal) kern sing grads _ _ _ _ (params_init (Fin (1 / 100))) "mstar"%string dm dc ds pf nhalos npz path n pl outdir outname s HP)
    as (d & p0 & r0 & _ & _ & E1 & E2 & E3 & _).
  destruct (own_program key split uniform normal kern HS HN sing grads HG "mstar"%string dm dc ds pf nhalos npz path U0 P0 n pl outdir outname s d E1 (measured_ok _ _ _ _ E1 E3) SP EU SN HP)
    as (U & r & r1 & A & B & C & D & G & _). exists d, U, r, r1. auto 10.
Qed.
End Measured.

(** ** Example: the wrappers' gradients, and NaN at a zero slope *)
Definition own_grads (key : Type) split normal kern (d : LossData key) (p : list xr) : list xr :=
  match nt_make DIFFSTARPOP_UNAMES p with
  | Some u =>
    match get_bounded_diffstarpop_params u with
    | Some q =>
      if existsb (fun n => match assoc n q with Some (Fin r) => if Req_EM_T r 0 then true else false | _ => false end) pop_slopes then [NaN]
      else match data_wrapper key split normal kern d p with Some (_, g) => g | None => [NaN] end
    | None => [NaN]
    end
  | None => [NaN]
  end.
Lemma slopes_are_names n : In n pop_slopes -> In n pop_names.
Proof.
  intros H. assert (T : forallb (fun n => existsb (String.eqb n) pop_names) pop_slopes = true) by (vm_compute; reflexivity).
  rewrite forallb_forall in T. specialize (T n H). apply existsb_exists in T as (m & H1 & H2). apply String.eqb_eq in H2. now subst m.
Qed.
Lemma own_grads_ok (key : Type) split normal kern : own_gradients key split normal kern (own_grads key split normal kern).
Proof.
  intros d U P EP. unfold own_grads. rewrite make_flat, EP. set (b := existsb _ _).
  assert (B : b = true <-> ~ slopes_nonzero P).
  { unfold b, slopes_nonzero. rewrite existsb_exists, Forall_forall. split.
    - intros (n & I & H) Q. specialize (Q n I). pose proof (holds_params P n (slopes_are_names n I)) as HP. cbn [append] in HP. rewrite HP in H. destruct (Req_EM_T (P n) 0); [contradiction|discriminate H].
    - intros Q. apply Classical_Prop.NNPP. intros N. apply Q. intros n I Z. apply N. exists n. split; [exact I|].
      pose proof (holds_params P n (slopes_are_names n I)) as HP. cbn [append] in HP. rewrite HP, Z. destruct (Req_EM_T 0 0); [reflexivity|congruence]. }
  split.
  - intros S v g E. destruct b; [exfalso; now apply B|]. rewrite E. reflexivity.
  - intros S. apply B in S. rewrite S. reflexivity.
Qed.
