(** The population-fit program: starting parameters and result. *)
From Coq Require Import Reals List Bool ZArith Lia Lra String Ascii.
From Verif Require Import XReal ModelUtils ModelKernels ModelSfh ModelPop ModelPopTables ModelHist ModelLoad ModelPopFit ModelPopProgram
  RealFacts XFacts SpecCore SpecHist SpecPop SpecPopFit SpecPopProgram DtProofs PopParamProofs FitLoopProofs.
Import List ListNotations.
Open Scope R_scope.
Local Notation length := List.length.

(** ** Strings *)
Lemma split_us_some s : exists w ws, split_us s = w :: ws.
Proof.
  destruct s as [|c s]; [exists EmptyString, []; reflexivity|]. cbn. destruct (Ascii.eqb c "_"); [eauto|]. destruct (split_us s); eauto.
Qed.
Lemma split_join s : String.concat "_" (split_us s) = s.
Proof.
  induction s as [|c s IH]; [reflexivity|]. cbn [split_us]. destruct (split_us_some s) as (w & ws & E). rewrite E in *.
  destruct (Ascii.eqb_spec c "_") as [->|N].
  - change (String.concat "_" (EmptyString :: w :: ws)) with ("_" ++ String.concat "_" (w :: ws))%string. rewrite IH. reflexivity.
  - destruct ws as [|v ws]; [cbn in *; now subst|].
    change (String.concat "_" (String c w :: v :: ws)) with (String c (String.concat "_" (w :: v :: ws))). now rewrite IH.
Qed.
Lemma split_first w s : ~ In "_"%char (list_ascii_of_string w) -> split_us (w ++ "_" ++ s) = w :: split_us s.
Proof.
  induction w as [|c w IH]; intros H; [reflexivity|]. cbn [append split_us]. cbn [list_ascii_of_string In] in H.
  destruct (Ascii.eqb_spec c "_") as [->|N]; [tauto|]. change (w ++ String "_" s)%string with (w ++ "_" ++ s)%string. rewrite IH by tauto. reflexivity.
Qed.
Lemma split_none w : ~ In "_"%char (list_ascii_of_string w) -> split_us w = [w].
Proof.
  induction w as [|c w IH]; intros H; [reflexivity|]. cbn [split_us]. cbn [list_ascii_of_string In] in H.
  destruct (Ascii.eqb_spec c "_") as [->|N]; [tauto|]. rewrite IH by tauto. reflexivity.
Qed.
Lemma asked_name path name : asked path name -> String.concat "_" (tl (split_us path)) = name.
Proof. intros (w & H & ->). rewrite split_first by exact H. cbn [tl]. apply split_join. Qed.
Lemma asked_or path : (exists name, asked path name) \/ ~ In "_"%char (list_ascii_of_string path).
Proof.
  induction path as [|c s IH]; [right; intros []|]. destruct (Ascii.eqb_spec c "_") as [->|N].
  - left. exists s, EmptyString. split; [intros []|reflexivity].
  - destruct IH as [(name & w & H & ->)|H].
    + left. exists name, (String c w). split; [cbn; intuition congruence|reflexivity].
    + right. cbn. intuition congruence.
Qed.
Lemma asked_else path : (forall name, In name (map fst published) -> ~ asked path name) ->
  ~ In (String.concat "_" (tl (split_us path))) (map fst published).
Proof.
  intros H. destruct (asked_or path) as [(name & A)|N].
  - rewrite (asked_name _ _ A). intros I. exact (H _ I A).
  - rewrite (split_none _ N). cbn. intuition discriminate.
Qed.
Lemma prefix_named path : String.prefix "diffstarfits" path = true <-> named_path path.
Proof.
  split.
  - intros H. assert (G : forall a b, String.prefix a b = true -> exists s, b = (a ++ s)%string).
    { clear. induction a as [|c a IH]; intros b H; [exists b; reflexivity|]. destruct b as [|d b]; [discriminate|]. cbn in H.
      destruct (ascii_dec c d) as [->|]; [|discriminate]. destruct (IH b H) as (s & ->). exists s. reflexivity. }
    exact (G _ _ H).
  - intros (s & ->). generalize "diffstarfits"%string. intros a. induction a as [|c a IH]; cbn; [destruct s; reflexivity|].
    destruct (ascii_dec c c); [exact IH|congruence].
Qed.

(** ** Named starting points *)
Lemma values_u U : values (pop_u_params U) = flat U.
Proof. unfold values, pop_u_params, flat. rewrite map_map. reflexivity. Qed.
Lemma values_p P : values (pop_params P) = flat P.
Proof. unfold values, pop_params, flat. rewrite map_map. reflexivity. Qed.

Lemma fitted_table name t : In (name, t) published -> lookup name DIFFSTARFITS_U_PARAMS = Some t /\ In t CALIBRATIONS.
Proof.
  unfold published, CALIBRATIONS. cbn [In]. intros H.
  repeat (destruct H as [H|H]; [injection H as <- <-; split; [reflexivity|tauto]|]). contradiction.
Qed.
Theorem start_named npz path name t : named_path path -> asked path name -> In (name, t) published -> exists P U,
  calibration t = Some (pop_params P) /\ pop_in_bounds P /\ slopes_nonzero P /\ start_params npz (Some path) = Some (flat U) /\
  get_bounded_diffstarpop_params (pop_u_params U) = Some (pop_params P).
Proof.
  intros H A I. apply prefix_named in H. destruct (fitted_table _ _ I) as (L & C).
  destruct (calibrations_in_bounds t C) as (P & U & H1 & H2 & H3 & H4 & H5). exists P, U. do 3 (split; [assumption|]). split; [|assumption].
  unfold start_params. rewrite H, (asked_name _ _ A). unfold diffstarfits_u_params. rewrite L, H1, H4. cbn [option_map]. now rewrite values_u.
Qed.
Theorem start_default npz : exists P U, DEFAULT_DIFFSTARPOP_PARAMS = Some (pop_params P) /\ pop_in_bounds P /\ slopes_nonzero P /\
  start_params npz None = Some (flat U) /\ get_bounded_diffstarpop_params (pop_u_params U) = Some (pop_params P).
Proof.
  destruct default_in_bounds as (P & U & H1 & H2 & H3 & H4 & H5). exists P, U. do 3 (split; [assumption|]). split; [|assumption].
  unfold start_params. rewrite H4. cbn [option_map]. now rewrite values_u.
Qed.
Theorem start_file npz path : ~ named_path path -> start_params npz (Some path) = npz path.
Proof. intros H. unfold start_params. destruct (String.prefix _ path) eqn:E; [|reflexivity]. apply prefix_named in E. contradiction. Qed.
Theorem start_raises npz path : start_params npz (Some path) = None <->
  named_path path /\ (forall name, In name (map fst published) -> ~ asked path name) \/ ~ named_path path /\ npz path = None.
Proof.
  split.
  - intros H. destruct (String.prefix "diffstarfits" path) eqn:E.
    + left. apply prefix_named in E. split; [exact E|]. intros name I A.
      assert (X : exists t, In (name, t) published).
      { apply in_map_iff in I. destruct I as ([a t] & <- & I). exists t. exact I. }
      destruct X as (t & X). destruct (start_named npz path name t E A X) as (P & U & _ & _ & _ & Y & _). congruence.
    + right. assert (N : ~ named_path path) by (rewrite <- prefix_named; congruence). split; [exact N|]. now rewrite (start_file npz path N) in H.
  - intros [(E & H)|(N & H)]; [|now rewrite (start_file npz path N)].
    apply prefix_named in E. unfold start_params. rewrite E. unfold diffstarfits_u_params.
    apply asked_else in H. destruct (lookup _ _) as [t|] eqn:L; [|reflexivity]. exfalso. apply H. clear -L.
    set (n := String.concat _ _) in *. clearbody n. unfold DIFFSTARFITS_U_PARAMS in L. cbn [lookup] in L. unfold published. cbn [map fst].
    repeat match type of L with (if String.eqb ?a n then _ else _) = _ => destruct (String.eqb_spec a n) as [Ea|_]; [rewrite <- Ea; repeat first [left; reflexivity|right]|] end.
    discriminate.
Qed.

(** A result saved under a name of the kind "diffstarfits..." *)
Lemma list_ascii_app a b : list_ascii_of_string (a ++ b) = list_ascii_of_string a ++ list_ascii_of_string b.
Proof. induction a as [|c a IH]; [reflexivity|]. cbn. now rewrite IH. Qed.
Lemma last_app_cons {A} (l : list A) x m d : last (l ++ x :: m) d = last (x :: m) d.
Proof. induction l as [|y l IH]; [reflexivity|]. cbn [app]. rewrite <- IH. destruct l; reflexivity. Qed.
Theorem start_own npz outname : named_path outname -> start_params npz (Some (path_join "" outname ++ ".npz")%string) = None.
Proof.
  intros H. assert (J : path_join "" outname = outname).
  { destruct H as (s & ->). reflexivity. }
  rewrite J. apply start_raises. left. split.
  - destruct H as (s & ->). exists (s ++ ".npz")%string. clear. cbn. reflexivity.
  - intros name I (w & _ & E). apply (f_equal list_ascii_of_string) in E. rewrite !list_ascii_app in E. apply (f_equal (fun l => last l "_"%char)) in E.
    cbn [list_ascii_of_string app] in E. rewrite !last_app_cons in E.
    unfold published in I. cbn [map fst In] in I. repeat (destruct I as [Ea|I]; [subst name; vm_compute in E; discriminate|]). contradiction.
Qed.

(** ** 88 finite values are an assignment *)
Lemma unames_u : DIFFSTARPOP_UNAMES = map (fun n => ("u_" ++ n)%string) pop_names.
Proof. unfold DIFFSTARPOP_UNAMES. rewrite pop_names_eq. reflexivity. Qed.
Lemma make_flat U : nt_make DIFFSTARPOP_UNAMES (flat U) = Some (pop_u_params U).
Proof. rewrite unames_u. unfold flat. apply (nt_make_rows (fun n => ("u_" ++ n)%string)). Qed.
Lemma flat_length U : length (flat U) = 88%nat.
Proof. unfold flat. rewrite map_length. reflexivity. Qed.
Lemma unames_length : length DIFFSTARPOP_UNAMES = 88%nat.
Proof. rewrite unames_u, map_length. reflexivity. Qed.
Lemma as_flat l : length l = 88%nat -> all_finite l = true -> exists U, l = flat U.
Proof.
  intros L F. change 88%nat with (length pop_names) in L.
  assert (G : forall ns : list string, NoDup ns -> forall l, length l = length ns -> all_finite l = true -> exists U : string -> R, l = map (fun n => Fin (U n)) ns).
  { clear. induction ns as [|n ns IH]; intros N l L F.
    - destruct l; [|discriminate]. exists (fun _ => 0). reflexivity.
    - destruct l as [|x l]; [discriminate|]. inversion N as [|? ? N1 N2]; subst. cbn [all_finite forallb] in F. apply andb_prop in F. destruct F as [F1 F2].
      destruct (IH N2 l ltac:(cbn in L; lia) F2) as (U & ->). destruct x as [r| | |]; try discriminate.
      exists (fun m => if String.eqb m n then r else U m). cbn [map]. rewrite String.eqb_refl. f_equal.
      apply map_ext_in. intros m Hm. destruct (String.eqb_spec m n) as [->|_]; [contradiction|reflexivity]. }
  apply (G pop_names names_nodup l L F).
Qed.

Section Program.
Variable key : Type.
Variable split : key -> nat -> list key.
Variable uniform : key -> xr.
Variable mvn : key -> list xr -> matrix -> list xr.
Variable kern : MahParams xr -> xr -> xr -> xr.
Variable sing : MahParams xr -> list xr -> xr -> list xr * list xr.
Variable grads : LossData key -> list xr -> list xr.
Variable St : Type.
Variable opt_init : list xr -> St.
Variable opt_update : nat -> list xr -> St -> St.
Variable get_params : St -> list xr.
Hypothesis H0 : forall p, get_params (opt_init p) = p.
Notation load := (load_loss_data key split sing).
Notation loss := (loss_wrapper key split uniform mvn kern).
Notation program := (fit_program key split uniform mvn kern sing grads St opt_init opt_update get_params).
Notation kernel := (loss_kernel key split uniform mvn kern grads).

Lemma loss_length d p v : loss d p = Some v -> length p = 88%nat.
Proof.
  unfold loss_wrapper, nt_make. rewrite unames_length. destruct (Nat.eqb_spec 88 (length p)) as [<-|]; [reflexivity|discriminate].
Qed.
Lemma kernel_fin d p r g : kernel d p = (Fin r, g) <-> loss d p = Some (Fin r) /\ grads d p = g.
Proof.
  unfold loss_kernel. split.
  - intros H. injection H as H <-. split; [|reflexivity]. destruct (loss d p) as [v|]; [congruence|discriminate].
  - intros (-> & <-). reflexivity.
Qed.
Lemma kernel_isfin d p : isfinite (fst (kernel d p)) = true <-> exists r, loss d p = Some (Fin r).
Proof.
  unfold loss_kernel. cbn [fst]. split.
  - destruct (loss d p) as [[r| | |]|]; try discriminate. eauto.
  - intros (r & ->). reflexivity.
Qed.
(** The fit's result has 88 finite values *)
Lemma fit_flat d n p0 b v : loss d p0 = Some v -> fit_population St opt_init opt_update get_params (kernel d) n p0 = Some b -> exists U, b = flat U.
Proof.
  intros L H. apply loss_length in L. destruct (fit_entry St opt_init opt_update get_params (kernel d) p0 n b H) as (l & x & _ & X & _).
  destruct X as [[_ ->]|[_ G]].
  - apply as_flat; [unfold zeros; rewrite repeat_length; exact L|]. rewrite L. reflexivity.
  - unfold good in G. apply andb_prop in G. destruct G as [G G3]. apply andb_prop in G. destruct G as [G1 G2].
    apply kernel_isfin in G2. destruct G2 as (r & G2). apply loss_length in G2. apply as_flat; assumption.
Qed.
Lemma return_flat U : exists P, return_params_from_result (flat U) = Some (pop_params P) /\ pop_in_bounds P /\
  get_bounded_diffstarpop_params (pop_u_params U) = Some (pop_params P) /\ get_unbounded_diffstarpop_params (pop_params P) = Some (pop_u_params U).
Proof.
  destruct (pop_bounded_in_bounds (pop_u_params U) U (holds_u_params U)) as (P & E & B). exists P.
  unfold return_params_from_result. rewrite make_flat. split; [exact E|]. split; [exact B|]. split; [exact E|].
  exact (pop_roundtrip_u _ U _ (holds_u_params U) E).
Qed.

Section Run.
Variables (ty : string) (dm dc ds : Draws key) (f : PopFiles) (nhalos : nat).
Notation data := (load ty dm dc ds f nhalos).

Theorem program_raises npz path n pl outdir outname :
  program ty dm dc ds f nhalos npz path n pl outdir outname = None <->
  data = None \/ start_params npz path = None \/ (n <= 0)%Z \/ pl = 0%Z \/
  (exists d p0, data = Some d /\ start_params npz path = Some p0 /\ forall r, loss d p0 <> Some (Fin r)).
Proof.
  unfold fit_program. destruct data as [d|]; [|tauto]. destruct (start_params npz path) as [p0|]; [|tauto].
  destruct (loss d p0) as [v|] eqn:L.
  2:{ split; [|reflexivity]. intros _. do 4 right. exists d, p0. split; [reflexivity|]. split; [reflexivity|]. congruence. }
  destruct (Z.ltb_spec n 0) as [N|N]; cbn [orb]; [split; [intros _; right; right; left; lia|reflexivity]|].
  destruct (Z.eqb_spec pl 0) as [P|P]; [tauto|].
  pose proof (fit_raises St opt_init opt_update get_params (kernel d) p0 (H0 p0) (Z.to_nat n)) as FR.
  destruct (fit_population St opt_init opt_update get_params (kernel d) (Z.to_nat n) p0) as [b|] eqn:F.
  - destruct (fit_flat d (Z.to_nat n) p0 b v L F) as (U & ->). destruct (return_flat U) as (Pa & E & _). rewrite E.
    split; [discriminate|]. intros [X|[X|[X|[X|X]]]]; [discriminate X|discriminate X| |now elim P|]; exfalso.
    + destruct FR as [_ FR]. assert (Hz : Z.to_nat n = 0%nat) by lia. specialize (FR (or_introl Hz)). discriminate FR.
    + destruct X as (d' & p' & E1 & E2 & X). apply Some_inj in E1, E2. subst d' p'. destruct FR as [_ FR].
      destruct (isfinite (fst (kernel d p0))) eqn:I; [|specialize (FR (or_intror eq_refl)); discriminate FR].
      apply kernel_isfin in I. destruct I as (r & I). exact (X r I).
  - split; [|reflexivity]. intros _. destruct FR as [FR _]. destruct (FR eq_refl) as [Hz|I]; [right; right; left; lia|].
    do 4 right. exists d, p0. split; [reflexivity|]. split; [reflexivity|]. intros r E.
    assert (I' : isfinite (fst (kernel d p0)) = true) by (apply kernel_isfin; eauto). rewrite I in I'. discriminate I'.
Qed.

Theorem program_result npz path n pl outdir outname s :
  program ty dm dc ds f nhalos npz path n pl outdir outname = Some s ->
  exists d p0 r0 U P, data = Some d /\ start_params npz path = Some p0 /\ loss d p0 = Some (Fin r0) /\
    sv_path s = (path_join outdir outname ++ ".npz")%string /\ sv_u_params s = flat U /\ sv_params s = flat P /\ pop_in_bounds P /\
    get_bounded_diffstarpop_params (pop_u_params U) = Some (pop_params P) /\
    get_unbounded_diffstarpop_params (pop_params P) = Some (pop_u_params U) /\
    (all_finite p0 = true -> all_finite (grads d p0) = true ->
     exists r, loss d (flat U) = Some (Fin r) /\ r <= r0 /\ all_finite (grads d (flat U)) = true) /\
    (all_finite p0 = false \/ all_finite (grads d p0) = false -> forall x, U x = 0 \/ ~ In x pop_names).
Proof.
  intros H. assert (NN : program ty dm dc ds f nhalos npz path n pl outdir outname <> None) by congruence. rewrite program_raises in NN.
  destruct data as [d|] eqn:D; [|exfalso; apply NN; tauto].
  destruct (start_params npz path) as [p0|] eqn:E; [|exfalso; apply NN; tauto].
  assert (R : exists r0, loss d p0 = Some (Fin r0)).
  { destruct (loss d p0) as [[r| | |]|] eqn:L; [eauto|exfalso; apply NN; do 4 right; exists d, p0; (split; [reflexivity|]); (split; [reflexivity|]); congruence..]. }
  destruct R as (r0 & R). revert H. unfold fit_program. rewrite D, E, R.
  destruct (_ || _); [discriminate|].
  destruct (fit_population St opt_init opt_update get_params (kernel d) (Z.to_nat n) p0) as [b|] eqn:F; [|discriminate].
  destruct (fit_flat d (Z.to_nat n) p0 b (Fin r0) R F) as (U & ->). destruct (return_flat U) as (P & E1 & E2 & E3 & E4). rewrite E1. intros H. apply Some_inj in H. subst s.
  exists d, p0, r0, U, P. cbn [sv_path sv_u_params sv_params]. rewrite values_p.
  do 3 (split; [solve [reflexivity|assumption]|]). do 3 (split; [reflexivity|]). do 3 (split; [assumption|]). split.
  - intros A B. destruct (fit_improves St opt_init opt_update get_params (kernel d) p0 (H0 p0) (Z.to_nat n) (flat U) r0 (grads d p0) F) as (r & g & K & L & M & N); try assumption.
    { apply kernel_fin. auto. }
    apply kernel_fin in K. destruct K as (K & <-). eauto.
  - intros A x. destruct (Z.to_nat n) as [|m]; [discriminate F|].
    rewrite (fit_zeros St opt_init opt_update get_params (kernel d) p0 (H0 p0) m r0 (grads d p0)) in F by (try assumption; apply kernel_fin; auto).
    apply Some_inj in F. destruct (in_dec string_dec x pop_names) as [I|I]; [left|now right].
    rewrite (loss_length d p0 _ R) in F. assert (Z : In (Fin (U x)) (flat U)) by (apply in_map_iff; eauto).
    rewrite <- F in Z. apply repeat_spec in Z. now injection Z.
Qed.

Theorem program_restart npz path n pl outdir outname s d p0 npz' n' pl' outdir' outname' :
  program ty dm dc ds f nhalos npz path n pl outdir outname = Some s ->
  data = Some d -> start_params npz path = Some p0 -> all_finite p0 = true -> all_finite (grads d p0) = true ->
  ~ named_path (sv_path s) -> npz' (sv_path s) = Some (sv_u_params s) -> (0 < n')%Z -> pl' <> 0%Z ->
  exists s' r r', program ty dm dc ds f nhalos npz' (Some (sv_path s)) n' pl' outdir' outname' = Some s' /\
    loss d (sv_u_params s) = Some (Fin r) /\ loss d (sv_u_params s') = Some (Fin r') /\ r' <= r.
Proof.
  intros H D E A B NP NZ N PL. destruct (program_result _ _ _ _ _ _ _ H) as (d' & p' & r0 & U & P & D' & E' & R & _ & EU & _ & _ & _ & _ & I & _).
  rewrite D in D'. rewrite E in E'. apply Some_inj in D', E'. subst d' p'. destruct (I A B) as (r & L & _ & G).
  assert (S1 : start_params npz' (Some (sv_path s)) = Some (flat U)) by (rewrite start_file by exact NP; now rewrite NZ, EU).
  destruct (program ty dm dc ds f nhalos npz' (Some (sv_path s)) n' pl' outdir' outname') as [s'|] eqn:H'.
  2:{ exfalso. apply program_raises in H'. rewrite D, S1 in H'. destruct H' as [X|[X|[X|[X|(d2 & p2 & E1 & E2 & X)]]]]; [discriminate X|discriminate X|lia|exact (PL X)|].
      apply Some_inj in E1, E2. subst. exact (X r L). }
  destruct (program_result _ _ _ _ _ _ _ H') as (d2 & p2 & r2 & U2 & P2 & D2 & E2 & R2 & _ & EU2 & _ & _ & _ & _ & I2 & _).
  rewrite D in D2. rewrite S1 in E2. apply Some_inj in D2, E2. subst d2 p2. rewrite L in R2. apply Some_inj in R2. injection R2 as <-.
  destruct I2 as (r' & L2 & Le & _); [|exact G|].
  - apply forallb_forall. intros y Hy. apply in_map_iff in Hy. now destruct Hy as (m & <- & _).
  - exists s', r, r'. rewrite EU, EU2. auto.
Qed.

(** Its own output, when named like a published fit *)
Theorem program_own npz outname n pl outdir' outname' : named_path outname ->
  program ty dm dc ds f nhalos npz (Some (path_join "" outname ++ ".npz")%string) n pl outdir' outname' = None.
Proof. intros H. apply program_raises. right. left. apply start_own, H. Qed.
End Run.
End Program.
