(** Proofs about the population parameter transforms (C29, C30, C42, C44). *)
From Coq Require Import Reals Lra Lia List Bool String QArith Qreals FinFun.
From Verif Require Import XReal ModelUtils ModelKernels ModelSfh ModelPopTables ModelPop SpecPop
  RealFacts XFacts SigmoidProofs PopProofs.
Import ListNotations.
Open Scope R_scope.

Lemma getattr_assoc {A} (p : list (string * A)) n : getattr p n = assoc n p.
Proof. induction p as [|[k v] p IH]; simpl; auto; now rewrite IH. Qed.

(** ** Tables: everything is indexed by the rows of the specification table *)
Definition QROWS := firstn 79 POP_BOUNDS.
Definition SROWS := skipn 79 POP_BOUNDS.
Lemma rows_split : POP_BOUNDS = QROWS ++ SROWS. Proof. reflexivity. Qed.
Lemma qseq_names : QSEQ_NAMES = map fst QROWS. Proof. vm_compute. reflexivity. Qed.
Lemma satq_names : SATQ_NAMES = map fst SROWS. Proof. vm_compute. reflexivity. Qed.
Lemma pop_names_eq : DIFFSTARPOP_NAMES = map fst POP_BOUNDS. Proof. vm_compute. reflexivity. Qed.
Lemma pop_names_app : DIFFSTARPOP_NAMES = QSEQ_NAMES ++ SATQ_NAMES. Proof. vm_compute. reflexivity. Qed.
Lemma q_kwargs : nt_kwargs QSEQ_NAMES SFH_PDF_QUENCH_BOUNDS_PDICT = Some (map snd QROWS).
Proof. vm_compute. reflexivity. Qed.
Lemma s_kwargs : nt_kwargs SATQ_NAMES SATQUENCHPOP_PBOUNDS_PDICT = Some (map snd SROWS).
Proof. vm_compute. reflexivity. Qed.
Lemma q_pbounds : SFH_PDF_QUENCH_PBOUNDS = Some (map (fun r => QQ2X (snd r)) QROWS).
Proof. unfold SFH_PDF_QUENCH_PBOUNDS. rewrite q_kwargs, map_map. reflexivity. Qed.
Lemma s_pbounds : SATQUENCHPOP_PBOUNDS = Some (map (fun r => QQ2X (snd r)) SROWS).
Proof. unfold SATQUENCHPOP_PBOUNDS. rewrite s_kwargs, map_map. reflexivity. Qed.

Definition Qltb (a b : Q) : bool := match Qcompare a b with Lt => true | _ => false end.
Lemma Qltb_R a b : Qltb a b = true -> Q2R a < Q2R b.
Proof. unfold Qltb. intros H. apply Qlt_Rlt. destruct (a ?= b)%Q eqn:E; try discriminate. exact E. Qed.

Lemma rows_lt : Forall (fun r => Q2R (fst (snd r)) < Q2R (snd (snd r))) POP_BOUNDS.
Proof.
  assert (H : forallb (fun r : string * (Q * Q) => Qltb (fst (snd r)) (snd (snd r))) POP_BOUNDS = true)
    by (vm_compute; reflexivity).
  rewrite forallb_forall in H. apply Forall_forall. intros r Hr. apply Qltb_R. auto.
Qed.

Fixpoint nodupb (l : list string) : bool :=
  match l with [] => true | a :: r => negb (existsb (String.eqb a) r) && nodupb r end.
Lemma nodupb_ok l : nodupb l = true -> NoDup l.
Proof.
  induction l as [|a l IH]; simpl; intros H; [constructor|].
  apply andb_prop in H as [H1 H2]. constructor; auto. intros Hin.
  assert (existsb (String.eqb a) l = true) by (apply existsb_exists; exists a; split; auto; apply String.eqb_refl).
  rewrite H in H1. discriminate.
Qed.
Lemma names_nodup : NoDup pop_names.
Proof. apply nodupb_ok. vm_compute. reflexivity. Qed.

Lemma Some_inj {A} (a b : A) : Some a = Some b -> a = b.
Proof. congruence. Qed.

(** ** Lists of attributes *)
Lemma sequence_spec {A B} (f : A -> option B) (g : A -> B) l :
  (forall a, In a l -> f a = Some (g a)) -> vmap f l = Some (map g l).
Proof.
  unfold vmap. induction l as [|a l IH]; intros H; simpl; [reflexivity|].
  rewrite H by now left. rewrite IH; auto. intros b Hb. apply H. now right.
Qed.

Lemma assoc_map {A B} (h : A -> string) (f : A -> B) l a : NoDup (map h l) -> In a l ->
  assoc (h a) (map (fun x => (h x, f x)) l) = Some (f a).
Proof.
  induction l as [|b l IH]; simpl; intros Hn Hin; [easy|].
  inversion Hn as [|? ? Hb Hn']; subst. destruct Hin as [->|Hin].
  - now rewrite String.eqb_refl.
  - destruct (String.eqb_spec (h a) (h b)) as [E|E].
    + exfalso. apply Hb. rewrite <- E. now apply in_map.
    + now apply IH.
Qed.

Lemma u_inj a b : ("u_" ++ a)%string = ("u_" ++ b)%string -> a = b.
Proof. simpl. intros H. now injection H. Qed.

Lemma holds_params P : holds "" (pop_params P) P.
Proof.
  intros n Hn. unfold pop_params. change ("" ++ n)%string with n.
  apply (assoc_map (fun n => n) (fun n => Fin (P n))); auto. rewrite map_id. apply names_nodup.
Qed.
Lemma holds_u_params U : holds "u_" (pop_u_params U) U.
Proof.
  intros n Hn. unfold pop_u_params.
  apply (assoc_map (fun n => ("u_" ++ n)%string) (fun n => Fin (U n))); auto.
  apply Injective_map_NoDup; [intros a b; apply u_inj|apply names_nodup].
Qed.

Lemma map2_rows {A B C D} (f : A -> B -> C) (g : D -> A) (h : D -> B) l :
  map2 f (map g l) (map h l) = map (fun d => f (g d) (h d)) l.
Proof. induction l; simpl; f_equal; auto. Qed.

Lemma nt_make_rows {A B} (h : B -> string) (f : B -> A) l :
  nt_make (map h l) (map f l) = Some (map (fun b => (h b, f b)) l).
Proof.
  unfold nt_make. rewrite !map_length, Nat.eqb_refl. f_equal. apply combine_map_seq.
Qed.

(** ** The scalar transforms *)
Definition mid (b : Q * Q) : R := 1 / 2 * (Q2R (fst b) + Q2R (snd b)).
Definition pbR (b : Q * Q) (u : R) : R := sigR u (mid b) (1 / 10) (Q2R (fst b)) (Q2R (snd b)).
Definition pubR (b : Q * Q) (p : R) : R := isigR p (mid b) (1 / 10) (Q2R (fst b)) (Q2R (snd b)).

Lemma p_scalar_fin u b : get_p_from_u_p_scalar (Fin u) (QQ2X b) = Fin (pbR b u).
Proof. unfold get_p_from_u_p_scalar, QQ2X, Q2X, BOUNDING_K. cbn [xadd xmul]. now rewrite sigmoid_fin. Qed.
Lemma s_scalar_fin u b : get_bounded_satq_param (Fin u) (QQ2X b) = Fin (pbR b u).
Proof. unfold get_bounded_satq_param, QQ2X, Q2X. cbn [xadd xmul]. now rewrite sigmoid_fin. Qed.
Lemma up_scalar_fin p b : Q2R (fst b) < p < Q2R (snd b) -> get_u_p_from_p_scalar (Fin p) (QQ2X b) = Fin (pubR b p).
Proof.
  intros H. unfold get_u_p_from_p_scalar, QQ2X, Q2X, BOUNDING_K. cbn [xadd xmul].
  rewrite inverse_sigmoid_fin; [reflexivity|auto|lra].
Qed.
Lemma us_scalar_fin p b : Q2R (fst b) < p < Q2R (snd b) -> get_unbounded_satq_param (Fin p) (QQ2X b) = Fin (pubR b p).
Proof.
  intros H. unfold get_unbounded_satq_param, QQ2X, Q2X. cbn [xadd xmul].
  rewrite inverse_sigmoid_fin; [reflexivity|auto|lra].
Qed.

Lemma in_q r : In r QROWS -> In r POP_BOUNDS.
Proof. intros H. rewrite rows_split. apply in_or_app. now left. Qed.
Lemma in_s r : In r SROWS -> In r POP_BOUNDS.
Proof. intros H. rewrite rows_split. apply in_or_app. now right. Qed.

(** Attribute lists through the intermediate named tuples. *)
Lemma names_rows (f : string -> string) (g : string -> R) (rs : list (string * (Q * Q))) (p : nt xr) :
  (forall r, In r rs -> assoc (f (fst r)) p = Some (Fin (g (fst r)))) ->
  vmap (getattr p) (map f (map fst rs)) = Some (map (fun r => Fin (g (fst r))) rs).
Proof.
  intros H. unfold vmap. rewrite !map_map. change (sequence (map ?f ?l)) with (vmap f l).
  apply sequence_spec. intros r Hr. rewrite getattr_assoc. now apply H.
Qed.

Lemma nodup_q (f : string -> string) : (forall a b, f a = f b -> a = b) ->
  NoDup (map (fun r : string * (Q * Q) => f (fst r)) QROWS) /\
  NoDup (map (fun r : string * (Q * Q) => f (fst r)) SROWS).
Proof.
  intros Hf.
  assert (Na : NoDup (map fst QROWS) /\ NoDup (map fst SROWS)).
  { split; apply nodupb_ok; vm_compute; reflexivity. }
  destruct Na as [N1 N2].
  split; rewrite <- (map_map fst f); apply Injective_map_NoDup; auto; intros a b; apply Hf.
Qed.

Section Bound.
Variable u : nt xr.
Variable U : string -> R.
Hypothesis Hu : holds "u_" u U.

Lemma bounded_q_stage : forall us, us = map (fun r : string * (Q * Q) => (u_name (fst r), Fin (U (fst r)))) QROWS ->
  get_bounded_sfh_pdf_params us = Some (map (fun r => (fst r, Fin (pbR (snd r) (U (fst r))))) QROWS).
Proof.
  intros us ->. unfold get_bounded_sfh_pdf_params, QSEQ_UNAMES. rewrite qseq_names.
  rewrite (names_rows u_name U QROWS).
  2:{ intros r Hr. apply (assoc_map (fun r => u_name (fst r)) (fun r => Fin (U (fst r)))); auto.
      apply (nodup_q u_name u_inj). }
  rewrite q_pbounds, map2_rows, nt_make_rows. apply f_equal, map_ext. intros r. now rewrite p_scalar_fin.
Qed.
Lemma bounded_s_stage : forall us, us = map (fun r : string * (Q * Q) => (u_name (fst r), Fin (U (fst r)))) SROWS ->
  get_bounded_satquenchpop_params us = Some (map (fun r => (fst r, Fin (pbR (snd r) (U (fst r))))) SROWS).
Proof.
  intros us ->. unfold get_bounded_satquenchpop_params, SATQ_UNAMES. rewrite satq_names.
  rewrite (names_rows u_name U SROWS).
  2:{ intros r Hr. apply (assoc_map (fun r => u_name (fst r)) (fun r => Fin (U (fst r)))); auto.
      apply (nodup_q u_name u_inj). }
  rewrite s_pbounds, map2_rows, nt_make_rows. apply f_equal, map_ext. intros r. now rewrite s_scalar_fin.
Qed.

Lemma in_names_q r : In r QROWS -> In (fst r) pop_names.
Proof. intros H. apply in_map. now apply in_q. Qed.
Lemma in_names_s r : In r SROWS -> In (fst r) pop_names.
Proof. intros H. apply in_map. now apply in_s. Qed.

Lemma values_rows {A B} (h : B -> string) (f : B -> A) l : values (map (fun b => (h b, f b)) l) = map f l.
Proof. unfold values. rewrite map_map. reflexivity. Qed.

Lemma bounded_rows : get_bounded_diffstarpop_params u
  = Some (map (fun r => (fst r, Fin (pbR (snd r) (U (fst r))))) POP_BOUNDS).
Proof.
  unfold get_bounded_diffstarpop_params, QSEQ_UNAMES, SATQ_UNAMES. rewrite qseq_names, satq_names.
  rewrite (names_rows u_name U QROWS) by (intros r Hr; apply Hu; now apply in_names_q).
  rewrite map_map, nt_make_rows, (bounded_q_stage _ eq_refl).
  rewrite (names_rows u_name U SROWS) by (intros r Hr; apply Hu; now apply in_names_s).
  rewrite map_map, nt_make_rows, (bounded_s_stage _ eq_refl).
  rewrite !values_rows, <- map_app, <- rows_split, pop_names_eq, nt_make_rows. reflexivity.
Qed.
End Bound.

Section Unbound.
Variable p : nt xr.
Variable P : string -> R.
Hypothesis Hp : holds "" p P.
Hypothesis Hb : pop_in_bounds P.

Lemma inb r : In r POP_BOUNDS -> Q2R (fst (snd r)) < P (fst r) < Q2R (snd (snd r)).
Proof. intros H. unfold pop_in_bounds in Hb. rewrite Forall_forall in Hb. now apply Hb. Qed.

Lemma id_names_rows (rs : list (string * (Q * Q))) (q : nt xr) :
  (forall r, In r rs -> assoc (fst r) q = Some (Fin (P (fst r)))) ->
  vmap (getattr q) (map fst rs) = Some (map (fun r => Fin (P (fst r))) rs).
Proof. intros H. rewrite <- (map_id (map fst rs)). now apply (names_rows (fun s => s)). Qed.

Lemma unbounded_q_stage : forall ps, ps = map (fun r : string * (Q * Q) => (fst r, Fin (P (fst r)))) QROWS ->
  get_unbounded_sfh_pdf_params ps = Some (map (fun r => (u_name (fst r), Fin (pubR (snd r) (P (fst r))))) QROWS).
Proof.
  intros ps ->. unfold get_unbounded_sfh_pdf_params, QSEQ_UNAMES. rewrite qseq_names.
  rewrite id_names_rows.
  2:{ intros r Hr. apply (assoc_map fst (fun r => Fin (P (fst r)))); auto.
      apply (nodup_q (fun s => s)); auto. }
  rewrite q_pbounds, map2_rows, map_map, nt_make_rows. apply f_equal, map_ext_in. intros r Hr.
  rewrite up_scalar_fin; auto. now apply inb, in_q.
Qed.
Lemma unbounded_s_stage : forall ps, ps = map (fun r : string * (Q * Q) => (fst r, Fin (P (fst r)))) SROWS ->
  get_unbounded_satquenchpop_params ps = Some (map (fun r => (u_name (fst r), Fin (pubR (snd r) (P (fst r))))) SROWS).
Proof.
  intros ps ->. unfold get_unbounded_satquenchpop_params, SATQ_UNAMES. rewrite satq_names.
  rewrite id_names_rows.
  2:{ intros r Hr. apply (assoc_map fst (fun r => Fin (P (fst r)))); auto.
      apply (nodup_q (fun s => s)); auto. }
  rewrite s_pbounds, map2_rows, map_map, nt_make_rows. apply f_equal, map_ext_in. intros r Hr.
  rewrite us_scalar_fin; auto. now apply inb, in_s.
Qed.

Lemma unbounded_rows : get_unbounded_diffstarpop_params p
  = Some (map (fun r => (u_name (fst r), Fin (pubR (snd r) (P (fst r))))) POP_BOUNDS).
Proof.
  unfold get_unbounded_diffstarpop_params. rewrite qseq_names, satq_names.
  rewrite id_names_rows by (intros r Hr; apply Hp; now apply in_names_q).
  rewrite nt_make_rows, (unbounded_q_stage _ eq_refl).
  rewrite id_names_rows by (intros r Hr; apply Hp; now apply in_names_s).
  rewrite nt_make_rows, (unbounded_s_stage _ eq_refl).
  rewrite !values_rows, <- map_app, <- rows_split. unfold DIFFSTARPOP_UNAMES.
  rewrite pop_names_eq, map_map, nt_make_rows. reflexivity.
Qed.
End Unbound.

(** ** Assignments from rows *)
Definition by_rows (f : string * (Q * Q) -> R) : string -> R :=
  fun n => match assoc n POP_BOUNDS with Some b => f (n, b) | None => 0 end.
Lemma by_rows_ok f r : In r POP_BOUNDS -> by_rows f (fst r) = f r.
Proof.
  intros H. unfold by_rows.
  assert (E : assoc (fst r) POP_BOUNDS = Some (snd r)).
  { assert (Q := assoc_map fst snd POP_BOUNDS r names_nodup H).
    rewrite <- Q. reflexivity. }
  rewrite E. now destruct r.
Qed.
Lemma rows_as_params f : map (fun r => (fst r, Fin (f r))) POP_BOUNDS = pop_params (by_rows f).
Proof.
  unfold pop_params, pop_names. rewrite map_map. apply map_ext_in. intros r Hr. now rewrite by_rows_ok.
Qed.
Lemma rows_as_u_params f : map (fun r => (u_name (fst r), Fin (f r))) POP_BOUNDS = pop_u_params (by_rows f).
Proof.
  unfold pop_u_params, pop_names. rewrite map_map. apply map_ext_in. intros r Hr. now rewrite by_rows_ok.
Qed.

(** C29 *)
Lemma pop_bounded_coordinatewise : exists f : string -> R -> R,
  (forall u U, holds "u_" u U ->
     get_bounded_diffstarpop_params u = Some (pop_params (fun n => f n (U n)))) /\
  (forall n lo hi, In (n, (lo, hi)) POP_BOUNDS ->
     (forall x, Q2R lo < f n x < Q2R hi) /\
     (forall x y, x < y -> f n x < f n y) /\
     (forall y, Q2R lo < y < Q2R hi -> exists x, f n x = y)).
Proof.
  exists (fun n x => by_rows (fun r => pbR (snd r) x) n). split.
  - intros u U Hu. rewrite (bounded_rows u U Hu). apply f_equal.
    unfold pop_params, pop_names. rewrite map_map. apply map_ext_in. intros r Hr.
    now rewrite by_rows_ok.
  - intros n lo hi Hin. assert (L := rows_lt). rewrite Forall_forall in L. specialize (L _ Hin).
    cbn [fst snd] in L.
    assert (E : forall x, by_rows (fun r => pbR (snd r) x) n = pbR (lo, hi) x)
      by (intros x; exact (by_rows_ok (fun r => pbR (snd r) x) (n, (lo, hi)) Hin)).
    split; [|split].
    + intros x. rewrite E. unfold pbR. cbn [fst snd]. now apply sigR_range.
    + intros x y Hxy. rewrite !E. unfold pbR. cbn [fst snd]. apply sigR_incr; lra.
    + intros y Hy. exists (pubR (lo, hi) y). rewrite E. unfold pbR, pubR. cbn [fst snd].
      apply sig_isig; lra.
Qed.

Lemma pop_bounded_in_bounds : forall u U, holds "u_" u U -> exists P,
  get_bounded_diffstarpop_params u = Some (pop_params P) /\ pop_in_bounds P.
Proof.
  intros u U Hu. rewrite (bounded_rows u U Hu). exists (by_rows (fun r => pbR (snd r) (U (fst r)))).
  rewrite rows_as_params. split; auto. apply Forall_forall. intros r Hr. rewrite by_rows_ok by auto.
  assert (L := rows_lt). rewrite Forall_forall in L. unfold pbR. apply sigR_range. now apply L.
Qed.

(** C30 *)
Lemma pop_roundtrip_u : forall u U p, holds "u_" u U ->
  get_bounded_diffstarpop_params u = Some p ->
  get_unbounded_diffstarpop_params p = Some (pop_u_params U).
Proof.
  intros u U p Hu H. rewrite (bounded_rows u U Hu) in H. apply Some_inj in H. rewrite <- H.
  rewrite rows_as_params. assert (L := rows_lt). rewrite Forall_forall in L.
  rewrite (unbounded_rows _ (by_rows (fun r => pbR (snd r) (U (fst r))))).
  - apply f_equal. unfold pop_u_params, pop_names. rewrite map_map. apply map_ext_in. intros r Hr.
    rewrite by_rows_ok by auto. do 2 f_equal. unfold pubR, pbR. apply isig_sig; [now apply L|lra].
  - apply holds_params.
  - apply Forall_forall. intros r Hr. rewrite by_rows_ok by auto. unfold pbR. apply sigR_range. now apply L.
Qed.
Lemma pop_roundtrip_p : forall p P, holds "" p P -> pop_in_bounds P -> exists u,
  get_unbounded_diffstarpop_params p = Some u /\
  get_bounded_diffstarpop_params u = Some (pop_params P).
Proof.
  intros p P Hp Hb. rewrite (unbounded_rows p P Hp Hb). eexists. split; [reflexivity|].
  rewrite rows_as_u_params. rewrite (bounded_rows _ _ (holds_u_params _)). apply f_equal.
  unfold pop_params, pop_names. rewrite map_map. apply map_ext_in. intros r Hr.
  rewrite by_rows_ok by auto. do 2 f_equal. unfold pubR, pbR.
  unfold pop_in_bounds in Hb. rewrite Forall_forall in Hb. apply sig_isig; [now apply Hb|lra].
Qed.
(** unbounded form of in-bounds parameters is finite *)
Lemma pop_unbounded_finite : forall p P, holds "" p P -> pop_in_bounds P -> exists U,
  get_unbounded_diffstarpop_params p = Some (pop_u_params U) /\
  get_bounded_diffstarpop_params (pop_u_params U) = Some (pop_params P).
Proof.
  intros p P Hp Hb. destruct (pop_roundtrip_p p P Hp Hb) as (u & H1 & H2).
  rewrite (unbounded_rows p P Hp Hb) in H1. apply Some_inj in H1. rewrite <- H1 in H2.
  rewrite rows_as_u_params in H2. eexists. split; [|exact H2]. now rewrite (unbounded_rows p P Hp Hb), rows_as_u_params.
Qed.

(** C44 *)
Definition calib_row (t : list (string * Q)) : bool :=
  let vals := map snd t ++ map snd DEFAULT_SATQUENCHPOP_PDICT in
  Nat.eqb (List.length vals) 88 &&
  forallb (fun rv : (string * (Q * Q)) * Q => Qltb (fst (snd (fst rv))) (snd rv) && Qltb (snd rv) (snd (snd (fst rv))))
    (combine POP_BOUNDS vals) &&
  forallb (fun rv : (string * (Q * Q)) * Q =>
     negb (existsb (String.eqb (fst (fst rv))) pop_slopes) || Qltb (snd rv) 0 || Qltb 0 (snd rv))
    (combine POP_BOUNDS vals).
Lemma calib_all : forallb calib_row (SFH_PDF_QUENCH_PDICT :: CALIBRATIONS) = true.
Proof. vm_compute. reflexivity. Qed.

Lemma nt_make_by_position (vals : list Q) : List.length vals = 88%nat ->
  nt_make DIFFSTARPOP_NAMES (map Q2X vals) =
  Some (pop_params (fun n => match assoc n (combine pop_names vals) with Some q => Q2R q | None => 0 end)).
Proof.
  intros L. unfold nt_make. rewrite pop_names_eq. fold pop_names. rewrite !map_length, L.
  change (Nat.eqb _ _) with true. cbv iota. f_equal. unfold pop_params.
  assert (N := names_nodup). assert (Lp : List.length pop_names = List.length vals) by (rewrite L; reflexivity).
  clear L. revert vals Lp N. generalize pop_names. induction l as [|n l IH]; intros [|q vals]; simpl; try easy.
  intros L N. inversion N as [|? ? Hn N']; subst. injection L as L. rewrite String.eqb_refl. f_equal.
  rewrite IH; auto. apply map_ext_in. intros m Hm.
  destruct (String.eqb_spec m n) as [->|]; [easy|reflexivity].
Qed.

Lemma assoc_combine {A} (r : string * A) (vals : list Q) rows : NoDup (map fst rows) ->
  List.length rows = List.length vals -> In r rows ->
  exists v, assoc (fst r) (combine (map fst rows) vals) = Some v /\ In (r, v) (combine rows vals).
Proof.
  revert vals. induction rows as [|a rows IH]; intros [|v vs] N L Hin; simpl in *; try easy.
  inversion N as [|? ? Ha N']; subst. destruct Hin as [->|Hin].
  - exists v. rewrite String.eqb_refl. split; auto.
  - destruct (String.eqb_spec (fst r) (fst a)) as [E|E].
    + exfalso. apply Ha. rewrite <- E. now apply in_map.
    + destruct (IH vs) as (w & Hw1 & Hw2); auto. exists w. split; auto.
Qed.

Lemma calib_ok t : calib_row t = true ->
  exists P, calibration t = Some (pop_params P) /\ pop_in_bounds P /\ slopes_nonzero P.
Proof.
  intros H. unfold calib_row in H. apply andb_prop in H as [H H3]. apply andb_prop in H as [H1 H2].
  apply Nat.eqb_eq in H1. set (vals := map snd t ++ map snd DEFAULT_SATQUENCHPOP_PDICT) in *.
  exists (fun n => match assoc n (combine pop_names vals) with Some q => Q2R q | None => 0 end).
  split; [|split].
  - unfold calibration. rewrite <- (map_map snd Q2X t). unfold values, DEFAULT_SATQUENCHPOP_PARAMS.
    rewrite (map_map _ snd). cbn [snd]. rewrite <- (map_map snd Q2X). rewrite <- map_app.
    now apply nt_make_by_position.
  - unfold pop_in_bounds. apply Forall_forall. intros r Hr.
    rewrite forallb_forall in H2.
    destruct (assoc_combine r vals POP_BOUNDS names_nodup) as (v & Hv1 & Hv2); auto. fold pop_names in Hv1.
    cbv beta. rewrite Hv1.
    specialize (H2 _ Hv2). cbn [fst snd] in H2. apply andb_prop in H2 as [A B]. split; now apply Qltb_R.
  - unfold slopes_nonzero. apply Forall_forall. intros n Hn.
    rewrite forallb_forall in H3.
    assert (Hin : exists r, In r POP_BOUNDS /\ fst r = n).
    { assert (T : forallb (fun n => existsb (fun r => String.eqb (fst r) n) POP_BOUNDS) pop_slopes = true)
        by (vm_compute; reflexivity).
      rewrite forallb_forall in T. specialize (T n Hn). apply existsb_exists in T as (r & R1 & R2).
      exists r. split; auto. now apply String.eqb_eq. }
    destruct Hin as (r & Hr & <-).
    destruct (assoc_combine r vals POP_BOUNDS names_nodup) as (v & Hv1 & Hv2); auto. fold pop_names in Hv1.
    cbv beta. rewrite Hv1.
    specialize (H3 _ Hv2). cbn [fst snd] in H3.
    assert (X : existsb (String.eqb (fst r)) pop_slopes = true)
      by (apply existsb_exists; exists (fst r); split; auto; apply String.eqb_refl).
    rewrite X in H3. cbn [negb orb] in H3. apply orb_prop in H3 as [A|A]; apply Qltb_R in A;
      rewrite RMicromega.Q2R_0 in A; lra.
Qed.

Lemma calibrations_in_bounds : forall t, In t CALIBRATIONS -> exists P U,
  calibration t = Some (pop_params P) /\ pop_in_bounds P /\ slopes_nonzero P /\
  get_unbounded_diffstarpop_params (pop_params P) = Some (pop_u_params U) /\
  get_bounded_diffstarpop_params (pop_u_params U) = Some (pop_params P).
Proof.
  intros t Ht. assert (C := calib_all). rewrite forallb_forall in C.
  destruct (calib_ok t) as (P & H1 & H2 & H3); [apply C; now right|].
  destruct (pop_unbounded_finite (pop_params P) P (holds_params P) H2) as (U & H4 & H5).
  exists P, U. auto.
Qed.

Lemma default_in_bounds : exists P U,
  DEFAULT_DIFFSTARPOP_PARAMS = Some (pop_params P) /\ pop_in_bounds P /\ slopes_nonzero P /\
  DEFAULT_DIFFSTARPOP_U_PARAMS = Some (pop_u_params U) /\
  get_bounded_diffstarpop_params (pop_u_params U) = Some (pop_params P).
Proof.
  assert (C := calib_all). rewrite forallb_forall in C.
  destruct (calib_ok SFH_PDF_QUENCH_PDICT) as (P & H1 & H2 & H3); [apply C; now left|].
  destruct (pop_unbounded_finite (pop_params P) P (holds_params P) H2) as (U & H4 & H5).
  assert (E : DEFAULT_DIFFSTARPOP_PARAMS = Some (pop_params P)).
  { rewrite <- H1. unfold DEFAULT_DIFFSTARPOP_PARAMS, calibration, SFH_PDF_QUENCH_PARAMS, values.
    rewrite (map_map _ snd). reflexivity. }
  exists P, U. unfold DEFAULT_DIFFSTARPOP_U_PARAMS. rewrite E. auto.
Qed.

(** C42 *)
Lemma nt_set_spec {A} (p : nt A) n v : In n (map fst p) ->
  exists q, nt_set p n v = Some q /\ map fst q = map fst p /\ assoc n q = Some v /\
    (forall m, m <> n -> assoc m q = assoc m p).
Proof.
  induction p as [|[k w] p IH]; simpl; [easy|]. intros H.
  destruct (String.eqb_spec n k) as [->|E].
  - eexists. split; [reflexivity|]. simpl. rewrite String.eqb_refl. repeat split; auto.
    intros m Hm. destruct (String.eqb_spec m k); [easy|reflexivity].
  - destruct H as [->|H]; [easy|]. destruct (IH H) as (q & H1 & H2 & H3 & H4).
    rewrite H1. eexists. split; [reflexivity|]. simpl. rewrite H2. repeat split; auto.
    + destruct (String.eqb_spec n k); [easy|auto].
    + intros m Hm. destruct (String.eqb_spec m k); auto.
Qed.
Lemma nt_set_none {A} (p : nt A) n v : ~ In n (map fst p) -> nt_set p n v = None.
Proof.
  induction p as [|[k w] p IH]; simpl; auto. intros H. destruct (String.eqb_spec n k) as [->|E].
  - exfalso. apply H. now left.
  - rewrite IH; auto.
Qed.

Lemma replace_spec {A} (kw : nt A) : forall p : nt A, NoDup (map fst kw) -> incl (map fst kw) (map fst p) ->
  exists q, nt_replace p kw = Some q /\ map fst q = map fst p /\
    (forall n, In n (map fst p) ->
       assoc n q = match assoc n kw with Some v => Some v | None => assoc n p end).
Proof.
  induction kw as [|[k v] kw IH]; intros p N I.
  - exists p. simpl. auto.
  - inversion N as [|? ? Hk N']; subst.
    destruct (nt_set_spec p k v) as (p' & H1 & H2 & H3 & H4); [apply I; now left|].
    destruct (IH p' N') as (q & Q1 & Q2 & Q3).
    { rewrite H2. intros x Hx. apply I. now right. }
    exists q. cbn [nt_replace]. rewrite H1. split; [exact Q1|]. split; [congruence|].
    intros n Hn. rewrite Q3 by now rewrite H2. cbn [assoc].
    destruct (String.eqb_spec n k) as [->|E].
    + destruct (assoc k kw) eqn:Ek; [|exact H3].
      exfalso. apply Hk. clear -Ek. revert Ek. induction kw as [|[c b] kw IH]; simpl; [easy|].
      destruct (String.eqb_spec k c) as [->|]; auto.
    + destruct (assoc n kw); auto.
Qed.
Lemma replace_fields {A} (kw : nt A) : forall p q, nt_replace p kw = Some q -> map fst q = map fst p.
Proof.
  induction kw as [|[k v] kw IH]; intros p q; simpl; [now intros [= ->]|].
  destruct (nt_set p k v) as [p'|] eqn:E; [|easy]. intros H. rewrite (IH _ _ H).
  destruct (in_dec string_dec k (map fst p)) as [I|I].
  - destruct (nt_set_spec p k v I) as (x & X1 & X2 & _). congruence.
  - rewrite nt_set_none in E; easy.
Qed.
Lemma replace_unknown {A} (kw : nt A) : forall p : nt A, (exists n, In n (map fst kw) /\ ~ In n (map fst p)) ->
  nt_replace p kw = None.
Proof.
  induction kw as [|[k v] kw IH]; intros p (n & Hn & Hp); simpl in *; [easy|].
  destruct (nt_set p k v) as [p'|] eqn:E; [|reflexivity].
  destruct (in_dec string_dec k (map fst p)) as [I|I].
  - destruct (nt_set_spec p k v I) as (x & X1 & X2 & _). rewrite X1 in E. injection E as ->.
    destruct Hn as [->|Hn]; [easy|]. apply IH. exists n. now rewrite X2.
  - rewrite nt_set_none in E; easy.
Qed.

Lemma combine_fst_snd {A B} (l : list (A * B)) : combine (map fst l) (map snd l) = l.
Proof. induction l as [|[a b] l IH]; simpl; congruence. Qed.

Lemma varied_override {A} : forall (varied defaults : list (string * A)), NoDup (map fst varied) ->
  incl (map fst varied) (map fst defaults) ->
  exists q, get_all_params_from_varied varied defaults = Some q /\ map fst q = map fst defaults /\
    (forall n, In n (map fst defaults) ->
       assoc n q = match assoc n varied with Some v => Some v | None => assoc n defaults end).
Proof. intros. now apply replace_spec. Qed.
Lemma varied_unknown {A} : forall (varied defaults : list (string * A)) n,
  In n (map fst varied) -> ~ In n (map fst defaults) ->
  get_all_params_from_varied varied defaults = None.
Proof. intros. apply replace_unknown. eauto. Qed.

(** get_all_diffstarpop_u_params: full vector with the 88 fields *)
Lemma all_u_params_override : forall (varied : list (string * xr)), NoDup (map fst varied) ->
  incl (map fst varied) (map (fun n => ("u_" ++ n)%string) pop_names) ->
  exists d q, DEFAULT_DIFFSTARPOP_U_PARAMS = Some d /\ get_all_diffstarpop_u_params varied = Some q /\
    map fst q = map (fun n => ("u_" ++ n)%string) pop_names /\
    (forall n, In n pop_names ->
       assoc ("u_" ++ n)%string q = match assoc ("u_" ++ n)%string varied with
                          | Some v => Some v | None => assoc ("u_" ++ n)%string d end).
Proof.
  intros varied N I. destruct default_in_bounds as (P & U & _ & _ & _ & H4 & _).
  assert (F : map fst (pop_u_params U) = map (fun n => ("u_" ++ n)%string) pop_names)
    by (unfold pop_u_params; now rewrite map_map).
  destruct (varied_override varied (pop_u_params U) N) as (q & Q1 & Q2 & Q3); [now rewrite F|].
  exists (pop_u_params U), q. split; auto. unfold get_all_diffstarpop_u_params. rewrite H4, Q1.
  assert (M : nt_make (fields (pop_u_params U)) (values q) = Some q).
  { unfold nt_make, fields, values. rewrite <- Q2, !map_length, Nat.eqb_refl.
    now rewrite combine_fst_snd. }
  rewrite M. split; auto. split; [congruence|]. intros n Hn. apply Q3. rewrite F.
  now apply (in_map (fun n => ("u_" ++ n)%string)).
Qed.
