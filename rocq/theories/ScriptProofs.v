(** The fitting scripts from catalog to table. *)
From Coq Require Import Reals List Bool ZArith Ascii String Lia Lra.
From Verif Require Import XReal ModelUtils ModelKernels ModelSfh ModelLoad ModelIO SpecFit SpecIO SpecLoad
  RealFacts XFacts IntegralProofs PopProofs TextProofs TableProofs SplitProofs LoadProofs.
Import List ListNotations.
Open Scope nat_scope.

Definition collate_all (rank_fn : nat -> option str) (n : nat) : option (list (string * column)) :=
  match vmap rank_fn (seq 0 n) with Some files => collate files | None => None end.

Lemma Forall2_concat_map {A B C} (P : B -> C -> Prop) (f : A -> list B) (g : A -> list C) l :
  (forall a, In a l -> Forall2 P (f a) (g a)) -> Forall2 P (List.concat (map f l)) (List.concat (map g l)).
Proof.
  intro H. induction l as [|a l IH]; [constructor|]. cbn [map List.concat]. apply Forall2_app.
  - apply H. left. reflexivity.
  - apply IH. intros. apply H. right. assumption.
Qed.
Lemma Forall2_trans {A B C} (P : A -> B -> Prop) (Q : B -> C -> Prop) l m k :
  Forall2 P l m -> Forall2 Q m k -> Forall2 (fun a c => exists b, P a b /\ Q b c) l k.
Proof.
  intro H. revert k. induction H as [|a b l m Hab H IH]; intros k Hk; inversion Hk; subst; constructor; eauto.
Qed.
Lemma Forall2_impl {A B} (P Q : A -> B -> Prop) l m : (forall a b, P a b -> Q a b) -> Forall2 P l m -> Forall2 Q l m.
Proof. intros H F. induction F; constructor; auto. Qed.

Lemma map2_map_map : forall {A B C D} (h : B -> C -> D) (f : A -> B) (g : A -> C) l,
  map2 h (map f l) (map g l) = map (fun x => h (f x) (g x)) l.
Proof. intros. induction l as [|a l IH]; [reflexivity|]. cbn [map map2]. rewrite IH. reflexivity. Qed.
Lemma seq_shift_by : forall k a b, seq (a + b) k = map (fun i => a + i) (seq b k).
Proof.
  induction k as [|k IH]; intros a b; [reflexivity|]. cbn [seq map]. apply f_equal.
  rewrite <- IH. f_equal. lia.
Qed.

Lemma seq_shift s k : seq s k = map (fun i => s + i) (seq 0 k).
Proof. rewrite <- (Nat.add_0_r s) at 1. apply seq_shift_by. Qed.

(** The two halves of [if run then fit else None]. *)
Lemma treated_if : forall n (b : bool) (P : Prop) r i (fit_at : nat -> nat -> outcome), (b = true <-> P) -> r < n ->
  treated n fit_at P (if b then fit_at r i else None).
Proof.
  intros n b P r i fit_at H Hr. split; intro Hp.
  - apply H in Hp. rewrite Hp. exists r, i. auto.
  - destruct b; [|reflexivity]. exfalso. apply Hp, H. reflexivity.
Qed.
Lemma loaded_used : forall h, used_mah 5 h (loaded_mah NPTS_FIT_MIN h).
Proof.
  intro h. unfold loaded_mah, NPTS_FIT_MIN. pose proof (nofitb_spec 5 h) as S.
  split; intro H; destruct (nofitb (Fin 5) h); try reflexivity; exfalso; [apply S in H; discriminate|apply H, S; reflexivity].
Qed.
Lemma loaded_used_mass : forall msh dflt t0 h, used_mass msh dflt 5 t0 h (loaded_logmp0 msh dflt NPTS_FIT_MIN t0 h).
Proof.
  intros msh dflt t0 h. unfold loaded_logmp0, NPTS_FIT_MIN. pose proof (nofitb_spec 5 h) as S.
  split; intro H; destruct (nofitb (Fin 5) h); try reflexivity; exfalso; [apply S in H; discriminate|apply H, S; reflexivity].
Qed.

Section Pipeline.
Variable f4 : xr -> xr.
Variable rank_fn : nat -> option str.
Variable row : nat -> nat -> Z * outcome.
Variables N n : nat.
Hypothesis Hn : 0 < n.

Definition rank_rows (r : nat) : list (Z * outcome) := map (row r) (seq (rank_start N n r) (rank_load N n r)).

Lemma pipeline_table :
  (forall r, r < n -> rank_fn r = Some (rank_file f4 (rank_rows r))) -> 2 * n <= N ->
  exists es, collate_all rank_fn n = Some (fit_table es) /\
    Forall2 (fun g e => exists r, r < n /\ rank_start N n r <= g /\ entry_for f4 (fst (row r g)) (snd (row r g)) e) (seq 0 N) es.
Proof.
  intros H H2. unfold collate_all.
  rewrite (vmap_all _ (fun r => rank_file f4 (rank_rows r))).
  2:{ intros r I. apply in_seq in I. apply H. lia. }
  rewrite <- map_map with (g := rank_file f4) (f := rank_rows).
  destruct (collate_spec f4 (map rank_rows (seq 0 n))) as (es & Ec & F).
  - destruct n; [lia|discriminate].
  - apply Forall_forall. intros gs I. apply in_map_iff in I. destruct I as (r & <- & I). apply in_seq in I.
    unfold rank_rows. rewrite map_length, seq_length, rank_load_value by lia.
    assert (2 <= N / n) by (apply Nat.div_le_lower_bound; lia). lia.
  - exists es. split; [exact Ec|].
    rewrite <- (concat_ranks N n Hn).
    assert (G : Forall2 (fun g x => exists r, r < n /\ rank_start N n r <= g /\ x = row r g)
              (List.concat (map (fun r => seq (rank_start N n r) (rank_load N n r)) (seq 0 n)))
              (List.concat (map rank_rows (seq 0 n)))).
    { apply Forall2_concat_map. intros r I. apply in_seq in I. unfold rank_rows.
      assert (S : forall l s, rank_start N n r <= s ->
        Forall2 (fun g x => exists r, r < n /\ rank_start N n r <= g /\ x = row r g) (seq s l) (map (row r) (seq s l))).
      { induction l as [|l IH]; intros s Hs; cbn [seq map]; constructor; [|apply IH; lia].
        exists r. split; [lia|]. split; [exact Hs|reflexivity]. }
      apply S. lia. }
    eapply Forall2_impl; [|exact (Forall2_trans _ _ _ _ _ G F)].
    intros g e (x & (r & R1 & R2 & ->) & E). exists r. auto.
Qed.

Lemma pipeline_short :
  (forall r, r < n -> rank_fn r = None \/ rank_fn r = Some (rank_file f4 (rank_rows r))) -> N < 2 * n ->
  collate_all rank_fn n = None.
Proof.
  intros H H2. unfold collate_all.
  destruct (vmap rank_fn (seq 0 n)) as [files|] eqn:V; [|reflexivity].
  assert (E : files = map (rank_file f4) (map rank_rows (seq 0 n))).
  { apply vmap_spec in V.
    assert (G : forall l, (forall r, In r l -> r < n) -> forall files, Forall2 (fun a b => rank_fn a = Some b) l files ->
              files = map (rank_file f4) (map rank_rows l)).
    { induction l as [|r l IH]; intros Hl fs F; inversion F; subst; [reflexivity|]. cbn [map].
      destruct (H r (Hl r (or_introl eq_refl))) as [E|E]; rewrite E in *; [discriminate|].
      match goal with Q : Some _ = Some _ |- _ => injection Q as <- end.
      apply f_equal. apply IH; [intros; apply Hl; right; assumption|assumption]. }
    apply G; [intros r I; apply in_seq in I; lia|exact V]. }
  rewrite E. apply collate_short. apply Exists_exists.
  exists (rank_rows (n - 1)). split.
  - apply in_map. apply in_seq. lia.
  - unfold rank_rows. rewrite map_length, seq_length, rank_load_value by lia.
    pose proof (Nat.mod_upper_bound N n). assert (N / n < 2) by (apply Nat.div_lt_upper_bound; lia).
    destruct (Nat.ltb_spec (n - 1) (N mod n)); lia.
Qed.
End Pipeline.

Section Scripts.
Variable f4 : xr -> xr.
Variable mah_singlehalo : MahParams xr -> list xr -> xr -> list xr * list xr.
Variable dflt : MahParams xr.
Variable fit : nat -> nat -> list xr -> list xr -> MahParams xr -> xr -> xr -> option (DiffstarParams xr * xr * Z).
Hypothesis mah_len : forall m t l, List.length (snd (mah_singlehalo m t l)) = List.length t.
Hypothesis fit_total : forall r i t s m l fb, fit r i t s m l fb <> None.

Lemma outline_row : forall r i (b : bool) id t s m l fb,
  outline_for f4 fit r i b id t s m l fb = Some (outline f4 (id, if b then fit r i t s m l fb else None)).
Proof.
  intros. unfold outline_for, outline. cbn [fst snd]. destruct b; [|reflexivity].
  pose proof (fit_total r i t s m l fb) as T. destruct (fit r i t s m l fb) as [[[p lo] su]|]; [reflexivity|congruence].
Qed.

Lemma rows_from_nth_error : forall {A} (l : list A) a b i, i < b - a -> nth_error (rows_from l a b) i = nth_error l (a + i).
Proof.
  intros A l a b i H. unfold rows_from. revert a H.
  assert (F : forall k (l : list A) i, i < k -> nth_error (firstn k l) i = nth_error l i).
  { induction k as [|k IH]; intros m j Hj; [lia|]. destruct m; [destruct j; reflexivity|].
    destruct j; [reflexivity|]. cbn. apply IH. lia. }
  assert (S : forall a (l : list A) i, nth_error (skipn a l) i = nth_error l (a + i)).
  { induction a as [|a IH]; intros m j; [reflexivity|]. destruct m; [destruct j; reflexivity|]. cbn. apply IH. }
  intros a H. rewrite F by exact H. apply S.
Qed.

Lemma row_mah_maps : forall {A} (g : A -> MahParams xr) l i a, nth_error l i = Some a ->
  row_mah (maps_mah g l) i = Some (g a).
Proof.
  intros A g l i a H. unfold row_mah, maps_mah. cbn [logm0 logtc early_index late_index t_peak].
  rewrite !nth_error_map, H. cbn. destruct (g a); reflexivity.
Qed.

(** *** galacticus *)
Definition final_logsm (tarr sfh : list xr) : xr :=
  match cumulative_mstar_formed tarr sfh with Some m => xlog10 (last_ m) | None => NaN end.
Definition galcus_run (tarr : list xr) (lmin : xr) (sfh : list xr) (h : HaloRow) : bool :=
  let m0 := loaded_logmp0 mah_singlehalo dflt NPTS_FIT_MIN (last_ tarr) h in
  ((lmin <? m0)%X && ((Fin 0 <? h_loss h)%X && (lmin <? m0)%X)) && (MIN_LOGSM_Z0 <? final_logsm tarr sfh)%X.

Section Galacticus.
Variables sfh_file diffmah_file : hdf.
Variable colname : string.
Variable lmin : xr.
Variables ins tot : list (list xr).
Variable cen : dset.
Variable tarr : list xr.
Variable sfhs : list (list xr).
Variable hs : list HaloRow.
Hypothesis F1 : lookup "sfh_in_situ" sfh_file = Some (D2 ins).
Hypothesis F2 : lookup "sfh_tot" sfh_file = Some (D2 tot).
Hypothesis F3 : lookup "is_cen" sfh_file = Some cen.
Hypothesis F4 : lookup "tarr" sfh_file = Some (D1 tarr).
Hypothesis Fc : (colname = "sfh_in_situ"%string /\ sfhs = ins) \/ (colname = "sfh_tot"%string /\ sfhs = tot).
Hypothesis Hrows : Forall (fun s => List.length s = List.length tarr) sfhs.
Hypothesis Hins : List.length ins = List.length hs.
Hypothesis Hsfhs : List.length sfhs = List.length hs.
Hypothesis Hmah : halo_table diffmah_file hs.
Variable nranks : nat.
Let N := List.length hs.

Definition galcus_row (r g : nat) : Z * outcome :=
  (Z.of_nat g,
   let sfh := nth g sfhs [] in let h := nth g hs (mkHalo minus_ones NaN NaN) in
   if galcus_run tarr lmin sfh h
   then fit r (g - rank_start N nranks r) tarr sfh (loaded_mah NPTS_FIT_MIN h) (xlog10 (last_ tarr)) FB_GALACTICUS
   else None).

Lemma block_ok : forall a b,
  load_galacticus_sfh_data_block sfh_file (Z.of_nat a) (Z.of_nat b) =
  Some [("sfh_in_situ"%string, dslice (D2 ins) (Z.of_nat a) (Some (Z.of_nat b)));
        ("sfh_tot"%string, dslice (D2 tot) (Z.of_nat a) (Some (Z.of_nat b)));
        ("is_cen"%string, dslice cen (Z.of_nat a) (Some (Z.of_nat b)));
        ("tarr"%string, D1 tarr)].
Proof.
  intros a b. unfold load_galacticus_sfh_data_block, load_flat_hdf5, vmap, BLOCK_KEYS. cbn [map sequence].
  rewrite F1, F2, F3, F4. cbn [sequence dslice]. rewrite pyslice_all. reflexivity.
Qed.

Lemma galacticus_rank_file : forall r, r < nranks -> 0 < rank_load N nranks r ->
  galacticus_rank f4 mah_singlehalo dflt fit sfh_file diffmah_file colname lmin nranks r =
  Some (rank_file f4 (rank_rows galcus_row N nranks r)).
Proof.
  intros r Hr Hload. unfold galacticus_rank. unfold col2 at 1. rewrite F1.
  rewrite indices_for_rank_seq by exact Hr. rewrite Hins. fold N.
  set (s := rank_start N nranks r). set (k := rank_load N nranks r) in *.
  pose proof (rank_range N nranks r) as R. fold s k in R.
  assert (R' : s + k <= N) by (apply R; lia). clear R.
  assert (Ei : exists l, seq s k = s :: l /\ last (seq s k) 0 + 1 = s + k).
  { destruct k as [|k]; [lia|]. exists (seq (S s) k). split; [reflexivity|].
    rewrite seq_S, last_last. lia. }
  destruct Ei as (l & El & Elast). rewrite El in *.
  rewrite Elast. cbv zeta. rewrite block_ok.
  assert (Ec : col1 "tarr" [("sfh_in_situ"%string, dslice (D2 ins) (Z.of_nat s) (Some (Z.of_nat (s + k))));
        ("sfh_tot"%string, dslice (D2 tot) (Z.of_nat s) (Some (Z.of_nat (s + k))));
        ("is_cen"%string, dslice cen (Z.of_nat s) (Some (Z.of_nat (s + k))));
        ("tarr"%string, D1 tarr)] = Some tarr) by reflexivity.
  rewrite Ec.
  assert (Ec2 : col2 colname [("sfh_in_situ"%string, dslice (D2 ins) (Z.of_nat s) (Some (Z.of_nat (s + k))));
        ("sfh_tot"%string, dslice (D2 tot) (Z.of_nat s) (Some (Z.of_nat (s + k))));
        ("is_cen"%string, dslice cen (Z.of_nat s) (Some (Z.of_nat (s + k))));
        ("tarr"%string, D1 tarr)] = Some (rows_from sfhs s (s + k))).
  { destruct Fc as [[-> ->]|[-> ->]]; unfold col2; cbn [lookup String.eqb Ascii.eqb Bool.eqb dslice];
      rewrite pyslice_nat by lia; rewrite !Nat2Z.id; reflexivity. }
  rewrite Ec2.
  rewrite (load_halo_fits mah_singlehalo dflt diffmah_file hs) by assumption.
  rewrite pyslice_nat by lia. rewrite !Nat2Z.id.
  replace (s + k - s) with k by lia.
  rewrite firstn_skipn_seq by exact R'. rewrite seq_length.
  cbn [df_params df_logmp0 df_loss].
  unfold write_rows.
  rewrite (vmap_all _ (fun i => outline f4 (galcus_row r (s + i)))).
  - unfold rank_file. apply f_equal, f_equal, f_equal. unfold rank_rows. fold s k. rewrite !map_map.
    assert (Es : seq s k = map (fun i => s + i) (seq 0 k)).
    { rewrite <- (Nat.add_0_r s) at 1. apply seq_shift_by. }
    rewrite Es, map_map. reflexivity.
  - intros i I. apply in_seq in I.
    assert (E1 : nth_error (seq s k) i = Some (s + i)).
    { rewrite (nth_error_nth' _ 0) by (rewrite seq_length; lia). rewrite seq_nth by lia. reflexivity. }
    rewrite E1.
    assert (Eh : nth_error (rows_from hs s (s + k)) i = Some (nth (s + i) hs (mkHalo minus_ones NaN NaN))).
    { rewrite rows_from_nth_error by lia. apply nth_error_nth'. fold N. lia. }
    assert (Es : nth_error (rows_from sfhs s (s + k)) i = Some (nth (s + i) sfhs [])).
    { rewrite rows_from_nth_error by lia. apply nth_error_nth'. rewrite Hsfhs. fold N. lia. }
    rewrite (row_mah_maps _ _ _ _ Eh). rewrite !nth_error_map, Eh, Es. cbn [option_map].
    destruct (cumulative_some tarr (nth (s + i) sfhs [])) as (ms & Em & _).
    { symmetry. rewrite Forall_forall in Hrows. apply Hrows. apply nth_In. rewrite Hsfhs. fold N. lia. }
    rewrite Em. rewrite outline_row. unfold galcus_row. cbv zeta. unfold galcus_run, final_logsm. rewrite Em.
    cbv zeta. fold s. replace (s + i - s) with i by lia. reflexivity.
Qed.

Lemma galacticus_rank_empty : forall r, r < nranks -> rank_load N nranks r = 0 ->
  galacticus_rank f4 mah_singlehalo dflt fit sfh_file diffmah_file colname lmin nranks r = None.
Proof.
  intros r Hr H0. unfold galacticus_rank. unfold col2 at 1. rewrite F1.
  rewrite indices_for_rank_seq by exact Hr. rewrite Hins. fold N. rewrite H0. reflexivity.
Qed.

Lemma galacticus_table : 0 < nranks -> 2 * nranks <= N ->
  exists es, galacticus_script f4 mah_singlehalo dflt fit sfh_file diffmah_file colname lmin nranks = Some (fit_table es) /\
    Forall2 (fun g e => exists r, r < nranks /\ rank_start N nranks r <= g /\
                                  entry_for f4 (fst (galcus_row r g)) (snd (galcus_row r g)) e) (seq 0 N) es.
Proof.
  intros Hn H2. unfold galacticus_script.
  apply (pipeline_table f4 (galacticus_rank f4 mah_singlehalo dflt fit sfh_file diffmah_file colname lmin nranks)
           galcus_row N nranks Hn); [|exact H2].
  intros r Hr. apply galacticus_rank_file; [exact Hr|]. rewrite rank_load_value by lia.
  assert (2 <= N / nranks) by (apply Nat.div_le_lower_bound; lia). lia.
Qed.
Lemma galacticus_short : 0 < nranks -> N < 2 * nranks ->
  galacticus_script f4 mah_singlehalo dflt fit sfh_file diffmah_file colname lmin nranks = None.
Proof.
  intros Hn H2. unfold galacticus_script.
  apply (pipeline_short f4 (galacticus_rank f4 mah_singlehalo dflt fit sfh_file diffmah_file colname lmin nranks)
           galcus_row N nranks Hn); [|exact H2].
  intros r Hr. destruct (Nat.eq_dec (rank_load N nranks r) 0) as [E|E].
  - left. apply galacticus_rank_empty; assumption.
  - right. apply galacticus_rank_file; [exact Hr|lia].
Qed.
Lemma galacticus_spec : 0 < nranks -> 2 * nranks <= N ->
  exists es, galacticus_script f4 mah_singlehalo dflt fit sfh_file diffmah_file colname lmin nranks = Some (fit_table es) /\
    Forall2 (fun g e => exists h sfh o m x,
      nth_error hs g = Some h /\ nth_error sfhs g = Some sfh /\
      used_mah 5 h m /\ used_mass mah_singlehalo dflt 5 (last_ tarr) h x /\
      entry_for f4 (Z.of_nat g) o e /\
      treated nranks (fun r i => fit r i tarr sfh m (xlog10 (last_ tarr)) (Fin (493 / 3153)))
        ((Fin 0 <? h_loss h)%X = true /\ (lmin <? x)%X = true /\
         exists ms, cumulative_mstar_formed tarr sfh = Some ms /\ (Fin 8 <? xlog10 (last_ ms))%X = true) o)
      (seq 0 N) es.
Proof.
  intros Hn H2. destruct (galacticus_table Hn H2) as (es & E & F). exists es. split; [exact E|]. clear E.
  assert (G : Forall (fun g => g < N) (seq 0 N)) by (apply Forall_forall; intros g I; apply in_seq in I; lia).
  revert G F. generalize (seq 0 N). intros l G F. induction F as [|g e l es' (r & R1 & R2 & R3) F IH]; [constructor|].
  inversion G as [|? ? G1 G2]; subst. constructor; [|apply IH; exact G2]. clear IH F G2 G.
  set (h := nth g hs (mkHalo minus_ones NaN NaN)) in *. set (sfh := nth g sfhs []) in *.
  exists h, sfh, (snd (galcus_row r g)), (loaded_mah NPTS_FIT_MIN h), (loaded_logmp0 mah_singlehalo dflt NPTS_FIT_MIN (last_ tarr) h).
  split; [apply nth_error_nth'; exact G1|]. split; [apply nth_error_nth'; rewrite Hsfhs; exact G1|].
  split; [apply loaded_used|]. split; [apply loaded_used_mass|]. split; [exact R3|].
  assert (EF : FB_GALACTICUS = Fin (493 / 3153)) by (unfold FB_GALACTICUS; apply f_equal; lra).
  unfold galcus_row. cbn [snd]. cbv zeta. fold h sfh. rewrite EF.
  destruct (cumulative_some tarr sfh) as (ms & Em & _).
  { symmetry. rewrite Forall_forall in Hrows. apply Hrows. apply nth_In. rewrite Hsfhs. exact G1. }
  apply (treated_if nranks _ _ r (g - rank_start N nranks r)
    (fun r i => fit r i tarr sfh (loaded_mah NPTS_FIT_MIN h) (xlog10 (last_ tarr)) (Fin (493 / 3153)))); [|exact R1].
  unfold galcus_run, final_logsm. rewrite Em. cbv zeta. rewrite !andb_true_iff. unfold MIN_LOGSM_Z0. split.
  - intros [[A [B C]] D]. split; [exact B|]. split; [exact A|]. exists ms. auto.
  - intros (A & B & ms' & E' & C). injection E' as <-. auto.
Qed.
End Galacticus.

(** *** UniverseMachine *)
Lemma combine_maps : forall {A B C} (f : A -> B) (g : A -> C) l, combine (map f l) (map g l) = map (fun x => (f x, g x)) l.
Proof. intros. induction l as [|a l IH]; [reflexivity|]. cbn. rewrite IH. reflexivity. Qed.
Lemma take_seq : forall {A} (a : list A) d s k, s + k <= List.length a ->
  take a (seq s k) = Some (map (fun i => nth (s + i) a d) (seq 0 k)).
Proof.
  intros A a d s k H. unfold take. rewrite (vmap_all _ (fun g => nth g a d)).
  - rewrite <- (Nat.add_0_r s) at 1. rewrite seq_shift_by, map_map. reflexivity.
  - intros i I. apply in_seq in I. apply nth_error_nth'. lia.
Qed.

Definition um_run (lmin : xr) (h : HaloRow) : bool :=
  let m0 := loaded_logmp0 mah_singlehalo dflt NPTS_FIT_MIN T0_SMDPL h in
  (lmin <? m0)%X && ((Fin 0 <? h_loss h)%X && (lmin <? m0)%X).

Section UM.
Variable halo_ids : list Z.
Variable sfhs : list (list xr).
Variable tarr : list xr.
Variable diffmah_file : hdf.
Variable lmin : xr.
Variable hs : list HaloRow.
Variable nranks : nat.
Hypothesis Hids : List.length halo_ids = List.length hs.
Hypothesis Hsfhs : List.length sfhs = List.length hs.
Hypothesis Hmah : halo_table diffmah_file hs.
Let N := List.length hs.

Definition um_row (r g : nat) : Z * outcome :=
  (nth g halo_ids 0%Z,
   let h := nth g hs (mkHalo minus_ones NaN NaN) in
   if um_run lmin h
   then fit r (g - rank_start N nranks r) tarr (nth g sfhs []) (loaded_mah NPTS_FIT_MIN h) (xlog10 T0_SMDPL) FB_SMDPL
   else None).

Lemma umachine_rank_file : forall r, r < nranks ->
  umachine_rank f4 mah_singlehalo dflt fit halo_ids sfhs tarr diffmah_file lmin nranks r =
  Some (rank_file f4 (rank_rows um_row N nranks r)).
Proof.
  intros r Hr. unfold umachine_rank.
  rewrite (load_halo_fits mah_singlehalo dflt diffmah_file hs) by assumption. rewrite pyslice_all.
  cbn [df_params df_logmp0 df_loss]. rewrite map_length, Hids, Nat.eqb_refl. cbv zeta.
  rewrite indices_for_rank_seq by exact Hr. fold N.
  set (s := rank_start N nranks r). set (k := rank_load N nranks r).
  pose proof (rank_range N nranks r) as R. fold s k in R. assert (R' : s + k <= N) by (apply R; lia). clear R.
  rewrite (take_seq halo_ids 0%Z) by (rewrite Hids; exact R').
  rewrite (take_seq sfhs []) by (rewrite Hsfhs; exact R').
  set (d := mkHalo minus_ones NaN NaN).
  rewrite (take_seq _ (loaded_logmp0 mah_singlehalo dflt NPTS_FIT_MIN T0_SMDPL d)) by (rewrite map_length; exact R').
  assert (Em : vmap (row_mah (maps_mah (loaded_mah NPTS_FIT_MIN) hs)) (seq s k)
               = Some (map (fun i => loaded_mah NPTS_FIT_MIN (nth (s + i) hs d)) (seq 0 k))).
  { rewrite (vmap_all _ (fun g => loaded_mah NPTS_FIT_MIN (nth g hs d))).
    - rewrite <- (Nat.add_0_r s) at 1. rewrite seq_shift_by, map_map. reflexivity.
    - intros i I. apply in_seq in I. apply row_mah_maps. apply nth_error_nth'. fold N. lia. }
  rewrite Em.
  rewrite map2_map_map.
  rewrite (take_seq _ ((Fin 0 <? h_loss d)%X && (lmin <? loaded_logmp0 mah_singlehalo dflt NPTS_FIT_MIN T0_SMDPL d)%X))
    by (rewrite map_length; exact R').
  rewrite map_length, seq_length.
  rewrite <- (map_id (seq 0 k)) at 1. rewrite !combine_maps.
  unfold write_rows. rewrite vmap_map.
  rewrite (vmap_all _ (fun i => outline f4 (um_row r (s + i)))).
  - unfold rank_file. apply f_equal, f_equal, f_equal. unfold rank_rows. fold s k. rewrite !map_map.
    rewrite (seq_shift s k), map_map. reflexivity.
  - intros i I. apply in_seq in I. cbv beta iota. rewrite outline_row. unfold um_row, um_run. cbv zeta. fold s.
    rewrite (map_nth (fun h => (Fin 0 <? h_loss h)%X && (lmin <? loaded_logmp0 mah_singlehalo dflt NPTS_FIT_MIN T0_SMDPL h)%X)).
    rewrite (map_nth (loaded_logmp0 mah_singlehalo dflt NPTS_FIT_MIN T0_SMDPL)).
    replace (s + i - s) with i by lia. reflexivity.
Qed.

Lemma umachine_table : 0 < nranks -> 2 * nranks <= N ->
  exists es, umachine_script f4 mah_singlehalo dflt fit halo_ids sfhs tarr diffmah_file lmin nranks = Some (fit_table es) /\
    Forall2 (fun g e => exists r, r < nranks /\ rank_start N nranks r <= g /\
                                  entry_for f4 (fst (um_row r g)) (snd (um_row r g)) e) (seq 0 N) es.
Proof.
  intros Hn H2. unfold umachine_script.
  apply (pipeline_table f4 (umachine_rank f4 mah_singlehalo dflt fit halo_ids sfhs tarr diffmah_file lmin nranks)
           um_row N nranks Hn); [|exact H2].
  exact umachine_rank_file.
Qed.
Lemma umachine_short : 0 < nranks -> N < 2 * nranks ->
  umachine_script f4 mah_singlehalo dflt fit halo_ids sfhs tarr diffmah_file lmin nranks = None.
Proof.
  intros Hn H2. unfold umachine_script.
  apply (pipeline_short f4 (umachine_rank f4 mah_singlehalo dflt fit halo_ids sfhs tarr diffmah_file lmin nranks)
           um_row N nranks Hn); [|exact H2].
  intros r Hr. right. apply umachine_rank_file. exact Hr.
Qed.
Lemma umachine_spec : 0 < nranks -> 2 * nranks <= N ->
  exists es, umachine_script f4 mah_singlehalo dflt fit halo_ids sfhs tarr diffmah_file lmin nranks = Some (fit_table es) /\
    Forall2 (fun g e => exists id h sfh o m x,
      nth_error halo_ids g = Some id /\ nth_error hs g = Some h /\ nth_error sfhs g = Some sfh /\
      used_mah 5 h m /\ used_mass mah_singlehalo dflt 5 (Fin (13820002 / 1000000)) h x /\
      entry_for f4 id o e /\
      treated nranks (fun r i => fit r i tarr sfh m (xlog10 (Fin (13820002 / 1000000))) (Fin (48206 / 307115)))
        ((Fin 0 <? h_loss h)%X = true /\ (lmin <? x)%X = true) o)
      (seq 0 N) es.
Proof.
  intros Hn H2. destruct (umachine_table Hn H2) as (es & E & F). exists es. split; [exact E|]. clear E.
  assert (G : Forall (fun g => g < N) (seq 0 N)) by (apply Forall_forall; intros g I; apply in_seq in I; lia).
  revert G F. generalize (seq 0 N). intros l G F. induction F as [|g e l es' (r & R1 & R2 & R3) F IH]; [constructor|].
  inversion G as [|? ? G1 G2]; subst. constructor; [|apply IH; exact G2]. clear IH F G2 G.
  set (h := nth g hs (mkHalo minus_ones NaN NaN)) in *. set (sfh := nth g sfhs []) in *.
  exists (nth g halo_ids 0%Z), h, sfh, (snd (um_row r g)), (loaded_mah NPTS_FIT_MIN h),
    (loaded_logmp0 mah_singlehalo dflt NPTS_FIT_MIN T0_SMDPL h).
  split; [apply nth_error_nth'; rewrite Hids; exact G1|].
  split; [apply nth_error_nth'; exact G1|]. split; [apply nth_error_nth'; rewrite Hsfhs; exact G1|].
  split; [apply loaded_used|]. split; [apply loaded_used_mass|]. split; [exact R3|].
  assert (EF : FB_SMDPL = Fin (48206 / 307115)) by (unfold FB_SMDPL; apply f_equal; lra).
  unfold um_row. cbn [snd]. cbv zeta. fold h sfh. rewrite EF.
  apply (treated_if nranks _ _ r (g - rank_start N nranks r)
    (fun r i => fit r i tarr sfh (loaded_mah NPTS_FIT_MIN h) (xlog10 T0_SMDPL) (Fin (48206 / 307115)))); [|exact R1].
  unfold um_run. cbv zeta. rewrite !andb_true_iff. tauto.
Qed.
End UM.

(** *** TNG *)
Section TNG.
Variable sd : SimData.
Variable diffmah_file : hdf.
Variable hs : list HaloRow.
Variable nranks : nat.
Hypothesis Hsfhs : List.length (sd_sfrh sd) = List.length hs.
Hypothesis Hmah : halo_table diffmah_file hs.
Let N := List.length hs.

Definition tng_row (r g : nat) : Z * outcome :=
  (Z.of_nat g,
   fit r (g - rank_start N nranks r) (sd_t sd) (nth g (sd_sfrh sd) [])
       (loaded_mah NPTS_FIT_MIN (nth g hs (mkHalo minus_ones NaN NaN))) (xlog10 (last_ (sd_t sd))) FB_TNG).

Lemma tng_rank_file : forall r, r < nranks -> 0 < rank_load N nranks r ->
  tng_rank f4 mah_singlehalo dflt fit sd diffmah_file nranks r = Some (rank_file f4 (rank_rows tng_row N nranks r)).
Proof.
  intros r Hr Hload. unfold tng_rank. cbv zeta. rewrite Hsfhs. fold N.
  rewrite indices_for_rank_seq by exact Hr.
  set (s := rank_start N nranks r). set (k := rank_load N nranks r) in *.
  pose proof (rank_range N nranks r) as R. fold s k in R. assert (R' : s + k <= N) by (apply R; lia). clear R.
  assert (Ei : exists l, seq s k = s :: l /\ last (seq s k) 0 + 1 = s + k).
  { destruct k as [|k]; [lia|]. exists (seq (S s) k). split; [reflexivity|]. rewrite seq_S, last_last. lia. }
  destruct Ei as (l & El & Elast). rewrite El. rewrite El in Elast. rewrite Elast. rewrite <- El.
  rewrite (load_halo_fits mah_singlehalo dflt diffmah_file hs) by assumption.
  rewrite pyslice_nat by lia. rewrite !Nat2Z.id. cbn [df_params].
  rewrite (take_seq (seq 0 N) 0) by (rewrite seq_length; exact R').
  rewrite (take_seq (sd_sfrh sd) []) by (rewrite Hsfhs; exact R').
  rewrite map_length, seq_length. unfold write_rows.
  rewrite (vmap_all _ (fun i => outline f4 (tng_row r (s + i)))).
  - unfold rank_file. apply f_equal, f_equal, f_equal. unfold rank_rows. fold s k. rewrite !map_map.
    rewrite (seq_shift s k), map_map. reflexivity.
  - intros i I. apply in_seq in I.
    assert (E0 : nth_error (seq 0 k) i = Some i).
    { rewrite (nth_error_nth' _ 0) by (rewrite seq_length; lia). rewrite seq_nth by lia. reflexivity. }
    rewrite !nth_error_map, E0. cbn [option_map]. rewrite seq_nth by lia.
    assert (Eh : nth_error (rows_from hs s (s + k)) i = Some (nth (s + i) hs (mkHalo minus_ones NaN NaN))).
    { rewrite rows_from_nth_error by lia. apply nth_error_nth'. fold N. lia. }
    rewrite (row_mah_maps _ _ _ _ Eh). rewrite outline_row. unfold tng_row. fold s.
    replace (s + i - s) with i by lia. reflexivity.
Qed.
Lemma tng_rank_empty : forall r, r < nranks -> rank_load N nranks r = 0 ->
  tng_rank f4 mah_singlehalo dflt fit sd diffmah_file nranks r = None.
Proof.
  intros r Hr H0. unfold tng_rank. cbv zeta. rewrite Hsfhs. fold N.
  rewrite indices_for_rank_seq by exact Hr. rewrite H0. reflexivity.
Qed.
Lemma tng_table : 0 < nranks -> 2 * nranks <= N ->
  exists es, tng_script f4 mah_singlehalo dflt fit sd diffmah_file nranks = Some (fit_table es) /\
    Forall2 (fun g e => exists r, r < nranks /\ rank_start N nranks r <= g /\
                                  entry_for f4 (fst (tng_row r g)) (snd (tng_row r g)) e) (seq 0 N) es.
Proof.
  intros Hn H2. unfold tng_script.
  apply (pipeline_table f4 (tng_rank f4 mah_singlehalo dflt fit sd diffmah_file nranks) tng_row N nranks Hn); [|exact H2].
  intros r Hr. apply tng_rank_file; [exact Hr|]. rewrite rank_load_value by lia.
  assert (2 <= N / nranks) by (apply Nat.div_le_lower_bound; lia). lia.
Qed.
Lemma tng_short : 0 < nranks -> N < 2 * nranks ->
  tng_script f4 mah_singlehalo dflt fit sd diffmah_file nranks = None.
Proof.
  intros Hn H2. unfold tng_script.
  apply (pipeline_short f4 (tng_rank f4 mah_singlehalo dflt fit sd diffmah_file nranks) tng_row N nranks Hn); [|exact H2].
  intros r Hr. destruct (Nat.eq_dec (rank_load N nranks r) 0) as [E|E].
  - left. apply tng_rank_empty; assumption.
  - right. apply tng_rank_file; [exact Hr|lia].
Qed.
Lemma tng_spec : 0 < nranks -> 2 * nranks <= N ->
  exists es, tng_script f4 mah_singlehalo dflt fit sd diffmah_file nranks = Some (fit_table es) /\
    Forall2 (fun g e => exists h sfh o m,
      nth_error hs g = Some h /\ nth_error (sd_sfrh sd) g = Some sfh /\ used_mah 5 h m /\
      entry_for f4 (Z.of_nat g) o e /\
      treated nranks (fun r i => fit r i (sd_t sd) sfh m (xlog10 (last_ (sd_t sd))) (Fin (486 / 3089))) True o)
      (seq 0 N) es.
Proof.
  intros Hn H2. destruct (tng_table Hn H2) as (es & E & F). exists es. split; [exact E|]. clear E.
  assert (G : Forall (fun g => g < N) (seq 0 N)) by (apply Forall_forall; intros g I; apply in_seq in I; lia).
  revert G F. generalize (seq 0 N). intros l G F. induction F as [|g e l es' (r & R1 & R2 & R3) F IH]; [constructor|].
  inversion G as [|? ? G1 G2]; subst. constructor; [|apply IH; exact G2]. clear IH F G2 G.
  set (h := nth g hs (mkHalo minus_ones NaN NaN)) in *. set (sfh := nth g (sd_sfrh sd) []) in *.
  exists h, sfh, (snd (tng_row r g)), (loaded_mah NPTS_FIT_MIN h).
  split; [apply nth_error_nth'; exact G1|]. split; [apply nth_error_nth'; rewrite Hsfhs; exact G1|].
  split; [apply loaded_used|]. split; [exact R3|].
  assert (EF : FB_TNG = Fin (486 / 3089)) by (unfold FB_TNG; apply f_equal; lra).
  unfold tng_row. cbn [snd]. fold h sfh. rewrite EF.
  split; [|tauto]. intros _. exists r, (g - rank_start N nranks r). auto.
Qed.
End TNG.
End Scripts.

(** Text rows read back. *)
Lemma row_reads_back : forall f4 id o, exists ws e, line_of (outline f4 (id, o)) ws /\
  List.length ws = List.length (snd get_header) /\
  parse_int (nth 0 ws []) = Some (e_id e) /\
  vmap parse_float (firstn 8 (skipn 1 ws)) = Some (params_list (e_params e)) /\
  parse_float (nth 9 ws []) = Some (e_loss e) /\
  parse_int (nth 10 ws []) = Some (e_success e) /\ entry_for f4 id o e.
Proof.
  intros f4 id o. exists (out_fields f4 (id, o)), (entry_of f4 (id, o)).
  split; [split; [apply out_fields_ok|apply outline_text]|].
  split; [rewrite out_fields_length; reflexivity|].
  pose proof (col_id f4 [(id, o)]) as C0. pose proof (col_flag f4 [(id, o)]) as C10.
  pose proof (fun k H => col_val f4 [(id, o)] k H) as CV.
  assert (one : forall {A B} (f : A -> option B) x y, vmap f [x] = Some [y] -> f x = Some y).
  { intros A B f x y H. apply vmap_spec in H. inversion H; assumption. }
  split; [apply (one _ _ _ _ _ C0)|].
  split.
  { pose proof (out_fields_length f4 (id, o)) as L. unfold entry_of. cbn [e_params].
    assert (V : forall k, k < 9 -> parse_float (nth (S k) (out_fields f4 (id, o)) []) = Some (rb (nth k (out_vals f4 o) NaN))).
    { intros k Hk. apply (one _ _ _ _ _ (CV k Hk)). }
    destruct (out_fields f4 (id, o)) as [|w0 [|w1 [|w2 [|w3 [|w4 [|w5 [|w6 [|w7 [|w8 ws]]]]]]]]]; try discriminate L.
    cbn [skipn firstn]. apply vmap_spec.
    repeat constructor; cbn [snd];
      [exact (V 0 ltac:(lia))|exact (V 1 ltac:(lia))|exact (V 2 ltac:(lia))|exact (V 3 ltac:(lia))
      |exact (V 4 ltac:(lia))|exact (V 5 ltac:(lia))|exact (V 6 ltac:(lia))|exact (V 7 ltac:(lia))]. }
  split; [apply (one _ _ _ _ _ (CV 8 ltac:(lia)))|]. split; [apply (one _ _ _ _ _ C10)|].
  apply entry_of_spec.
Qed.

Lemma ranks_partition : forall N n, 0 < n -> exists parts,
  vmap (indices_for_rank N n) (seq 0 n) = Some parts /\ List.concat parts = seq 0 N /\ List.length parts = n /\
  forall p q, In p parts -> In q parts -> List.length p <= List.length q + 1.
Proof.
  intros N n H. exists (map (fun r => seq (rank_start N n r) (rank_load N n r)) (seq 0 n)).
  split; [apply vmap_all; intros r I; apply in_seq in I; apply indices_for_rank_seq; lia|].
  split; [apply concat_ranks; exact H|]. split; [rewrite map_length; apply seq_length|].
  intros p q Ip Iq. apply in_map_iff in Ip. apply in_map_iff in Iq. destruct Ip as (r & <- & Ir). destruct Iq as (s & <- & Is).
  apply in_seq in Ir. apply in_seq in Is. rewrite !seq_length, !rank_load_value by lia.
  destruct (r <? N mod n), (s <? N mod n); lia.
Qed.
