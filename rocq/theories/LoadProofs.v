(** The data loaders. *)
From Coq Require Import Reals List Bool ZArith String Lia Lra.
From Verif Require Import XReal ModelUtils ModelKernels ModelSfh ModelLoad SpecLoad
  RealFacts XFacts IntegralProofs PopProofs PopParamProofs TableProofs SplitProofs.
Import List ListNotations.
Open Scope R_scope.

(** ** Slices *)
Lemma norm_index_nat : forall n i, (0 <= i)%Z -> norm_index n i = Nat.min (Z.to_nat i) n.
Proof.
  intros n i H. unfold norm_index. destruct (Z.ltb_spec i 0); [lia|].
  rewrite Z2Nat.inj_min, Nat2Z.id. reflexivity.
Qed.
Lemma pyslice_map : forall {A B} (f : A -> B) l i e, pyslice (map f l) i e = map f (pyslice l i e).
Proof. intros. unfold pyslice. rewrite map_length, skipn_map, firstn_map. reflexivity. Qed.
Lemma pyslice_nat : forall {A} (l : list A) i j, (0 <= i)%Z -> (0 <= j)%Z ->
  pyslice l i (Some j) = rows_from l (Z.to_nat i) (Z.to_nat j).
Proof.
  intros A l i j Hi Hj. unfold pyslice, rows_from. rewrite !norm_index_nat by assumption.
  destruct (le_lt_dec (Z.to_nat i) (length l)) as [L|L].
  - rewrite (Nat.min_l (Z.to_nat i)) by exact L.
    destruct (le_lt_dec (Z.to_nat j) (length l)) as [M|M]; [rewrite Nat.min_l by exact M; reflexivity|].
    rewrite (Nat.min_r (Z.to_nat j)) by lia.
    rewrite !firstn_all2; [reflexivity| |]; rewrite skipn_length; lia.
  - rewrite (Nat.min_r (Z.to_nat i)) by lia. rewrite !skipn_all2 by lia. rewrite !firstn_nil. reflexivity.
Qed.
Lemma pyslice_all : forall {A} (l : list A), pyslice l 0 None = l.
Proof.
  intros A l. unfold pyslice. rewrite norm_index_nat by lia. cbn [Z.to_nat Nat.min skipn].
  rewrite Nat.sub_0_r. apply firstn_all.
Qed.
Lemma slice_app : forall {A} (l : list A) a b c, (a <= b)%nat -> (b <= c)%nat ->
  firstn (b - a) (skipn a l) ++ firstn (c - b) (skipn b l) = firstn (c - a) (skipn a l).
Proof.
  intros A l a b c H1 H2. replace b with (a + (b - a))%nat at 3 by lia.
  rewrite <- skipn_skipn.
  rewrite <- (firstn_skipn (b - a) (firstn (c - a) (skipn a l))).
  rewrite firstn_firstn, Nat.min_l by lia. rewrite skipn_firstn_comm.
  replace (c - a - (b - a))%nat with (c - b)%nat by lia. reflexivity.
Qed.
Lemma norm_index_mono : forall n i j, (0 <= i <= j)%Z -> (norm_index n i <= norm_index n j)%nat.
Proof. intros. rewrite !norm_index_nat by lia. lia. Qed.
Lemma norm_index_le : forall n i, (0 <= i)%Z -> (norm_index n i <= n)%nat.
Proof. intros. rewrite norm_index_nat by lia. lia. Qed.
Lemma pyslice_app : forall {A} (l : list A) i j e, (0 <= i <= j)%Z ->
  match e with Some k => (j <= k)%Z | None => True end ->
  pyslice l i (Some j) ++ pyslice l j e = pyslice l i e.
Proof.
  intros A l i j e H He. unfold pyslice. apply slice_app; [apply norm_index_mono; exact H|].
  destruct e as [k|]; [apply norm_index_mono; lia|apply norm_index_le; lia].
Qed.

Lemma dslice_stack : forall d i j e, (0 <= i <= j)%Z ->
  match e with Some k => (j <= k)%Z | None => True end ->
  stack (dslice d i (Some j)) (dslice d j e) = Some (dslice d i e).
Proof. intros [v|v] i j e H He; cbn [dslice stack]; rewrite pyslice_app by assumption; reflexivity. Qed.

(** ** Block loading *)
Definition load_keys (f : hdf) (keys : option (list string)) : list string :=
  match keys with None => map fst f | Some ks => ks end.
Lemma load_flat_ok : forall f i e keys, Forall (fun k => lookup k f <> None) (load_keys f keys) ->
  load_flat_hdf5 f i e keys =
  Some (map (fun k => (k, dslice (match lookup k f with Some d => d | None => D1 [] end) i e)) (load_keys f keys)).
Proof.
  intros f i e keys H. unfold load_flat_hdf5. apply vmap_all. intros k I.
  rewrite Forall_forall in H. specialize (H k I). destruct (lookup k f); [reflexivity|congruence].
Qed.
Lemma load_flat_keys : forall f i e keys r, load_flat_hdf5 f i e keys = Some r ->
  Forall (fun k => lookup k f <> None) (load_keys f keys).
Proof.
  intros f i e keys r H. unfold load_flat_hdf5 in H. apply vmap_spec in H. apply Forall_forall. intros k I E.
  change (match keys with None => map fst f | Some ks => ks end) with (load_keys f keys) in H.
  induction H as [|x y l m Hx H IH]; [contradiction|].
  destruct I as [I|I]; [subst x; rewrite E in Hx; discriminate|apply IH; exact I].
Qed.
Lemma load_flat_stack : forall f i j e keys c, (0 <= i <= j)%Z ->
  match e with Some k => (j <= k)%Z | None => True end ->
  load_flat_hdf5 f i e keys = Some c ->
  exists a b, load_flat_hdf5 f i (Some j) keys = Some a /\ load_flat_hdf5 f j e keys = Some b /\ stacked a b c.
Proof.
  intros f i j e keys c H He Hc. pose proof (load_flat_keys _ _ _ _ _ Hc) as K.
  rewrite load_flat_ok in Hc by exact K. injection Hc as <-.
  eexists. eexists. rewrite !load_flat_ok by exact K. split; [reflexivity|]. split; [reflexivity|].
  unfold stacked. rewrite !map_map. split; [reflexivity|]. split; [reflexivity|].
  clear K. induction (load_keys f keys) as [|k ks IH]; cbn [map combine]; constructor; [|exact IH].
  cbn [fst snd]. apply dslice_stack; assumption.
Qed.

(** Consecutive blocks bounded by a non-decreasing list *)
Lemma ordered_end : forall bs i e, ordered i bs e -> match e with Some k => (i <= k)%Z | None => True end.
Proof.
  induction bs as [|b bs IH]; intros i e H; [exact H|]. destruct H as [H1 H2]. apply IH in H2.
  destruct e; [lia|exact I].
Qed.
Lemma load_flat_blocks : forall bs f i e keys c, (0 <= i)%Z -> ordered i bs e ->
  load_flat_hdf5 f i e keys = Some c ->
  exists parts, vmap (fun b => load_flat_hdf5 f (fst b) (snd b) keys) (blocks_of i bs e) = Some parts /\
    stack_all parts c.
Proof.
  induction bs as [|b bs IH]; intros f i e keys c Hi Ho Hc.
  - exists [c]. split; [|reflexivity]. cbn [blocks_of]. apply vmap_spec. constructor; [exact Hc|constructor].
  - destruct Ho as [H1 H2]. pose proof (ordered_end _ _ _ H2) as He.
    destruct (load_flat_stack f i b e keys c) as (a & d & Ha & Hd & S); [lia|exact He|exact Hc|].
    destruct (IH f b e keys d) as (parts & Hp & Sp); [lia|exact H2|exact Hd|].
    exists (a :: parts). split.
    + cbn [blocks_of]. apply vmap_spec. constructor; [exact Ha|]. apply vmap_spec. exact Hp.
    + destruct parts as [|p parts].
      * destruct bs; cbn [stack_all] in Sp; contradiction.
      * cbn [stack_all]. exists d. split; [exact Sp|exact S].
Qed.

(** The galacticus block loader: whole time table, sliced histories *)
Lemma lookup_app_not : forall {A} k (a b : list (string * A)), ~ In k (map fst a) -> lookup k (a ++ b) = lookup k b.
Proof.
  intros A k a b. induction a as [|[x d] a IH]; intro H; [reflexivity|]. cbn [app lookup].
  destruct (String.eqb_spec x k) as [E|E]; [exfalso; apply H; left; exact E|].
  apply IH. intro I. apply H. right. exact I.
Qed.

(** ** Halo fits *)
Definition nofitb (nmin : xr) (h : HaloRow) : bool := (h_loss h <? Fin 0)%X || (h_npts h <? nmin)%X.
Lemma nofitb_spec : forall nmin h, nofitb (Fin nmin) h = true <-> no_halo_fit nmin h.
Proof.
  intros nmin h. unfold nofitb, no_halo_fit. rewrite orb_true_iff.
  assert (L : forall x b, (x <? Fin b)%X = true <-> (exists a, x = Fin a /\ a < b) \/ x = NInf).
  { intros x b. destruct x as [a| | |].
    - rewrite xlt_fin. split; [intro H; left; exists a; auto|]. intros [(a' & E & H)|E]; [injection E as ->; exact H|discriminate].
    - cbn. split; [discriminate|]. intros [(a' & E & _)|E]; discriminate.
    - cbn. split; [right; reflexivity|reflexivity].
    - cbn. split; [discriminate|]. intros [(a' & E & _)|E]; discriminate. }
  rewrite !L. tauto.
Qed.

Definition maps_mah {A} (g : A -> MahParams xr) (l : list A) : MahParams (list xr) :=
  mkMah (map (fun a => logm0 (g a)) l) (map (fun a => logtc (g a)) l) (map (fun a => early_index (g a)) l)
        (map (fun a => late_index (g a)) l) (map (fun a => t_peak (g a)) l).

Lemma where_const_map : forall {A} (m : A -> bool) c (f : A -> xr) l,
  where_const (map m l) c (map f l) = map (fun a => if m a then c else f a) l.
Proof. intros. unfold where_const. induction l; cbn [map map2]; [reflexivity|]. rewrite IHl. reflexivity. Qed.
Lemma fill_maps : forall {A} (m : A -> bool) c (g : A -> MahParams xr) l,
  fill_mah (map m l) c (maps_mah g l) = maps_mah (fun a => if m a then c else g a) l.
Proof.
  intros. unfold fill_mah, maps_mah. cbn [logm0 logtc early_index late_index t_peak].
  rewrite !where_const_map.
  f_equal; apply map_ext; intro a; destruct (m a); reflexivity.
Qed.

Section MahOracle.
Variable mah_singlehalo : MahParams xr -> list xr -> xr -> list xr * list xr.

Lemma halopop_maps : forall {A} (g : A -> MahParams xr) l tarr lgt0,
  mah_halopop mah_singlehalo (maps_mah g l) tarr lgt0 =
  Some (map (fun a => fst (mah_singlehalo (g a) tarr lgt0)) l, map (fun a => snd (mah_singlehalo (g a) tarr lgt0)) l).
Proof.
  intros A g l tarr lgt0. unfold mah_halopop.
  rewrite (rows_ok (length l)); [|discriminate|unfold cols_mah, maps_mah; cbn; repeat constructor; apply map_length].
  assert (E : vmap unpack_mah (map (fun i => map (fun c => at_ c i) (cols_mah (maps_mah g l))) (seq 0 (length l)))
              = Some (map g l)).
  { apply vmap_spec. unfold cols_mah, maps_mah. cbn [logm0 logtc early_index late_index t_peak].
    induction l as [|a l IH]; [constructor|]. cbn [length seq map]. constructor.
    - cbn. destruct (g a); reflexivity.
    - rewrite <- seq_shift, map_map. exact IH. }
  rewrite E. cbv zeta. rewrite !map_map. reflexivity.
Qed.

Lemma concat_singles : forall {A} (f : A -> list xr) l, (forall a, length (f a) = 1%nat) ->
  List.concat (map f l) = map (fun a => nth 0 (f a) NaN) l.
Proof.
  intros A f l H. induction l as [|a l IH]; [reflexivity|]. cbn [map List.concat]. rewrite IH.
  specialize (H a). destruct (f a) as [|x [|y r]]; try discriminate. reflexivity.
Qed.

Variable dflt : MahParams xr.
Definition loaded_mah (nmin : xr) (h : HaloRow) : MahParams xr := if nofitb nmin h then minus_ones else h_mah h.
Definition loaded_logmp0 (nmin t0 : xr) (h : HaloRow) : xr :=
  mass_at mah_singlehalo (if nofitb nmin h then dflt else h_mah h) t0.

Lemma load_halo_fits : forall f hs nmin t0 i e, halo_table f hs ->
  (forall m t l, length (snd (mah_singlehalo m t l)) = length t) ->
  load_smdpl_diffmah_fits mah_singlehalo dflt f nmin t0 i e =
  Some (mkFits (maps_mah (loaded_mah nmin) (pyslice hs i e)) (map (loaded_logmp0 nmin t0) (pyslice hs i e))
               (map h_loss (pyslice hs i e)) (map h_npts (pyslice hs i e))).
Proof.
  intros f hs nmin t0 i e (K1 & K2 & K3 & K4 & K5 & K6 & K7) Hlen.
  unfold load_smdpl_diffmah_fits, load_flat_hdf5.
  rewrite (vmap_all _ (fun k => (k, dslice (match lookup k f with Some d => d | None => D1 [] end) i e))).
  2:{ intros k I. unfold DIFFMAH_KEYS in I. cbn [In] in I.
      destruct I as [<-|[<-|[<-|[<-|[<-|[<-|[<-|[]]]]]]]];
        rewrite ?K1, ?K2, ?K3, ?K4, ?K5, ?K6, ?K7; reflexivity. }
  unfold DIFFMAH_KEYS. cbn [map]. rewrite K1, K2, K3, K4, K5, K6, K7. cbn [dslice]. rewrite !pyslice_map.
  set (hs' := pyslice hs i e). unfold col1.
  cbn [lookup String.eqb Ascii.eqb Bool.eqb].

  replace (forallb _ _) with true by (symmetry; cbn [forallb]; rewrite !map_length, Nat.eqb_refl; reflexivity).
  cbv zeta.
  assert (EM : nofit_mask (map h_loss hs') (map h_npts hs') nmin = map (nofitb nmin) hs').
  { unfold nofit_mask. clear. induction hs' as [|h l IH]; [reflexivity|]. cbn [map map2]. rewrite IH. reflexivity. }
  rewrite EM.
  change (mkMah (map (fun h => logm0 (h_mah h)) hs') (map (fun h => logtc (h_mah h)) hs')
    (map (fun h => early_index (h_mah h)) hs') (map (fun h => late_index (h_mah h)) hs')
    (map (fun h => t_peak (h_mah h)) hs')) with (maps_mah h_mah hs').
  rewrite fill_maps, halopop_maps, fill_maps.
  rewrite concat_singles by (intro; apply Hlen).
  apply f_equal. f_equal.
  - unfold maps_mah, loaded_mah. f_equal; apply map_ext; intro h; destruct (nofitb nmin h); reflexivity.
Qed.
End MahOracle.
