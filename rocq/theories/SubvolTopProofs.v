(** Loading the numbered subvolume files, and the programs that start from directories. *)
From Coq Require Import Reals List Bool ZArith NArith Ascii String Lia Lra.
From Verif Require Import XReal RealFacts ModelUtils ModelKernels ModelSfh ModelPop ModelHist ModelFit ModelLoad ModelIO SpecLoad ModelTargets ModelQuality ModelSubvol
  SpecCore SpecHist SpecTargets SpecMeasure SpecQuality TextProofs TableProofs LossProofs SplitProofs TargetTopProofs MeasureProofs MeasureTopProofs QualityTopProofs SpecSubvol SubvolProofs.
Import List ListNotations.
Open Scope nat_scope.

Local Notation length := List.length.

(** ** The text of a number *)
Lemma str_one numbers v : (exists s, In s numbers /\ length s = 1) -> subvol_str_of v numbers = Some (dec v).
Proof.
  intros (s & I & L). unfold subvol_str_of. cbv zeta.
  assert (E : existsb (Nat.eqb 1) (map (@length ascii) numbers) = true).
  { apply existsb_exists. exists 1. split; [|reflexivity]. apply in_map_iff. exists s. auto. }
  rewrite E. reflexivity.
Qed.
Lemma no_one numbers : (forall s, In s numbers -> length s <> 1) -> existsb (Nat.eqb 1) (map (@length ascii) numbers) = false.
Proof.
  intros H. destruct (existsb _ _) eqn:e; [|reflexivity]. apply existsb_exists in e. destruct e as (k & I & E). apply Nat.eqb_eq in E. subst k.
  apply in_map_iff in I. destruct I as (s & L & I). apply H in I. congruence.
Qed.
Lemma list_max_all w l : l <> [] -> (forall x, In x l -> x = w) -> list_max l = w.
Proof.
  intros NE H. assert (A : list_max l <= w) by (apply list_max_le, Forall_forall; intros x Hx; rewrite (H x Hx); lia).
  destruct l as [|x l]; [contradiction|]. pose proof (H x (or_introl eq_refl)). subst x. cbn in *. lia.
Qed.
Lemma str_width numbers v w : numbers <> [] -> (forall s, In s numbers -> length s = w) -> w <> 1 -> subvol_str_of v numbers = Some (dec0 w v).
Proof.
  intros NE H W. unfold subvol_str_of. cbv zeta. rewrite no_one by (intros s Hs; rewrite (H s Hs); exact W).
  assert (A : forall x, In x (map (@length ascii) numbers) -> x = w) by (intros x Hx; apply in_map_iff in Hx; destruct Hx as (s & <- & Hs); apply H, Hs).
  assert (NE' : map (@length ascii) numbers <> []) by (destruct numbers; [contradiction|discriminate]).
  rewrite (list_max_all w) by assumption.
  assert (F : forallb (fun l => l =? w) (map (@length ascii) numbers) = true) by (apply forallb_forall; intros x Hx; apply Nat.eqb_eq, A, Hx).
  rewrite F. destruct (map (@length ascii) numbers); [contradiction|reflexivity].
Qed.
Lemma str_gap numbers v s s' : (forall x, In x numbers -> length x <> 1) -> In s numbers -> In s' numbers -> length s <> length s' ->
  subvol_str_of v numbers = None.
Proof.
  intros H A B L. unfold subvol_str_of. cbv zeta. rewrite no_one by exact H.
  destruct (map (@length ascii) numbers) eqn:e; [reflexivity|]. rewrite <- e.
  destruct (forallb _ _) eqn:f; [|reflexivity]. rewrite forallb_forall in f.
  pose proof (f _ (in_map (@length ascii) _ _ A)) as X. pose proof (f _ (in_map (@length ascii) _ _ B)) as Y. apply Nat.eqb_eq in X, Y. congruence.
Qed.
Lemma str_none v : subvol_str_of v [] = None.
Proof. reflexivity. Qed.

Lemma regular_str numbers V nm v : (forall s, In s numbers <-> exists u, In u V /\ s = nm u) -> (forall u, In u V -> numeral (nm u) u) ->
  regular V nm -> In v V -> subvol_str_of v numbers = Some (nm v).
Proof.
  intros N NU [[P (u & Hu & U)]|[w W]] Hv.
  - rewrite str_one; [f_equal; symmetry; apply plain_dec, P, Hv|]. exists (nm u). split; [apply N; eauto|].
    rewrite (plain_dec _ _ (P u Hu)). apply dec_length_1, U.
  - assert (NE : numbers <> []) by (intro C; assert (X : In (nm v) numbers) by (apply N; eauto); rewrite C in X; contradiction).
    destruct (Nat.eq_dec w 1) as [->|W1].
    + rewrite str_one by (exists (nm v); split; [apply N; eauto|apply W, Hv]). f_equal.
      apply (numeral_unique _ _ v (dec_numeral v) (NU v Hv)). rewrite (W v Hv). apply dec_length_1.
      pose proof (numeral_lt _ _ (NU v Hv)) as B. rewrite (W v Hv) in B. exact B.
    + rewrite (str_width numbers v w NE).
      * f_equal. rewrite <- (W v Hv). apply dec0_width, NU, Hv.
      * intros s Hs. apply N in Hs. destruct Hs as (x & Hx & ->). apply W, Hx.
      * exact W1.
Qed.

(** ** The numbers read off the names *)
Lemma star_numbers_in d V nm file : holds "diffstar_fits_subvol_" ".hdf5" d V nm file -> forall s,
  In s (map last_field (matching_files DIFFSTAR_BNPAT (listdir d))) <-> exists u, In u V /\ s = nm u.
Proof.
  intros H s. change DIFFSTAR_BNPAT with (pat "diffstar_fits_subvol_" ".hdf5"). rewrite in_map_iff.
  assert (LF : forall u, In u V -> last_field (bn "diffstar_fits_subvol_" ".hdf5" (nm u)) = nm u).
  { intros u Hu. rewrite <- (app_nil_r (bn _ _ _)). apply last_field_star; [apply (ho_number _ _ _ _ _ _ H u Hu)|intros []]. }
  split.
  - intros (n & E & I). apply (matching_in H) in I. destruct I as (u & Hu & ->). exists u. split; [exact Hu|]. rewrite <- E. apply LF, Hu.
  - intros (u & Hu & ->). exists (bn "diffstar_fits_subvol_" ".hdf5" (nm u)). split; [apply LF, Hu|]. apply (matching_in H). eauto.
Qed.
Lemma mah_numbers d V nm file : holds "subvol_" "_diffmah_fits.h5" d V nm file -> exists l,
  vmap second_field (matching_files NOMERGING_DIFFMAH_BNPAT (listdir d)) = Some l /\ forall s, In s l <-> exists u, In u V /\ s = nm u.
Proof.
  intros H. change NOMERGING_DIFFMAH_BNPAT with (pat "subvol_" "_diffmah_fits.h5").
  assert (LF : forall u, In u V -> second_field (bn "subvol_" "_diffmah_fits.h5" (nm u)) = Some (nm u)).
  { intros u Hu. rewrite <- (app_nil_r (bn _ _ _)). apply second_field_mah. apply (ho_number _ _ _ _ _ _ H u Hu). }
  exists (map (fun n => match second_field n with Some s => s | None => [] end) (matching_files (pat "subvol_" "_diffmah_fits.h5") (listdir d))). split.
  - apply vmap_map_some. intros n I. apply (matching_in H) in I. destruct I as (u & Hu & ->). rewrite (LF u Hu). reflexivity.
  - intros s. rewrite in_map_iff. split.
    + intros (n & E & I). apply (matching_in H) in I. destruct I as (u & Hu & ->). exists u. split; [exact Hu|]. rewrite (LF u Hu) in E. congruence.
    + intros (u & Hu & ->). exists (bn "subvol_" "_diffmah_fits.h5" (nm u)). rewrite (LF u Hu). split; [reflexivity|]. apply (matching_in H). eauto.
Qed.

(** ** str.replace *)
Lemma replace_nil f old new : replace_from f old new [] = [].
Proof. destruct f; reflexivity. Qed.
Lemma replace_step f new c t : c <> "d"%char -> replace_from (S f) (lit "diffstar") new (c :: t) = c :: replace_from f (lit "diffstar") new t.
Proof.
  intros H. cbn [replace_from]. destruct (str_eqb _ _) eqn:e; [|reflexivity]. exfalso. apply str_eqb_eq in e. cbn in e. congruence.
Qed.
Lemma replace_digits new u : (forall f, length u <= f -> replace_from f (lit "diffstar") new u = u) ->
  forall s f, digits s -> length (s ++ u) <= f -> replace_from f (lit "diffstar") new (s ++ u) = s ++ u.
Proof.
  intros U. induction s as [|c s IH]; intros f D L; [apply U, L|]. cbn [app length] in *. destruct f as [|f]; [lia|].
  inversion D as [|? ? Dc Ds]; subst. rewrite replace_step by (intros ->; apply digit_iff in Dc; discriminate Dc). f_equal. apply IH; [exact Ds|lia].
Qed.
Lemma replace_hdf5 new f : 5 <= f -> replace_from f (lit "diffstar") new (lit ".hdf5") = lit ".hdf5".
Proof. intros L. do 5 (destruct f as [|f]; [lia|]). cbn -[replace_from]. cbn. rewrite replace_nil. reflexivity. Qed.
Lemma replace_mah new f : length (lit "_diffmah_fits.h5") <= f -> replace_from f (lit "diffstar") new (lit "_diffmah_fits.h5") = lit "_diffmah_fits.h5".
Proof. intros L. cbn [length lit list_ascii_of_string] in L. do 16 (destruct f as [|f]; [lia|]). cbn. rewrite replace_nil. reflexivity. Qed.
Lemma replace_free new w u : ~ In "d"%char w -> forall f, replace_from (length w + f) (lit "diffstar") new (w ++ u) = w ++ replace_from f (lit "diffstar") new u.
Proof.
  induction w as [|c w IH]; intros N f; [reflexivity|]. cbn [app length Nat.add]. rewrite replace_step by (intros ->; apply N; now left).
  f_equal. apply IH. intro C. apply N. now right.
Qed.
Lemma replace_head new u f : replace_from (S f) (lit "diffstar") new (lit "diffstar" ++ u) = new ++ replace_from f (lit "diffstar") new u.
Proof. reflexivity. Qed.
Lemma replace_dr1 s : digits s -> str_replace (lit "diffstar") (lit "diffmah") (fill DIFFSTAR_BNPAT s) = bn "diffmah_fits_subvol_" ".hdf5" s.
Proof.
  intros D. unfold str_replace.
  assert (E : fill DIFFSTAR_BNPAT s = lit "diffstar" ++ (lit "_fits_subvol_" ++ (s ++ lit ".hdf5"))).
  { unfold fill. cbn [p_pre p_suf DIFFSTAR_BNPAT]. rewrite (app_assoc (lit "diffstar")). reflexivity. }
  rewrite E, app_length. set (u := s ++ lit ".hdf5").
  change (length (lit "diffstar")) with 8. cbn [Nat.add]. rewrite replace_head, app_length.
  replace (S (S (S (S (S (S (S (length (lit "_fits_subvol_") + length u)))))))) with (length (lit "_fits_subvol_") + (7 + length u)) by lia.
  rewrite replace_free by (cbn; intuition discriminate).
  unfold u. rewrite replace_digits; [|intros f; apply replace_hdf5|exact D|lia].
  unfold bn. rewrite app_assoc. reflexivity.
Qed.
Lemma replace_nomerging s : digits s -> str_replace (lit "diffstar") (lit "diffmah") (fill NOMERGING_DIFFMAH_BNPAT s) = bn "subvol_" "_diffmah_fits.h5" s.
Proof.
  intros D. unfold str_replace.
  change (fill NOMERGING_DIFFMAH_BNPAT s) with (lit "subvol_" ++ (s ++ lit "_diffmah_fits.h5")).
  rewrite app_length. rewrite replace_free by (cbn; intuition discriminate).
  rewrite replace_digits; [reflexivity|intros f; apply replace_mah|exact D|lia].
Qed.

(** ** Loading *)
Section Load.
Context {d : dir} {V : list nat} {nm : nat -> str} {ds : nat -> hdf}.
Hypothesis H : holds "diffstar_fits_subvol_" ".hdf5" d V nm ds.

Lemma star_open v : In v V -> open_file (fill DIFFSTAR_BNPAT (nm v)) d = Some (ds v).
Proof using H. intros Hv. apply open_file_in; [apply (ho_names _ _ _ _ _ _ H)|]. apply (ho_files _ _ _ _ _ _ H v Hv). Qed.
Lemma star_str v : regular V nm -> In v V -> return_subvol_str v d DIFFSTAR_BNPAT = Some (nm v).
Proof using H.
  intros R Hv. unfold return_subvol_str. apply (regular_str _ V); [apply (star_numbers_in _ _ _ _ H)| |exact R|exact Hv].
  intros u Hu. apply (ho_number _ _ _ _ _ _ H u Hu).
Qed.
Theorem load_dr1 dmdir dm : regular V nm -> NoDup (map fst dmdir) -> (forall v, In v V -> In (bn "diffmah_fits_subvol_" ".hdf5" (nm v), dm v) dmdir) ->
  forall v, In v V -> load_diffstar_subvolume v DR1 dmdir d DIFFSTAR_BNPAT = Loaded (dm v) (ds v).
Proof using H.
  intros R ND HD v Hv. unfold load_diffstar_subvolume. rewrite star_str by assumption. cbv zeta. rewrite star_open by exact Hv.
  rewrite replace_dr1 by apply (ho_number _ _ _ _ _ _ H v Hv). rewrite (open_file_in _ (dm v) dmdir ND (HD v Hv)). reflexivity.
Qed.
Theorem load_nomerging dmdir dm W nm' : regular V nm -> holds "subvol_" "_diffmah_fits.h5" dmdir W nm' dm -> regular W nm' -> incl V W ->
  forall v, In v V -> load_diffstar_subvolume v DR1_nomerging dmdir d DIFFSTAR_BNPAT = Loaded (dm v) (ds v).
Proof using H.
  intros R HD R' IN v Hv. unfold load_diffstar_subvolume. rewrite star_str by assumption. cbv zeta. rewrite star_open by exact Hv.
  unfold return_subvol_str_diffmah. cbv zeta. destruct (mah_numbers _ _ _ _ HD) as (l & -> & L).
  rewrite (regular_str l W nm' v L (fun u Hu => proj1 (ho_number _ _ _ _ _ _ HD u Hu)) R' (IN v Hv)). cbn [option_map].
  rewrite replace_nomerging by apply (ho_number _ _ _ _ _ _ HD v (IN v Hv)).
  rewrite (open_file_in _ (dm v) dmdir (ho_names _ _ _ _ _ _ HD) (ho_files _ _ _ _ _ _ HD v (IN v Hv))). reflexivity.
Qed.

(** Unpadded numbers of two and three digits only. *)
Theorem load_gap a b : (forall v, In v V -> plain (nm v) v /\ 10 <= v) -> In a V -> a < 100 -> In b V -> 100 <= b ->
  forall v sim_name dmdir, load_diffstar_subvolume v sim_name dmdir d DIFFSTAR_BNPAT = Fails.
Proof using H.
  intros P Ha A Hb B v sim_name dmdir. unfold load_diffstar_subvolume, return_subvol_str.
  assert (N : forall u, In u V -> nm u = dec u) by (intros u Hu; apply plain_dec, P, Hu).
  pose proof (star_numbers_in _ _ _ _ H) as S. rewrite (str_gap _ v (nm a) (nm b)).
  - reflexivity.
  - intros x Hx. apply S in Hx. destruct Hx as (u & Hu & ->). rewrite (N u Hu). intro C. apply dec_length_1 in C. pose proof (proj2 (P u Hu)). lia.
  - apply S. eauto.
  - apply S. eauto.
  - rewrite (N a Ha), (N b Hb). pose proof (dec_length_iff a 2 ltac:(lia)). pose proof (dec_length_iff b 2 ltac:(lia)). change (10 ^ 2) with 100 in *. lia.
Qed.
(** One digit alone beside a number with leading zeros. *)
Theorem load_mixed u v : In u V -> length (nm u) = 1 -> In v V -> ~ plain (nm v) v ->
  forall sim_name dmdir, load_diffstar_subvolume v sim_name dmdir d DIFFSTAR_BNPAT = NotFound.
Proof using H.
  intros Hu U Hv P sim_name dmdir. unfold load_diffstar_subvolume, return_subvol_str.
  rewrite str_one by (exists (nm u); split; [apply (star_numbers_in _ _ _ _ H); eauto|exact U]). cbv zeta.
  rewrite open_file_none; [reflexivity|]. intro C.
  assert (L : length (dec v) <= 3).
  { destruct (ho_number _ _ _ _ _ _ H v Hv) as [A B]. pose proof (proj2 (dec_plain v) _ A). lia. }
  destruct (dec_numeral v) as (N1 & D & VA).
  destruct (ho_only _ _ _ _ _ _ H _ (dec v) C N1 D L (or_introl eq_refl)) as [_ E]. rewrite VA in E. apply bn_inj in E.
  apply P. rewrite <- E. apply dec_plain.
Qed.
End Load.

(** ** The measuring script *)
Lemma vmap_ext_in {A B} (f g : A -> option B) l : (forall a, In a l -> f a = g a) -> vmap f l = vmap g l.
Proof. intros E. unfold vmap. rewrite (map_ext_in f g l E). reflexivity. Qed.
Lemma smdpl_rank_ext p p' l : (forall v, In v l -> p v = p' v) -> forall w a, smdpl_rank p l w a = smdpl_rank p' l w a.
Proof.
  induction l as [|v l IH]; intros E w a; [reflexivity|]. cbn [smdpl_rank]. rewrite <- (E v (or_introl eq_refl)).
  destruct (p v); [apply IH|apply IH|reflexivity]; intros x Hx; apply E; right; exact Hx.
Qed.
Lemma smdpl_script_ext p p' subvols nmax nz nm nms nsf nranks : (forall v, In v subvols -> p v = p' v) ->
  smdpl_script p subvols nmax nz nm nms nsf nranks = smdpl_script p' subvols nmax nz nm nms nsf nranks.
Proof.
  intros E. unfold smdpl_script. destruct (array_split subvols nranks) as [parts|] eqn:EP; [|reflexivity].
  destruct (array_split_concat _ _ _ EP) as (CP & _ & _).
  rewrite (vmap_ext_in _ (fun part => smdpl_rank p' part [] None) parts); [reflexivity|].
  intros part Hp. apply smdpl_rank_ext. intros v Hv. apply E. rewrite <- CP. apply in_concat. eauto.
Qed.
Lemma smdpl_script_none process subvols nmax nz nm nms nsf nranks : subvols = [] \/ (exists v, In v subvols /\ forall o, process v <> Contributes o) ->
  smdpl_script process subvols nmax nz nm nms nsf nranks = None.
Proof.
  intros [->|(v & Hv & N)].
  - unfold smdpl_script. destruct (array_split _ _); [|reflexivity]. destruct (vmap _ l); [|reflexivity]. cbv zeta. cbn [vmap map sequence].
    destruct (hd None _); reflexivity.
  - destruct (smdpl_script process subvols nmax nz nm nms nsf nranks) as [r|] eqn:e; [|reflexivity].
    destruct (smdpl_needs_all nz nm nms nsf process subvols nmax nranks r e v Hv) as (o & Ho). exfalso. exact (N o Ho).
Qed.

Lemma nbins_defaults : nbins LOGMH_BINS = 11 /\ nbins LOGMSTAR_BINS_PDF = 25 /\ nbins LOGSSFR_BINS_PDF = 29.
Proof. unfold nbins, LOGMH_BINS, LOGMSTAR_BINS_PDF, LOGSSFR_BINS_PDF, linspace. rewrite ?map_length, ?seq_length. repeat split. Qed.

Open Scope R_scope.
Lemma load_value sim_name dmdir d V nm dm ds : holds "diffstar_fits_subvol_" ".hdf5" d V nm ds -> regular V nm -> beside sim_name dmdir V nm dm ->
  forall v, In v V -> load_diffstar_subvolume v sim_name dmdir d DIFFSTAR_BNPAT = Loaded (dm v) (ds v).
Proof.
  intros H R B. destruct sim_name; cbn in B; [|destruct B as (W & nm' & B1 & B2 & B3)|contradiction].
  - apply (load_dr1 H); [exact R|apply B|apply B].
  - apply (load_nomerging H dmdir dm W nm'); assumption.
Qed.

Theorem measure_value kern sing age A T zs ids : setup age A (log10R (138 / 10)) T zs ids ->
  forall hm q p h M (choice : nat -> nat -> nat -> list nat -> nat -> bool -> list nat) (dm ds : nat -> hdf) (I : nat -> list nat) lm su up nmax nranks
    sim_name dmdir dsdir V nm,
  (forall v, choice_ok (choice v)) -> V <> [] -> (0 < nranks)%nat -> ascending V -> regular V nm ->
  holds "diffstar_fits_subvol_" ".hdf5" dsdir V nm ds -> beside sim_name dmdir V nm dm ->
  let G v := filter (fun g => above0 (lm g) && is1 (su g)) (I v) in
  (forall v, In v V -> (v < nmax)%nat /\ NoDup (I v) /\ fit_files (dm v) (ds v) (I v) lm su hm q /\ (forall g, In g (G v) -> good kern sing T hm q p h M g) /\
     (exists g, In g (G v) /\ up g = (-1)%Z) /\ (exists g, In g (G v) /\ up g <> (-1)%Z)) ->
  exists f S F, measure_smdpl (Some FB) kern sing age choice (fun v => map up (I v)) sim_name dmdir dsdir nmax (map Fin zs) nranks
      = Some (f, map (fun k => if existsb (Nat.eqb k) V then 1%nat else 0%nat) (seq 0 nmax)) /\
    (forall v g, In v V -> In g (G v) -> galaxy_is kern sing T (hm g) (q g) (M g) (S g) (F g)) /\
    final_tables (20000 / length V) hm q up (map G V) (fun g => (up g =? -1)%Z) (fun g => negb (up g =? -1)%Z) M S F T ids zs
      (evenly 11 (1475 / 100) 12) (evenly 7 13 26) (evenly (-13) (-8) 30) f.
Proof.
  intros SU hm q p h M choice dm ds I lm su up nmax nranks sim_name dmdir dsdir V nm CH NV NR AV RV HO BE G HG.
  destruct (smdpl_final kern sing age A (log10R (138 / 10)) T zs ids SU hm q p h M choice dm ds I lm su up V nmax nranks CH NV NR HG) as (f & S & F & E & X & Y).
  exists f, S, F. split; [|split; [exact X|exact Y]]. rewrite <- E. unfold measure_smdpl. rewrite (list_subvols_value HO AV). cbv zeta.
  destruct nbins_defaults as (-> & -> & ->). rewrite map_length. apply smdpl_script_ext. intros v Hv.
  rewrite (load_value _ _ _ _ _ _ _ HO RV BE v Hv). unfold LGT0, TODAY. rewrite XFacts.xlog10_fin by lra. reflexivity.
Qed.

Theorem measure_fails fb kern sing age choice upid sim_name dmdir dsdir nmax zs nranks V nm ds :
  holds "diffstar_fits_subvol_" ".hdf5" dsdir V nm ds -> ascending V ->
  V = [] \/ sim_name = Other \/
  (exists a b, (forall v, In v V -> plain (nm v) v /\ (10 <= v)%nat) /\ In a V /\ (a < 100)%nat /\ In b V /\ (100 <= b)%nat) \/
  (exists u v, In u V /\ length (nm u) = 1%nat /\ In v V /\ ~ plain (nm v) v) ->
  measure_smdpl fb kern sing age choice upid sim_name dmdir dsdir nmax zs nranks = None.
Proof.
  intros HO AV H. unfold measure_smdpl. rewrite (list_subvols_value HO AV). cbv zeta. apply smdpl_script_none.
  destruct V as [|v0 V0] eqn:EV; [left; reflexivity|]. right.
  destruct H as [H|[->|[(a & b & P & Ha & A & Hb & B)|(u & v & Hu & U & Hv & P)]]]; [discriminate| | |].
  - exists v0. split; [left; reflexivity|]. intros o. unfold load_diffstar_subvolume.
    destruct (return_subvol_str v0 dsdir DIFFSTAR_BNPAT); [|discriminate]. cbv zeta. destruct (open_file _ dsdir); discriminate.
  - exists v0. split; [left; reflexivity|]. intros o. rewrite (load_gap HO a b P Ha A Hb B). discriminate.
  - exists v. split; [exact Hv|]. intros o. rewrite (load_mixed HO u v Hu U Hv P). discriminate.
Qed.

(** ** The comparison of histories from directories *)
Theorem quality_dr1_value kern sing hm q p h M t E D mp : increasing (1 / 1000 :: t) ->
  let T := evenly (1 / 100) (138 / 10) 200 in
  forall dmdir dsdir V nm dm ds data P lm su I, length t = 117%nat -> V <> [] -> ascending V -> regular V nm ->
  holds "diffstar_fits_subvol_" ".hdf5" dsdir V nm ds -> beside DR1 dmdir V nm dm ->
  let sel g := above0 (lm g) && is1 (su g) in
  (forall v, In v V -> fit_files (dm v) (ds v) (I v) lm su hm q /\
     data v = Some (map (fun g => map Fin (D g)) (I v), map (fun g => map Fin (P g)) (I v)) /\
     (forall g, In g (I v) -> length (D g) = 117%nat) /\
     (forall g, In g (I v) -> sel g = true -> good kern sing T hm q p h M g /\ Forall (fun s => 0 <= s) (D g) /\ P g <> [] /\
        is_running_max (map clipped_log (P g)) (length (P g) - 1) (mp g))) ->
  exists o MD SF SM, quality_dr1 (Some FB) kern sing dmdir dsdir data (map Fin t) (map Fin E) = Some o /\
    (forall v g, In v V -> In g (I v) -> sel g = true -> formed t (D g) (MD g) /\ fit_is kern T (hm g) (q g) (SF g) (SM g)) /\
    quality_is E t T (List.concat (map (fun v => filter sel (I v)) V)) mp D MD SF SM (save_data_plot o).
Proof.
  intros IT T dmdir dsdir V nm dm ds data P lm su I L NV AV RV HO BE sel HV. unfold quality_dr1. rewrite (list_subvols_value HO AV). cbv zeta.
  apply (smdpl_quality kern sing hm q p h M t E D mp IT _ data P lm su I V L NV). intros v Hv. destruct (HV v Hv) as (A1 & A2).
  split; [|exact A2]. exists (dm v), (ds v). split; [|exact A1]. rewrite (load_value DR1 _ _ _ _ _ _ HO RV BE v Hv). reflexivity.
Qed.

(** ** Files left by the fitting script *)
Open Scope nat_scope.
Lemma bn_last pre suf c s : bn pre (suf ++ String c EmptyString) s = bn pre suf s ++ [c].
Proof. unfold bn. rewrite <- !app_assoc. do 2 f_equal. induction suf as [|x suf IH]; [reflexivity|]. cbn. f_equal. exact IH. Qed.
Lemma bn_not_nl s s' : bn "diffstar_fits_subvol_" ".hdf5" s <> bn "diffstar_fits_subvol_" ".hdf5" s' ++ [ascii_of_nat 10].
Proof.
  change ".hdf5"%string with (".hdf" ++ String "5" EmptyString)%string at 1. rewrite bn_last. intro E. apply app_inj_tail in E. destruct E as [_ E]. discriminate E.
Qed.
Section Run.
Variables (a b : nat) (ds : nat -> hdf) (extra d : dir).
Let run : dir := map (fun vn => (snd vn, ds (fst vn))) (fit_names a (Z.of_nat b)).
Hypothesis EX : Forall (unrelated "diffstar_fits_subvol_" ".hdf5") (map fst extra).
Hypothesis PE : Permutation.Permutation d (run ++ extra).
Hypothesis ND : NoDup (map fst d).
Let V := seq a (Nat.min b 1000 - a).

Lemma run_in n f : In (n, f) run <-> exists v, a <= v < b /\ n = bn "diffstar_fits_subvol_" ".hdf5" (dec v) /\ f = ds v.
Proof using.
  unfold run, fit_names. rewrite map_map, in_map_iff. cbn [fst snd].
  split.
  - intros (v & E & I). apply in_seq in I. injection E as <- <-. exists v. split; [lia|]. split; reflexivity.
  - intros (v & L & -> & ->). exists v. split; [reflexivity|]. apply in_seq. lia.
Qed.
Lemma V_in v : In v V <-> a <= v < b /\ v < 1000.
Proof using. unfold V. rewrite in_seq. lia. Qed.
Lemma run_holds : holds "diffstar_fits_subvol_" ".hdf5" d V dec ds.
Proof using EX PE ND.
  constructor.
  - exact ND.
  - intros v Hv. apply V_in in Hv. apply (Permutation.Permutation_in _ (Permutation.Permutation_sym PE)), in_app_iff. left. apply run_in. exists v. repeat split; lia.
  - intros v Hv. apply V_in in Hv. split; [apply dec_numeral|]. apply dec_length_iff; [lia|]. change (10 ^ 3) with 1000. lia.
  - intros n s I NE D L E. apply in_map_iff in I. destruct I as ([n' f] & EQ & I). cbn [fst] in EQ. subst n'.
    apply (Permutation.Permutation_in _ PE), in_app_iff in I. destruct I as [I|I].
    + apply run_in in I. destruct I as (v & HV & -> & _). destruct E as [E|E]; [|exfalso; exact (bn_not_nl _ _ E)].
      apply bn_inj in E. subst s. destruct (dec_numeral v) as (_ & _ & VA). rewrite VA. split; [|reflexivity]. apply V_in.
      split; [exact HV|]. apply (dec_length_iff v 3) in L; [|lia]. exact L.
    + exfalso. rewrite Forall_forall in EX. destruct (EX n (in_map fst _ _ I) s NE D L) as [U1 U2]. destruct E as [E|E]; contradiction.
Qed.
Lemma V_ascending : ascending V.
Proof using.
  unfold ascending, V. intros i j L1 L2. rewrite seq_length in L2. rewrite !seq_nth by lia. lia.
Qed.
Theorem run_listed : list_subvols d DIFFSTAR_BNPAT = Some V.
Proof using EX PE ND. apply (list_subvols_value run_holds), V_ascending. Qed.
Theorem run_regular : a < b -> a < 10 \/ b <= 100 \/ 100 <= a -> regular V dec.
Proof using.
  intros AB [A|H].
  - left. split; [intros v _; apply dec_plain|]. exists a. split; [apply V_in; lia|exact A].
  - destruct (Nat.lt_ge_cases a 10) as [A|A].
    { left. split; [intros v _; apply dec_plain|]. exists a. split; [apply V_in; lia|exact A]. }
    right. destruct H as [H|H].
    + exists 2. intros v Hv. apply V_in in Hv. pose proof (dec_length_iff v 2 ltac:(lia)) as X. pose proof (dec_length_1 v) as Y. destruct (dec_length v) as (L & E & _).
      change (10 ^ 2) with 100 in X. lia.
    + exists 3. intros v Hv. apply V_in in Hv. pose proof (dec_length_iff v 2 ltac:(lia)) as X. pose proof (dec_length_iff v 3 ltac:(lia)) as Y.
      change (10 ^ 2) with 100 in X. change (10 ^ 3) with 1000 in Y. lia.
Qed.
Theorem run_gap : 10 <= a < 100 -> 100 < b -> forall v sim_name dmdir, load_diffstar_subvolume v sim_name dmdir d DIFFSTAR_BNPAT = Fails.
Proof using EX PE ND.
  intros A B. apply (load_gap run_holds a 100).
  - intros v Hv. apply V_in in Hv. split; [apply dec_plain|lia].
  - apply V_in. lia.
  - lia.
  - apply V_in. lia.
  - lia.
Qed.
End Run.

Theorem run_files_found a b ds extra d dmdir dm : Forall (unrelated "diffstar_fits_subvol_" ".hdf5") (map fst extra) ->
  Permutation.Permutation d (map (fun vn => (snd vn, ds (fst vn))) (fit_names a (Z.of_nat b)) ++ extra) -> NoDup (map fst d) ->
  list_subvols d DIFFSTAR_BNPAT = Some (seq a (Nat.min b 1000 - a)) /\
  (a < 10 \/ b <= 100 \/ 100 <= a ->
   NoDup (map fst dmdir) -> (forall v s, a <= v < b -> plain s v -> In (bn "diffmah_fits_subvol_" ".hdf5" s, dm v) dmdir) ->
   forall v, a <= v < b -> v < 1000 -> load_diffstar_subvolume v DR1 dmdir d DIFFSTAR_BNPAT = Loaded (dm v) (ds v)) /\
  (10 <= a < 100 -> 100 < b -> forall v sim_name, load_diffstar_subvolume v sim_name dmdir d DIFFSTAR_BNPAT = Fails).
Proof.
  intros EX PE ND. split; [exact (run_listed a b ds extra d EX PE ND)|]. split.
  - intros C NM HM v HV L. apply (load_dr1 (run_holds a b ds extra d EX PE ND)).
    + apply run_regular; [lia|exact C].
    + exact NM.
    + intros u Hu. apply V_in in Hu. apply HM; [lia|apply dec_plain].
    + apply V_in. lia.
  - intros A B v sim_name. apply (run_gap a b ds extra d EX PE ND A B).
Qed.

Theorem default_run a : fit_names a (-1) = [].
Proof. unfold fit_names. replace (Z.to_nat (-1 - Z.of_nat a)) with 0 by lia. reflexivity. Qed.

(** ** Concrete directories *)
Lemma holds_intro pre suf V nm file extra : (forall s s', bn pre suf s <> bn pre suf s' ++ [ascii_of_nat 10]) ->
  NoDup V -> (forall v, In v V -> numeral (nm v) v /\ length (nm v) <= 3) -> Forall (unrelated pre suf) (map fst extra) -> NoDup (map fst extra) ->
  holds pre suf (map (fun v => (bn pre suf (nm v), file v)) V ++ extra) V nm file.
Proof.
  intros NL NV NU EX NE. constructor.
  - rewrite map_app, map_map. cbn [fst].
    assert (NA : NoDup (map (fun v => bn pre suf (nm v)) V)).
    { apply NoDup_map_on; [|exact NV]. intros x y Hx Hy E. apply bn_inj in E. destruct (NU x Hx) as ((_ & _ & X) & _). destruct (NU y Hy) as ((_ & _ & Y) & _). congruence. }
    revert NA. assert (DJ : forall n, In n (map (fun v => bn pre suf (nm v)) V) -> ~ In n (map fst extra)).
    { intros n Hn C. rewrite Forall_forall in EX. apply in_map_iff in Hn. destruct Hn as (v & <- & Hv). destruct (NU v Hv) as ((N1 & D & _) & L).
      destruct (EX _ C (nm v) N1 D L) as [U _]. exact (U eq_refl). }
    clear - DJ NE. induction (map (fun v => bn pre suf (nm v)) V) as [|n l IH]; intros NA; [exact NE|]. cbn [app]. inversion NA; subst.
    constructor; [|apply IH; [intros m Hm; apply DJ; right; exact Hm|assumption]].
    rewrite in_app_iff. intros [C|C]; [contradiction|]. exact (DJ n (or_introl eq_refl) C).
  - intros v Hv. apply in_app_iff. left. apply in_map_iff. exists v. auto.
  - exact NU.
  - intros n s I N1 D L E. rewrite map_app, in_app_iff, map_map in I. cbn [fst] in I. destruct I as [I|I].
    + apply in_map_iff in I. destruct I as (v & <- & Hv). destruct E as [E|E]; [|exfalso; exact (NL _ _ E)].
      apply bn_inj in E. subst s. destruct (NU v Hv) as ((_ & _ & VA) & _). rewrite VA. auto.
    + exfalso. rewrite Forall_forall in EX. destruct (EX n I s N1 D L) as [U1 U2]. destruct E as [E|E]; contradiction.
Qed.
Lemma bn_not_nl' s s' : bn "subvol_" "_diffmah_fits.h5" s <> bn "subvol_" "_diffmah_fits.h5" s' ++ [ascii_of_nat 10].
Proof.
  change "_diffmah_fits.h5"%string with ("_diffmah_fits.h" ++ String "5" EmptyString)%string at 1. rewrite bn_last. intro E. apply app_inj_tail in E. destruct E as [_ E]. discriminate E.
Qed.

Definition stars (V : list nat) (nm : nat -> str) (ds : nat -> hdf) : dir :=
  map (fun v => (bn "diffstar_fits_subvol_" ".hdf5" (nm v), ds v)) V ++ [(lit "notes.txt", [])].
Definition mahs (V : list nat) (nm : nat -> str) (dm : nat -> hdf) : dir :=
  map (fun v => (bn "subvol_" "_diffmah_fits.h5" (nm v), dm v)) V ++ [(lit "notes.txt", [])].
Definition dr1_mahs (V : list nat) (nm : nat -> str) (dm : nat -> hdf) : dir := map (fun v => (bn "diffmah_fits_subvol_" ".hdf5" (nm v), dm v)) V.
Lemma ex_notes pre suf : hd "n"%char (list_ascii_of_string pre) <> "n"%char -> unrelated pre suf (lit "notes.txt").
Proof.
  intros H s _ _ _. unfold bn. destruct pre as [|c pre]; [contradiction H; reflexivity|]. cbn in *. split; intros E; injection E; intros; congruence.
Qed.
Lemma stars_holds V nm ds : NoDup V -> (forall v, In v V -> numeral (nm v) v /\ length (nm v) <= 3) ->
  holds "diffstar_fits_subvol_" ".hdf5" (stars V nm ds) V nm ds.
Proof.
  intros NV NU. apply holds_intro; [exact bn_not_nl|exact NV|exact NU| |repeat constructor; intros []].
  constructor; [apply ex_notes; discriminate|constructor].
Qed.
Lemma mahs_holds V nm dm : NoDup V -> (forall v, In v V -> numeral (nm v) v /\ length (nm v) <= 3) ->
  holds "subvol_" "_diffmah_fits.h5" (mahs V nm dm) V nm dm.
Proof.
  intros NV NU. apply holds_intro; [exact bn_not_nl'|exact NV|exact NU| |repeat constructor; intros []].
  constructor; [apply ex_notes; discriminate|constructor].
Qed.
Lemma ex_dec V : (forall v, In v V -> v < 1000) -> forall v, In v V -> numeral (dec v) v /\ length (dec v) <= 3.
Proof. intros H v Hv. split; [apply dec_numeral|]. apply dec_length_iff; [lia|]. apply H in Hv. exact Hv. Qed.
Lemma ex_dec0 V : (forall v, In v V -> v < 1000) -> forall v, In v V -> numeral (dec0 3 v) v /\ length (dec0 3 v) = 3.
Proof.
  intros H v Hv. split; [apply dec0_numeral|]. unfold dec0. rewrite app_length, repeat_length.
  assert (length (dec v) <= 3); [|lia]. apply dec_length_iff; [lia|]. apply H in Hv. exact Hv.
Qed.
Lemma ex_V v : In v [4; 12] -> v < 20.
Proof. intros [<-|[<-|[]]]; lia. Qed.
Lemma ex_nd : NoDup [4; 12].
Proof. repeat constructor; cbn; lia. Qed.
Lemma ex_asc : ascending [4; 12].
Proof. intros i j L1 L2. cbn in L2. destruct j as [|[|j]]; [lia| |lia]. destruct i; [cbn; lia|lia]. Qed.

Lemma ex_dirs (dm ds : nat -> hdf) : let V := [4; 12] in
  let d := stars V dec ds in let d0 := stars V (dec0 3) ds in let m := dr1_mahs V dec dm in let m0 := mahs V (dec0 3) dm in
  ascending V /\ holds "diffstar_fits_subvol_" ".hdf5" d V dec ds /\ holds "diffstar_fits_subvol_" ".hdf5" d0 V (dec0 3) ds /\
  unpadded V dec /\ of_width 3 V (dec0 3) /\ beside DR1 m V dec dm /\ beside DR1_nomerging m0 V dec dm /\
  map fst d = map lit ["diffstar_fits_subvol_4.hdf5"; "diffstar_fits_subvol_12.hdf5"; "notes.txt"]%string /\
  map fst m0 = map lit ["subvol_004_diffmah_fits.h5"; "subvol_012_diffmah_fits.h5"; "notes.txt"]%string.
Proof.
  intros V d d0 m m0.
  assert (VL : forall v, In v V -> v < 1000) by (intros v Hv; apply ex_V in Hv; lia).
  split; [exact ex_asc|]. split; [apply stars_holds; [exact ex_nd|apply ex_dec, VL]|].
  split; [apply stars_holds; [exact ex_nd|intros v Hv; destruct (ex_dec0 V VL v Hv) as [A ->]; split; [exact A|lia]]|].
  split; [split; [intros v _; apply dec_plain|exists 4; split; [left; reflexivity|lia]]|].
  split; [intros v Hv; apply (ex_dec0 V VL v Hv)|]. split; [|split; [|split; reflexivity]].
  - split.
    + unfold m, dr1_mahs. rewrite map_map. cbn [fst]. apply NoDup_map_on; [|exact ex_nd]. intros x y _ _ E. apply bn_inj in E.
      destruct (dec_numeral x) as (_ & _ & X). destruct (dec_numeral y) as (_ & _ & Y). congruence.
    + intros v Hv. apply (in_map (fun v => (bn "diffmah_fits_subvol_" ".hdf5" (dec v), dm v))), Hv.
  - exists V, (dec0 3). split; [|split; [right; exists 3; intros v Hv; apply (ex_dec0 V VL v Hv)|apply incl_refl]].
    apply mahs_holds; [exact ex_nd|]. intros v Hv. destruct (ex_dec0 V VL v Hv) as [A ->]. split; [exact A|lia].
Qed.

(** Directories that cannot be read. *)
Definition odd_name (v : nat) : str := if v <? 8 then dec v else dec0 2 v.
Lemma ex_bad (ds : nat -> hdf) : 
  (holds "diffstar_fits_subvol_" ".hdf5" (stars [99; 100] dec ds) [99; 100] dec ds /\ ascending [99; 100] /\
   forall v, In v [99; 100] -> plain (dec v) v /\ 10 <= v) /\
  (holds "diffstar_fits_subvol_" ".hdf5" (stars [7; 8] odd_name ds) [7; 8] odd_name ds /\ ascending [7; 8] /\
   length (odd_name 7) = 1 /\ ~ plain (odd_name 8) 8 /\
   map fst (stars [7; 8] odd_name ds) = map lit ["diffstar_fits_subvol_7.hdf5"; "diffstar_fits_subvol_08.hdf5"; "notes.txt"]%string).
Proof.
  split.
  - split; [apply stars_holds; [repeat constructor; cbn; lia|]|split].
    + apply ex_dec. intros v [<-|[<-|[]]]; lia.
    + intros i j L1 L2. cbn in L2. destruct j as [|[|j]]; [lia| |lia]. destruct i; [cbn; lia|lia].
    + intros v Hv. split; [apply dec_plain|]. destruct Hv as [<-|[<-|[]]]; lia.
  - split; [apply stars_holds; [repeat constructor; cbn; lia|]|split; [|split; [reflexivity|split; [|reflexivity]]]].
    + intros v [<-|[<-|[]]]; [split; [exact (dec_numeral 7)|vm_compute; lia]|split; [exact (dec0_numeral 2 8)|vm_compute; lia]].
    + intros i j L1 L2. cbn in L2. destruct j as [|[|j]]; [lia| |lia]. destruct i; [cbn; lia|lia].
    + intros [_ P]. specialize (P _ (dec_numeral 8)). vm_compute in P. lia.
Qed.

Lemma ex_run (ds : nat -> hdf) : let extra : dir := [(lit "subvol_007_tmp_sfh_fits_rank_0.dat", [])] in
  Forall (unrelated "diffstar_fits_subvol_" ".hdf5") (map fst extra) /\
  NoDup (map fst (map (fun vn => (snd vn, ds (fst vn))) (fit_names 7 12) ++ extra)).
Proof.
  intros extra. split.
  - constructor; [|constructor]. intros s _ _ _. unfold bn. cbn. split; intros E; injection E; discriminate.
  - apply (ho_names _ _ _ (seq 7 5) dec ds (holds_intro "diffstar_fits_subvol_" ".hdf5" (seq 7 5) dec ds extra bn_not_nl (seq_NoDup _ _)
      (ex_dec (seq 7 5) ltac:(intros v Hv; apply in_seq in Hv; lia)) ltac:(constructor; [|constructor]; intros s _ _ _; unfold bn; cbn; split; intros E; injection E; discriminate)
      ltac:(repeat constructor; intros []))).
Qed.

Open Scope R_scope.
Lemma ex_measure : let age (z : xr) := (Fin 13 - z)%X in
  setup age (fun z => 13 - z) (log10R (138 / 10)) exq_T [0; 1] [count (below 13) exq_T; count (below 12) exq_T] /\
  (forall v : nat, choice_ok ex_choice) /\
  let I (v : nat) := [2 * v; 2 * v + 1; 2 * v + 50]%nat in
  let G v := filter (fun g => above0 (ex_loss g) && is1 (ex_flag g)) (I v) in
  let up g := if Nat.even g then (-1)%Z else 3%Z in
  forall v, In v [4; 12]%nat -> (v < 20)%nat /\ NoDup (I v) /\ fit_files (ex_dm (I v)) (ex_ds (I v)) (I v) ex_loss ex_flag ex_hm ex_q /\
     (forall g, In g (G v) -> SpecMeasure.good ex_kern ex_sing exq_T ex_hm ex_q exq_p (fun _ _ => 12) exq_M g) /\
     (exists g, In g (G v) /\ up g = (-1)%Z) /\ (exists g, In g (G v) /\ up g <> (-1)%Z).
Proof.
  intros age. assert (P : pow10R (log10R (138 / 10)) = 138 / 10) by (apply pow10_log10; lra). split; [|split].
  - constructor; try assumption; try lra; try discriminate.
    + intros z Hz. reflexivity.
    + intros; lra.
    + rewrite P. reflexivity.
    + repeat constructor; lra.
    + constructor; [|constructor; [|constructor]].
      * exists 13. split; [|reflexivity]. exists 0%nat. split; [lia|]. unfold knot. cbn [INR]. split; [lra|]. field.
      * exists 12. split; [|reflexivity]. exists 199%nat. split; [lia|]. unfold knot.
        replace (INR 199) with 199 by (rewrite INR_IZR_INZ; reflexivity). replace (INR 200) with 200 by (rewrite INR_IZR_INZ; reflexivity).
        split; [lra|]. field.
  - intros _. exact ex_choice_ok.
  - intros I G up v Hv. assert (VL : (v < 20)%nat) by (apply ex_V, Hv). split; [exact VL|].
    assert (NI : NoDup (I v)) by (repeat constructor; cbn [In]; lia). split; [exact NI|]. split; [apply ex_fit_files|].
    assert (GI : forall g, In g (G v) <-> In g (I v) /\ (g < 40)%nat).
    { intros g. unfold G. rewrite filter_In, ex_sel2, Nat.ltb_lt. reflexivity. }
    split; [|split].
    + intros g Hg. apply exq_good. apply GI, Hg.
    + exists (2 * v)%nat. split; [apply GI; split; [now left|lia]|]. unfold up. rewrite Nat.even_mul. reflexivity.
    + exists (2 * v + 1)%nat. split; [apply GI; split; [right; now left|lia]|]. unfold up. rewrite Nat.even_add, Nat.even_mul. discriminate.
Qed.
Lemma ex_quality :
  let t := map (fun k => INR (S k) / 10) (seq 0 117) in
  let I (v : nat) := [2 * v; 2 * v + 1; 2 * v + 50]%nat in
  let D (g : nat) := map (fun _ => 2) t in
  let P (g : nat) := [10 ^ 12; 10 ^ 12; 3] in
  let sel g := above0 (ex_loss g) && is1 (ex_flag g) in
  let data v := Some (map (fun g => map Fin (D g)) (I v), map (fun g => map Fin (P g)) (I v)) in
  length t = 117%nat /\ increasing (1 / 1000 :: t) /\ sel 8%nat = true /\
  forall v, In v [4; 12]%nat -> fit_files (ex_dm (I v)) (ex_ds (I v)) (I v) ex_loss ex_flag ex_hm ex_q /\
     data v = Some (map (fun g => map Fin (D g)) (I v), map (fun g => map Fin (P g)) (I v)) /\
     (forall g, In g (I v) -> length (D g) = 117%nat) /\
     (forall g, In g (I v) -> sel g = true -> SpecMeasure.good ex_kern ex_sing exq_T ex_hm ex_q exq_p (fun _ _ => 12) exq_M g /\
        Forall (fun s => 0 <= s) (D g) /\ P g <> [] /\ is_running_max (map clipped_log (P g)) (length (P g) - 1) 12).
Proof.
  intros t I D P sel data. assert (L : length t = 117%nat) by (unfold t; rewrite map_length; apply seq_length).
  split; [exact L|]. split; [apply exq_increasing|]. split; [unfold sel; rewrite ex_sel2; reflexivity|].
  intros v _. split; [apply ex_fit_files|]. split; [reflexivity|].
  split; [intros g _; unfold D; rewrite map_length; exact L|]. intros g _ Hs. unfold sel in Hs. rewrite ex_sel2 in Hs. apply Nat.ltb_lt in Hs.
  split; [apply exq_good, Hs|]. split; [unfold D; apply Forall_forall; intros s Hx; apply in_map_iff in Hx; destruct Hx as (_ & <- & _); lra|].
  split; [discriminate|exact exq_running].
Qed.
