(** Names of subvolume files: numbers as text, matching, listing and loading. *)
From Coq Require Import Reals List Bool ZArith NArith Ascii String Lia Sorting.Sorted Sorting.Permutation.
From Verif Require Import XReal ModelUtils ModelKernels ModelSfh ModelPop ModelHist ModelFit ModelLoad ModelIO ModelTargets ModelQuality ModelSubvol
  TextProofs TableProofs LossProofs SpecSubvol.
Import List ListNotations.
Open Scope nat_scope.

Local Notation length := List.length.

(** ** Digits *)
Lemma digit_iff c : In c (list_ascii_of_string "0123456789") <-> is_digit c = true.
Proof.
  split.
  - cbn. intros H. repeat (destruct H as [<-|H]; [reflexivity|]). contradiction.
  - destruct c as [[] [] [] [] [] [] [] []]; cbn; intro H; try discriminate H; tauto.
Qed.
Lemma digits_all s : digits s <-> all_digits s.
Proof. unfold digits, all_digits. rewrite !Forall_forall. split; intros H c Hc; apply digit_iff, H, Hc. Qed.
Lemma digits_forallb s : digits s <-> forallb is_digit s = true.
Proof. rewrite digits_all. unfold all_digits. rewrite forallb_forall, Forall_forall. reflexivity. Qed.

Definition dg (c : ascii) : nat := nat_of_ascii c - nat_of_ascii "0".
Lemma dg_lt c : is_digit c = true -> dg c < 10.
Proof. destruct c as [[] [] [] [] [] [] [] []]; cbn; intro H; try discriminate H; lia. Qed.
Lemma dg_inj c c' : is_digit c = true -> is_digit c' = true -> dg c = dg c' -> c = c'.
Proof.
  intros H H' E. apply digit_iff in H. apply digit_iff in H'. cbn in H, H'.
  repeat (destruct H as [<-|H]; [repeat (destruct H' as [<-|H']; [first [reflexivity|discriminate E]|]); contradiction|]). contradiction.
Qed.
Lemma dg_N c : is_digit c = true -> (N_of_ascii c - 48)%N = N.of_nat (dg c).
Proof. destruct c as [[] [] [] [] [] [] [] []]; cbn; intro H; try discriminate H; reflexivity. Qed.

Lemma value_lt s : all_digits s -> value s < 10 ^ length s.
Proof.
  induction 1 as [|c s Hc Hs IH]; [cbn; lia|]. cbn [value length]. fold (dg c). pose proof (dg_lt c Hc).
  rewrite Nat.pow_succ_r'. set (p := 10 ^ length s) in *. clearbody p. nia.
Qed.
Lemma value_inj s : forall s', all_digits s -> all_digits s' -> length s = length s' -> value s = value s' -> s = s'.
Proof.
  induction s as [|c s IH]; intros [|c' s'] H H' L E; try discriminate L; [reflexivity|].
  inversion H; inversion H'; subst. injection L as L. cbn [value] in E. fold (dg c) in E. fold (dg c') in E. rewrite L in E.
  pose proof (value_lt s H3) as B. pose proof (value_lt s' H7) as B'. rewrite L in B.
  assert (Q : dg c = dg c') by (set (p := 10 ^ length s') in *; clearbody p; nia).
  rewrite Q in E. f_equal; [apply dg_inj; assumption|]. apply IH; [assumption..|]. lia.
Qed.
Lemma value_app s t : value (s ++ t) = value s * 10 ^ length t + value t.
Proof.
  induction s as [|c s IH]; [reflexivity|]. cbn [app value]. rewrite IH, app_length, Nat.pow_add_r. lia.
Qed.
Lemma value_num s : all_digits s -> num_of_digits s = N.of_nat (value s).
Proof.
  induction s as [|c s IH] using rev_ind; intros H; [reflexivity|].
  apply Forall_app in H. destruct H as [H1 H2]. inversion H2; subst.
  unfold num_of_digits in *. rewrite fold_left_app. cbn [fold_left]. rewrite IH by assumption.
  rewrite value_app. cbn [length value Nat.pow]. fold (dg c). rewrite dg_N by assumption. lia.
Qed.
Lemma value_zeros k s : value (repeat "0"%char k ++ s) = value s.
Proof. induction k; [reflexivity|]. cbn [repeat app value]. rewrite IHk. cbn. reflexivity. Qed.

(** ** Decimal text *)
Lemma dec_digits_length fuel : forall n acc, (n < 2 ^ N.of_nat fuel)%N -> 0 < fuel ->
  exists L, length (dec_digits fuel n acc) = S L + length acc /\ (L = 0 \/ (10 ^ N.of_nat L <= n)%N).
Proof.
  induction fuel as [|fuel IH]; intros n acc Hn Hf; [lia|].
  cbn [dec_digits]. cbv zeta. destruct (N.eqb_spec (n / 10) 0) as [E|E].
  - exists 0. cbn [length]. split; [lia|left; reflexivity].
  - assert (Hd : (n / 10 < 2 ^ N.of_nat fuel)%N).
    { apply N.div_lt_upper_bound; [lia|]. rewrite Nat2N.inj_succ, N.pow_succ_r' in Hn. lia. }
    assert (Hf' : 0 < fuel).
    { destruct fuel; [|lia]. change (2 ^ N.of_nat 0)%N with 1%N in Hd. apply N.lt_1_r in Hd. congruence. }
    destruct (IH (n / 10)%N (digit (n mod 10) :: acc) Hd Hf') as (L & H1 & H2).
    exists (S L). rewrite H1. cbn [length]. split; [lia|right].
    rewrite Nat2N.inj_succ, N.pow_succ_r'. pose proof (N.div_mod' n 10) as Q.
    assert (10 ^ N.of_nat L <= n / 10)%N; [|set (q := (n / 10)%N) in *; set (r := (n mod 10)%N) in *; set (p := (10 ^ N.of_nat L)%N) in *; clearbody p q r; lia].
    destruct H2 as [->|H2]; [change (10 ^ N.of_nat 0)%N with 1%N; set (q := (n / 10)%N) in *; clearbody q; lia|exact H2].
Qed.

Lemma dec_numeral v : numeral (dec v) v.
Proof.
  unfold numeral, dec. destruct (str_of_N_spec (N.of_nat v)) as (ds & E & N1 & D & V). rewrite E.
  split; [exact N1|]. split; [apply digits_all, D|]. rewrite value_num in V by exact D. lia.
Qed.
Lemma dec_length v : exists L, length (dec v) = S L /\ (L = 0 \/ 10 ^ L <= v).
Proof.
  unfold dec, str_of_N. destruct (dec_digits_length (S (N.size_nat (N.of_nat v))) (N.of_nat v) [] (size_bound _)) as (L & E & H); [lia|].
  exists L. cbn [length] in E. split; [lia|]. destruct H as [H|H]; [left; exact H|right].
  assert (P : (10 ^ N.of_nat L)%N = N.of_nat (10 ^ L)) by (rewrite Nat2N.inj_pow; reflexivity).
  rewrite P in H. lia.
Qed.
Lemma numeral_lt s v : numeral s v -> v < 10 ^ length s.
Proof. intros (_ & D & <-). apply value_lt, digits_all, D. Qed.
Lemma dec_plain v : plain (dec v) v.
Proof.
  split; [apply dec_numeral|]. intros s' H. destruct (dec_length v) as (L & -> & HL). pose proof (numeral_lt _ _ H) as B.
  destruct H as (NE & _ & _). assert (0 < length s') by (destruct s'; [contradiction|cbn; lia]).
  destruct HL as [->|HL]; [lia|]. destruct (Nat.lt_ge_cases L (length s')) as [Q|Q]; [exact Q|].
  pose proof (Nat.pow_le_mono_r 10 (length s') L ltac:(lia) Q). lia.
Qed.
Lemma numeral_unique s s' v : numeral s v -> numeral s' v -> length s = length s' -> s = s'.
Proof.
  intros (_ & D & E) (_ & D' & E') L. apply value_inj; [apply digits_all, D|apply digits_all, D'|exact L|congruence].
Qed.
Lemma plain_dec s v : plain s v -> s = dec v.
Proof.
  intros [H M]. apply (numeral_unique _ _ v H (dec_numeral v)).
  pose proof (M _ (dec_numeral v)). pose proof (proj2 (dec_plain v) s H). lia.
Qed.
Lemma dec_length_iff v k : 0 < k -> (length (dec v) <= k <-> v < 10 ^ k).
Proof.
  intros K. split; intros H.
  - pose proof (numeral_lt _ _ (dec_numeral v)) as B. pose proof (Nat.pow_le_mono_r 10 (length (dec v)) k ltac:(lia) H). lia.
  - destruct (dec_length v) as (L & E & [->|HL]); [lia|]. rewrite E.
    destruct (Nat.lt_ge_cases L k) as [Q|Q]; [exact Q|]. pose proof (Nat.pow_le_mono_r 10 k L ltac:(lia) Q). lia.
Qed.
Lemma dec_length_1 v : length (dec v) = 1 <-> v < 10.
Proof.
  pose proof (dec_length_iff v 1 ltac:(lia)) as H. change (10 ^ 1) with 10 in H. destruct (dec_length v) as (L & E & _). lia.
Qed.
Lemma dec0_numeral w v : numeral (dec0 w v) v.
Proof.
  unfold dec0. destruct (dec_numeral v) as (N1 & D & V). split; [|split].
  - intro E. apply app_eq_nil in E. destruct E as [_ E]. contradiction.
  - apply Forall_app. split; [|exact D]. apply Forall_forall. intros c Hc. apply repeat_spec in Hc. subst c. apply digit_iff. reflexivity.
  - rewrite value_zeros. exact V.
Qed.
Lemma dec0_width s v : numeral s v -> dec0 (length s) v = s.
Proof.
  intros H. apply (numeral_unique _ _ v (dec0_numeral _ v) H). unfold dec0. rewrite app_length, repeat_length.
  pose proof (proj2 (dec_plain v) s H). lia.
Qed.

(** ** Matching *)
Definition pat (pre suf : string) : pattern := mkPat (lit pre) (lit suf).
Lemma str_eqb_eq a b : str_eqb a b = true <-> a = b.
Proof. unfold str_eqb. destruct (list_eq_dec ascii_dec a b); split; congruence. Qed.
Lemma firstn_app_l {A} (a b : list A) : firstn (length a) (a ++ b) = a.
Proof. rewrite firstn_app, Nat.sub_diag, firstn_all, firstn_O, app_nil_r. reflexivity. Qed.
Lemma skipn_app_l {A} (a b : list A) : skipn (length a) (a ++ b) = b.
Proof. rewrite skipn_app, Nat.sub_diag, skipn_all, skipn_O. reflexivity. Qed.
Lemma re_match_iff pre suf n : re_match (pat pre suf) n = true <->
  exists s, s <> [] /\ digits s /\ length s <= 3 /\ (n = bn pre suf s \/ n = bn pre suf s ++ [ascii_of_nat 10]).
Proof.
  unfold re_match, pat, bn. cbn [p_pre p_suf]. cbv zeta. fold (lit pre) (lit suf).
  rewrite andb_true_iff, str_eqb_eq, existsb_exists. split.
  - intros (E & k & Hk & H). apply andb_true_iff in H. destruct H as [H HS]. apply andb_true_iff in H. destruct H as [HL HD].
    apply Nat.eqb_eq in HL. set (r := skipn (length (lit pre)) n) in *.
    assert (EN : n = lit pre ++ r) by (rewrite <- E at 1; symmetry; apply firstn_skipn).
    assert (ER : r = firstn k r ++ skipn k r) by (symmetry; apply firstn_skipn).
    exists (firstn k r). split; [|split; [|split]].
    + intro Z. rewrite Z in HL. cbn in HL, Hk. lia.
    + apply digits_forallb, HD.
    + cbn in Hk. lia.
    + apply orb_true_iff in HS. destruct HS as [HS|HS]; apply str_eqb_eq in HS; [left|right]; rewrite EN; rewrite ER at 1; rewrite HS.
      * reflexivity.
      * unfold NL. rewrite <- !app_assoc. reflexivity.
  - intros (s & NE & D & L3 & EN).
    assert (EN' : exists u, n = lit pre ++ s ++ u /\ (u = lit suf \/ u = lit suf ++ [NL])).
    { destruct EN as [->| ->]; [exists (lit suf)|exists (lit suf ++ [NL])]; (split; [|tauto]); [reflexivity|]. rewrite <- !app_assoc. reflexivity. }
    destruct EN' as (u & -> & HU). split; [apply firstn_app_l|]. exists (length s). split.
    + assert (0 < length s) by (destruct s; [contradiction|cbn; lia]). cbn. lia.
    + rewrite skipn_app_l, firstn_app_l, skipn_app_l, Nat.eqb_refl. apply digits_forallb in D. rewrite D. cbn [andb].
      apply orb_true_iff. destruct HU as [->| ->]; [left|right]; apply str_eqb_eq; reflexivity.
Qed.

(** ** Fields of a name *)
Lemma digit_neq c s : is_digit c = false -> digits s -> ~ In c s.
Proof. intros H D I. apply digits_all in D. unfold all_digits in D. rewrite Forall_forall in D. apply D in I. congruence. Qed.
Lemma last_field_star s t : digits s -> ~ In "_"%char t -> last_field (bn "diffstar_fits_subvol_" ".hdf5" s ++ t) = s.
Proof.
  intros D T. unfold last_field.
  assert (E : bn "diffstar_fits_subvol_" ".hdf5" s ++ t
    = lit "diffstar" ++ "_"%char :: lit "fits" ++ "_"%char :: lit "subvol" ++ "_"%char :: s ++ "."%char :: lit "hdf5" ++ t).
  { unfold bn. rewrite <- !app_assoc. reflexivity. }
  rewrite E. rewrite !split_on_app by (cbn; intuition discriminate). rewrite (split_on_none "_"%char).
  - cbn [last]. rewrite split_on_app by (apply digit_neq; [reflexivity|exact D]). reflexivity.
  - intro I. apply in_app_iff in I. destruct I as [I|[I|I]]; [revert I; apply digit_neq; [reflexivity|exact D]|discriminate I|].
    apply in_app_iff in I. destruct I as [I|I]; [cbn in I; intuition discriminate|contradiction].
Qed.
Lemma second_field_mah s t : digits s -> second_field (bn "subvol_" "_diffmah_fits.h5" s ++ t) = Some s.
Proof.
  intros D. unfold second_field.
  assert (E : bn "subvol_" "_diffmah_fits.h5" s ++ t = lit "subvol" ++ "_"%char :: s ++ "_"%char :: lit "diffmah_fits.h5" ++ t).
  { unfold bn. rewrite <- !app_assoc. reflexivity. }
  rewrite E. rewrite split_on_app by (cbn; intuition discriminate).
  rewrite split_on_app by (apply digit_neq; [reflexivity|exact D]). reflexivity.
Qed.

(** ** A directory of numbered files *)
Lemma bn_inj pre suf s s' : bn pre suf s = bn pre suf s' -> s = s'.
Proof. unfold bn. intros E. apply app_inv_head in E. apply app_inv_tail in E. exact E. Qed.
Lemma open_file_in n f d : NoDup (map fst d) -> In (n, f) d -> open_file n d = Some f.
Proof.
  induction d as [|[k g] d IH]; intros ND H; [contradiction|]. cbn [open_file map fst] in *. inversion ND; subst.
  destruct (str_eqb k n) eqn:e.
  - apply str_eqb_eq in e. subst k. destruct H as [H|H]; [congruence|]. exfalso. apply H2. exact (in_map fst _ _ H).
  - destruct H as [H|H]; [|apply IH; assumption]. injection H as -> ->. assert (str_eqb n n = true) by (apply str_eqb_eq; reflexivity). congruence.
Qed.
Lemma open_file_none n d : ~ In n (map fst d) -> open_file n d = None.
Proof.
  induction d as [|[k g] d IH]; intros H; [reflexivity|]. cbn [open_file map fst] in *.
  destruct (str_eqb k n) eqn:e; [|apply IH; intro C; apply H; right; exact C]. apply str_eqb_eq in e. subst. exfalso. apply H. left. reflexivity.
Qed.

Section Directory.
Context {pre suf : string} {d : dir} {V : list nat} {nm : nat -> str} {file : nat -> hdf}.
Hypothesis H : holds pre suf d V nm file.

(** The names that match are those of the members. *)
Lemma matching_in n : In n (matching_files (pat pre suf) (listdir d)) <-> exists v, In v V /\ n = bn pre suf (nm v).
Proof using H.
  unfold matching_files. rewrite filter_In, re_match_iff. split.
  - intros (I & s & NE & D & L & E). destruct (ho_only _ _ _ _ _ _ H n s I NE D L E) as [A B]. exists (value s). split; assumption.
  - intros (v & Hv & ->). destruct (ho_number _ _ _ _ _ _ H v Hv) as ((NE & D & _) & L). split.
    + apply (in_map fst _ _ (ho_files _ _ _ _ _ _ H v Hv)).
    + exists (nm v). repeat split; try assumption. left. reflexivity.
Qed.
Lemma nm_inj v v' : In v V -> In v' V -> nm v = nm v' -> v = v'.
Proof using H.
  intros A B E. destruct (ho_number _ _ _ _ _ _ H v A) as ((_ & _ & X) & _). destruct (ho_number _ _ _ _ _ _ H v' B) as ((_ & _ & Y) & _). congruence.
Qed.
Lemma NoDup_map_on {A B} (f : A -> B) l : (forall x y, In x l -> In y l -> f x = f y -> x = y) -> NoDup l -> NoDup (map f l).
Proof.
  intros I ND. induction ND as [|x l Hx ND IH]; [constructor|]. cbn [map]. constructor.
  - intro C. apply in_map_iff in C. destruct C as (y & E & Hy). apply I in E; [subst; contradiction|right; exact Hy|left; reflexivity].
  - apply IH. intros a b Ha Hb. apply I; right; assumption.
Qed.
Lemma matching_perm : NoDup V -> Permutation (matching_files (pat pre suf) (listdir d)) (map (fun v => bn pre suf (nm v)) V).
Proof using H.
  intros NV. apply NoDup_Permutation.
  - apply NoDup_filter, (ho_names _ _ _ _ _ _ H).
  - apply NoDup_map_on; [|exact NV]. intros x y Hx Hy E. apply bn_inj in E. apply nm_inj; assumption.
  - intros n. rewrite matching_in, in_map_iff. split; intros (v & A & B); exists v; split; auto.
Qed.
End Directory.

(** Sorting *)
Lemma insert_perm x l : Permutation (insert_nat x l) (x :: l).
Proof.
  induction l as [|y l IH]; [reflexivity|]. cbn [insert_nat]. destruct (Nat.leb x y); [reflexivity|].
  rewrite IH. apply perm_swap.
Qed.
Lemma sort_perm l : Permutation (sort_nat l) l.
Proof. induction l as [|x l IH]; [reflexivity|]. cbn. rewrite insert_perm. constructor. exact IH. Qed.
Lemma insert_sorted x l : StronglySorted le l -> StronglySorted le (insert_nat x l).
Proof.
  induction 1 as [|y l S IH F]; [repeat constructor|]. cbn [insert_nat]. destruct (Nat.leb_spec x y) as [Q|Q].
  - constructor; [constructor; assumption|]. constructor; [exact Q|]. eapply Forall_impl; [|exact F]. cbn. lia.
  - constructor; [exact IH|]. apply Forall_forall. intros z Hz. apply (Permutation_in z (insert_perm x l)) in Hz.
    destruct Hz as [<-|Hz]; [lia|]. rewrite Forall_forall in F. apply F, Hz.
Qed.
Lemma sort_sorted l : StronglySorted le (sort_nat l).
Proof. induction l as [|x l IH]; [constructor|]. cbn. apply insert_sorted, IH. Qed.
Lemma sorted_unique l : forall l', StronglySorted le l -> StronglySorted le l' -> Permutation l l' -> l = l'.
Proof.
  induction l as [|x l IH]; intros l' S S' P; [apply Permutation_nil in P; congruence|].
  destruct l' as [|y l']; [apply Permutation_sym, Permutation_nil in P; congruence|].
  inversion S as [|? ? S1 F1]; inversion S' as [|? ? S1' F1']; subst.
  assert (x = y).
  { assert (A : In x (y :: l')) by (apply (Permutation_in x P); left; reflexivity).
    assert (B : In y (x :: l)) by (apply (Permutation_in y (Permutation_sym P)); left; reflexivity).
    rewrite Forall_forall in F1, F1'. destruct A as [A|A]; [congruence|]. destruct B as [B|B]; [congruence|].
    apply F1' in A. apply F1 in B. lia. }
  subst y. f_equal. apply IH; [assumption..|]. apply (Permutation_cons_inv P).
Qed.
Lemma ascending_sorted l : ascending l -> StronglySorted le l /\ NoDup l.
Proof.
  induction l as [|x l IH]; intros A; [split; constructor|].
  destruct IH as [I1 I2]. { intros i j L1 L2. apply (A (S i) (S j)); cbn [length]; lia. }
  assert (F : forall y, In y l -> x < y).
  { intros y Hy. apply (In_nth l y 0) in Hy. destruct Hy as (k & Hk & <-). apply (A 0 (S k)); cbn [length]; lia. }
  split; constructor; [exact I1| |intro C; apply F in C; lia|exact I2].
  apply Forall_forall. intros y Hy. apply F in Hy. lia.
Qed.
Lemma sort_ascending l V : ascending V -> Permutation l V -> sort_nat l = V.
Proof.
  intros A P. destruct (ascending_sorted V A) as [S _]. apply sorted_unique; [apply sort_sorted|exact S|]. rewrite sort_perm. exact P.
Qed.

Lemma parse_int_digits s : s <> [] -> digits s -> parse_int s = Some (Z.of_nat (value s)).
Proof.
  intros NE D. apply digits_all in D. unfold parse_int. destruct s as [|c s]; [contradiction|].
  inversion D; subst. rewrite parse_sign_digit by assumption. rewrite <- (app_nil_r (c :: s)) at 1. rewrite take_digits_app by (assumption || exact I).
  rewrite (value_num _ D). f_equal. rewrite nat_N_Z. reflexivity.
Qed.

(** ** The listing *)
Section Star.
Context {d : dir} {V : list nat} {nm : nat -> str} {file : nat -> hdf}.
Hypothesis H : holds "diffstar_fits_subvol_" ".hdf5" d V nm file.

Lemma star_numbers : NoDup V -> Permutation (map last_field (matching_files DIFFSTAR_BNPAT (listdir d))) (map nm V).
Proof using H.
  intros NV. change DIFFSTAR_BNPAT with (pat "diffstar_fits_subvol_" ".hdf5"). rewrite (Permutation_map last_field (matching_perm H NV)), map_map.
  erewrite map_ext_in; [reflexivity|]. intros v Hv. cbn beta. rewrite <- (app_nil_r (bn _ _ _)). apply last_field_star; [|intros []].
  apply (ho_number _ _ _ _ _ _ H v Hv).
Qed.
Theorem list_subvols_value : ascending V -> list_subvols d DIFFSTAR_BNPAT = Some V.
Proof using H.
  intros A. destruct (ascending_sorted V A) as [_ NV]. pose proof (star_numbers NV) as P. unfold list_subvols.
  set (l := map last_field (matching_files DIFFSTAR_BNPAT (listdir d))) in *.
  assert (Q : vmap parse_int l = Some (map (fun s => Z.of_nat (value s)) l)).
  { apply vmap_map_some. intros s Hs. apply (Permutation_in s P) in Hs. apply in_map_iff in Hs. destruct Hs as (v & <- & Hv).
    destruct (ho_number _ _ _ _ _ _ H v Hv) as ((N1 & D & _) & _). apply parse_int_digits; assumption. }
  rewrite Q. cbn [option_map]. f_equal. apply sort_ascending; [exact A|]. rewrite map_map, P, map_map.
  erewrite map_ext_in; [rewrite map_id; reflexivity|]. intros v Hv. cbn beta. destruct (ho_number _ _ _ _ _ _ H v Hv) as ((_ & _ & E) & _). rewrite E. apply Nat2Z.id.
Qed.
End Star.
