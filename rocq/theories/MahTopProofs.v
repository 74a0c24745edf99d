(** The halo-history script end to end. *)
From Coq Require Import Reals List Bool ZArith Ascii String Lia Lra.
From Verif Require Import XReal RealFacts XFacts ModelUtils ModelKernels ModelSfh ModelLoad ModelIO ModelMah SpecLoad SpecIO SpecMah
  TextProofs TableProofs SplitProofs MoreLoadProofs MahProofs.
Import List ListNotations.
Open Scope nat_scope.

Local Notation length := List.length.

Section Top.
Context {fitted : Type} {HEADER : str} {outl : fitted -> str} {fitter : nat -> nat -> list xr -> list xr -> bool -> option fitted}
  {k : nat} {fields : fitted -> list str} {f : MahFile} {N : nat} {t m : nat -> list R}.
Hypothesis RF : row_format HEADER outl k fields.
Hypothesis K : 2 <= k.
Hypothesis C : catalog f N t m.
Hypothesis FT : forall r i T M s, fitter r i T M s <> None.
Variable dtm : R.

Definition count_of (test : bool) (l : nat) : nat := if test then Nat.min l 50 else l.

Lemma rank_value T0 test n r : latest N t T0 -> r < n -> 0 < rank_load N n r ->
  exists outs, mah_rank fitted HEADER outl fitter f (Fin dtm) test (Fin T0) n r = Some (HEADER ++ List.concat (map outl outs)) /\
    Forall2 (fun i out => exists T M skip, let g := rank_start N n r + i in prepared T0 (t g) (m g) T M /\
      (skip = true <-> (end_of (t g) - nth 0 (t g) 0 < dtm)%R) /\ fitter r i (map Fin T) (map Fin M) skip = Some out)
      (seq 0 (count_of test (rank_load N n r))) outs.
Proof using All.
  intros LA Hr HL. unfold mah_rank. rewrite (part_value C) by assumption. cbv zeta.
  rewrite map_length, seq_length. change (if test then Nat.min (rank_load N n r) N_HALOS_TEST else rank_load N n r) with (count_of test (rank_load N n r)).
  set (s := rank_start N n r). set (l := rank_load N n r) in *. assert (RR : s + l <= N) by (apply rank_range; lia).
  assert (X : forall is, (forall i, In i is -> i < l) -> exists outs, 
    vmap (fun i => match nth_error (map (fun g => map Fin (t g)) (seq s l)) i, nth_error (map (fun g => map Fin (m g)) (seq s l)) i with
      | Some t_sim, Some mah => match fit_input (Fin T0) (Fin dtm) t_sim mah with
          | Some (t, m, skip) => option_map outl (fitter r i t m skip) | None => None end
      | _, _ => None end) is = Some (map outl outs) /\
    Forall2 (fun i out => exists T M skip, let g := s + i in prepared T0 (t g) (m g) T M /\
      (skip = true <-> (end_of (t g) - nth 0 (t g) 0 < dtm)%R) /\ fitter r i (map Fin T) (map Fin M) skip = Some out) is outs).
  { induction is as [|i is IH]; intros B; [exists []; split; [reflexivity|constructor]|].
    destruct IH as (outs & E & F2); [intros; apply B; now right|]. assert (Hi : i < l) by (apply B; now left).
    destruct (fit_input_value C T0 dtm (s + i)) as (T & M & EI & P); [lia|apply LA; lia|].
    destruct (fitter r i (map Fin T) (map Fin M) (skips dtm (t (s + i)))) as [out|] eqn:EF; [|exfalso; exact (FT _ _ _ _ _ EF)].
    exists (out :: outs). split.
    - unfold vmap in *. cbn [map sequence]. rewrite !nth_error_map.
      rewrite (nth_error_nth' (seq s l) 0) by (rewrite seq_length; exact Hi). rewrite seq_nth by exact Hi. cbn [option_map]. rewrite EI, EF. cbn [option_map].
      destruct (sequence _); [|discriminate]. injection E; intros ->. reflexivity.
    - constructor; [|exact F2]. exists T, M, (skips dtm (t (s + i))). split; [exact P|]. split; [|exact EF].
      unfold skips. destruct (Rlt_dec _ _); split; intros; auto; try discriminate; contradiction. }
  destruct (X (seq 0 (count_of test l))) as (outs & E & F2).
  { intros i Hi. apply in_seq in Hi. unfold count_of in Hi. destruct test; lia. }
  rewrite E. exists outs. split; [reflexivity|exact F2].
Qed.

Lemma ranks_value T0 test n : latest N t T0 -> 0 < n -> n <= N -> forall rs, (forall r, In r rs -> r < n) ->
  exists os, vmap (mah_rank fitted HEADER outl fitter f (Fin dtm) test (Fin T0) n) rs = Some (map (fun outs => HEADER ++ List.concat (map outl outs)) os) /\
    Forall2 (fun r outs => length outs = count_of test (rank_load N n r) /\
      Forall2 (fun g row => row_for fitter fields T0 dtm t m (rank_parts N n) g row)
      (firstn (count_of test (rank_load N n r)) (seq (rank_start N n r) (rank_load N n r))) (map fields outs)) rs os.
Proof using All.
  intros LA Hn HN. induction rs as [|r rs IH]; intros B; [exists []; split; [reflexivity|constructor]|].
  destruct IH as (os & E & F2); [intros; apply B; now right|]. assert (Hr : r < n) by (apply B; now left).
  assert (HL : 0 < rank_load N n r).
  { rewrite rank_load_value by assumption. assert (1 <= N / n); [|lia]. apply Nat.div_le_lower_bound; lia. }
  destruct (rank_value T0 test n r LA Hr HL) as (outs & EO & FO). exists (outs :: os). split.
  - unfold vmap in *. cbn [map sequence]. rewrite EO. destruct (sequence _); [|discriminate]. injection E; intros ->. reflexivity.
  - constructor; [|exact F2]. set (c := count_of test (rank_load N n r)) in *.
    assert (LO : length outs = c) by (clear - FO; rewrite <- (seq_length c 0); induction FO; cbn; congruence).
    split; [exact LO|].
    assert (CL : c <= rank_load N n r) by (unfold c, count_of; destruct test; lia).
    assert (EF : firstn c (seq (rank_start N n r) (rank_load N n r)) = map (fun i => rank_start N n r + i) (seq 0 c)).
    { replace (rank_load N n r) with (c + (rank_load N n r - c)) by lia. rewrite seq_app, firstn_app, seq_length, Nat.sub_diag.
      cbn [firstn]. rewrite app_nil_r. rewrite firstn_all2 by (rewrite seq_length; lia). 
      clear. generalize (rank_start N n r) as s. intros s. apply nth_ext with (d := 0) (d' := s + 0); [rewrite map_length, !seq_length; reflexivity|].
      intros i Hi. rewrite seq_length in Hi. rewrite (map_nth (fun i => s + i)), !seq_nth by exact Hi. lia. }
    rewrite EF. assert (BI : forall i, In i (seq 0 c) -> i < rank_load N n r) by (intros i Hi; apply in_seq in Hi; lia).
    revert BI. clear - FO Hr. induction FO as [|i out is outs (T & M & skip & P & SK & EQ) FO IH]; intros BI; cbn [map]; constructor; [|apply IH; intros; apply BI; now right].
    exists T, M, skip, r, i, out. split; [exact P|]. split; [exact SK|]. split; [|split; [exact EQ|reflexivity]].
    unfold rank_parts. rewrite (nth_indep _ [] (seq (rank_start N n 0) (rank_load N n 0))) by (rewrite map_length, seq_length; exact Hr).
    rewrite (map_nth (fun r => seq (rank_start N n r) (rank_load N n r))), seq_nth by exact Hr. cbn [Nat.add].
    rewrite (nth_error_nth' _ 0) by (rewrite seq_length; apply BI; now left). rewrite seq_nth by (apply BI; now left). reflexivity.
Qed.

Lemma script_eq test n : 0 < n -> n <= N -> exists T0 os, latest N t T0 /\
  mah_script fitted HEADER outl fitter f (Fin dtm) test n = @collected fitted HEADER outl os /\
  Forall2 (fun r outs => length outs = count_of test (rank_load N n r) /\
      Forall2 (fun g row => row_for fitter fields T0 dtm t m (rank_parts N n) g row)
      (firstn (count_of test (rank_load N n r)) (seq (rank_start N n r) (rank_load N n r))) (map fields outs)) (seq 0 n) os.
Proof using All.
  intros Hn HN. destruct (t0_value C n Hn HN) as (T0 & E & LA).
  destruct (ranks_value T0 test n LA Hn HN (seq 0 n)) as (os & EO & F2); [intros r Hr; apply in_seq in Hr; lia|].
  exists T0, os. split; [exact LA|]. split; [|exact F2]. unfold mah_script. rewrite E, EO. reflexivity.
Qed.
Lemma F2_len {A B} (P : A -> B -> Prop) l l' : Forall2 P l l' -> length l = length l'.
Proof. induction 1; cbn; congruence. Qed.
Lemma F2_in_r {A B} (P : A -> B -> Prop) l l' : Forall2 P l l' -> forall b, In b l' -> exists a, In a l /\ P a b.
Proof. induction 1 as [|a b l l' H F IH]; intros x []; [subst; exists a; split; [now left|exact H]|destruct (IH x) as (y & ? & ?); [assumption|exists y; split; [now right|assumption]]]. Qed.
Lemma F2_in_l {A B} (P : A -> B -> Prop) l l' : Forall2 P l l' -> forall a, In a l -> exists b, In b l' /\ P a b.
Proof. induction 1 as [|a b l l' H F IH]; intros x []; [subst; exists b; split; [now left|exact H]|destruct (IH x) as (y & ? & ?); [assumption|exists y; split; [now right|assumption]]]. Qed.

Theorem mah_value test n : 0 < n -> 2 * n <= N ->
  exists T0 parts rows, latest N t T0 /\ shares N n parts /\
    mah_script fitted HEADER outl fitter f (Fin dtm) test n = Some (S2 rows) /\
    Forall2 (row_for fitter fields T0 dtm t m parts) (if test then List.concat (map (firstn 50) parts) else seq 0 N) rows.
Proof using All.
  intros Hn HN. destruct (script_eq test n Hn ltac:(lia)) as (T0 & os & LA & E & F2).
  exists T0, (rank_parts N n), (map fields (List.concat os)). split; [exact LA|]. split; [apply rank_parts_shares, Hn|]. split.
  - rewrite E. apply (collected_table RF K).
    + apply F2_len in F2. rewrite seq_length in F2. destruct os; [cbn in F2; lia|discriminate].
    + intros p Hp. destruct (F2_in_r _ _ _ F2 p Hp) as (r & Hr & L & _). apply in_seq in Hr. rewrite L.
      assert (2 <= rank_load N n r).
      { rewrite rank_load_value by lia. assert (2 <= N / n); [|lia]. apply Nat.div_le_lower_bound; lia. }
      unfold count_of. destruct test; lia.
  - replace (if test then List.concat (map (firstn 50) (rank_parts N n)) else seq 0 N)
      with (List.concat (map (fun r => firstn (count_of test (rank_load N n r)) (seq (rank_start N n r) (rank_load N n r))) (seq 0 n))).
    + clear E. rewrite concat_map. assert (NR : forall r, In r (seq 0 n) -> True) by auto. revert NR.
      induction F2 as [|r outs rs os (L & F) F2 IH]; intros _; [constructor|]. cbn [map List.concat]. apply Forall2_app; [exact F|apply IH; auto].
    + destruct test.
      * unfold rank_parts. rewrite map_map. f_equal. apply map_ext. intros r. unfold count_of.
        destruct (Nat.le_gt_cases (rank_load N n r) 50) as [H|H].
        -- rewrite Nat.min_l by exact H. rewrite !firstn_all2 by (rewrite seq_length; lia). reflexivity.
        -- rewrite Nat.min_r by lia. reflexivity.
      * rewrite <- (concat_ranks N n Hn). f_equal. apply map_ext. intros r. unfold count_of. apply firstn_all2. rewrite seq_length. lia.
Qed.

Theorem mah_raises test n : 0 < n -> N < n \/ (n < N /\ N < 2 * n) -> mah_script fitted HEADER outl fitter f (Fin dtm) test n = None.
Proof using All.
  intros Hn [H|[H1 H2]].
  - unfold mah_script, t0_of. rewrite vmap_none; [reflexivity|]. exists (n - 1). split; [apply in_seq; lia|].
    rewrite (part_empty C); [reflexivity|lia|]. rewrite rank_load_value by lia. rewrite Nat.div_small, Nat.mod_small by exact H.
    destruct (Nat.ltb_spec (n - 1) N); lia.
  - destruct (script_eq test n Hn ltac:(lia)) as (T0 & os & LA & E & F2). rewrite E.
    assert (Q : N / n = 1) by (symmetry; apply (Nat.div_unique N n 1 (N - n)); lia).
    assert (RM : N mod n = N - n) by (symmetry; apply (Nat.mod_unique N n 1 (N - n)); lia).
    destruct (F2_in_l _ _ _ F2 (n - 1)) as (q & Iq & Lq & _); [apply in_seq; lia|].
    destruct n as [|n']; [lia|]. inversion F2 as [|r0 o0 rs os' (L0 & _) F2' E1 E2]. subst.
    apply (collected_mixed RF K _ o0 q); [reflexivity| |exact Iq|].
    + rewrite L0, rank_load_value by lia. rewrite Q, RM. destruct (Nat.ltb_spec 0 (N - S n')); [|lia]. unfold count_of. destruct test; lia.
    + rewrite Lq, rank_load_value by lia. rewrite Q, RM. destruct (Nat.ltb_spec (S n' - 1) (N - S n')); [lia|]. unfold count_of. destruct test; lia.
Qed.
(** One halo per rank: no table, but one row of all fields. *)
Theorem mah_flat test : 0 < N -> exists l, mah_script fitted HEADER outl fitter f (Fin dtm) test N = Some (S1 l) /\ length l = N * k.
Proof using All.
  intros HN. destruct (script_eq test N HN ltac:(lia)) as (T0 & os & LA & E & F2). rewrite E.
  assert (Q : N / N = 1) by (apply Nat.div_same; lia). assert (RM : N mod N = 0) by (apply Nat.mod_same; lia).
  assert (L1 : forall p, In p os -> length p = 1).
  { intros p Hp. destruct (F2_in_r _ _ _ F2 p Hp) as (r & Hr & L & _). apply in_seq in Hr. rewrite L, rank_load_value by lia. rewrite Q, RM.
    destruct (Nat.ltb_spec r 0); [lia|]. destruct test; reflexivity. }
  apply F2_len in F2. rewrite seq_length in F2.
  rewrite (collected_flat RF K). 2:{ destruct os; [cbn in F2; lia|discriminate]. } 2: exact L1.
  exists (List.concat (map fields (List.concat os))). split; [reflexivity|].
  rewrite F2 at 1. clear - L1 RF. induction os as [|p os IH]; [reflexivity|]. cbn [List.concat length]. rewrite map_app, concat_app, app_length, IH by (intros; apply L1; now right).
  pose proof (L1 p (or_introl eq_refl)) as L. destruct p as [|x [|y p]]; cbn in L; try lia. cbn. rewrite app_nil_r, (rf_width _ _ _ _ RF). reflexivity.
Qed.

Theorem mah_any_ranks n n' : (forall r i r' i' T M s, fitter r i T M s = fitter r' i' T M s) -> 0 < n -> 2 * n <= N -> 0 < n' -> 2 * n' <= N ->
  mah_script fitted HEADER outl fitter f (Fin dtm) false n = mah_script fitted HEADER outl fitter f (Fin dtm) false n'.
Proof using All.
  intros SAME H1 H2 H3 H4. destruct (mah_value false n H1 H2) as (T0 & P & rows & LA & _ & -> & F). destruct (mah_value false n' H3 H4) as (T1 & P' & rows' & LA' & _ & -> & F').
  rewrite <- (latest_unique T0 T1 LA LA') in F'. do 2 f_equal. assert (B : forall g, In g (seq 0 N) -> g < N) by (intros g Hg; apply in_seq in Hg; lia).
  cbv iota in F, F'. revert rows' F' B. induction F as [|g row gs rows R F IH]; intros rows' F' B; inversion F' as [|g' row' gs' rows'' R' F'']; subst; [reflexivity|].
  f_equal; [|apply IH; [assumption|intros; apply B; now right]].
  destruct R as (T & M & s & r & i & out & P1 & S1 & _ & E1 & ->). destruct R' as (T' & M' & s' & r' & i' & out' & P2 & S2 & _ & E2 & ->).
  destruct (prepared_unique T0 _ _ _ _ _ _ (proj1 (proj2 (proj2 C) g (B g (or_introl eq_refl)))) P1 P2) as [<- <-].
  assert (ES : s = s') by (destruct s, s'; try reflexivity; exfalso; [assert (X : false = true) by (apply S2, S1; reflexivity)|assert (X : false = true) by (apply S1, S2; reflexivity)]; discriminate X).
  subst s'. rewrite (SAME r' i' r i) in E2. congruence.
Qed.
End Top.

(** ** A concrete catalog *)
Open Scope R_scope.
Definition exm_t (g : nat) : list R := if Nat.even g then [1; 2; 13] else [1; 5 / 4].
Definition exm_m (g : nat) : list R := if Nat.even g then [10; 12; 11] else [9; 8].
Definition exm_file : MahFile := mkMahFile (map (fun g => map Fin (exm_m g)) (seq 0 5)) (map (fun g => map Fin (exm_t g)) (seq 0 5)).
Definition exm_fields (b : bool) : list str := [lit "1.5"; lit (if b then "skip" else "fit")]%string.
Definition exm_outline (b : bool) : str := spaced (exm_fields b) ++ [NL].
Definition exm_header : str := lit "# logm0 note" ++ [NL].
Lemma exm_format : row_format exm_header exm_outline 2 exm_fields.
Proof.
  constructor; [|intros r; split; [|reflexivity]|reflexivity].
  - exists (lit " logm0 note"). split; [reflexivity|]. cbn. intuition discriminate.
  - destruct r; repeat constructor; try discriminate; cbn; intuition discriminate.
Qed.
Lemma exm_catalog : catalog exm_file 5 exm_t exm_m.
Proof. split; [reflexivity|]. split; [reflexivity|]. intros g _. unfold exm_t, exm_m. destruct (Nat.even g); split; (discriminate || reflexivity). Qed.
Lemma exm_prepared : latest 5 exm_t 13 /\ prepared 13 (exm_t 0) (exm_m 0) [1; 2; 13] [10; 12; 12] /\ prepared 13 (exm_t 1) (exm_m 1) [1; 5 / 4; 13] [9; 9; 9] /\
  end_of (exm_t 1) - nth 0 (exm_t 1) 0 < 1 / 2.
Proof.
  split; [|split; [|split]].
  - split; [|exists 0%nat; split; [lia|reflexivity]]. intros g _. unfold exm_t, end_of. destruct (Nat.even g); cbn; lra.
  - split; [|split; [reflexivity|left; split; reflexivity]]. intros i Hi. cbn in Hi.
    destruct i as [|[|[|i]]]; [| | |lia]; (split; [reflexivity|]); cbn; split.
    1,3,5: intros j Hj; destruct j as [|[|[|j]]]; try lia; cbn; lra.
    + exists 0%nat. split; [lia|reflexivity].
    + exists 1%nat. split; [lia|reflexivity].
    + exists 1%nat. split; [lia|reflexivity].
  - split; [|split; [reflexivity|right; split; [cbn; lra|split; [reflexivity|split; reflexivity]]]]. intros i Hi. cbn in Hi.
    destruct i as [|[|i]]; [| |lia]; (split; [reflexivity|]); cbn; split.
    1,3: intros j Hj; destruct j as [|[|j]]; try lia; cbn; lra.
    + exists 0%nat. split; [lia|reflexivity].
    + exists 0%nat. split; [lia|reflexivity].
  - cbn. lra.
Qed.
