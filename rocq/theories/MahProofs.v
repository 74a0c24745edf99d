(** The fits of halo histories over ranks. *)
From Coq Require Import Reals List Bool ZArith Ascii String Lia Lra.
From Verif Require Import XReal RealFacts XFacts ModelUtils ModelKernels ModelSfh ModelLoad ModelIO ModelMah SpecLoad SpecIO SpecMah
  FitProofs TextProofs TableProofs SplitProofs MoreLoadProofs.
Import List ListNotations.
Open Scope nat_scope.

Local Notation length := List.length.

(** ** Text *)
Section Text.
Context {fitted : Type} {HEADER : str} {outl : fitted -> str} {k : nat} {fields : fitted -> list str}.
Hypothesis RF : row_format HEADER outl k fields.
Hypothesis K : 2 <= k.

Lemma rf_fields r : fields r <> [] /\ Forall field (fields r).
Proof using RF K.
  split; [|apply (proj1 (rf_line _ _ _ _ RF r))]. intro E. pose proof (rf_width _ _ _ _ RF r) as W. rewrite E in W. cbn in W. lia.
Qed.
Lemma read_any rs : read_lines (HEADER ++ List.concat (map outl rs)) = map fields rs.
Proof using RF K.
  destruct (rf_header _ _ _ _ RF) as (c & E & N). rewrite E.
  replace (map outl rs) with (map (fun r => spaced r ++ [NL]) (map fields rs)).
  2:{ rewrite map_map. apply map_ext. intro r. symmetry. apply (proj2 (rf_line _ _ _ _ RF r)). }
  change ("#"%char :: c ++ [ascii_of_nat 10]) with (("#"%char :: c) ++ [NL]). rewrite <- app_assoc. cbn [app]. unfold read_lines.
  change ("#"%char :: c ++ NL :: List.concat (map (fun r => spaced r ++ [NL]) (map fields rs)))
    with (("#"%char :: c) ++ NL :: List.concat (map (fun r => spaced r ++ [NL]) (map fields rs))).
  rewrite split_on_app by (intros [C|C]; [discriminate C|exact (N C)]).
  cbn [map filter cut_comment]. change (Ascii.eqb "#" "#") with true. cbv iota. change (keep_row (split_ws [])) with false. cbv iota.
  apply read_rows. apply Forall_forall. intros r I. apply in_map_iff in I. destruct I as (x & <- & _). apply rf_fields.
Qed.
Lemma genfromtxt_any rs : genfromtxt_str (HEADER ++ List.concat (map outl rs)) = Some (squeeze (map fields rs)).
Proof using RF K.
  unfold genfromtxt_str. cbv zeta.
  change (filter (fun r : list str => match r with [] => false | _ :: _ => true end)
     (map (fun l => split_ws (cut_comment l)) (split_on NL (HEADER ++ List.concat (map outl rs)))))
    with (read_lines (HEADER ++ List.concat (map outl rs))).
  rewrite read_any. destruct rs as [|r rs]; [reflexivity|]. cbn [map].
  replace (forallb _ _) with true; [reflexivity|]. symmetry. apply forallb_forall. intros x I. apply Nat.eqb_eq.
  change (In x (map fields (r :: rs))) in I. apply in_map_iff in I. destruct I as (y & <- & _). rewrite !(rf_width _ _ _ _ RF). reflexivity.
Qed.
Lemma squeeze_any rs : squeeze (map fields rs) =
  match rs with [] => S1 [] | [r] => S1 (fields r) | _ => S2 (map fields rs) end.
Proof using RF K.
  assert (L : forall r, exists x y l, fields r = x :: y :: l).
  { intro r. pose proof (rf_width _ _ _ _ RF r) as W. destruct (fields r) as [|x [|y l]]; cbn in W; try lia. eauto. }
  destruct rs as [|r [|r' rs]]; [reflexivity| |]; cbn [map squeeze]; destruct (L r) as (x & y & l & ->); reflexivity.
Qed.

Definition collected (parts : list (list fitted)) : option sarr :=
  match vmap genfromtxt_str (map (fun rs => HEADER ++ List.concat (map outl rs)) parts) with Some c => np_concatenate c | None => None end.
Lemma collected_eq parts : collected parts = np_concatenate (map (fun rs => squeeze (map fields rs)) parts).
Proof using RF K.
  unfold collected. rewrite vmap_map. rewrite (vmap_all _ (fun rs => squeeze (map fields rs))) by (intros; apply genfromtxt_any). reflexivity.
Qed.
Lemma collected_table parts : parts <> [] -> (forall p, In p parts -> 2 <= length p) -> collected parts = Some (S2 (map fields (List.concat parts))).
Proof using RF K.
  intros NE L. rewrite collected_eq.
  rewrite (map_ext_in _ (fun rs => S2 (map fields rs))).
  2:{ intros p Hp. rewrite squeeze_any. apply L in Hp. destruct p as [|? [|? ?]]; cbn in Hp; try lia. reflexivity. }
  destruct parts as [|p parts]; [congruence|]. unfold np_concatenate. cbn [map].
  change (S2 (map fields p) :: map (fun rs => S2 (map fields rs)) parts) with (map (fun rs => S2 (map fields rs)) (p :: parts)).
  rewrite vmap_map, (vmap_all _ (fun rs => map fields rs)) by reflexivity. cbv zeta. rewrite <- concat_map.
  pose proof (L p (or_introl eq_refl)) as Lp. destruct p as [|r p]; [cbn in Lp; lia|].
  replace (forallb _ _) with true; [reflexivity|]. symmetry. apply forallb_forall. intros x I. apply in_map_iff in I. destruct I as (y & <- & _).
  cbn [map hd]. rewrite !(rf_width _ _ _ _ RF). apply Nat.eqb_refl.
Qed.
Lemma collected_mixed parts p q : hd [] parts = p -> 2 <= length p -> In q parts -> length q = 1 -> collected parts = None.
Proof using RF K.
  intros H Lp Iq Lq. rewrite collected_eq. destruct parts as [|p' parts]; [contradiction|]. cbn in H. subst p'.
  destruct p as [|r [|r' p]]; cbn in Lp; try lia.
  cbn [map]. change (fields r :: fields r' :: map fields p) with (map fields (r :: r' :: p)). rewrite (squeeze_any (r :: r' :: p)).
  unfold np_concatenate.
  change (S2 (map fields (r :: r' :: p)) :: map (fun rs => squeeze (map fields rs)) parts) with
    ([S2 (map fields (r :: r' :: p))] ++ map (fun rs => squeeze (map fields rs)) parts).
  rewrite vmap_none; [reflexivity|]. destruct q as [|x [|? ?]]; cbn in Lq; try lia. exists (S1 (fields x)). split; [|reflexivity].
  apply in_app_iff. right. destruct Iq as [C|Iq]; [discriminate C|]. apply in_map_iff. exists [x]. split; [apply (squeeze_any [x])|exact Iq].
Qed.
Lemma collected_flat parts : parts <> [] -> (forall p, In p parts -> length p = 1) -> collected parts = Some (S1 (List.concat (map fields (List.concat parts)))).
Proof using RF K.
  intros NE L. rewrite collected_eq.
  rewrite (map_ext_in _ (fun rs => S1 (List.concat (map fields rs)))).
  2:{ intros p Hp. rewrite squeeze_any. apply L in Hp. destruct p as [|? [|? ?]]; cbn in Hp; try lia. cbn. rewrite app_nil_r. reflexivity. }
  destruct parts as [|p parts]; [congruence|]. unfold np_concatenate. cbn [map].
  change (S1 (List.concat (map fields p)) :: map (fun rs => S1 (List.concat (map fields rs))) parts)
    with (map (fun rs => S1 (List.concat (map fields rs))) (p :: parts)).
  rewrite vmap_map, (vmap_all _ (fun rs => List.concat (map fields rs))) by reflexivity. f_equal. f_equal.
  generalize (p :: parts) as l. clear. induction l as [|a l IH]; [reflexivity|]. cbn [map List.concat]. rewrite map_app, concat_app, IH. reflexivity.
Qed.
End Text.

(** ** Parts of a catalog *)
Definition rank_parts (N n : nat) : list (list nat) := map (fun r => seq (rank_start N n r) (rank_load N n r)) (seq 0 n).
Lemma rank_parts_shares N n : 0 < n -> shares N n (rank_parts N n).
Proof.
  intros Hn. split; [unfold rank_parts; rewrite map_length; apply seq_length|]. split; [apply concat_ranks, Hn|].
  intros r Hr. unfold rank_parts. rewrite (nth_indep _ [] (seq (rank_start N n 0) (rank_load N n 0))) by (rewrite map_length, seq_length; exact Hr).
  rewrite (map_nth (fun r => seq (rank_start N n r) (rank_load N n r))), seq_nth, seq_length by exact Hr. apply rank_load_value; assumption.
Qed.
Lemma shares_unique N n p q : shares N n p -> shares N n q -> p = q.
Proof.
  intros (L1 & C1 & S1) (L2 & C2 & S2). assert (E : map (@length nat) p = map (@length nat) q).
  { apply nth_ext with (d := length (@nil nat)) (d' := length (@nil nat)); [rewrite !map_length; congruence|]. intros r Hr. rewrite map_length, L1 in Hr. rewrite !(map_nth (@length nat)).
    rewrite S1, S2 by exact Hr. reflexivity. }
  clear S1 S2 L1 L2. rewrite <- C2 in C1. clear C2. revert q E C1. induction p as [|a p IH]; intros [|b q] E C; try discriminate; [reflexivity|].
  cbn in E, C. injection E; intros E2 E1. 
  assert (X : a = b /\ List.concat p = List.concat q).
  { clear - E1 C. revert b E1 C. induction a as [|x a IH]; intros [|y b] E C; try discriminate; [auto|]. cbn in *. injection C; intros C2 C1. injection E; intros E2.
    destruct (IH b E2 C2) as [-> ->]. split; [congruence|reflexivity]. }
  destruct X as [-> X]. f_equal. apply IH; assumption.
Qed.

Section Catalog.
Context {f : MahFile} {N : nat} {t m : nat -> list R}.
Hypothesis C : catalog f N t m.

Lemma part_value n r : r < n -> 0 < rank_load N n r ->
  part f n r = Some (map (fun g => map Fin (m g)) (seq (rank_start N n r) (rank_load N n r)),
                     map (fun g => map Fin (t g)) (seq (rank_start N n r) (rank_load N n r))).
Proof using C.
  intros Hr HL. destruct C as (CM & CT & _). unfold part. rewrite CM, map_length, seq_length, indices_for_rank_seq by exact Hr.
  set (s := rank_start N n r). set (l := rank_load N n r) in *.
  assert (RR : s + l <= N) by (apply rank_range; lia).
  destruct (seq s l) as [|x xs] eqn:E; [destruct l; [lia|discriminate]|].
  assert (X : x = s) by (destruct l; [lia|]; cbn in E; congruence).
  assert (Y : last (x :: xs) 0 + 1 = s + l).
  { rewrite <- E. destruct l as [|l']; [lia|]. rewrite seq_S, last_last. lia. }
  cbv zeta. rewrite Y. subst x. replace (s + l - s) with l by lia. rewrite CT.
  rewrite !skipn_map, !firstn_map, firstn_skipn_seq by exact RR. rewrite <- E. reflexivity.
Qed.
Lemma part_empty n r : r < n -> rank_load N n r = 0 -> part f n r = None.
Proof using C.
  intros Hr HL. destruct C as (CM & _). unfold part. rewrite CM, map_length, seq_length, indices_for_rank_seq by exact Hr. rewrite HL. reflexivity.
Qed.

(** *** The common end *)
Lemma last_opt_fin l : l <> [] -> last_opt (map Fin l) = Some (Fin (end_of l)).
Proof.
  intros NE. unfold last_opt, end_of. destruct l as [|x l] using rev_ind; [congruence|]. rewrite map_app. cbn [map].
  destruct (map Fin l ++ [Fin x]) eqn:E; [destruct (map Fin l); discriminate|]. rewrite <- E, last_last, app_length. cbn [length].
  rewrite app_nth2 by lia. replace (length l + 1 - 1 - length l) with 0 by lia. reflexivity.
Qed.
Open Scope R_scope.
Definition is_max (l : list R) (M : R) : Prop := (forall x, In x l -> x <= M) /\ In M l.
Lemma fold_max l : forall a, exists M, fold_left xmax (map Fin l) (Fin a) = Fin M /\ is_max (a :: l) M.
Proof.
  induction l as [|x l IH]; intros a.
  - exists a. split; [reflexivity|]. split; [intros y [<-|[]]; lra|now left].
  - cbn [map fold_left]. rewrite xmax_fin. destruct (IH (Rmax a x)) as (M & E & B & I). exists M. split; [exact E|]. split.
    + intros y [<-|[<-|Hy]]; [apply Rle_trans with (Rmax a x); [apply Rmax_l|apply B; now left]|apply Rle_trans with (Rmax a x); [apply Rmax_r|apply B; now left]|apply B; now right].
    + destruct I as [<-|I]; [|right; right; exact I]. apply (Rmax_case_strong a x (fun z => In z (a :: x :: l))); intros _; [now left|right; now left].
Qed.
Lemma max_opt_fin l : l <> [] -> exists M, max_opt (map Fin l) = Some (Fin M) /\ is_max l M.
Proof. destruct l as [|a l]; [congruence|]. intros _. cbn [map max_opt]. destruct (fold_max l a) as (M & E & H). exists M. rewrite E. auto. Qed.
Lemma is_max_ext l l' M : (forall x, In x l <-> In x l') -> is_max l M -> is_max l' M.
Proof. intros E (B & I). split; [intros x Hx; apply B, E, Hx|apply E, I]. Qed.

Lemma t_max_fin gs : gs <> [] -> (forall g, In g gs -> (g < N)%nat) ->
  exists M, t_max (map (fun g => map Fin (t g)) gs) = Some (Fin M) /\ is_max (map (fun g => end_of (t g)) gs) M.
Proof using C.
  intros NE B. unfold t_max. rewrite vmap_map, (vmap_all _ (fun g => Fin (end_of (t g)))).
  2:{ intros g Hg. apply last_opt_fin. apply (proj2 (proj2 C)), B, Hg. }
  rewrite <- (map_map (fun g => end_of (t g)) Fin). apply max_opt_fin. destruct gs; [congruence|discriminate].
Qed.
Lemma t0_value n : (0 < n)%nat -> (n <= N)%nat -> exists T0, t0_of f n = Some (Fin T0) /\ latest N t T0.
Proof using C.
  intros Hn HN. unfold t0_of.
  assert (LP : forall r, (r < n)%nat -> (0 < rank_load N n r)%nat).
  { intros r Hr. rewrite rank_load_value by assumption. assert (1 <= N / n)%nat; [|lia]. apply Nat.div_le_lower_bound; lia. }
  assert (X : forall rs, (forall r, In r rs -> (r < n)%nat) -> exists l,
    vmap (fun rank => match part f n rank with Some (_, times) => t_max times | None => None end) rs = Some (map Fin l) /\
    Forall2 (fun r M => is_max (map (fun g => end_of (t g)) (seq (rank_start N n r) (rank_load N n r))) M) rs l).
  { induction rs as [|r rs IH]; intros B; [exists []; split; [reflexivity|constructor]|].
    destruct IH as (l & E & F); [intros; apply B; now right|]. assert (Hr : (r < n)%nat) by (apply B; now left).
    destruct (t_max_fin (seq (rank_start N n r) (rank_load N n r))) as (M & EM & HM).
    - pose proof (LP r Hr). destruct (rank_load N n r); [lia|discriminate].
    - intros g Hg. apply in_seq in Hg. pose proof (rank_range N n r Hn). lia.
    - exists (M :: l). split; [|constructor; assumption]. unfold vmap in *. cbn [map sequence]. rewrite part_value, EM by (assumption || apply LP, Hr).
      destruct (sequence _); [|discriminate]. injection E; intros ->. reflexivity. }
  destruct (X (seq 0 n)) as (l & E & F); [intros r Hr; apply in_seq in Hr; lia|]. rewrite E.
  assert (NE : l <> []) by (intros ->; inversion F as [X0|]; destruct n; [lia|discriminate X0]).
  destruct (max_opt_fin l NE) as (T0 & -> & B & I). exists T0. split; [reflexivity|].
  assert (IN : forall g, (g < N)%nat -> exists r, (r < n)%nat /\ In g (seq (rank_start N n r) (rank_load N n r))).
  { intros g Hg. assert (Q : In g (seq 0 N)) by (apply in_seq; lia). rewrite <- (concat_ranks N n Hn) in Q. apply in_concat in Q.
    destruct Q as (p & Hp & Hg'). apply in_map_iff in Hp. destruct Hp as (r & <- & Hr). apply in_seq in Hr. exists r. split; [lia|exact Hg']. }
  split.
  - intros g Hg. destruct (IN g Hg) as (r & Hr & Hg').
    assert (Q : exists M, In M l /\ is_max (map (fun g => end_of (t g)) (seq (rank_start N n r) (rank_load N n r))) M).
    { clear - F Hr. assert (IR : In r (seq 0 n)) by (apply in_seq; lia). revert IR. induction F as [|a b ra rb H F IH]; intros [].
      - subst. exists b. split; [now left|exact H].
      - destruct IH as (M & ? & ?); [assumption|]. exists M. split; [now right|assumption]. }
    destruct Q as (M & IM & BM & _). apply Rle_trans with M; [apply BM; apply (in_map (fun g => end_of (t g))), Hg'|apply B, IM].
  - assert (Q : exists r, (r < n)%nat /\ is_max (map (fun g => end_of (t g)) (seq (rank_start N n r) (rank_load N n r))) T0).
    { assert (G : forall rs l, Forall2 (fun r M => is_max (map (fun g => end_of (t g)) (seq (rank_start N n r) (rank_load N n r))) M) rs l ->
        In T0 l -> exists r, In r rs /\ is_max (map (fun g => end_of (t g)) (seq (rank_start N n r) (rank_load N n r))) T0).
      { clear. induction 1 as [|a b ra rb H F IH]; intros []; [subst; exists a; split; [now left|exact H]|destruct IH as (r & ? & ?); [assumption|exists r; split; [now right|assumption]]]. }
      destruct (G _ _ F I) as (r & Hr & H). exists r. apply in_seq in Hr. split; [lia|exact H]. }
    destruct Q as (r & Hr & _ & Q). apply in_map_iff in Q. destruct Q as (g & Eg & Hg). exists g. split; [|exact Eg]. apply in_seq in Hg.
    pose proof (rank_range N n r Hn). lia.
Qed.
Lemma latest_unique T0 T1 : latest N t T0 -> latest N t T1 -> T0 = T1.
Proof. intros (B0 & g0 & H0 & E0) (B1 & g1 & H1 & E1). pose proof (B0 g1 H1). pose proof (B1 g0 H0). lra. Qed.

(** *** The fitter's arguments *)
Definition skips (dt_min : R) (l : list R) : bool := if Rlt_dec (end_of l - nth 0 l 0) dt_min then true else false.
Lemma fit_input_value T0 dtm g : (g < N)%nat -> end_of (t g) <= T0 ->
  exists T M, fit_input (Fin T0) (Fin dtm) (map Fin (t g)) (map Fin (m g)) = Some (map Fin T, map Fin M, skips dtm (t g)) /\ prepared T0 (t g) (m g) T M.
Proof using C.
  intros Hg HE. destruct (proj2 (proj2 C) g Hg) as (NE & LM). unfold fit_input. cbv zeta. rewrite last_opt_fin by exact NE.
  destruct (cummax_fin (m g)) as (ms & EC & LC & RM). rewrite EC.
  assert (HD : hd NaN (map Fin (t g)) = Fin (nth 0 (t g) 0)) by (destruct (t g); [congruence|reflexivity]). rewrite HD.
  assert (SK : (Fin (end_of (t g)) - Fin (nth 0 (t g) 0) <? Fin dtm)%X = skips dtm (t g)).
  { unfold skips. cbn. unfold Rltb, Rminus. reflexivity. }
  rewrite SK. assert (LT : (0 < length (t g))%nat) by (destruct (t g); [congruence|cbn; lia]).
  assert (NM : ms <> []) by (intro E; rewrite E in LC; cbn in LC; lia).
  destruct (Rlt_dec (end_of (t g)) T0) as [H|H].
  - assert (Q : (Fin (end_of (t g)) <? Fin T0)%X = true) by (cbn [xlt]; unfold Rltb; destruct (Rlt_dec (end_of (t g)) T0); [reflexivity|contradiction]). rewrite Q.
    rewrite last_opt_fin by exact NM. exists (t g ++ [T0]), (ms ++ [end_of ms]). split; [rewrite !map_app; reflexivity|]. split; [|split].
    + intros i Hi. rewrite !app_nth1 by lia. split; [reflexivity|apply RM; lia].
    + rewrite !app_length. cbn. lia.
    + right. split; [exact H|]. split; [rewrite app_length; cbn; lia|]. split; unfold end_of.
      * rewrite app_length. cbn [length]. rewrite app_nth2 by lia. replace (length (t g) + 1 - 1 - length (t g))%nat with 0%nat by lia. reflexivity.
      * rewrite app_length. cbn [length]. rewrite app_nth2 by lia. replace (length ms + 1 - 1 - length ms)%nat with 0%nat by lia.
        rewrite app_nth1 by lia. cbn [nth]. f_equal. lia.
  - assert (Q : (Fin (end_of (t g)) <? Fin T0)%X = false) by (cbn [xlt]; unfold Rltb; destruct (Rlt_dec (end_of (t g)) T0); [contradiction|reflexivity]). rewrite Q.
    exists (t g), ms. split; [reflexivity|]. split; [|split].
    + intros i Hi. split; [reflexivity|apply RM; lia].
    + lia.
    + left. split; [lra|reflexivity].
Qed.
Lemma prepared_unique T0 tt mm T M T' M' : tt <> [] -> prepared T0 tt mm T M -> prepared T0 tt mm T' M' -> T = T' /\ M = M'.
Proof.
  intros NE (P1 & L1 & D1) (P2 & L2 & D2).
  assert (LT : (0 < length tt)%nat) by (destruct tt; [congruence|cbn; lia]).
  assert (U : forall i a b, is_running_max mm i a -> is_running_max mm i b -> a = b).
  { intros i a b (B1 & j & Hj & E1) (B2 & j' & Hj' & E2). pose proof (B1 j' Hj'). pose proof (B2 j Hj). lra. }
  assert (LL : length T = length T').
  { destruct D1 as [(E1 & D1)|(E1 & D1 & _)]; destruct D2 as [(E2 & D2)|(E2 & D2 & _)]; try lra; congruence. }
  assert (AT : forall i, (i < length tt)%nat -> nth i T 0 = nth i T' 0 /\ nth i M 0 = nth i M' 0).
  { intros i Hi. destruct (P1 i Hi) as [A1 B1]. destruct (P2 i Hi) as [A2 B2]. split; [congruence|exact (U i _ _ B1 B2)]. }
  destruct D1 as [(E1 & D1)|(E1 & D1 & F1 & G1)]; destruct D2 as [(E2 & D2)|(E2 & D2 & F2 & G2)]; try lra.
  - split; apply nth_ext with (d := 0) (d' := 0); try lia; intros i Hi; apply AT; lia.
  - unfold end_of in F1, F2, G1, G2. replace (length T - 1)%nat with (length tt) in F1 by lia. replace (length T' - 1)%nat with (length tt) in F2 by lia.
    replace (length M - 1)%nat with (length tt) in G1 by lia. replace (length M' - 1)%nat with (length tt) in G2 by lia.
    split; apply nth_ext with (d := 0) (d' := 0); try lia; intros i Hi; (destruct (Nat.eq_dec i (length tt)) as [->|Hne]; [|apply AT; lia]).
    + congruence.
    + rewrite G1, G2. apply AT. lia.
Qed.
End Catalog.
