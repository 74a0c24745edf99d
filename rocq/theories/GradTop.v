(** The gradient of the fit loss. *)
From Coq Require Import Reals Lra Lia List Bool.
From Coquelicot Require Import Coquelicot.
From Verif Require Import XReal XFacts RealFacts ModelUtils ModelKernels ModelSfh ModelHist ModelFit ModelGrad SpecCore SpecHist SpecFit SpecGrad
  SigmoidProofs TriweightProofs QuenchProofs IntegralProofs SfhProofs DtProofs FstarProofs FitProofs OptProofs FitTopProofs GradProofs.
Import List ListNotations.
Open Scope R_scope.

Section Rep.
Variable v : nat -> R.
Variable K : Prop.
Notation tr := (tr v K).

Lemma tr_where_t f g p q : tr f p -> tr g q -> tr f (dwhere true p q).
Proof.
  intros [A (a & A1 & A2)] [B (b & B1 & B2)]. split; [exact A|]. exists a. split; [|exact A2].
  intros i. cbn. rewrite A1, B1. cbn. f_equal. ring.
Qed.
Lemma tr_where_f f g p q : tr f p -> tr g q -> tr g (dwhere false p q).
Proof.
  intros [A (a & A1 & A2)] [B (b & B1 & B2)]. split; [exact B|]. exists b. split; [|exact B2].
  intros i. cbn. rewrite A1, B1. cbn. f_equal. ring.
Qed.

Definition dn : dual := dc NaN.
(** entry by entry *)
Definition rep (n : nat) (L : R -> list R) (ps : list dual) : Prop :=
  length ps = n /\ (forall s, length (L s) = n) /\ forall i, (i < n)%nat -> tr (fun s => nth i (L s) 0) (nth i ps dn).

Lemma rep_ext n L M ps : (forall s, L s = M s) -> rep n L ps -> rep n M ps.
Proof.
  intros E (A & B & C). split; [exact A|]. split; [intros s; rewrite <- E; apply B|].
  intros i Hi. apply (tr_ext v K (fun s => nth i (L s) 0)); [intros s; rewrite E; reflexivity|apply C, Hi].
Qed.
Lemma rep_map n L ps H D : rep n L ps ->
  (forall i, (i < n)%nat -> tr (fun s => nth i (L s) 0) (nth i ps dn) -> tr (fun s => H (nth i (L s) 0)) (D (nth i ps dn))) ->
  rep n (fun s => map H (L s)) (map D ps).
Proof.
  intros (A & B & C) HD. split; [rewrite map_length; exact A|]. split; [intros s; rewrite map_length; apply B|].
  intros i Hi. rewrite (nth_map D ps i dn) by lia.
  apply (tr_ext v K (fun s => H (nth i (L s) 0))); [intros s; rewrite (nth_map H _ i 0) by (rewrite B; lia); reflexivity|].
  apply HD, C; exact Hi.
Qed.
Lemma rep_map2c n L ps (W : list R) H D : rep n L ps -> length W = n ->
  (forall i, (i < n)%nat -> tr (fun s => nth i (L s) 0) (nth i ps dn) ->
     tr (fun s => H (nth i (L s) 0) (nth i W 0)) (D (nth i ps dn) (Fin (nth i W 0)))) ->
  rep n (fun s => map2 H (L s) W) (map2 D ps (map Fin W)).
Proof.
  intros (A & B & C) HW HD. split; [rewrite map2_length, map_length; lia|]. split; [intros s; rewrite map2_length, B; lia|].
  intros i Hi. rewrite (map2_nth D ps (map Fin W) i dn NaN) by (rewrite ?map_length; lia). rewrite nth_Fin by lia.
  apply (tr_ext v K (fun s => H (nth i (L s) 0) (nth i W 0))); [intros s; rewrite (map2_nth H _ W i 0 0) by (rewrite ?B; lia); reflexivity|].
  apply HD; [exact Hi|]. apply C; exact Hi.
Qed.
Lemma rep_map2 n L M ps qs H D : rep n L ps -> rep n M qs ->
  (forall i, (i < n)%nat -> tr (fun s => nth i (L s) 0) (nth i ps dn) -> tr (fun s => nth i (M s) 0) (nth i qs dn) ->
     tr (fun s => H (nth i (L s) 0) (nth i (M s) 0)) (D (nth i ps dn) (nth i qs dn))) ->
  rep n (fun s => map2 H (L s) (M s)) (map2 D ps qs).
Proof.
  intros (A & B & C) (A' & B' & C') HD. split; [rewrite map2_length; lia|]. split; [intros s; rewrite map2_length, B, B'; lia|].
  intros i Hi. rewrite (map2_nth D ps qs i dn dn) by lia.
  apply (tr_ext v K (fun s => H (nth i (L s) 0) (nth i (M s) 0))); [intros s; rewrite (map2_nth H _ _ i 0 0) by (rewrite ?B, ?B'; lia); reflexivity|].
  apply HD; [exact Hi|apply C|apply C']; exact Hi.
Qed.
Lemma rep_tl n L p ps : rep (S n) L (p :: ps) -> rep n (fun s => tl (L s)) ps.
Proof.
  intros (A & B & C). split; [simpl in A; lia|]. split; [intros s; specialize (B s); destruct (L s); simpl in *; lia|].
  intros i Hi. specialize (C (S i) ltac:(lia)). cbn [nth] in C.
  apply (tr_ext v K (fun s => nth (S i) (L s) 0)); [|exact C]. intros s. specialize (B s). destruct (L s); [simpl in B; lia|reflexivity].
Qed.
Lemma rep_sum n : forall L ps, rep n L ps -> tr (fun s => Rsum (L s)) (dsum ps).
Proof.
  induction n as [|n IH]; intros L ps H.
  - destruct H as (A & B & _). destruct ps; [|discriminate]. apply (tr_ext v K (fun _ => 0)); [|apply tr_c].
    intros s. specialize (B s). destruct (L s); [reflexivity|discriminate].
  - destruct ps as [|p ps]; [destruct H as [A _]; discriminate|]. pose proof (IH _ _ (rep_tl _ _ _ _ H)) as T.
    destruct H as (A & B & C). specialize (C 0%nat ltac:(lia)). cbn [nth] in C.
    eapply tr_ext; [|apply (tr_add v K _ _ _ _ C T)]. intros s. cbn beta; specialize (B s). destruct (L s); [discriminate|reflexivity].
Qed.
Lemma rep_mean n L ps : n <> 0%nat -> rep n L ps -> tr (fun s => Rsum (L s) / INR (length (L s))) (dmean ps).
Proof.
  intros Hn H. pose proof (rep_sum _ _ _ H) as T. destruct H as (A & B & _). unfold dmean. rewrite A.
  apply (tr_ext v K (fun s => Rsum (L s) / INR n)); [intros s; rewrite B; reflexivity|].
  apply tr_divc; [apply not_0_INR, Hn|exact T].
Qed.
Lemma last_nth' {A} (l : list A) d : last l d = nth (length l - 1) l d.
Proof. induction l as [|a [|b l] IH]; [reflexivity|reflexivity|]. change (last (a :: b :: l) d) with (last (b :: l) d). rewrite IH. cbn [length]. replace (S (S (length l)) - 1)%nat with (S (S (length l) - 1)) by lia. reflexivity. Qed.
Lemma rep_last n L ps : n <> 0%nat -> rep n L ps -> tr (fun s => last (L s) 0) (last ps dn).
Proof.
  intros Hn (A & B & C). rewrite last_nth', A. eapply tr_ext; [|apply (C (n - 1)%nat); lia].
  intros s. cbn beta. rewrite last_nth', B. reflexivity.
Qed.

(** cumulative integral *)
Lemma rep_cum n : forall ts a (fa c : R -> R) pfa pc L ps, length ts = n -> rep n L ps -> tr fa pfa -> tr c pc ->
  rep n (fun s => cumR a (fa s) (c s) (combine ts (L s)))
        (scan_out dcumtrapz_step (Fin a, pfa, pc) (combine (map Fin ts) ps)).
Proof.
  induction n as [|n IH]; intros ts a fa c pfa pc L ps Ht H Hfa Hc.
  - destruct ts; [|discriminate]. split; [reflexivity|]. split; [reflexivity|]. intros i Hi; lia.
  - destruct ts as [|t ts]; [discriminate|]. injection Ht as Ht. destruct ps as [|p ps]; [destruct H; discriminate|].
    pose proof (rep_tl _ _ _ _ H) as HT. destruct H as (A & B & C). specialize (C 0%nat ltac:(lia)). cbn [nth] in C.
    cbn [map combine scan_out dcumtrapz_step xsub xadd xopp].
    set (c' := dadd pc _).
    assert (Hc' : tr (fun s => c s + (t - a) * (nth 0 (L s) 0 + fa s) / 2) c').
    { apply tr_add; [exact Hc|]. apply tr_divc; [lra|]. apply tr_cmul. apply tr_add; assumption. }
    specialize (IH ts t _ _ _ _ _ _ Ht HT C Hc'). destruct IH as (A' & B' & C').
    assert (E : forall s, cumR a (fa s) (c s) (combine (t :: ts) (L s)) =
      (c s + (t - a) * (nth 0 (L s) 0 + fa s) / 2) :: cumR t (nth 0 (L s) 0) (c s + (t - a) * (nth 0 (L s) 0 + fa s) / 2) (combine ts (tl (L s)))).
    { intros s. specialize (B s). destruct (L s) as [|x l]; [discriminate|]. reflexivity. }
    split; [cbn; rewrite A'; reflexivity|]. split; [intros s; rewrite E; cbn [length]; rewrite B'; reflexivity|].
    intros [|i] Hi.
    + eapply tr_ext; [|exact Hc']. intros s. rewrite E. reflexivity.
    + eapply tr_ext; [|apply (C' i); lia]. intros s. rewrite E. reflexivity.
Qed.
Lemma rep_mass n ts L ps : length ts = n -> rep n L ps ->
  exists ms, dcumulative_mstar_formed (map Fin ts) ps = Some ms /\ rep n (fun s => massR ts (L s)) ms.
Proof.
  intros Ht H. unfold dcumulative_mstar_formed. rewrite map_length, (proj1 H), Ht, Nat.eqb_refl. cbn [negb]. eexists. split; [reflexivity|].
  cbn [combine scan_out dcumtrapz_step]. unfold T_BIRTH_MIN, SFR_MIN, tail_. cbn [tl xsub xadd xopp].
  unfold massR. set (c0 := dadd (dc (Fin 0)) _).
  assert (Hc : tr (fun _ => 0) c0).
  { apply (tr_ext v K (fun _ => 0 + (T_BIRTH_MIN_R + - T_BIRTH_MIN_R) * (SFR_MIN_R + SFR_MIN_R) / 2)); [intros; field|].
    apply (tr_add v K (fun _ => 0)); [apply tr_c|]. apply tr_divc; [lra|]. apply tr_cmul. apply (tr_add v K (fun _ => _) (fun _ => _)); apply tr_c. }
  pose proof (rep_cum n ts T_BIRTH_MIN_R (fun _ => SFR_MIN_R) (fun _ => 0) (dc (Fin SFR_MIN_R)) c0 L ps Ht H (tr_c v K _) Hc) as R.
  apply rep_map; [exact R|]. intros i _ T. apply tr_mulc. exact T.
Qed.

(** linear interpolation in a fixed table *)
Lemma interp_lin x xp : (1 <= length xp)%nat -> increasing xp -> exists a b c, (a < length xp)%nat /\ (b < length xp)%nat /\
  (forall fp, length fp = length xp -> jnp_interp (Fin x) (map Fin xp) (map Fin fp) = Fin (nth a fp 0 + c * (nth b fp 0 - nth a fp 0))) /\
  (forall L ps, rep (length xp) L ps ->
     tr (fun s => nth a (L s) 0 + c * (nth b (L s) 0 - nth a (L s) 0)) (djnp_interp (Fin x) (map Fin xp) ps)).
Proof.
  intros Hn Hinc. pose proof (increasing_nth_lt xp Hinc) as M.
  set (n := length xp) in *. set (k := searchsorted_right (map Fin xp) (Fin x)).
  set (i := Nat.min (Nat.max 1 k) (n - 1)). assert (Hi : (i < n)%nat) by (unfold i; lia).
  set (w := if Req_EM_T (nth i xp 0 + - nth (i - 1) xp 0) 0 then 0 else (x - nth (i - 1) xp 0) / (nth i xp 0 + - nth (i - 1) xp 0)).
  set (a := if Rlt_dec (nth (n - 1) xp 0) x then (n - 1)%nat else if Rlt_dec x (nth 0 xp 0) then 0%nat else (i - 1)%nat).
  set (c := if Rlt_dec (nth (n - 1) xp 0) x then 0 else if Rlt_dec x (nth 0 xp 0) then 0 else w).
  exists a, i, c. split; [unfold a; destruct (Rlt_dec _ _); [lia|]; destruct (Rlt_dec _ _); lia|]. split; [exact Hi|].
  assert (D0 : xeq (Fin (nth i xp 0) - Fin (nth (i - 1) xp 0))%X (Fin 0) = (if Req_EM_T (nth i xp 0 + - nth (i - 1) xp 0) 0 then true else false))
    by reflexivity.
  split.
  - intros fp Hf. unfold jnp_interp. rewrite map_length. fold n. fold k. fold i. unfold at_.
    rewrite !(nth_Fin xp) by (fold n; lia). rewrite !(nth_Fin fp) by lia.
    cbv zeta. rewrite D0. unfold a, c, w. cbn [xlt xsub xadd xopp xmul]. unfold Rltb.
    destruct (Rlt_dec (nth (n - 1) xp 0) x); [f_equal; ring|]. destruct (Rlt_dec x (nth 0 xp 0)); [f_equal; ring|].
    destruct (Req_EM_T _ _) as [e|e]; [f_equal; ring|]. rewrite xdiv_fin by exact e. cbn [xmul xadd]. f_equal.
  - intros L ps H. destruct H as (A & B & C). unfold djnp_interp. rewrite map_length. fold n. fold k. fold i. unfold at_, dat.
    rewrite !(nth_Fin xp) by (fold n; lia). cbv zeta. rewrite D0. cbn [xlt]. unfold Rltb. cbn [xsub xadd xopp].
    set (f1 := dwhere _ (nth (i - 1) ps (dc NaN)) _).
    assert (F1 : tr (fun s => nth (i - 1) (L s) 0 + w * (nth i (L s) 0 - nth (i - 1) (L s) 0)) f1).
    { pose proof (C (i - 1)%nat ltac:(lia)) as Ca. pose proof (C i Hi) as Cb. unfold f1, w.
      destruct (Req_EM_T _ _) as [e|e].
      - eapply (tr_ext v K (fun s => nth (i - 1) (L s) 0)); [intros s; ring|]. eapply tr_where_t; [exact Ca|].
        rewrite xdiv_fin by lra. apply tr_add; [exact Ca|]. apply tr_cmul. apply tr_sub; [exact Cb|exact Ca].
      - eapply tr_where_f; [exact Ca|]. rewrite xdiv_fin by exact e. apply tr_add; [exact Ca|]. apply tr_cmul. apply tr_sub; [exact Cb|exact Ca]. }
    pose proof (C 0%nat ltac:(lia)) as C0. pose proof (C (n - 1)%nat ltac:(lia)) as Cn. unfold a, c.
    set (f2 := dwhere _ (nth 0 ps (dc NaN)) f1).
    assert (F2 : tr (fun s => if Rlt_dec x (nth 0 xp 0) then nth 0 (L s) 0 else nth (i - 1) (L s) 0 + w * (nth i (L s) 0 - nth (i - 1) (L s) 0)) f2).
    { unfold f2. destruct (Rlt_dec x (nth 0 xp 0)); [eapply tr_where_t|eapply tr_where_f]; eassumption. }
    destruct (Rlt_dec (nth (n - 1) xp 0) x).
    + eapply (tr_ext v K (fun s => nth (n - 1) (L s) 0)); [intros s; ring|]. eapply tr_where_t; eassumption.
    + eapply tr_where_f; [exact Cn|]. eapply tr_ext; [|exact F2]. intros s. cbn beta. destruct (Rlt_dec x (nth 0 xp 0)); ring.
Qed.

Definition fin_of (x : xr) : R := match x with Fin r => r | _ => 0 end.
Definition fstarR (ts ms : list R) (tau : R) : list R := map fin_of (compute_fstar (map Fin ts) (map Fin ms) (Fin tau)).

Lemma fstarR_mass ts ss tau : length ts = length ss -> increasing ts -> 0 < tau -> Forall (fun s => 0 <= s) ss ->
  compute_fstar (map Fin ts) (map Fin (massR ts ss)) (Fin tau) = map Fin (fstarR ts (massR ts ss) tau) /\
  length (fstarR ts (massR ts ss) tau) = length ts /\ Forall (fun x => 0 <= x) (fstarR ts (massR ts ss) tau).
Proof.
  intros HL Hi Ht Hs. destruct (fstar_bounds ts ss tau HL Hi Ht Hs) as (m & f & Hm & Hf & L & B).
  rewrite cumulative_fin in Hm by exact HL. injection Hm as Hm. apply map_Fin_inj in Hm. subst m.
  unfold fstarR. rewrite Hf. assert (E : map fin_of (map Fin f) = f) by (rewrite map_map; apply map_id). rewrite E.
  split; [reflexivity|]. split; [exact L|]. eapply Forall_impl; [|exact B]. cbn. intros; lra.
Qed.

Lemma rep_fstar n ts S L ms tau : n <> 0%nat -> length ts = n -> increasing ts -> 0 < tau ->
  (forall s, length (S s) = n) -> (forall s, Forall (fun x => 0 <= x) (S s)) ->
  (forall s, L s = massR ts (S s)) -> rep n L ms ->
  rep n (fun s => fstarR ts (L s) tau) (dcompute_fstar (map Fin ts) ms (Fin tau)).
Proof.
  intros Hn Ht Hi Htau HS Hpos HL H.
  assert (FR : forall s, length (fstarR ts (L s) tau) = n /\ Forall (fun x => 0 <= x) (fstarR ts (L s) tau)).
  { intros s. rewrite HL. destruct (fstarR_mass ts (S s) tau) as (_ & A & B); auto; [rewrite HS; exact Ht|]. rewrite A. auto. }
  unfold dcompute_fstar. split; [rewrite map_length, map2_length, !map_length; destruct H as [A _]; lia|].
  split; [apply FR|]. intros i Hi'.
  set (pl := map (fun t => djnp_interp (t - Fin tau)%X (map Fin ts) ms) (map Fin ts)).
  rewrite (nth_map _ _ i dn) by (unfold pl; rewrite map2_length, !map_length; destruct H as [A _]; lia).
  rewrite (map2_nth _ _ _ i dn dn) by (unfold pl; rewrite ?map_length; destruct H as [A _]; lia).
  unfold pl. rewrite (nth_map _ (map Fin ts) i NaN) by (rewrite map_length; lia). rewrite nth_Fin by lia. cbn [xsub xadd xopp].
  destruct (interp_lin (nth i ts 0 + - tau) ts ltac:(lia) Hi) as (a & b & c & Ha & Hb & E1 & E2).
  specialize (E2 L ms). rewrite Ht in E2. specialize (E2 H). destruct H as (A & B & C). specialize (C i Hi').
  assert (P9 : 0 < 10 ^ 9) by (apply pow_lt; lra).
  set (raw := fun s => (nth i (L s) 0 - (nth a (L s) 0 + c * (nth b (L s) 0 - nth a (L s) 0))) / tau / 10 ^ 9).
  assert (T : tr raw (ddiv (ddiv (dsub (nth i ms dn) (djnp_interp (Fin (nth i ts 0 + - tau)) (map Fin ts) ms)) (dc (Fin tau))) (dc (Fin (10 ^ 9))))).
  { apply tr_divc; [lra|]. apply tr_divc; [lra|]. apply tr_sub; assumption. }
  assert (V : forall s, nth i (fstarR ts (L s) tau) 0 = if Rlt_dec 0 (raw s) then raw s else 0).
  { intros s. unfold fstarR. rewrite (nth_map fin_of _ i NaN).
    2:{ unfold compute_fstar. rewrite map_length, map2_length, !map_length, B. lia. }
    unfold compute_fstar. rewrite (nth_map _ _ i NaN) by (rewrite map2_length, !map_length, B; lia).
    rewrite (map2_nth _ _ _ i NaN NaN) by (rewrite ?map_length, ?B; lia).
    rewrite (nth_map _ (map Fin ts) i NaN) by (rewrite map_length; lia). rewrite !nth_Fin by (rewrite ?B; lia).
    cbn [xsub xadd xopp]. rewrite E1 by (rewrite B; lia). cbn [xadd xopp]. rewrite xdiv_fin by lra. rewrite xdiv_fin by lra.
    cbn [xlt]. unfold Rltb, raw, Rminus. destruct (Rlt_dec 0 _); reflexivity. }
  assert (Rp : forall s, 0 <= raw s).
  { intros s. unfold raw. rewrite (HL s).
    assert (Hs := fstar_point ts (massR ts (S s)) (10 ^ 9 * list_Rmax 0 (S s)) tau i).
    assert (Hm : length (massR ts (S s)) = length ts) by (apply massR_length; rewrite HS; exact Ht).
    destruct Hs as (w & Ew & Hw); auto.
    - pose proof (Rmax_list_ge0 0 (S s)). apply Rmult_le_pos; lra.
    - intros j Hj. rewrite massR_diff by (rewrite ?HS; lia).
      pose proof (increasing_nth_lt ts Hi j (Datatypes.S j) ltac:(lia) Hj).
      assert (A1 : In (nth j (S s) 0) (S s)) by (apply nth_In; rewrite HS; lia).
      assert (A2 : In (nth (Datatypes.S j) (S s) 0) (S s)) by (apply nth_In; rewrite HS; lia).
      pose proof (Rmax_list_ge 0 _ _ A1). pose proof (Rmax_list_ge 0 _ _ A2).
      pose proof (Hpos s) as Hp. rewrite Forall_forall in Hp. pose proof (Hp _ A1). pose proof (Hp _ A2).
      set (d := nth (Datatypes.S j) ts 0 - nth j ts 0) in *. assert (0 < d) by (unfold d; lra).
      set (x := nth j (S s) 0) in *. set (y := nth (Datatypes.S j) (S s) 0) in *. set (mx := list_Rmax 0 (S s)) in *.
      split; [apply Rmult_le_pos; [lra|]; apply Rmult_le_pos; [|lra]; apply Rmult_le_pos; lra|].
      rewrite Rmult_assoc. apply Rmult_le_compat_l; [lra|].
      assert (d * (y + x) <= d * (2 * mx)) by (apply Rmult_le_compat_l; lra). lra.
    - lia.
    - unfold Rminus in Ew. rewrite E1 in Ew by exact Hm. injection Ew as Ew.
      apply Rmult_le_pos; [apply Rmult_le_pos|]; [|left; apply Rinv_0_lt_compat; lra|left; apply Rinv_0_lt_compat; lra].
      set (q := nth a _ 0 + _) in *. lra. }
  eapply tr_ext; [|apply (tr_relu v K raw _ T Rp)]. intros s. rewrite V. specialize (Rp s). destruct (Rlt_dec 0 (raw s)); [reflexivity|lra].
Qed.
End Rep.

(** ** parameters and SFR *)
Definition dir (v : DiffstarParams R) (k : nat) : R := nth k (params_list v) 0.
Definition dpars (u : DiffstarParams R) : DiffstarParams dual :=
  mkDiffstar (dvar 0 (Fin (d_lgmcrit u))) (dvar 1 (Fin (d_lgy_at_mcrit u))) (dvar 2 (Fin (d_indx_lo u))) (dvar 3 (Fin (d_indx_hi u)))
    (dvar 4 (Fin (d_lg_qt u))) (dvar 5 (Fin (d_qlglgdt u))) (dvar 6 (Fin (d_lg_drop u))) (dvar 7 (Fin (d_lg_rejuv u))).

Lemma tr_floor_flat v K f p c : tr v K f p -> (K -> f 0 <> c \/ flat f) ->
  tr v K (fun s => Rmax c (f s)) (dwhere (fst p <? Fin c)%X (dc (Fin c)) p).
Proof.
  intros T HK. destruct (Req_dec (f 0) c) as [e|e]; [|apply tr_floor; [exact T|intros _; exact e]].
  destruct T as [A (a & A1 & A2)]. split.
  - unfold dwhere. cbn [fst]. rewrite A. cbn [xlt]. rewrite Rltb_false by lra. rewrite Rmax_right by lra. reflexivity.
  - exists a. split.
    + intros i. unfold dwhere. cbn [snd]. rewrite A. cbn [xlt]. rewrite Rltb_false by lra. rewrite A1. cbn. f_equal. ring.
    + intros k. destruct (HK k) as [N|N]; [contradiction|]. rewrite (flat_0 _ _ N (A2 k)). apply flat_derive.
      unfold flat in *. eapply filter_imp; [|exact N]. cbn beta. intros s ->. reflexivity.
Qed.

Section Loss.
Variable u v : DiffstarParams R.
Variable K : Prop.
Notation tr := (tr (dir v) K).
Notation rep := (rep (dir v) K).
Let P (s : R) := bounded_of (move u v s).
Let D := dget_bounded_diffstar_params (dpars u).

Lemma move_0 : move u v 0 = u.
Proof. destruct u. unfold move. cbn. f_equal; ring. Qed.

Lemma tr_bounded :
  tr (fun s => d_lgmcrit (P s)) (d_lgmcrit D) /\ tr (fun s => d_lgy_at_mcrit (P s)) (d_lgy_at_mcrit D) /\
  tr (fun s => d_indx_lo (P s)) (d_indx_lo D) /\ tr (fun s => d_indx_hi (P s)) (d_indx_hi D) /\
  tr (fun s => d_lg_qt (P s)) (d_lg_qt D) /\ tr (fun s => d_qlglgdt (P s)) (d_qlglgdt D) /\
  tr (fun s => d_lg_drop (P s)) (d_lg_drop D) /\ tr (fun s => d_lg_rejuv (P s)) (d_lg_rejuv D).
Proof.
  assert (V : forall k x, (k < 8)%nat -> tr (fun s => x + s * dir v k) (dvar k (Fin x))) by (intros; apply tr_var; assumption).
  assert (Hd : tr (fun s => d_lg_drop (P s)) (d_lg_drop D)) by (apply (tr_bnd (dir v) K (fun s => d_lg_drop u + s * dir v 6)); [lra|apply V; lia]).
  split; [apply (tr_bnd (dir v) K (fun s => d_lgmcrit u + s * dir v 0)); [lra|apply V; lia]|].
  split; [apply (tr_bnd (dir v) K (fun s => d_lgy_at_mcrit u + s * dir v 1)); [lra|apply V; lia]|].
  split; [apply (tr_bnd (dir v) K (fun s => d_indx_lo u + s * dir v 2)); [lra|apply V; lia]|].
  split; [apply (tr_bnd (dir v) K (fun s => d_indx_hi u + s * dir v 3)); [lra|apply V; lia]|].
  split; [apply (tr_bnd (dir v) K (fun s => d_lg_qt u + s * dir v 4)); [lra|apply V; lia]|].
  split; [apply (tr_bnd (dir v) K (fun s => d_qlglgdt u + s * dir v 5)); [lra|apply V; lia]|].
  split; [exact Hd|].
  pose proof (V 7%nat (d_lg_rejuv u) ltac:(lia)) as H7.
  unfold D, dget_bounded_diffstar_params, dget_bounded_q_params, Q_SIG, Q_BOUNDS in *. cbn [lg_rejuv lg_drop slice_q join_params d_lg_drop] in *.
  rewrite (sigmoid_bounds_fin (-3)) in * by lra. cbv beta iota in *. cbn [d_lg_rejuv lg_rejuv dpars d_lg_drop] in *.
  apply (tr_sigmoid (dir v) K (fun s => d_lg_rejuv u + s * dir v 7) (fun _ => (-3 + 0) / 2) (fun _ => 4 / (0 - -3)) _ (fun _ => 0) _ _ _ _ _ H7
    (tr_c _ _ _) (tr_c _ _ _) Hd (tr_c _ _ _)).
Qed.

Variable lmk : MahParams xr -> xr -> xr -> xr.
Variable mah : MahParams xr.
Variable lgt0 : xr.
Variable fb : R.
Variable h : R -> R.

Lemma tr_unfloored t : tr (fun s => sfr_unfloored (P s) fb (h t) t)
  (dmul (dquenching_kern (Fin (log10R t)) (d_lg_qt D) (dpow10 (d_qlglgdt D)) (d_lg_drop D) (d_lg_rejuv D))
     (dmul (dc (Fin (fb * pow10R (h t)))) (dpow10 (dsfr_eff_plaw (Fin (h t)) (slice_ms D))))).
Proof.
  destruct tr_bounded as (T0 & T1 & T2 & T3 & T4 & T5 & T6 & T7).
  pose proof (tr_pow10 _ _ _ _ T5) as Hw.
    assert (TQ := tr_partial (dir v) K (log10R t) _ (fun s => pow10R (d_qlglgdt (P s)) / 12) _ (fun s => d_lg_drop (P s) - d_lg_rejuv (P s)) _ _ _ _
      ltac:(pose proof (pow10_pos (d_qlglgdt (P 0))); lra) T4 (tr_divc _ _ _ _ 12 ltac:(lra) Hw) T6 (tr_sub _ _ _ _ _ _ T6 T7)).
    pose proof (tr_pow10 _ _ _ _ TQ) as TQ'.
    assert (TE : tr (fun s => effR (slice_ms (P s)) (h t)) (dsfr_eff_plaw (Fin (h t)) (slice_ms D))).
    { unfold dsfr_eff_plaw, effR. apply tr_add; [exact T1|]. apply tr_mul.
      - apply (tr_sigmoid (dir v) K (fun _ => h t) _ (fun _ => 9)); [apply tr_c|exact T0|apply tr_c|exact T2|exact T3].
      - apply (tr_sub (dir v) K (fun _ => h t)); [apply tr_c|exact T0]. }
    eapply tr_ext; [|apply (tr_mul _ _ _ _ _ _ TQ' (tr_cmul _ _ _ _ (fb * pow10R (h t)) (tr_pow10 _ _ _ _ TE)))].
    intros s. cbn beta. unfold sfr_unfloored, ms_spec. rewrite eff_spec_eq. f_equal.
    unfold quench_spec. rewrite !tw_cdf_eq. f_equal.
    set (qt := d_lg_qt (P s)). set (dt := pow10R (d_qlglgdt (P s))). assert (Hdt : 0 < dt) by apply pow10_pos.
    replace ((log10R t - (qt - dt / 4)) / (dt / 12)) with ((log10R t - qt) / (dt / 12) + 3) by (field; lra).
    replace ((log10R t - (qt + dt / 4)) / (dt / 12)) with ((log10R t - qt) / (dt / 12) - 3) by (field; lra). ring.
Qed.

Lemma tr_sfr t : 0 < t -> lmk mah (Fin t) lgt0 = Fin (h t) ->
  (K -> sfr_unfloored (P 0) fb (h t) t <> 1 / 10 ^ 14 \/ flat (fun s => sfr_unfloored (P s) fb (h t) t)) ->
  tr (fun s => sfr_spec (P s) fb (h t) t) (dsfh_singlegal_scalar lmk (Fin t) mah (slice_ms D) (slice_q D) lgt0 (Fin fb)).
Proof.
  intros Ht Hm HK.
  unfold dsfh_singlegal_scalar. rewrite Hm, xlog10_fin by exact Ht. cbv zeta. unfold SFR_MIN, SFR_MIN_R.
  cbn [slice_q lg_qt qlglgdt lg_drop lg_rejuv]. change (Fin fb * xpow10 (Fin (h t)))%X with (Fin (fb * pow10R (h t))).
  apply (tr_floor_flat _ _ _ _ (1 / 10 ^ 14) (tr_unfloored t)). exact HK.
Qed.

Variable ts : list R.
Hypothesis Hne : ts <> [].
Hypothesis Hinc : increasing (1 / 1000 :: ts).
Hypothesis Hh : halo_history lmk mah lgt0 h ts.
Variable tau floor : R.
Hypothesis Htau : 0 < tau.
Hypothesis Hfloor : 0 < floor.
Let n := length ts.
Let SL (s : R) := map (fun t => sfr_spec (P s) fb (h t) t) ts.
Let ML (s : R) := massR ts (SL s).
Let FL (s : R) := fstarR ts (ML s) tau.

Lemma Hn : n <> 0%nat. Proof. unfold n. destruct ts; [congruence|discriminate]. Qed.
Lemma SL_len s : length (SL s) = n. Proof. apply map_length. Qed.
Lemma SL_pos s : Forall (fun x => 0 <= x) (SL s).
Proof. unfold SL. rewrite Forall_map. apply Forall_forall. intros t _. pose proof (sfr_spec_floor (P s) fb (h t) t). lra. Qed.

Lemma rep_sfr : (K -> Forall (fun t => sfr_unfloored (P 0) fb (h t) t <> 1 / 10 ^ 14 \/ flat (fun s => sfr_unfloored (P s) fb (h t) t)) ts) ->
  rep n SL (map (fun t => dsfh_singlegal_scalar lmk t mah (slice_ms D) (slice_q D) lgt0 (Fin fb)) (map Fin ts)).
Proof.
  intros HK. split; [rewrite !map_length; reflexivity|]. split; [apply SL_len|]. intros i Hi.
  rewrite (nth_map _ _ i NaN) by (rewrite map_length; exact Hi). rewrite nth_Fin by exact Hi.
  unfold halo_history in Hh. rewrite Forall_forall in Hh. assert (I : In (nth i ts 0) ts) by (apply nth_In; exact Hi).
  destruct (Hh _ I) as [A B]. eapply tr_ext; [|apply tr_sfr; [exact A|exact B|]].
  - intros s. unfold SL. cbn beta. symmetry. apply (nth_map (fun t => sfr_spec (P s) fb (h t) t) ts i 0 0 Hi).
  - intros k. specialize (HK k). rewrite Forall_forall in HK. apply HK, I.
Qed.

Variable S M LM LF W WF : list R.
Hypothesis LS : length S = n. Hypothesis LM' : length M = n. Hypothesis LLM : length LM = n. Hypothesis LLF : length LF = n.
Hypothesis LW : length W = n. Hypothesis LWF : length WF = n.
Hypothesis PM : Forall (fun x => 0 < x) M. Hypothesis PW : Forall (fun x => 0 < x) W. Hypothesis PWF : Forall (fun x => 0 < x) WF.
Variable lq : R.
Let d := mkLD (map Fin ts) mah (map Fin M) (map Fin LM) (map Fin S) (map Fin LF) (Fin tau) (Fin floor) (map Fin W) (map Fin WF) (Fin lq) lgt0 (Fin fb).
Let LV (s : R) := fit_loss floor (SL s) (ML s) (FL s) S M LM LF W WF (d_lg_qt (P s)) lq.

Lemma rep_minus L ps Y : length Y = n -> rep n L ps ->
  rep n (fun s => map2 Rminus (L s) Y) (map2 (fun a b => dsub a (dc b)) ps (map Fin Y)).
Proof. intros HY H. apply rep_map2c; auto. intros i _ T. apply (tr_sub (dir v) K _ (fun _ => _)); [exact T|apply tr_c]. Qed.
Lemma rep_over L ps Y : length Y = n -> Forall (fun x => 0 < x) Y -> rep n L ps ->
  rep n (fun s => map2 Rdiv (L s) Y) (map2 (fun a b => ddiv a (dc b)) ps (map Fin Y)).
Proof.
  intros HY PY H. apply rep_map2c; auto. intros i Hi T. apply tr_divc; [|exact T].
  rewrite Forall_forall in PY. assert (I : In (nth i Y 0) Y) by (apply nth_In; rewrite HY; exact Hi). specialize (PY _ I). lra.
Qed.
Lemma rep_wmse L ps Y : length Y = n -> Forall (fun x => 0 < x) Y -> rep n L ps ->
  tr (fun s => wmse (L s) Y) (dmean (map (fun x => dpown x 2) (map2 (fun a b => ddiv a (dc b)) ps (map Fin Y)))).
Proof.
  intros HY PY H. pose proof (rep_over _ _ _ HY PY H) as H1.
  assert (H2 : rep n (fun s => map (fun x => x ^ 2) (map2 Rdiv (L s) Y)) (map (fun x => dpown x 2) (map2 (fun a b => ddiv a (dc b)) ps (map Fin Y)))).
  { apply rep_map; [exact H1|]. intros i _ T. apply tr_pown. exact T. }
  eapply tr_ext; [|apply (rep_mean _ _ _ _ _ Hn H2)]. intros s. cbn beta. unfold wmse.
  rewrite map_length, map2_length, map_map2. destruct H as (_ & B & _). rewrite B, HY, Nat.min_id. reflexivity.
Qed.
Lemma flat_c (c : R) : flat (fun _ => c).
Proof. unfold flat. apply filter_forall. reflexivity. Qed.
Lemma clamp_tr f p : tr f p -> (K -> Rabs (f 0) <> 1 \/ flat f) -> tr (fun s => clampR (-1) 1 (f s)) (dclip p (dc (Fin (-1))) (dc (Fin 1))).
Proof.
  intros T HK. unfold dclip, clampR. apply (tr_min (dir v) K _ (fun _ => 1)); [|apply tr_c|].
  - apply (tr_max (dir v) K _ (fun _ => -1)); [exact T|apply tr_c|]. intros k.
    destruct (HK k) as [A|A]; [left; intros e; apply A; rewrite e, Rabs_left; lra|right; split; [exact A|apply flat_c]].
  - intros k. destruct (HK k) as [A|A].
    + left. intros e. apply A. unfold Rmax in e. destruct (Rle_dec (f 0) (-1)); [lra|]. rewrite e. apply Rabs_R1.
    + right. split; [|apply flat_c]. apply (flat_2 Rmax f (fun _ => -1)); [exact A|apply flat_c].
Qed.

Definition starved := Forall (fun t => sfr_unfloored (P 0) fb (h t) t < 1 / 10 ^ 14) ts.
Lemma starved_flat : K -> starved -> locally 0 (fun s => SL s = SL 0).
Proof.
  intros k Hs.
  assert (A : forall l, Forall (fun t => sfr_unfloored (P 0) fb (h t) t < 1 / 10 ^ 14) l ->
     locally 0 (fun s => Forall (fun t => sfr_unfloored (P s) fb (h t) t < 1 / 10 ^ 14) l)).
  { intros l0 H0. induction H0 as [|t l Ht Hl IH]; [apply filter_forall; constructor|].
    destruct (tr_unfloored t) as [_ (g & _ & D1)]. specialize (D1 k).
    assert (C : continuous (fun s => sfr_unfloored (P s) fb (h t) t) 0)
      by (apply (ex_derive_continuous (V := R_NormedModule)); eexists; exact D1).
    assert (B : locally 0 (fun s => sfr_unfloored (P s) fb (h t) t < 1 / 10 ^ 14)) by (apply (C (fun y => y < 1 / 10 ^ 14)), open_lt, Ht).
    pose proof (filter_and _ _ B IH) as H. eapply filter_imp; [|exact H]. cbn. intros s [X Y]. constructor; assumption. }
  eapply filter_imp; [|exact (A ts Hs)]. intros s HF. unfold SL. apply map_ext_in. intros t Ht.
  unfold starved in Hs. rewrite Forall_forall in Hs, HF. specialize (Hs t Ht). specialize (HF t Ht).
  change (Rmax (1 / 10 ^ 14) (sfr_unfloored (P s) fb (h t) t) = Rmax (1 / 10 ^ 14) (sfr_unfloored (P 0) fb (h t) t)).
  rewrite !Rmax_left; [reflexivity|apply Rlt_le; assumption..].
Qed.
(** No SFR changes along the line. *)
Definition steady := Forall (fun t => flat (fun s => sfr_unfloored (P s) fb (h t) t)) ts.
Lemma steady_flat : steady -> locally 0 (fun s => SL s = SL 0).
Proof.
  unfold steady, SL. clear. induction 1 as [|t l Ht Hl IH]; [apply filter_forall; reflexivity|].
  pose proof (filter_and _ _ Ht IH) as H. eapply filter_imp; [|exact H]. cbn beta. intros s [X Y]. cbn [map]. rewrite Y. f_equal.
  change (Rmax (1 / 10 ^ 14) (sfr_unfloored (P s) fb (h t) t) = Rmax (1 / 10 ^ 14) (sfr_unfloored (P 0) fb (h t) t)). rewrite X. reflexivity.
Qed.
Definition still := starved \/ steady.
Lemma still_dep (F : list R -> R) : K -> still -> flat (fun s => F (SL s)).
Proof.
  intros k [Hs|Hs]; unfold flat; (eapply filter_imp; [|first [exact (starved_flat k Hs)|exact (steady_flat Hs)]]); cbn; intros s ->; reflexivity.
Qed.
Hypothesis HK : K -> no_cutoff (P 0) fb floor h ts (SL 0) (ML 0) (FL 0) S M \/ still.

Lemma tr_loss : exists l, dloss_default_clipssfrh lmk (map2 dvar (seq 0 8) (map Fin (params_list u))) d = Some l /\ tr LV l.
Proof.
  assert (RS := rep_sfr). set (sf := map (fun t => dsfh_singlegal_scalar _ _ _ _ _ _ _) (map Fin ts)) in *.
  assert (HU : K -> Forall (fun t => sfr_unfloored (P 0) fb (h t) t <> 1 / 10 ^ 14 \/ flat (fun s => sfr_unfloored (P s) fb (h t) t)) ts).
  { intros k. destruct (HK k) as [A|[A|A]]; [destruct A as [A _]; eapply Forall_impl; [|exact A]; intros; left; assumption| |];
      (eapply Forall_impl; [|exact A]; cbn beta; intros); [left; lra|right; assumption]. }
  specialize (RS HU).
  destruct (rep_mass (dir v) K n ts _ _ eq_refl RS) as (ms & Em & RM).
  assert (Hts : increasing ts) by (apply (increasing_tail _ _ Hinc)).
  assert (RF := rep_fstar (dir v) K n ts SL _ ms tau Hn eq_refl Hts Htau SL_len SL_pos (fun s => eq_refl) RM).
  unfold dloss_default_clipssfrh. replace (d_make (map2 dvar (seq 0 8) (map Fin (params_list u)))) with (Some (dpars u)) by reflexivity.
  cbv zeta. cbn [ld_t ld_mah ld_mstar ld_logmstar ld_sfh ld_logfstar ld_tdelay ld_floor ld_w ld_wf ld_lgtmax ld_lgt0 ld_fb d].
  fold D. fold sf.
  rewrite Em. eexists. split; [reflexivity|]. rewrite xdiv_fin by lra.
  assert (P0 : forall s i, (i < n)%nat -> 0 < nth i (ML s) 0).
  { intros s i Hi. assert (Q : Forall (fun x => 0 < x) (ML s)) by (apply massR_pos; [rewrite SL_len; reflexivity|exact Hinc|apply SL_pos]).
    rewrite Forall_forall in Q. apply Q, nth_In. unfold ML. rewrite massR_length by (rewrite SL_len; reflexivity). exact Hi. }
  assert (ML_len : forall s, length (ML s) = n) by (apply RM).
  assert (FL_len : forall s, length (FL s) = n) by (apply RF).
  set (lo := map (fun m => dmul m _) ms). set (LO := fun s => map (fun m => m * (floor / 10)) (ML s)).
  assert (RL : rep n LO lo) by (apply rep_map; [exact RM|]; intros i _ T; apply tr_mulc; exact T).
  assert (LOn : forall s i, (i < n)%nat -> nth i (LO s) 0 = nth i (ML s) 0 * (floor / 10)).
  { intros s i Hi. apply (nth_map (fun m => m * (floor / 10)) (ML s) i 0 0). rewrite ML_len. exact Hi. }
  set (fc := map2 _ (dcompute_fstar _ _ _) lo). set (sc := map2 _ sf lo).
  assert (RFC : rep n (fun s => map2 Rmax (FL s) (LO s)) fc).
  { apply rep_map2; [exact RF|exact RL|]. intros i Hi T1 T2. apply tr_clip_lo; [exact T1|exact T2|]. intros k.
    destruct (HK k) as [A|A]; [left; rewrite LOn by exact Hi; apply A, Hi|right].
    split; [apply (still_dep (fun l => nth i (fstarR ts (massR ts l) tau) 0) k A)|
            apply (still_dep (fun l => nth i (map (fun m => m * (floor / 10)) (massR ts l)) 0) k A)]. }
  assert (RSC : rep n (fun s => map2 Rmax (SL s) (LO s)) sc).
  { apply rep_map2; [exact RS|exact RL|]. intros i Hi T1 T2. apply tr_clip_lo; [exact T1|exact T2|]. intros k.
    destruct (HK k) as [A|A]; [left; rewrite LOn by exact Hi; apply A, Hi|right].
    split; [apply (still_dep (fun l => nth i l 0) k A)|
            apply (still_dep (fun l => nth i (map (fun m => m * (floor / 10)) (massR ts l)) 0) k A)]. }
  assert (RLF : rep n (fun s => map2 Rminus (map log10R (map2 Rmax (FL s) (LO s))) LF)
                  (map2 (fun a b => dsub a (dc b)) (map dlog10 fc) (map Fin LF))).
  { apply rep_minus; [exact LLF|]. apply rep_map; [exact RFC|]. intros i Hi T. apply tr_log10; [|exact T].
    rewrite (map2_nth _ _ _ i 0 0) by (rewrite ?FL_len, ?(proj1 (proj2 RL)); exact Hi).
    rewrite LOn by exact Hi. eapply Rlt_le_trans; [|apply Rmax_r]. apply Rmult_lt_0_compat; [apply P0, Hi|lra]. }
  assert (RLM : rep n (fun s => map2 Rminus (map log10R (ML s)) LM) (map2 (fun a b => dsub a (dc b)) (map dlog10 ms) (map Fin LM))).
  { apply rep_minus; [exact LLM|]. apply rep_map; [exact RM|]. intros i Hi T. apply tr_log10; [apply P0, Hi|exact T]. }
  assert (RSF : rep n (fun s => map2 Rdiv (map (fun x => 10 ^ 8 * x) (map2 Rminus (map2 Rmax (SL s) (LO s)) S)) M)
      (map2 (fun a b => ddiv a (dc b)) (map (dmul (dc (Fin (10 ^ 8)))) (map2 (fun a b => dsub a (dc b)) sc (map Fin S))) (map Fin M))).
  { apply rep_over; [exact LM'|exact PM|]. apply rep_map; [apply rep_minus; [exact LS|exact RSC]|]. intros i _ T. apply tr_cmul. exact T. }
  assert (RSR : rep n (fun s => map (clampR (-1) 1) (map2 Rdiv (map (fun x => 10 ^ 8 * x) (map2 Rminus (map2 Rmax (SL s) (LO s)) S)) M))
      (map (fun r => dclip r (dc (Fin (-1))) (dc (Fin 1)))
        (map2 (fun a b => ddiv a (dc b)) (map (dmul (dc (Fin (10 ^ 8)))) (map2 (fun a b => dsub a (dc b)) sc (map Fin S))) (map Fin M)))).
  { apply rep_map; [exact RSF|]. intros i Hi T. apply clamp_tr; [exact T|]. intros k. destruct (HK k) as [A|A]; [left|right;
      apply (still_dep (fun l => nth i (map2 Rdiv (map (fun x => 10 ^ 8 * x) (map2 Rminus (map2 Rmax l (map (fun m => m * (floor / 10)) (massR ts l))) S)) M) 0) k A)].
    assert (L1 : length (map2 Rmax (SL 0) (LO 0)) = n) by (apply map2_len; [apply SL_len|apply RL]).
    assert (L2 : length (map2 Rminus (map2 Rmax (SL 0) (LO 0)) S) = n) by (apply map2_len; assumption).
    rewrite (map2_nth Rdiv _ _ i 0 0) by (rewrite ?map_length, ?L2, ?LM'; exact Hi).
    rewrite (nth_map (fun x => 10 ^ 8 * x) _ i 0) by (rewrite L2; exact Hi).
    rewrite (map2_nth Rminus _ _ i 0 0) by (rewrite ?L1, ?LS; exact Hi).
    rewrite (map2_nth Rmax _ _ i 0 0) by (rewrite ?SL_len, ?(proj1 (proj2 RL)); exact Hi).
    rewrite LOn by exact Hi. apply A, Hi. }
  assert (TP : tr (fun s => prior (d_lg_qt (P s)) lq)
     (dsigmoid (dsub (d_lg_qt D) (dc (Fin lq))) (dc (Fin 0)) (dc (Fin 50)) (dc (Fin 100)) (dc (Fin 0)))).
  { destruct tr_bounded as (_ & _ & _ & _ & T4 & _).
    eapply tr_ext; [|apply (tr_sigmoid (dir v) K (fun s => d_lg_qt (P s) - lq) (fun _ => 0) (fun _ => 50) (fun _ => 100) (fun _ => 0));
      [apply (tr_sub (dir v) K _ (fun _ => lq)); [exact T4|apply tr_c]|apply tr_c..]].
    intros s. cbn beta. generalize (d_lg_qt (P s)). intros x. pose proof (prior_sig x lq) as E. injection E as E. rewrite <- E. reflexivity. }
  assert (TL := tr_pown _ _ _ _ 2 (rep_last _ _ _ _ _ Hn RLF)).
  assert (TA := tr_add _ _ _ _ _ _ (tr_add _ _ _ _ _ _ (tr_add _ _ _ _ _ _ (tr_add _ _ _ _ _ _
     (tr_cmul _ _ _ _ 30 (rep_wmse _ _ _ LW PW RLM)) (rep_wmse _ _ _ LWF PWF RLF)) (rep_wmse _ _ _ LW PW RSR)) (tr_cmul _ _ _ _ (1 / 2) TL)) TP).
  eapply tr_ext; [|exact TA]. intros s. cbn beta. unfold LV, fit_loss.
  assert (E0 : forall l, map2 Rmax l (LO s) = map2 (fun x m => Rmax x (m * (floor / 10))) l (ML s))
    by (intros l; unfold LO; apply map2_map_r).
  rewrite !E0, map_map2, !map2_map_l, map_map2. reflexivity.
Qed.
End Loss.

(** ** the gradient *)
Lemma loss_line lmk u v x ts mah M LM S LF tau floor W WF lq lgt0 fb h L :
  ts <> [] -> increasing (1 / 1000 :: ts) -> halo_history lmk mah lgt0 h ts ->
  length M = length ts -> length LM = length ts -> length S = length ts -> length LF = length ts ->
  length W = length ts -> length WF = length ts ->
  Forall (fun x => 0 < x) M -> Forall (fun x => 0 < x) W -> Forall (fun x => 0 < x) WF -> 0 < tau -> 0 < floor ->
  loss_default_clipssfrh lmk (map Fin (params_list (move u v x)))
      (mkLD (map Fin ts) mah (map Fin M) (map Fin LM) (map Fin S) (map Fin LF) (Fin tau) (Fin floor) (map Fin W) (map Fin WF) (Fin lq) lgt0 (Fin fb))
    = Some (Fin L) ->
  let p := bounded_of (move u v x) in
  let s := map (fun t => sfr_spec p fb (h t) t) ts in
  L = fit_loss floor s (massR ts s) (fstarR ts (massR ts s) tau) S M LM LF W WF (d_lg_qt p) lq.
Proof.
  intros Hne Hi Hh HM HLM HS HLF HW HWF PM PW PWF Htau Hfl HL p s.
  destruct (loss_value lmk (move u v x) ts mah M LM S LF tau floor W WF lq lgt0 fb h Hne Hi Hh HM HLM HS HLF HW HWF PM PW PWF Htau Hfl)
    as (p' & s' & m' & f' & Ep & _ & Es & Ef & _ & _ & _ & _ & Ev).
  assert (p' = p).
  { pose proof (bounded_diffstar_fin (move u v x)) as B. rewrite Ep in B. clear -B. unfold p, bounded_of.
    set (q := join_params _ _) in *. clearbody q. destruct p', q. unfold map_d in B. cbn in B. injection B as -> -> -> -> -> -> -> ->. reflexivity. }
  subst p'. pose proof (calc_sfh_smh_value lmk p mah ts lgt0 fb h Hh) as Hv. cbv zeta in Hv. fold s in Hv.
  rewrite Es in Hv. injection Hv as E1 E2. apply map_Fin_inj in E1. apply map_Fin_inj in E2. subst s' m'.
  assert (Ff : fstarR ts (massR ts s) tau = f').
  { unfold fstarR. rewrite Ef, map_map. apply map_id. }
  rewrite Ff. rewrite HL in Ev. injection Ev as Ev. exact Ev.
Qed.

Lemma eight_entries (g : nat -> R) (v : DiffstarParams R) : dot (dir v) g = inner (map g (seq 0 8)) (params_list v).
Proof. unfold dot, inner, dir. cbn. ring. Qed.

Lemma loss_gradient lmk u ts mah M LM S LF tau floor W WF lq lgt0 fb h :
  ts <> [] -> increasing (1 / 1000 :: ts) -> halo_history lmk mah lgt0 h ts ->
  length M = length ts -> length LM = length ts -> length S = length ts -> length LF = length ts ->
  length W = length ts -> length WF = length ts ->
  Forall (fun x => 0 < x) M -> Forall (fun x => 0 < x) W -> Forall (fun x => 0 < x) WF -> 0 < tau -> 0 < floor ->
  let d := mkLD (map Fin ts) mah (map Fin M) (map Fin LM) (map Fin S) (map Fin LF) (Fin tau) (Fin floor) (map Fin W) (map Fin WF) (Fin lq) lgt0 (Fin fb) in
  exists g, length g = 8%nat /\ loss_grad_default_clipssfrh lmk (map Fin (params_list u)) d = Some (map Fin g) /\
    forall L p s m f, (forall w, loss_default_clipssfrh lmk (map Fin (params_list w)) d = Some (Fin (L w))) ->
      get_bounded_diffstar_params (map_d Fin u) = map_d Fin p ->
      calc_sfh_singlegal_smh lmk (map_d Fin p) mah (map Fin ts) lgt0 (Fin fb) = Some (map Fin s, map Fin m) ->
      compute_fstar (map Fin ts) (map Fin m) (Fin tau) = map Fin f ->
      no_cutoff p fb floor h ts s m f S M ->
      forall v, is_derive (fun x => L (move u v x)) 0 (inner g (params_list v)).
Proof.
  intros Hne Hi Hh HM HLM HS HLF HW HWF PM PW PWF Htau Hfl d.
  destruct (tr_loss u u False lmk mah lgt0 fb h ts Hne Hi Hh tau floor Htau Hfl S M LM LF W WF HS HM HLM HLF HW HWF PM PW PWF lq
    (fun k => False_ind _ k)) as (l & El & _ & g & Hg & _).
  exists (map g (seq 0 8)). split; [reflexivity|]. split.
  { unfold loss_grad_default_clipssfrh. rewrite map_length. change (length (params_list u)) with 8%nat.
    unfold d. rewrite El. f_equal. rewrite map_map. apply map_ext. exact Hg. }
  intros L p s m f HL Ep Es Ef HK v.
  assert (E : p = bounded_of (move u v 0)).
  { rewrite move_0. pose proof (bounded_diffstar_fin u) as B. rewrite Ep in B. clear -B. unfold bounded_of.
    set (q := join_params _ _) in *. clearbody q. destruct p, q. unfold map_d in B. cbn in B. injection B as -> -> -> -> -> -> -> ->. reflexivity. }
  pose proof (calc_sfh_smh_value lmk p mah ts lgt0 fb h Hh) as Hv. cbv zeta in Hv.
  rewrite Es in Hv. injection Hv as E1 E2. apply map_Fin_inj in E1. apply map_Fin_inj in E2. subst m. subst s.
  assert (Ff : f = fstarR ts (massR ts (map (fun t => sfr_spec p fb (h t) t) ts)) tau).
  { unfold fstarR. rewrite Ef, map_map. symmetry. apply map_id. }
  subst f. subst p.
  destruct (tr_loss u v True lmk mah lgt0 fb h ts Hne Hi Hh tau floor Htau Hfl S M LM LF W WF HS HM HLM HLF HW HWF PM PW PWF lq
    (fun _ => or_introl HK)) as (l' & El' & _ & g' & Hg' & D).
  rewrite El in El'. injection El' as <-.
  rewrite <- eight_entries. specialize (D I).
  replace (dot (dir v) g) with (dot (dir v) g').
  2:{ assert (Q : forall i, g' i = g i) by (intros i; pose proof (Hg i) as A; pose proof (Hg' i) as B; rewrite A in B; injection B as B; symmetry; exact B).
      unfold dot. rewrite !Q. reflexivity. }
  eapply is_derive_ext; [|exact D]. intros x. symmetry.
  apply (loss_line lmk u v x ts mah M LM S LF tau floor W WF lq lgt0 fb h); auto.
Qed.

Lemma gradient_end_to_end lmk msh ts ss mah dlogm tmin mmin tau floor lgt0 fb mp h :
  fit_input ts ss tau floor -> last (snd (msh mah (map Fin ts) lgt0)) NaN = Fin mp -> halo_history lmk mah lgt0 h ts ->
  exists init d,
    get_loss_data_default msh (map Fin ts) (map Fin ss) mah (Fin dlogm) (Fin tmin) (Fin mmin) (Fin tau) (Fin floor) lgt0 (Fin fb) = Some (init, d) /\
    forall u, exists g, length g = 8%nat /\ loss_grad_default_clipssfrh lmk (map Fin (params_list u)) d = Some (map Fin g).
Proof.
  intros H1 H2 Hh. destruct (loss_data_value msh ts ss mah dlogm tmin mmin tau floor lgt0 (Fin fb) mp H1 H2)
    as (mass & f & w & wf & k & A1 & A2 & A3 & A4 & A5 & _ & A7 & A8 & E).
  destruct H1 as (Hne & Hl & Hi & Hs & Htau & Hfl).
  set (lf := map log10R (fstar_target floor f mass)) in *.
  assert (Hlf : length lf = length ts).
  { unfold lf, fstar_target, fstar_floor. rewrite !map_length. apply map2_len; assumption. }
  assert (Hlf0 : lf <> []) by (destruct lf, ts; try discriminate; congruence).
  destruct (weights_pos _ _ _ _ _ _ _ _ _ Hlf0 A7) as [Pw Pwf]. destruct A7 as (Hw & Hwf & _).
  eexists; eexists. split; [exact E|]. intros u.
  destruct (loss_gradient lmk u ts mah mass (map log10R mass) (map (fun s => Rmax s (1 / 10 ^ 14)) ss) lf tau floor w wf (log10R (nth k ts 0)) lgt0 fb h)
    as (g & G1 & G2 & _); auto; rewrite ?map_length; auto.
  exists g. auto.
Qed.

Lemma first_draw_used lmk msh ts ss mah dlogm tmin mmin tau floor lgt0 fb mp h :
  fit_input ts ss tau floor -> last (snd (msh mah (map Fin ts) lgt0)) NaN = Fin mp -> halo_history lmk mah lgt0 h ts ->
  exists init d,
    get_loss_data_default msh (map Fin ts) (map Fin ss) mah (Fin dlogm) (Fin tmin) (Fin mmin) (Fin tau) (Fin floor) lgt0 (Fin fb) = Some (init, d) /\
    forall rng (normal : rng -> list xr -> list xr -> list xr * rng) grad s u s',
      (forall w g, loss_grad_default_clipssfrh lmk w d = Some g -> grad w = g) ->
      normal s (fst init) (snd init) = (map Fin (params_list u), s') ->
      return_random_pinit rng normal grad s init = (map Fin (params_list u), false, s').
Proof.
  intros H1 H2 Hh. destruct (gradient_end_to_end lmk msh ts ss mah dlogm tmin mmin tau floor lgt0 fb mp h H1 H2 Hh) as (init & d & E & G).
  exists init, d. split; [exact E|]. intros rng normal grad s u s' Hg Hn. destruct (G u) as (g & _ & Gu).
  rewrite random_good; unfold draw, rng_after; rewrite Hn; cbn [fst snd]; [reflexivity|].
  rewrite (Hg _ _ Gu). intros I. apply in_map_iff in I. destruct I as (x & X & _). discriminate.
Qed.

(** ** every SFR at its floor *)
Lemma is_derive_prior y lq : is_derive (fun y => prior y lq) y (- (5000 * exp (50 * (y - lq)) / (1 + exp (50 * (y - lq))) ^ 2)).
Proof.
  pose proof (exp_pos (50 * (y - lq))) as H. unfold Rminus in *. unfold prior. auto_derive; [intros e; unfold Rminus in *; lra|]. unfold Rminus in *. field. lra.
Qed.
Lemma is_derive_bnd x lo hi : is_derive (fun x => bndR x lo hi) x
  ((hi - lo) * (4 / (hi - lo) * (logisticR (4 / (hi - lo) * (x - (lo + hi) / 2)) * (1 - logisticR (4 / (hi - lo) * (x - (lo + hi) / 2)))))).
Proof.
  unfold bndR, sigR. set (k := 4 / (hi - lo)). set (c := (lo + hi) / 2).
  pose proof (is_derive_logistic (k * (x - c))) as L.
  eapply is_derive_ext; [intros; reflexivity|].
  assert (D1 : is_derive (fun x => k * (x - c)) x k) by (auto_derive; [exact I|ring]).
  pose proof (is_derive_comp (V := R_NormedModule) logisticR _ x _ _ L D1) as C.
  pose proof (is_derive_scal _ x (hi - lo) _ C) as Sc.
  pose proof (is_derive_plus (V := R_NormedModule) (fun _ => lo) _ x _ _ (is_derive_const (V := R_NormedModule) lo x) Sc) as A.
  unfold plus, zero, scal in A; cbn in A. unfold mult in A; cbn in A. rewrite Rplus_0_l in A. exact A.
Qed.
Lemma prior_slope x lq : exists g, g < 0 /\ is_derive (fun x => prior (bndR x (1 / 10) 2) lq) x g.
Proof.
  pose proof (is_derive_prior (bndR x (1 / 10) 2) lq) as A. pose proof (is_derive_bnd x (1 / 10) 2) as B.
  pose proof (is_derive_comp (V := R_NormedModule) (fun y => prior y lq) (fun x => bndR x (1 / 10) 2) x _ _ A B) as C.
  eexists. split; [|exact C]. unfold scal; cbn. unfold mult; cbn.
  set (z := _ * (x - _)). pose proof (logistic_range z) as L. set (e := 50 * _). pose proof (exp_pos e) as E.
  assert (Q : 0 < 5000 * exp e / ((1 + exp e) * ((1 + exp e) * 1))).
  { apply Rdiv_lt_0_compat; [lra|]. apply Rmult_lt_0_compat; [lra|]. lra. }
  assert (N : 0 < logisticR z * (1 - logisticR z)) by (apply Rmult_lt_0_compat; lra).
  set (q := 5000 * _ / _) in *. set (w := logisticR z * _) in *.
  replace ((2 - 1 / 10) * (4 / (2 - 1 / 10) * w)) with (4 * w) by field. 
  assert (0 < w * q) by (apply Rmult_lt_0_compat; assumption). lra.
Qed.

Lemma starved_gradient lmk u ts mah M LM S LF tau floor W WF lq lgt0 fb h p :
  ts <> [] -> increasing (1 / 1000 :: ts) -> halo_history lmk mah lgt0 h ts ->
  length M = length ts -> length LM = length ts -> length S = length ts -> length LF = length ts ->
  length W = length ts -> length WF = length ts ->
  Forall (fun x => 0 < x) M -> Forall (fun x => 0 < x) W -> Forall (fun x => 0 < x) WF -> 0 < tau -> 0 < floor ->
  get_bounded_diffstar_params (map_d Fin u) = map_d Fin p ->
  Forall (fun t => sfr_unfloored p fb (h t) t < 1 / 10 ^ 14) ts ->
  exists g, g < 0 /\
    loss_grad_default_clipssfrh lmk (map Fin (params_list u))
      (mkLD (map Fin ts) mah (map Fin M) (map Fin LM) (map Fin S) (map Fin LF) (Fin tau) (Fin floor) (map Fin W) (map Fin WF) (Fin lq) lgt0 (Fin fb))
    = Some (map Fin [0; 0; 0; 0; g; 0; 0; 0]).
Proof.
  intros Hne Hi Hh HM HLM HS HLF HW HWF PM PW PWF Htau Hfl Ep Hs.
  assert (E : p = bounded_of u).
  { pose proof (bounded_diffstar_fin u) as B. rewrite Ep in B. clear -B. unfold bounded_of.
    set (q := join_params _ _) in *. clearbody q. destruct p, q. unfold map_d in B. cbn in B. injection B as -> -> -> -> -> -> -> ->. reflexivity. }
  subst p. destruct (prior_slope (d_lg_qt u) lq) as (g4 & Hneg & D4). exists g4. split; [exact Hneg|].
  assert (St : forall v, starved u v fb h ts) by (intros v; unfold starved; rewrite move_0; exact Hs).
  destruct (tr_loss u u True lmk mah lgt0 fb h ts Hne Hi Hh tau floor Htau Hfl S M LM LF W WF HS HM HLM HLF HW HWF PM PW PWF lq
    (fun _ => or_intror (or_introl (St u)))) as (l & El & _ & g & Hg & _).
  assert (Hd : forall v, dot (dir v) g = d_lg_qt v * g4).
  { intros v.
    destruct (tr_loss u v True lmk mah lgt0 fb h ts Hne Hi Hh tau floor Htau Hfl S M LM LF W WF HS HM HLM HLF HW HWF PM PW PWF lq
      (fun _ => or_intror (or_introl (St v)))) as (l' & El' & _ & g' & Hg' & D). specialize (D I).
    rewrite El in El'. injection El' as <-.
    assert (Q : forall i, g' i = g i) by (intros i; pose proof (Hg i) as A; pose proof (Hg' i) as B; rewrite A in B; injection B as B; symmetry; exact B).
    replace (dot (dir v) g') with (dot (dir v) g) in D by (unfold dot; rewrite !Q; reflexivity).
    rewrite <- (is_derive_unique _ _ _ D). apply is_derive_unique.
    set (s0 := map (fun t => sfr_spec (bounded_of (move u v 0)) fb (h t) t) ts).
    set (C := fit_loss floor s0 (massR ts s0) (fstarR ts (massR ts s0) tau) S M LM LF W WF 0 lq - prior 0 lq).
    apply (is_derive_ext_loc (fun s => C + prior (bndR (d_lg_qt u + s * d_lg_qt v) (1 / 10) 2) lq)).
    - eapply filter_imp; [|exact (starved_flat u v True fb h ts I (St v))]. cbn beta. intros s Es. rewrite Es. fold s0.
      unfold C, fit_loss. cbn. ring.
    - assert (D1 : is_derive (fun s => d_lg_qt u + s * d_lg_qt v) 0 (d_lg_qt v)) by (auto_derive; [exact I|ring]).
      assert (D4' : is_derive (fun x => prior (bndR x (1 / 10) 2) lq) (d_lg_qt u + 0 * d_lg_qt v) g4) by (replace (d_lg_qt u + 0 * d_lg_qt v) with (d_lg_qt u) by ring; exact D4).
      pose proof (is_derive_comp (V := R_NormedModule) (fun x => prior (bndR x (1 / 10) 2) lq) (fun s => d_lg_qt u + s * d_lg_qt v) 0 _ _ D4' D1) as Cc.
      pose proof (is_derive_plus (V := R_NormedModule) (fun _ => C) _ 0 _ _ (is_derive_const (V := R_NormedModule) C 0) Cc) as A.
      unfold plus, zero, scal in A; cbn in A. unfold mult in A; cbn in A. rewrite Rplus_0_l in A. exact A. }
  pose proof (Hd (mkDiffstar 1 0 0 0 0 0 0 0)) as H0. pose proof (Hd (mkDiffstar 0 1 0 0 0 0 0 0)) as H1.
  pose proof (Hd (mkDiffstar 0 0 1 0 0 0 0 0)) as H2. pose proof (Hd (mkDiffstar 0 0 0 1 0 0 0 0)) as H3.
  pose proof (Hd (mkDiffstar 0 0 0 0 1 0 0 0)) as H4. pose proof (Hd (mkDiffstar 0 0 0 0 0 1 0 0)) as H5.
  pose proof (Hd (mkDiffstar 0 0 0 0 0 0 1 0)) as H6. pose proof (Hd (mkDiffstar 0 0 0 0 0 0 0 1)) as H7.
  unfold dot, dir in *. cbn in H0, H1, H2, H3, H4, H5, H6, H7. clear Hd.
  unfold loss_grad_default_clipssfrh. rewrite map_length. change (length (params_list u)) with 8%nat. rewrite El.
  cbn [seq map]. rewrite !Hg. repeat f_equal; lra.
Qed.

(** ** a galaxy with no value at a cut-off *)
Definition ex_lmk : MahParams xr -> xr -> xr -> xr := fun _ _ _ => Fin (45 / 4).
Definition ex_mah : MahParams xr := mkMah NaN NaN NaN NaN NaN.
Definition ex_u : DiffstarParams R := mkDiffstar (45 / 4) 0 0 0 0 0 0 0.
Lemma ex_unfloored : let p := bounded_of ex_u in 1 / 10 ^ 5 < sfr_unfloored p (156 / 1000) (45 / 4) 1 < 1560.
Proof.
  set (p := bounded_of ex_u). cbv zeta. assert (B : in_bounds p) by apply bounded_in_bounds.
  assert (E : d_lgmcrit p = 45 / 4).
  { unfold p, bounded_of, ex_u. cbn. unfold bndR, sigR. replace (45 / 4 - (9 + 135 / 10) / 2) with 0 by field.
    rewrite Rmult_0_r, logistic_0. field. }
  destruct B as (_ & By & _ & _ & _ & _ & Bd & Br).
  pose proof (quench_spec_range (d_lg_qt p) (pow10R (d_qlglgdt p)) (d_lg_drop p) (d_lg_rejuv p) (log10R 1) (pow10_pos _) ltac:(lra) ltac:(lra)) as Q.
  unfold sfr_unfloored, ms_spec. set (q := quench_spec _ _ _ _ _) in *. clearbody q.
  rewrite <- E, eff_at_mcrit, E, Rmult_assoc, <- pow10_plus. set (x := 45 / 4 + d_lgy_at_mcrit p).
  assert (P1 : pow10R (- (1)) < pow10R x) by (apply pow10_lt; unfold x; lra).
  assert (P2 : pow10R x < pow10R (1 + 1 + 1 + 1)) by (apply pow10_lt; unfold x; lra).
  assert (P3 : pow10R (- (1 + 1 + 1)) < pow10R (d_lg_drop p)) by (apply pow10_lt; lra).
  rewrite !pow10_opp, ?pow10_plus, !pow10_1 in *. replace (10 * 10 * 10 * 10) with 10000 in P2 by ring.
  replace (/ (10 * 10 * 10)) with (1 / 1000) in P3 by field. set (y := pow10R x) in *. clearbody y.
  assert (A : 1 / 1000 * (156 / 1000 * (1 / 10)) < q * (156 / 1000 * y)) by (apply Rmult_gt_0_lt_compat; lra).
  assert (A2 : q * (156 / 1000 * y) <= 1 * (156 / 1000 * y)) by (apply Rmult_le_compat_r; lra).
  assert (1 / 10 ^ 5 < 1 / 1000 * (156 / 1000 * (1 / 10))) by lra. lra.
Qed.
Lemma ex_no_cutoff : exists p s m f,
  get_bounded_diffstar_params (map_d Fin ex_u) = map_d Fin p /\
  calc_sfh_singlegal_smh ex_lmk (map_d Fin p) ex_mah (map Fin [1]) (Fin 0) (Fin (156 / 1000)) = Some (map Fin s, map Fin m) /\
  compute_fstar (map Fin [1]) (map Fin m) (Fin 1) = map Fin f /\
  no_cutoff p (156 / 1000) (1 / 10 ^ 12) (fun _ => 45 / 4) [1] s m f [0] [10 ^ 12].
Proof.
  set (p := bounded_of ex_u). pose proof ex_unfloored as U. cbv zeta in U. fold p in U.
  set (z := sfr_unfloored p (156 / 1000) (45 / 4) 1) in *.
  assert (Hh : halo_history ex_lmk ex_mah (Fin 0) (fun _ => 45 / 4) [1]) by (repeat constructor; lra).
  pose proof (calc_sfh_smh_value ex_lmk p ex_mah [1] (Fin 0) (156 / 1000) (fun _ => 45 / 4) Hh) as Hv. cbv zeta in Hv. cbn [map] in Hv.
  assert (Es : sfr_spec p (156 / 1000) (45 / 4) 1 = z).
  { unfold sfr_spec. fold (sfr_unfloored p (156 / 1000) (45 / 4) 1). fold z. apply Rmax_right. assert (1 / 10 ^ 14 < 1 / 10 ^ 5) by lra. lra. }
  rewrite Es in Hv. set (m := massR [1] [z]) in *.
  assert (Em : m = [(0 + (1 - 1 / 1000) * (z + 1 / 10 ^ 14) / 2) * 10 ^ 9]) by reflexivity.
  exists p, [z], m, [0]. split; [apply bounded_diffstar_fin|]. split; [exact Hv|].
  split.
  { rewrite Em. generalize ((0 + (1 - 1 / 1000) * (z + 1 / 10 ^ 14) / 2) * 10 ^ 9). intros w.
    assert (J : jnp_interp (Fin 1 - Fin 1)%X [Fin 1] [Fin w] = Fin w).
    { unfold jnp_interp. cbn [length Nat.sub at_ nth xsub xadd xopp xlt]. rewrite Rltb_false by lra. rewrite Rltb_true by lra. reflexivity. }
    unfold compute_fstar. cbn [map map2]. rewrite J. cbn [xsub xadd xopp]. rewrite !xdiv_fin by lra. cbn [xlt].
    rewrite Rltb_false; [reflexivity|]. replace (w + - w) with 0 by ring. unfold Rdiv. rewrite !Rmult_0_l. lra. }
  split; [repeat constructor; change (z <> 1 / 10 ^ 14); assert (1 / 10 ^ 14 < 1 / 10 ^ 5) by lra; lra|].
  intros [|i] Hi; [|cbn in Hi; lia]. rewrite Em. cbn [nth]. set (w := (0 + _) * 10 ^ 9).
  assert (Hw : 0 < w < 10 ^ 12) by (unfold w; lra).
  assert (Hw2 : w * (1 / 10 ^ 12 / 10) < z) by (unfold w; lra).
  split; [|split].
  - assert (0 < w * (1 / 10 ^ 12 / 10)) by (apply Rmult_lt_0_compat; lra). lra.
  - lra.
  - rewrite Rmax_left by lra. rewrite Rabs_pos_eq; [|apply Rmult_le_pos; [lra|left; apply Rinv_0_lt_compat; lra]].
    intros e. assert (10 ^ 8 * (z - 0) = 10 ^ 12) by (replace (10 ^ 8 * (z - 0)) with (10 ^ 8 * (z - 0) / 10 ^ 12 * 10 ^ 12) by (field; lra); rewrite e; ring). lra.
Qed.
