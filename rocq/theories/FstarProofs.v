(** compute_fstar and interpolation. *)
From Coq Require Import Reals Lra Lia List Bool Arith.
From Coquelicot Require Import Coquelicot.
From Verif Require Import XReal XFacts RealFacts ModelUtils ModelKernels ModelSfh SpecCore
  IntegralProofs DtProofs.
Import List ListNotations.
Open Scope R_scope.

(** searchsorted (right) on an increasing finite table *)
Lemma ss_right_spec xt x : increasing xt ->
  let k := searchsorted_right (map Fin xt) (Fin x) in
  (k <= length xt)%nat /\
  (forall i, (i < k)%nat -> nth i xt 0 <= x) /\
  (forall i, (k <= i)%nat -> (i < length xt)%nat -> x < nth i xt 0).
Proof.
  induction xt as [|a xt IH]; intros Hinc; cbv zeta.
  - simpl. split; [lia|]. split; intros; simpl in *; lia.
  - cbn [map searchsorted_right]. destruct (Rle_lt_dec a x) as [H|H].
    + rewrite xle_fin_true by exact H. destruct (IH (increasing_tail _ _ Hinc)) as (A & B & C).
      simpl length. split; [lia|]. split.
      * intros [|i] Hi; [exact H|]. apply B. lia.
      * intros [|i] Hi Hl; [lia|]. apply C; lia.
    + rewrite xle_fin_false by exact H. split; [lia|]. split; [intros; lia|].
      intros [|i] _ Hl; [exact H|]. simpl in Hl.
      assert (a < nth i xt 0) by (apply increasing_head_lt; [exact Hinc|lia]). cbn [nth]. lra.
Qed.

Lemma ss_left_spec xt x : increasing xt ->
  let k := searchsorted_left (map Fin xt) (Fin x) in
  (k <= length xt)%nat /\
  (forall i, (i < k)%nat -> nth i xt 0 < x) /\
  (forall i, (k <= i)%nat -> (i < length xt)%nat -> x <= nth i xt 0).
Proof.
  induction xt as [|a xt IH]; intros Hinc; cbv zeta.
  - simpl. split; [lia|]. split; intros; simpl in *; lia.
  - cbn [map searchsorted_left]. destruct (Rlt_le_dec a x) as [H|H].
    + replace (Fin a <? Fin x)%X with true by (symmetry; apply xlt_fin; exact H).
      destruct (IH (increasing_tail _ _ Hinc)) as (A & B & C).
      simpl length. split; [lia|]. split.
      * intros [|i] Hi; [exact H|]. apply B. lia.
      * intros [|i] Hi Hl; [lia|]. apply C; lia.
    + replace (Fin a <? Fin x)%X with false by (symmetry; apply xlt_fin_false; exact H).
      split; [lia|]. split; [intros; lia|].
      intros [|i] _ Hl; [exact H|]. simpl in Hl.
      assert (a < nth i xt 0) by (apply increasing_head_lt; [exact Hinc|lia]). cbn [nth]. lra.
Qed.

(** pwl at a point of segment [i, i+1] *)
Lemma pwl_segment (ts fs : list R) : length ts = length fs -> increasing ts -> forall i x,
  (S i < length ts)%nat -> nth i ts 0 <= x <= nth (S i) ts 0 ->
  pwl (combine ts fs) x = nth i fs 0 + (nth (S i) fs 0 - nth i fs 0) / (nth (S i) ts 0 - nth i ts 0) * (x - nth i ts 0).
Proof.
  revert fs. induction ts as [|a ts IH]; intros [|f fs] HL Hinc i x Hi Hx; simpl in HL; try discriminate; [simpl in Hi; lia|].
  destruct ts as [|b ts]; [simpl in Hi; lia|]. destruct fs as [|g fs]; [simpl in HL; discriminate|].
  assert (Hab : a < b) by (simpl in Hinc; tauto).
  destruct i as [|i].
  - cbn [nth combine] in *. rewrite pwl_first by lra. reflexivity.
  - cbn [combine]. destruct (Rle_lt_dec x b) as [Hb|Hb].
    + (* x = b = start of the later segment *)
      assert (Hbi : b <= nth i (b :: ts) 0).
      { destruct i; [simpl; lra|]. left. apply (increasing_nth_lt (b :: ts) (increasing_tail _ _ Hinc) 0%nat (S i)); simpl in *; lia. }
      assert (x = b) by (cbn [nth] in Hx, Hbi; lra). subst x.
      assert (i = 0)%nat.
      { destruct i; [reflexivity|]. exfalso.
        assert (b < nth (S i) (b :: ts) 0).
        { apply (increasing_nth_lt (b :: ts) ltac:(apply increasing_tail in Hinc; exact Hinc) 0%nat (S i)); simpl in *; lia. }
        cbn [nth] in Hx, H. lra. }
      subst i. rewrite pwl_first by lra. cbn [nth]. rewrite Rminus_eq_0, Rmult_0_r. field. lra.
    + rewrite pwl_rest by lra.
      change ((b, g) :: combine ts fs) with (combine (b :: ts) (g :: fs)).
      apply (IH (g :: fs)); [simpl in *; lia|apply increasing_tail in Hinc; exact Hinc|simpl in *; lia|exact Hx].
Qed.

(** jnp.interp: clamped piecewise-linear interpolation *)
Lemma jnp_interp_fin x xp fp : length xp = length fp -> (1 <= length xp)%nat -> increasing xp ->
  exists v, jnp_interp (Fin x) (map Fin xp) (map Fin fp) = Fin v /\
  (x <= nth 0 xp 0 -> v = nth 0 fp 0) /\
  (nth (length xp - 1) xp 0 <= x -> v = nth (length xp - 1) fp 0) /\
  (forall i, (S i < length xp)%nat -> nth i xp 0 <= x < nth (S i) xp 0 ->
     v = nth i fp 0 + (nth (S i) fp 0 - nth i fp 0) / (nth (S i) xp 0 - nth i xp 0) * (x - nth i xp 0)).
Proof.
  intros HL Hn Hinc. pose proof (increasing_nth_lt xp Hinc) as M.
  unfold jnp_interp. rewrite map_length. set (n := length xp) in *.
  destruct (ss_right_spec xp x Hinc) as (K1 & K2 & K3). set (k := searchsorted_right _ _) in *.
  fold n in K1, K3.
  set (i := Nat.min (Nat.max 1 k) (n - 1)).
  assert (Hi : (i < n)%nat) by (unfold i; lia).
  unfold at_. rewrite !(nth_Fin xp) by (fold n; lia). rewrite !(nth_Fin fp) by (rewrite <- HL; fold n; lia).
  xr_simp.
  destruct (Nat.eq_dec n 1) as [H1|H1].
  - assert (i = 0)%nat by (unfold i; lia). rewrite H. cbn [Nat.sub].
    cbn [xeq]. rewrite Reqb_true by ring. rewrite H1. cbn [Nat.sub].
    exists (nth 0 fp 0). split.
    + destruct (Fin x <? Fin (nth 0 xp 0))%X, (Fin (nth 0 xp 0) <? Fin x)%X; reflexivity.
    + split; [reflexivity|]. split; [reflexivity|]. intros j Hj; lia.
  - assert (Hi1 : (1 <= i)%nat) by (unfold i; lia).
    assert (Hd : nth (i - 1) xp 0 < nth i xp 0) by (apply M; lia).
    cbn [xeq]. rewrite Reqb_false by lra. rewrite xdiv_fin by lra. xr_simp.
    set (v := nth (i - 1) fp 0 + _).
    destruct (Rlt_le_dec x (nth 0 xp 0)) as [Hx0|Hx0].
    + replace (Fin x <? Fin (nth 0 xp 0))%X with true by (symmetry; apply xlt_fin; exact Hx0).
      assert (nth 0 xp 0 < nth (n - 1) xp 0) by (apply M; lia).
      replace (Fin (nth (n - 1) xp 0) <? Fin x)%X with false by (symmetry; apply xlt_fin_false; lra).
      exists (nth 0 fp 0). split; [reflexivity|]. split; [reflexivity|]. split; [intros; lra|].
      intros j Hj [Hj1 _]. exfalso. destruct j; [lra|]. assert (nth 0 xp 0 < nth (S j) xp 0) by (apply M; lia). lra.
    + replace (Fin x <? Fin (nth 0 xp 0))%X with false by (symmetry; apply xlt_fin_false; exact Hx0).
      assert (Hk1 : (1 <= k)%nat).
      { destruct k; [|lia]. exfalso. assert (x < nth 0 xp 0) by (apply K3; lia). lra. }
      destruct (Rlt_le_dec (nth (n - 1) xp 0) x) as [Hxn|Hxn].
      * replace (Fin (nth (n - 1) xp 0) <? Fin x)%X with true by (symmetry; apply xlt_fin; exact Hxn).
        exists (nth (n - 1) fp 0). split; [reflexivity|].
        assert (nth 0 xp 0 < nth (n - 1) xp 0) by (apply M; lia).
        split; [intros; lra|]. split; [reflexivity|].
        intros j Hj [_ Hj2]. exfalso. destruct (Nat.eq_dec (S j) (n - 1)) as [e|e]; [rewrite e in Hj2; lra|].
        assert (nth (S j) xp 0 < nth (n - 1) xp 0) by (apply M; lia). lra.
      * replace (Fin (nth (n - 1) xp 0) <? Fin x)%X with false by (symmetry; apply xlt_fin_false; exact Hxn).
        exists v. split; [reflexivity|]. unfold v. split; [|split].
        -- intros Hx. assert (x = nth 0 xp 0) by lra. 
           assert (k = 1)%nat.
           { destruct (Nat.eq_dec k 1); auto. exfalso. assert (nth 1 xp 0 <= x) by (apply K2; lia).
             assert (nth 0 xp 0 < nth 1 xp 0) by (apply M; lia). lra. }
           assert (Ei : i = 1%nat) by (unfold i; lia). rewrite Ei in *. cbn [Nat.sub] in *. rewrite H. field. lra.
        -- intros Hx. assert (x = nth (n - 1) xp 0) by lra.
           assert (k = n).
           { destruct (Nat.eq_dec k n); auto. exfalso. assert (x < nth (n - 1) xp 0) by (apply K3; lia). lra. }
           assert (Ei : i = (n - 1)%nat) by (unfold i; lia). rewrite Ei in *. rewrite H. field. lra.
        -- intros j Hj [Hj1 Hj2].
           assert (k = S j).
           { destruct (lt_eq_lt_dec k (S j)) as [[h|h]|h]; auto; exfalso.
             - assert (x < nth j xp 0) by (apply K3; lia). lra.
             - assert (nth (S j) xp 0 <= x) by (apply K2; lia). lra. }
           assert (Ei : i = S j) by (unfold i; lia). rewrite Ei. replace (S j - 1)%nat with j by lia.
           assert (nth j xp 0 < nth (S j) xp 0) by (apply M; lia). field. lra.
Qed.

Lemma Rmax_list_ge d l x : In x l -> x <= list_Rmax d l.
Proof.
  unfold list_Rmax. induction l as [|a l IH]; intros H; [contradiction|]. simpl.
  destruct H as [->|H]; [apply Rmax_l|]. eapply Rle_trans; [apply IH, H|apply Rmax_r].
Qed.
Lemma Rmax_list_ge0 d l : d <= list_Rmax d l.
Proof. unfold list_Rmax. induction l; simpl; [lra|]. eapply Rle_trans; [exact IHl|apply Rmax_r]. Qed.

(** Mass differences between consecutive table entries *)
Lemma cumR_diff l : forall a fa c i, (S i < length l)%nat ->
  nth (S i) (cumR a fa c l) 0 - nth i (cumR a fa c l) 0
  = (nth (S i) (map fst l) 0 - nth i (map fst l) 0) * (nth (S i) (map snd l) 0 + nth i (map snd l) 0) / 2.
Proof.
  induction l as [|[b g] l IH]; intros a fa c i Hi; [simpl in Hi; lia|].
  destruct i as [|i].
  - destruct l as [|[b2 g2] l]; [simpl in Hi; lia|]. cbn [cumR map fst snd nth]. field.
  - cbn [cumR map fst snd]. change (nth (S (S i)) (?h :: ?t) 0) with (nth (S i) t 0).
    simpl in Hi. specialize (IH b g (c + (b - a) * (g + fa) / 2) i ltac:(lia)).
    cbn [nth] in *. exact IH.
Qed.

Lemma map_snd_combine {A B} (l : list A) (m : list B) : length l = length m -> map snd (combine l m) = m.
Proof. revert m; induction l; intros [|b m] H; simpl in *; try discriminate; auto. f_equal. apply IHl. lia. Qed.

Lemma massR_diff ts ss i : length ts = length ss -> (S i < length ts)%nat ->
  nth (S i) (massR ts ss) 0 - nth i (massR ts ss) 0
  = 10 ^ 9 * ((nth (S i) ts 0 - nth i ts 0) * (nth (S i) ss 0 + nth i ss 0) / 2).
Proof.
  intros HL Hi. unfold massR.
  assert (LC : length (cumR T_BIRTH_MIN_R SFR_MIN_R 0 (combine ts ss)) = length ts)
    by (rewrite cumR_length, combine_length; lia).
  rewrite !(nth_map (fun m => m * 10 ^ 9) _ _ 0) by lia.
  pose proof (cumR_diff (combine ts ss) T_BIRTH_MIN_R SFR_MIN_R 0 i) as D.
  rewrite map_fst_combine, map_snd_combine in D by exact HL. rewrite <- D by (rewrite combine_length; lia). ring.
Qed.

Lemma lipschitz_sum (ts ms : list R) S : length ts = length ms ->
  (forall i, (Datatypes.S i < length ts)%nat -> 0 <= nth (Datatypes.S i) ms 0 - nth i ms 0 <= S * (nth (Datatypes.S i) ts 0 - nth i ts 0)) ->
  forall i j, (i <= j)%nat -> (j < length ts)%nat -> 0 <= nth j ms 0 - nth i ms 0 <= S * (nth j ts 0 - nth i ts 0).
Proof.
  intros HL H i j Hij. induction Hij as [|j Hij IH]; intros Hj; [lra|].
  specialize (IH ltac:(lia)). specialize (H j Hj). lra.
Qed.

Lemma fstar_point (ts ms : list R) S tau j : length ts = length ms -> increasing ts -> 0 <= S -> 0 < tau ->
  (forall i, (Datatypes.S i < length ts)%nat ->
     0 <= nth (Datatypes.S i) ms 0 - nth i ms 0 <= S * (nth (Datatypes.S i) ts 0 - nth i ts 0)) ->
  (j < length ts)%nat ->
  exists v, jnp_interp (Fin (nth j ts 0 - tau)) (map Fin ts) (map Fin ms) = Fin v /\
    0 <= nth j ms 0 - v <= S * tau.
Proof.
  intros HL Hinc HS Ht H Hj. pose proof (increasing_nth_lt ts Hinc) as M.
  pose proof (lipschitz_sum ts ms S HL H) as Lip.
  destruct (jnp_interp_fin (nth j ts 0 - tau) ts ms HL ltac:(lia) Hinc) as (v & Ev & V0 & Vn & Vi).
  exists v. split; [exact Ev|].
  destruct (Rle_lt_dec (nth j ts 0 - tau) (nth 0 ts 0)) as [Hx|Hx].
  - rewrite V0 by exact Hx. specialize (Lip 0%nat j ltac:(lia) Hj). split; [lra|].
    assert (S * (nth j ts 0 - nth 0 ts 0) <= S * tau) by (apply Rmult_le_compat_l; lra). lra.
  - (* find the segment *)
    assert (Hseg : exists i, (Datatypes.S i <= j)%nat /\ nth i ts 0 <= nth j ts 0 - tau < nth (Datatypes.S i) ts 0).
    { set (x := nth j ts 0 - tau) in *. assert (Hxj : x < nth j ts 0) by (unfold x; lra).
      clear -Hx Hxj. clearbody x. induction j as [|j IH]; [lra|].
      destruct (Rlt_le_dec x (nth j ts 0)) as [h|h].
      - destruct (IH h) as (i & Hi & Hh). exists i. split; [lia|exact Hh].
      - exists j. split; [lia|]. lra. }
    destruct Hseg as (i & Hi & Hs). rewrite (Vi i) by (try lia; exact Hs).
    set (x := nth j ts 0 - tau) in *.
    assert (Hd : nth i ts 0 < nth (Datatypes.S i) ts 0) by (apply M; lia).
    pose proof (H i ltac:(lia)) as Hi1. pose proof (Lip (Datatypes.S i) j ltac:(lia) Hj) as Hl.
    set (d := nth (Datatypes.S i) ts 0 - nth i ts 0) in *. set (dm := nth (Datatypes.S i) ms 0 - nth i ms 0) in *.
    assert (Hdpos : 0 < d) by (unfold d; lra).
    set (w := (x - nth i ts 0) / d).
    assert (Ew : dm / d * (x - nth i ts 0) = dm * w) by (unfold w; field; lra). rewrite Ew.
    assert (Hw : 0 <= w < 1).
    { unfold w. split; [apply Rmult_le_pos; [lra|left; apply Rinv_0_lt_compat; exact Hdpos]|].
      apply Rmult_lt_reg_r with d; [exact Hdpos|]. unfold Rdiv. rewrite Rmult_assoc, Rinv_l by lra. unfold d. lra. }
    assert (Ex : x = nth i ts 0 + w * d) by (unfold w; field; lra).
    replace (nth j ms 0 - (nth i ms 0 + dm * w)) with ((nth j ms 0 - nth (Datatypes.S i) ms 0) + dm * (1 - w)) by (unfold dm; ring).
    assert (0 <= dm * (1 - w)) by (apply Rmult_le_pos; lra).
    assert (dm * (1 - w) <= S * d * (1 - w)) by (apply Rmult_le_compat_r; lra).
    split; [lra|].
    replace tau with ((nth j ts 0 - nth (Datatypes.S i) ts 0) + d * (1 - w)).
    + rewrite Rmult_plus_distr_l. lra.
    + transitivity (nth j ts 0 - x); [rewrite Ex; unfold d; ring|unfold x; ring].
Qed.

Lemma fstar_general (ts ms : list R) S tau : length ts = length ms -> increasing ts -> 0 <= S -> 0 < tau ->
  (forall i, (Datatypes.S i < length ts)%nat ->
     0 <= nth (Datatypes.S i) ms 0 - nth i ms 0 <= S * (nth (Datatypes.S i) ts 0 - nth i ts 0)) ->
  exists f, compute_fstar (map Fin ts) (map Fin ms) (Fin tau) = map Fin f /\ length f = length ts /\
    Forall (fun x => 0 <= x <= S / 10 ^ 9) f.
Proof.
  intros HL Hinc HS Ht H.
  set (v := fun j => match jnp_interp (Fin (nth j ts 0 - tau)) (map Fin ts) (map Fin ms) with Fin r => r | _ => 0 end).
  assert (Hv : forall j, (j < length ts)%nat ->
     jnp_interp (Fin (nth j ts 0 - tau)) (map Fin ts) (map Fin ms) = Fin (v j) /\ 0 <= nth j ms 0 - v j <= S * tau).
  { intros j Hj. destruct (fstar_point ts ms S tau j HL Hinc HS Ht H Hj) as (w & Ew & Hw).
    unfold v. rewrite Ew. auto. }
  assert (P9 : 0 < 10 ^ 9) by (apply pow_lt; lra).
  exists (map (fun j => (nth j ms 0 - v j) / tau / 10 ^ 9) (seq 0 (length ts))).
  split; [|split].
  - apply Fin_ext_nth.
    + unfold compute_fstar. len.
    + intros j Hj. destruct (Hv j Hj) as [Ev Bv]. unfold compute_fstar.
      set (f := fun f0 : xr => _). 
      rewrite (nth_map f _ j NaN) by len.
      rewrite (map2_nth _ _ _ j NaN NaN) by len.
      rewrite (nth_map _ (map Fin ts) j NaN) by len.
      rewrite !nth_Fin by lia. cbn [xsub xadd xopp]. unfold Rminus in Ev. rewrite Ev.
      cbn [xadd xopp]. rewrite !xdiv_fin by lra. unfold f.
      assert (0 <= (nth j ms 0 + - v j) / tau / 10 ^ 9).
      { apply Rmult_le_pos; [apply Rmult_le_pos|]; [lra| |]; left; apply Rinv_0_lt_compat; lra. }
      destruct (Rlt_le_dec 0 ((nth j ms 0 + - v j) / tau / 10 ^ 9)) as [h|h].
      * replace (Fin 0 <? _)%X with true by (symmetry; apply xlt_fin; exact h). reflexivity.
      * replace (Fin 0 <? _)%X with false by (symmetry; apply xlt_fin_false; exact h). f_equal. unfold Rminus. lra.
  - rewrite map_length, seq_length. reflexivity.
  - rewrite Forall_map, Forall_forall. intros j Hj. apply in_seq in Hj.
    destruct (Hv j ltac:(lia)) as [_ Bv]. split.
    + apply Rmult_le_pos; [apply Rmult_le_pos|]; [lra| |]; left; apply Rinv_0_lt_compat; lra.
    + apply Rmult_le_compat_r; [left; apply Rinv_0_lt_compat; lra|].
      apply Rmult_le_reg_r with tau; [exact Ht|]. unfold Rdiv. rewrite Rmult_assoc, Rinv_l by lra. lra.
Qed.

Lemma fstar_bounds ts ss tau : length ts = length ss -> increasing ts -> 0 < tau ->
  Forall (fun s => 0 <= s) ss ->
  exists mass f, cumulative_mstar_formed (map Fin ts) (map Fin ss) = Some (map Fin mass) /\
    compute_fstar (map Fin ts) (map Fin mass) (Fin tau) = map Fin f /\ length f = length ts /\
    Forall (fun x => 0 <= x <= list_Rmax 0 ss) f.
Proof.
  intros HL Hinc Ht Hs. exists (massR ts ss).
  pose proof (increasing_nth_lt ts Hinc) as M.
  assert (P9 : 0 < 10 ^ 9) by (apply pow_lt; lra).
  pose proof (Rmax_list_ge0 0 ss) as H0. rewrite Forall_forall in Hs.
  destruct (fstar_general ts (massR ts ss) (10 ^ 9 * list_Rmax 0 ss) tau) as (f & Ef & Lf & Ff); auto.
  - symmetry. apply massR_length, HL.
  - apply Rmult_le_pos; lra.
  - intros i Hi. rewrite massR_diff by assumption.
    assert (Hd : 0 < nth (S i) ts 0 - nth i ts 0) by (specialize (M i (S i) ltac:(lia) Hi); lra).
    assert (A1 : In (nth i ss 0) ss) by (apply nth_In; lia).
    assert (A2 : In (nth (S i) ss 0) ss) by (apply nth_In; lia).
    pose proof (Rmax_list_ge 0 ss _ A1). pose proof (Rmax_list_ge 0 ss _ A2).
    pose proof (Hs _ A1). pose proof (Hs _ A2).
    set (d := nth (S i) ts 0 - nth i ts 0) in *.
    set (a := nth i ss 0) in *. set (b := nth (S i) ss 0) in *. set (mx := list_Rmax 0 ss) in *.
    split.
    + apply Rmult_le_pos; [lra|]. apply Rmult_le_pos; [|lra]. apply Rmult_le_pos; lra.
    + rewrite Rmult_assoc. apply Rmult_le_compat_l; [lra|].
      assert (d * (b + a) <= d * (2 * mx)) by (apply Rmult_le_compat_l; lra). lra.
  - exists f. split; [apply cumulative_fin, HL|]. split; [exact Ef|]. split; [exact Lf|].
    replace (10 ^ 9 * list_Rmax 0 ss / 10 ^ 9) with (list_Rmax 0 ss) in Ff by (field; lra). exact Ff.
Qed.

(** Averaging over an interval that starts on a table time: the mean SFR. *)
Lemma fstar_mean ts ss tau i j : length ts = length ss -> increasing (1 / 1000 :: ts) -> 0 < tau ->
  Forall (fun s => 0 <= s) ss -> (i < j)%nat -> (j < length ts)%nat -> nth j ts 0 - tau = nth i ts 0 ->
  exists mass f, cumulative_mstar_formed (map Fin ts) (map Fin ss) = Some (map Fin mass) /\
    compute_fstar (map Fin ts) (map Fin mass) (Fin tau) = f /\
    nth j f NaN = Fin (RInt (pwl ((1 / 1000, 1 / 10 ^ 14) :: combine ts ss)) (nth i ts 0) (nth j ts 0) / tau).
Proof.
  intros HL Hinc0 Ht Hs Hij Hj Hx.
  pose proof (increasing_tail _ _ Hinc0) as Hinc.
  exists (massR ts ss). eexists. split; [apply cumulative_fin, HL|]. split; [reflexivity|].
  assert (Lm : length (massR ts ss) = length ts) by apply massR_length, HL.
  destruct (jnp_interp_fin (nth j ts 0 - tau) ts (massR ts ss) ltac:(lia) ltac:(lia) Hinc) as (v & Ev & V0 & Vn & Vi).
  pose proof (increasing_nth_lt ts Hinc) as M.
  assert (Hv : v = nth i (massR ts ss) 0).
  { rewrite (Vi i); [|lia|]. 
    - rewrite Hx. rewrite Rminus_eq_0. ring.
    - rewrite Hx. split; [lra|]. apply M; lia. }
  unfold compute_fstar. set (g := fun f0 : xr => _).
  rewrite (nth_map g _ j NaN) by len. rewrite (map2_nth _ _ _ j NaN NaN) by len.
  rewrite (nth_map _ (map Fin ts) j NaN) by len.
  rewrite !nth_Fin by lia. cbn [xsub xadd xopp]. unfold Rminus in Ev. rewrite Ev, Hv.
  assert (P9 : 0 < 10 ^ 9) by (apply pow_lt; lra).
  cbn [xadd xopp]. rewrite !xdiv_fin by lra. unfold g.
  set (F := pwl _). 
  assert (EX : forall k, (k < length ts)%nat -> is_RInt F (1 / 1000) (nth k ts 0) (nth k (massR ts ss) 0 / 10 ^ 9)).
  { intros k Hk. unfold F.
    pose proof (cumR_integral (combine ts ss) (1 / 1000) (1 / 10 ^ 14) 0 k) as C.
    rewrite map_fst_combine in C by exact HL. rewrite combine_length in C.
    specialize (C Hinc0 ltac:(lia)).
    replace (nth k (massR ts ss) 0 / 10 ^ 9) with (nth k (cumR (1 / 1000) (1 / 10 ^ 14) 0 (combine ts ss)) 0 - 0); [exact C|].
    unfold massR. rewrite (nth_map (fun m => m * 10 ^ 9) _ _ 0) by (rewrite cumR_length, combine_length; lia).
    unfold T_BIRTH_MIN_R, SFR_MIN_R. field. }
  assert (EI : RInt F (nth i ts 0) (nth j ts 0) = (nth j (massR ts ss) 0 - nth i (massR ts ss) 0) / 10 ^ 9).
  { apply (is_RInt_unique (V := R_CompleteNormedModule)).
    replace ((nth j (massR ts ss) 0 - nth i (massR ts ss) 0) / 10 ^ 9)
      with (plus (opp (nth i (massR ts ss) 0 / 10 ^ 9)) (nth j (massR ts ss) 0 / 10 ^ 9)).
    - eapply (is_RInt_Chasles (V := R_NormedModule)); [apply (is_RInt_swap (V := R_NormedModule)), EX; lia|apply EX; lia].
    - unfold plus, opp; simpl. field. }
  rewrite EI.
  assert (0 <= nth j (massR ts ss) 0 - nth i (massR ts ss) 0).
  { apply (lipschitz_sum ts (massR ts ss) (10 ^ 9 * list_Rmax 0 ss) ltac:(lia)); [|lia|lia].
    intros k Hk. rewrite massR_diff by assumption. rewrite Forall_forall in Hs.
    assert (Hd : 0 < nth (S k) ts 0 - nth k ts 0) by (specialize (M k (S k) ltac:(lia) Hk); lra).
    assert (A1 : In (nth k ss 0) ss) by (apply nth_In; lia).
    assert (A2 : In (nth (S k) ss 0) ss) by (apply nth_In; lia).
    pose proof (Rmax_list_ge 0 ss _ A1). pose proof (Rmax_list_ge 0 ss _ A2).
    pose proof (Hs _ A1). pose proof (Hs _ A2).
    set (d := nth (S k) ts 0 - nth k ts 0) in *.
    set (a := nth k ss 0) in *. set (b := nth (S k) ss 0) in *. set (mx := list_Rmax 0 ss) in *.
    split.
    + apply Rmult_le_pos; [lra|]. apply Rmult_le_pos; [|lra]. apply Rmult_le_pos; lra.
    + rewrite Rmult_assoc. apply Rmult_le_compat_l; [lra|].
      assert (d * (b + a) <= d * (2 * mx)) by (apply Rmult_le_compat_l; lra). lra. }
  set (A := nth j (massR ts ss) 0) in *. set (B := nth i (massR ts ss) 0) in *.
  replace ((A - B) / 10 ^ 9 / tau) with ((A + - B) / tau / 10 ^ 9) by (field; lra).
  assert (0 <= (A + - B) / tau / 10 ^ 9).
  { apply Rmult_le_pos; [apply Rmult_le_pos|]; [lra| |]; left; apply Rinv_0_lt_compat; lra. }
  destruct (Rlt_le_dec 0 ((A + - B) / tau / 10 ^ 9)) as [h|h].
  - replace (Fin 0 <? _)%X with true by (symmetry; apply xlt_fin; exact h). reflexivity.
  - replace (Fin 0 <? _)%X with false by (symmetry; apply xlt_fin_false; exact h). f_equal. lra.
Qed.

(** First mass entry *)
Lemma first_mass t0 ts s0 ss : length ts = length ss -> exists rest,
  cumulative_mstar_formed (map Fin (t0 :: ts)) (map Fin (s0 :: ss))
  = Some (Fin (10 ^ 9 * ((t0 - 1 / 1000) * (s0 + 1 / 10 ^ 14) / 2)) :: rest).
Proof.
  intros H. rewrite cumulative_fin by (simpl; lia). unfold massR. cbn [combine cumR map].
  eexists. f_equal. f_equal. f_equal. unfold T_BIRTH_MIN_R, SFR_MIN_R. ring.
Qed.

(** If SFR were 1e-14 before the first table time, the first mass would be at most this. *)
Lemma pretable_refuted : exists t0 s0 m0, increasing [1 / 1000; t0] /\
  cumulative_mstar_formed [Fin t0] [Fin s0] = Some [Fin m0] /\
  m0 > 10 ^ 9 * ((t0 - 1 / 1000) * (1 / 10 ^ 14)).
Proof.
  exists 1, 1. eexists. split; [simpl; lra|]. split.
  - pose proof (cumulative_fin [1] [1] eq_refl) as E. exact E.
  - unfold T_BIRTH_MIN_R, SFR_MIN_R.
    assert (Pe : 1 / 10 ^ 14 < 1 / 10) by lra.
    assert (P9 : 0 < 10 ^ 9) by (apply pow_lt; lra).
    set (e := 1 / 10 ^ 14) in *. set (P := 10 ^ 9) in *. nra.
Qed.

(** ** jax_np_interp *)
Lemma jnp_index_in l i : (i < length l)%nat -> jnp_index (map Fin l) (Z.of_nat i) = Fin (nth i l 0).
Proof.
  intros H. unfold jnp_index. rewrite map_length.
  destruct (Z.ltb_spec (Z.of_nat i) 0); [lia|].
  replace (Z.to_nat _) with i by lia. apply nth_Fin, H.
Qed.

Lemma jnp_index_m1 l : (0 < length l)%nat -> jnp_index (map Fin l) (-1) = Fin (nth (length l - 1) l 0).
Proof.
  intros H. unfold jnp_index. rewrite map_length.
  destruct (Z.ltb_spec (-1) 0); [|lia].
  replace (Z.to_nat _) with (length l - 1)%nat by lia. apply nth_Fin. lia.
Qed.

Lemma np_interp_inside xt yt x : length xt = length yt -> increasing xt -> (2 <= length xt)%nat ->
  nth 0 xt 0 < x <= nth (length xt - 1) xt 0 ->
  jax_np_interp1 (Fin x) (map Fin xt) (map Fin yt) (Z.of_nat (searchsorted_left (map Fin xt) (Fin x)))
  = Fin (pwl (combine xt yt) x).
Proof.
  intros HL Hinc Hn Hx. destruct (ss_left_spec xt x Hinc) as (K1 & K2 & K3).
  set (k := searchsorted_left _ _) in *.
  assert (Hk : (1 <= k < length xt)%nat).
  { split.
    - destruct k; [|lia]. specialize (K3 0%nat ltac:(lia) ltac:(lia)). lra.
    - destruct (Nat.eq_dec k (length xt)); [|lia]. specialize (K2 (length xt - 1)%nat ltac:(lia)). lra. }
  destruct k as [|k]; [lia|].
  unfold jax_np_interp1. replace (Z.of_nat (S k) - 1)%Z with (Z.of_nat k) by lia.
  rewrite !jnp_index_in by lia. xr_simp.
  pose proof (increasing_nth_lt xt Hinc k (S k) ltac:(lia) ltac:(lia)).
  rewrite xdiv_fin by lra. xr_simp. f_equal.
  rewrite (pwl_segment xt yt HL Hinc k); [unfold Rminus; reflexivity|lia|].
  split; [left; apply K2; lia|apply K3; lia].
Qed.

Lemma np_interp_knot xt yt i : length xt = length yt -> increasing xt -> (2 <= length xt)%nat ->
  (i < length xt)%nat ->
  jax_np_interp1 (Fin (nth i xt 0)) (map Fin xt) (map Fin yt)
    (Z.of_nat (searchsorted_left (map Fin xt) (Fin (nth i xt 0)))) = Fin (nth i yt 0).
Proof.
  intros HL Hinc Hn Hi. destruct (ss_left_spec xt (nth i xt 0) Hinc) as (K1 & K2 & K3).
  pose proof (increasing_nth_lt xt Hinc) as M.
  set (k := searchsorted_left _ _) in *.
  assert (Hk : k = i).
  { destruct (lt_eq_lt_dec k i) as [[h|h]|h]; auto; exfalso.
    - specialize (K3 k ltac:(lia) ltac:(lia)). specialize (M k i h Hi). lra.
    - specialize (K2 i h). lra. }
  rewrite Hk. unfold jax_np_interp1. destruct i as [|i].
  - replace (Z.of_nat 0 - 1)%Z with (-1)%Z by lia. rewrite !jnp_index_m1, !jnp_index_in by lia.
    specialize (M 0%nat (length xt - 1)%nat ltac:(lia) ltac:(lia)). rewrite <- HL.
    xr_simp. rewrite xdiv_fin by lra. xr_simp. f_equal. field. lra.
  - replace (Z.of_nat (S i) - 1)%Z with (Z.of_nat i) by lia. rewrite !jnp_index_in by lia.
    specialize (M i (S i) ltac:(lia) ltac:(lia)).
    xr_simp. rewrite xdiv_fin by lra. xr_simp. f_equal. field. lra.
Qed.

Lemma np_interp_outside xt yt x : length xt = length yt -> increasing xt -> (2 <= length xt)%nat ->
  (x < nth 0 xt 0 ->
   jax_np_interp1 (Fin x) (map Fin xt) (map Fin yt) (Z.of_nat (searchsorted_left (map Fin xt) (Fin x)))
   = Fin (nth 0 yt 0 + (nth (length xt - 1) yt 0 - nth 0 yt 0) / (nth (length xt - 1) xt 0 - nth 0 xt 0) * (x - nth 0 xt 0))) /\
  (nth (length xt - 1) xt 0 < x ->
   jax_np_interp1 (Fin x) (map Fin xt) (map Fin yt) (Z.of_nat (searchsorted_left (map Fin xt) (Fin x))) = NaN).
Proof.
  intros HL Hinc Hn. destruct (ss_left_spec xt x Hinc) as (K1 & K2 & K3).
  pose proof (increasing_nth_lt xt Hinc) as M.
  set (k := searchsorted_left _ _) in *. split; intros Hx.
  - assert (Hk : k = 0%nat) by (destruct k; [auto|specialize (K2 0%nat ltac:(lia)); lra]).
    rewrite Hk. unfold jax_np_interp1. replace (Z.of_nat 0 - 1)%Z with (-1)%Z by lia.
    rewrite !jnp_index_m1, !jnp_index_in by lia.
    specialize (M 0%nat (length xt - 1)%nat ltac:(lia) ltac:(lia)). rewrite <- HL.
    xr_simp. rewrite xdiv_fin by lra. xr_simp. f_equal. field. lra.
  - assert (Hk : k = length xt).
    { destruct (Nat.eq_dec k (length xt)) as [e|e]; [exact e|]. exfalso.
      destruct (Nat.eq_dec k (length xt - 1)) as [e2|e2].
      - specialize (K3 (length xt - 1)%nat ltac:(lia) ltac:(lia)). lra.
      - specialize (K3 k ltac:(lia) ltac:(lia)). specialize (M k (length xt - 1)%nat ltac:(lia) ltac:(lia)). lra. }
    rewrite Hk. unfold jax_np_interp1.
    assert (E : forall l, length l = length xt -> jnp_index (map Fin l) (Z.of_nat (length xt)) = Fin (nth (length xt - 1) l 0)).
    { intros l Hl. unfold jnp_index. rewrite map_length, Hl. destruct (Z.ltb_spec (Z.of_nat (length xt)) 0); [lia|].
      replace (Z.to_nat _) with (length xt - 1)%nat by lia. apply nth_Fin. lia. }
    rewrite !E by auto. replace (Z.of_nat (length xt) - 1)%Z with (Z.of_nat (length xt - 1)) by lia.
    rewrite !jnp_index_in by lia. xr_simp. rewrite !Rplus_opp_r.
    rewrite xdiv_zero_zero by reflexivity. reflexivity.
Qed.

Lemma np_interp_not_clamped : exists xt yt x, length xt = length yt /\ increasing xt /\ x < nth 0 xt 0 /\
  exists v, jax_np_interp1 (Fin x) (map Fin xt) (map Fin yt) (Z.of_nat (searchsorted_left (map Fin xt) (Fin x))) = Fin v /\
  v <> nth 0 yt 0.
Proof.
  exists [0; 1; 2], [0; 1; 4], (-1). split; [reflexivity|]. split; [simpl; lra|]. split; [simpl; lra|].
  eexists. split; [apply (np_interp_outside [0; 1; 2] [0; 1; 4] (-1)); simpl; try lra; try lia|].
  simpl. lra.
Qed.

(** ** get_1d_arrays *)
Lemma get_1d_ok_iff args :
  get_1d_arrays args <> None <->
  args <> [] /\ exists n, Forall (fun a => length (atleast_1d a) = 1%nat \/ length (atleast_1d a) = n) args
     /\ n = list_max (map (fun a => length (atleast_1d a)) args).
Proof.
  unfold get_1d_arrays. rewrite map_map. destruct args as [|a args].
  - simpl. split; [congruence|tauto].
  - set (l := a :: args). set (npts := list_max _).
    cbn [map]. destruct (forallb _ _) eqn:E.
    + split; [intros _|discriminate]. split; [discriminate|]. exists npts. split; [|reflexivity].
      apply Forall_forall. intros b Hb. rewrite forallb_forall in E.
      specialize (E (length (atleast_1d b))). apply (in_map (fun a => length (atleast_1d a)) l) in Hb.
      specialize (E Hb). apply orb_true_iff in E. rewrite !Nat.eqb_eq in E. exact E.
    + split; [intros X; exfalso; apply X; reflexivity|]. intros (_ & n & F & ->). exfalso.
      assert (T : forallb (fun s : nat => (s =? 1)%nat || (s =? npts)%nat) (map (fun a0 => length (atleast_1d a0)) l) = true).
      { apply forallb_forall. intros s Hs. apply in_map_iff in Hs as (b & <- & Hb).
        rewrite Forall_forall in F. apply orb_true_iff. rewrite !Nat.eqb_eq. apply F, Hb. }
      congruence.
Qed.


Lemma xadd_0_l x : (Fin 0 + x)%X = x.
Proof. destruct x; simpl; try reflexivity. f_equal. ring. Qed.

Lemma get_1d_values args res : get_1d_arrays args = Some res ->
  exists n, length res = length args /\ Forall (fun r => length r = n) res /\
  forall i j, (i < length args)%nat -> (j < n)%nat ->
    nth j (nth i res []) NaN = value_at (nth i args (Scalar NaN)) j.
Proof.
  unfold get_1d_arrays. destruct (map (@length xr) (map atleast_1d args)) as [|s0 sizes] eqn:Es; [discriminate|].
  rewrite <- Es. set (n := list_max _). destruct (forallb _ _) eqn:E; [|discriminate].
  intros H. injection H as <-. exists n. rewrite !map_length. split; [reflexivity|].
  rewrite forallb_forall in E.
  assert (Hlen : forall a, In a args -> length (atleast_1d a) = 1%nat \/ length (atleast_1d a) = n).
  { intros a Ha. specialize (E (length (atleast_1d a))).
    rewrite map_map in E. specialize (E (in_map (fun x => length (atleast_1d x)) args a Ha)).
    apply orb_true_iff in E. rewrite !Nat.eqb_eq in E. exact E. }
  assert (B : forall a, In a args -> length (broadcast_add_zeros n (atleast_1d a)) = n /\
     forall j, (j < n)%nat -> nth j (broadcast_add_zeros n (atleast_1d a)) NaN = value_at a j).
  { intros a Ha. specialize (Hlen a Ha).
    assert (C1 : forall x, length (broadcast_add_zeros n [x]) = n /\
      forall j, (j < n)%nat -> nth j (broadcast_add_zeros n [x]) NaN = x).
    { intros x. unfold broadcast_add_zeros. split; [len|]. intros j Hj.
      rewrite (nth_map _ (zeros n) j (Fin 0)) by len. unfold zeros. rewrite nth_repeat. apply xadd_0_l. }
    destruct a as [x|l]; cbn [atleast_1d value_at] in *; [apply C1|].
    destruct l as [|x [|y l]].
    - destruct Hlen as [h|h]; simpl in h; [discriminate|]. rewrite <- h. split; [reflexivity|intros; lia].
    - apply C1.
    - assert (Hn : length (x :: y :: l) = n) by (destruct Hlen as [h|h]; [simpl in h; discriminate|exact h]).
      unfold broadcast_add_zeros. split; [len|]. intros j Hj.
      rewrite (map2_nth _ _ _ j (Fin 0) NaN) by (rewrite ?Hn; len). unfold zeros. rewrite nth_repeat. apply xadd_0_l. }
  split.
  - rewrite map_map, Forall_map, Forall_forall. intros a Ha. apply B, Ha.
  - intros i j Hi Hj. rewrite map_map.
    rewrite (nth_map (fun a => broadcast_add_zeros n (atleast_1d a)) args i (Scalar NaN)) by exact Hi.
    apply B; [apply nth_In, Hi|exact Hj].
Qed.
