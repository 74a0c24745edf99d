(** The stellar mass integral in binary32: whole tables. *)
From Coq Require Import Reals Lra Lia List Bool String QArith Qreals ZArith.
From Flocq Require Import Core.Core IEEE754.BinarySingleNaN.
From Verif Require Import ModelFloat ModelFloatMass SpecFloat32 SpecFloatMass FloatProofs FloatConst FloatMassProofs.
Import ListNotations.
Open Scope R_scope.

Fixpoint chain (a : R) (l : list (f32 * f32)) : Prop :=
  match l with
  | [] => True
  | (b, fb) :: l => is_finite b = true /\ a <= B2R b <= 2 ^ 20 /\ between0 (2 ^ 40) fb /\ chain (B2R b) l
  end.
Fixpoint sums (a fa c : R) (l : list (f32 * f32)) : list R :=
  match l with
  | [] => []
  | (b, fb) :: l => let c' := c + (B2R b - a) * (B2R fb + fa) / 2 in c' :: sums (B2R b) (B2R fb) c' l
  end.

Lemma uu_val : uu = / 16777216. Proof. reflexivity. Qed.

Lemma c_bound n eta E x : (Z.of_nat n <= 2097152)%Z -> 0 <= E -> 0 <= eta -> within n eta E x -> x <= 2 * (E + eta).
Proof.
  intros Hn PE Pe [_ U]. apply Rle_trans with (1 := U). apply Rmult_le_compat_r; [lra|].
  assert (N : INR n <= 2097152). { rewrite INR_IZR_INZ. apply IZR_le. exact Hn. }
  pose proof (pos_INR n).
  pose proof (pow_up n) as P. rewrite uu_val in P |- *. specialize (P ltac:(lra)). lra.
Qed.

Lemma eta_small k : (Z.of_nat k <= 2097152)%Z -> 0 <= 3 * INR k * hh <= / 2 ^ 110.
Proof.
  intro H. pose proof hh_pos as P. pose proof hh_small as S. pose proof (pos_INR k) as Q.
  assert (N : INR k <= 2097152). { rewrite INR_IZR_INZ. apply IZR_le. exact H. }
  split; [apply Rmult_le_pos; lra|].
  apply Rle_trans with (3 * 2097152 * hh); [apply Rmult_le_compat_r; lra|]. lra.
Qed.

Lemma scan_inv fused : forall l a fa c k E,
  is_finite a = true -> 0 <= B2R a -> between0 (2 ^ 40) fa -> is_finite c = true -> 0 <= B2R c -> chain (B2R a) l ->
  0 <= E <= 2 ^ 40 * B2R a -> (Z.of_nat (k + List.length l) <= 2000000)%Z ->
  within (k + 4) (3 * INR k * hh) E (B2R c) ->
  List.length (cumtrapz_scan32 fused a fa c l) = List.length l /\
  forall i, (i < List.length l)%nat ->
    let r := nth i (cumtrapz_scan32 fused a fa c l) B754_nan in
    let E' := nth i (sums (B2R a) (B2R fa) E l) 0 in
    is_finite r = true /\
    B2R (match i with O => c | S j => nth j (cumtrapz_scan32 fused a fa c l) B754_nan end) <= B2R r /\
    0 <= E' <= 2 ^ 60 /\ within (k + S i + 4) (3 * INR (k + S i) * hh) E' (B2R r).
Proof.
  induction l as [|[b fb] l IH]; intros a fa c k E Fa Pa Hfa Fc Pc Hl HE Hk W.
  - split; [reflexivity|]. intros i Hi. simpl in Hi. lia.
  - destruct Hl as (Fb & Hb & Hfb & Hl). cbn [List.length] in Hk.
    destruct (eta_small k ltac:(lia)) as [Q1 Q2].
    pose proof (c_bound (k + 4) _ _ _ ltac:(lia) (proj1 HE) Q1 W) as CB.
    assert (D : 0 <= B2R b - B2R a <= 2 ^ 20) by lra.
    destruct (step_ok fused a fa c b fb k _ E Fa Fb Fc Hfa Hfb D ltac:(lra) Q1 (proj1 HE) W) as (F' & M' & W').
    cbn [cumtrapz_scan32 sums List.length]. set (c' := cumtrapz_step32 fused a fa c b fb) in *.
    set (E1 := E + (B2R b - B2R a) * (B2R fb + B2R fa) / 2) in *.
    assert (HE1 : 0 <= E1 <= 2 ^ 40 * B2R b).
    { destruct Hfa as [_ Hfa], Hfb as [_ Hfb].
      assert (0 <= (B2R b - B2R a) * (B2R fb + B2R fa)) by (apply Rmult_le_pos; lra).
      assert ((B2R b - B2R a) * (B2R fb + B2R fa) <= (B2R b - B2R a) * 2 ^ 41) by (apply Rmult_le_compat_l; lra).
      unfold E1. lra. }
    assert (W1 : within (S k + 4) (3 * INR (S k) * hh) E1 (B2R c')).
    { replace (S k + 4)%nat with (k + 5)%nat by lia. replace (3 * INR (S k) * hh) with (3 * INR k * hh + 3 * hh) by (rewrite S_INR; ring). exact W'. }
    destruct (IH b fb c' (S k) E1 Fb ltac:(lra) Hfb F' ltac:(lra) Hl HE1 ltac:(lia) W1) as [L G].
    split; [f_equal; exact L|]. intros [|i] Hi; cbn [nth].
    + split; [exact F'|]. split; [exact M'|]. split; [lra|]. replace (k + 1)%nat with (S k) by lia. exact W1.
    + specialize (G i ltac:(lia)). cbv zeta in G. destruct G as (G1 & G2 & G3 & G4).
      split; [exact G1|]. split; [destruct i; exact G2|]. split; [exact G3|].
      replace (k + S (S i))%nat with (S k + S i)%nat by lia. exact G4.
Qed.

(** ** The table *)
Lemma start_lits : is_finite (lit32 (1 # 1000)) = true /\ B2R (lit32 (1 # 1000)) = near32 (1 / 1000) /\
  is_finite (lit32 (1 # 100000000000000)) = true /\ B2R (lit32 (1 # 100000000000000)) = near32 (1 / 10 ^ 14).
Proof.
  destruct (lit_ok_spec (1 # 1000) eq_refl) as [F1 E1].
  destruct (lit_ok_spec (1 # 100000000000000) eq_refl) as [F2 E2].
  split; [exact F1|]. split; [rewrite E1; f_equal; unfold Q2R; simpl; lra|].
  split; [exact F2|]. rewrite E2; f_equal; unfold Q2R; simpl; lra.
Qed.
Lemma giga_lit : is_finite (lit32 1000000000) = true /\ B2R (lit32 1000000000) = 10 ^ 9.
Proof.
  split; [reflexivity|]. rewrite <- (SF2R_B2SF _ _ (lit32 1000000000)).
  replace (B2SF (lit32 1000000000)) with (SpecFloat.S754_finite false 15625000 6) by (vm_compute; reflexivity).
  unfold SF2R, F2R. simpl. lra.
Qed.

Lemma sums_trap : forall l a fa c i (t s : nat -> R) j, (i < List.length l)%nat ->
  t j = a -> s j = fa -> c = trapezoids t s j ->
  (forall m, (m < List.length l)%nat -> t (j + S m)%nat = B2R (fst (nth m l (B754_nan, B754_nan))) /\
                                        s (j + S m)%nat = B2R (snd (nth m l (B754_nan, B754_nan)))) ->
  nth i (sums a fa c l) 0 = trapezoids t s (j + S i).
Proof.
  induction l as [|[b fb] l IH]; intros a fa c i t s j Hi Ht Hs Hc H; [simpl in Hi; lia|].
  pose proof (H 0%nat ltac:(simpl; lia)) as [T0 S0]. cbn [nth fst snd] in T0, S0. rewrite Nat.add_1_r in T0, S0.
  cbn [sums]. destruct i as [|i]; cbn [nth].
  - rewrite Nat.add_1_r. cbn [trapezoids]. rewrite T0, S0, Ht, Hs, <- Hc. reflexivity.
  - replace (j + S (S i))%nat with (S j + S i)%nat by lia. apply IH; [simpl in Hi; lia|exact T0|exact S0| |].
    + cbn [trapezoids]. rewrite T0, S0, Ht, Hs, <- Hc. reflexivity.
    + intros m Hm. replace (S j + S m)%nat with (j + S (S m))%nat by lia. apply (H (S m)). simpl. lia.
Qed.

Lemma chain_of : forall ts ss a, List.length ts = List.length ss ->
  Forall (between0 (2 ^ 20)) ts -> Forall (between0 (2 ^ 40)) ss ->
  (forall i, (i < List.length ts)%nat -> match i with O => a | S j => B2R (nth j ts B754_nan) end <= B2R (nth i ts B754_nan)) ->
  chain a (combine ts ss).
Proof.
  induction ts as [|t ts IH]; intros [|s ss] a L Ht Hs H; try discriminate; [exact I|].
  inversion Ht as [|? ? [F B] Ht']; inversion Hs as [|? ? Hs0 Hs']; subst. cbn [combine chain].
  pose proof (H 0%nat ltac:(simpl; lia)) as H0. cbn [nth] in H0.
  split; [exact F|]. split; [lra|]. split; [exact Hs0|]. apply IH; [simpl in L; lia|exact Ht'|exact Hs'|].
  intros i Hi. specialize (H (S i) ltac:(simpl; lia)). destruct i; exact H.
Qed.

Lemma nth_combine' {A B} (l : list A) (m : list B) i d e : List.length l = List.length m ->
  nth i (combine l m) (d, e) = (nth i l d, nth i m e).
Proof. apply combine_nth. Qed.

Lemma mass32 fused ts ss : mass_input ts ss ->
  exists ms, cumulative_mstar_formed32 fused ts ss = Some ms /\ List.length ms = List.length ts /\
    forall k, (k < List.length ts)%nat ->
      is_finite (nth k ms B754_nan) = true /\ 0 <= B2R (nth k ms B754_nan) /\
      ((S k < List.length ts)%nat -> B2R (nth k ms B754_nan) <= B2R (nth (S k) ms B754_nan)) /\
      0 <= exact_mass ts ss k /\
      Rabs (B2R (nth k ms B754_nan) - exact_mass ts ss k) <= INR (k + 8) / 2 ^ 23 * exact_mass ts ss k + / 2 ^ 70.
Proof.
  intros (L & Ln & Ht & Hs & Ho). destruct start_lits as (FT & ET & FS & ES).
  set (T := lit32 (1 # 1000)) in *. set (S0 := lit32 (1 # 100000000000000)) in *.
  assert (BT : 0 <= B2R T <= 2 ^ 20).
  { rewrite ET. split; [apply near_nonneg; lra|]. pose proof (near_bounds (1 / 1000) ltac:(lra)). pose proof hh_small. rewrite uu_val in *. lra. }
  assert (BS : between0 (2 ^ 40) S0).
  { split; [exact FS|]. rewrite ES. split; [apply near_nonneg; lra|]. pose proof (near_bounds (1 / 10 ^ 14) ltac:(lra)). pose proof hh_small. rewrite uu_val in *. lra. }
  set (l := combine ts ss).
  assert (Ll : List.length l = List.length ts) by (unfold l; rewrite combine_length; lia).
  assert (Hc : chain (B2R T) ((T, S0) :: l)).
  { cbn [chain]. split; [exact FT|]. split; [lra|]. split; [exact BS|]. apply chain_of; try assumption.
    intros i Hi. specialize (Ho i Hi). unfold point in Ho. destruct i; [rewrite ET|]; exact Ho. }
  destruct zero_lit as [FZ EZ].
  destruct (scan_inv fused ((T, S0) :: l) T S0 (lit32 0) 0 0 FT (proj1 BT) BS FZ) as [LL G].
  { rewrite EZ. lra. } { exact Hc. } { split; [lra|]. apply Rmult_le_pos; lra. } { cbn [List.length]. lia. }
  { rewrite EZ. unfold within. replace (3 * INR 0 * hh) with 0 by (simpl INR; ring). rewrite !Rplus_0_r, !Rmult_0_r. lra. }
  unfold cumulative_mstar_formed32. rewrite (proj2 (Nat.eqb_eq _ _) L). cbn [cumtrapz32].
  fold T S0. cbn [combine]. fold l.
  set (cs := cumtrapz_scan32 fused T S0 (lit32 0) ((T, S0) :: l)) in *.
  eexists. split; [reflexivity|].
  destruct cs as [|c0 cs'] eqn:Ecs; [simpl in LL; lia|]. cbn [tl]. cbn [List.length] in LL.
  rewrite map_length. split; [lia|].
  assert (NM : forall k, (k < List.length ts)%nat ->
    nth k (map (fun m => fmul m (lit32 1000000000)) cs') B754_nan = fmul (nth k cs' B754_nan) (lit32 1000000000)).
  { intros k Hk. rewrite (nth_indep _ _ (fmul B754_nan (lit32 1000000000))) by (rewrite map_length; lia).
    exact (map_nth (fun m => fmul m (lit32 1000000000)) cs' B754_nan k). }
  destruct giga_lit as [FG EG].
  (* facts about each accumulated value *)
  assert (A : forall k, (k < List.length ts)%nat ->
    is_finite (nth k cs' B754_nan) = true /\ 0 <= B2R (nth k cs' B754_nan) <= 2 ^ 62 /\
    B2R (fmul (nth k cs' B754_nan) (lit32 1000000000)) = near32 (B2R (nth k cs' B754_nan) * 10 ^ 9) /\
    is_finite (fmul (nth k cs' B754_nan) (lit32 1000000000)) = true /\
    ((S k < List.length ts)%nat -> B2R (nth k cs' B754_nan) <= B2R (nth (S k) cs' B754_nan)) /\
    exists E, 10 ^ 9 * E = exact_mass ts ss k /\ 0 <= E <= 2 ^ 60 /\
      within (k + 6) (3 * INR (k + 2) * hh) E (B2R (nth k cs' B754_nan))).
  { assert (P0 : 0 <= B2R c0).
    { specialize (G 0%nat ltac:(simpl; lia)). cbv zeta in G. cbn [nth] in G. rewrite EZ in G. apply G. }
    assert (PP : forall k, (k < List.length ts)%nat -> 0 <= B2R (nth k cs' B754_nan)).
    { induction k as [|k IHk]; intro Hk.
      - specialize (G 1%nat ltac:(simpl; lia)). cbv zeta in G. cbn [nth] in G. destruct G as (_ & G & _). lra.
      - specialize (G (S (S k)) ltac:(simpl; lia)). cbv zeta in G. cbn [nth] in G. destruct G as (_ & G & _).
        specialize (IHk ltac:(lia)). lra. }
    intros k Hk. pose proof (G (S k) ltac:(simpl; lia)) as Gk. cbv zeta in Gk. cbn [nth] in Gk.
    destruct Gk as (G1 & G2 & G3 & G4).
    replace (0 + S (S k) + 4)%nat with (k + 6)%nat in G4 by lia. replace (0 + S (S k))%nat with (k + 2)%nat in G4 by lia.
    set (E := nth (S k) (sums (B2R T) (B2R S0) 0 ((T, S0) :: l)) 0) in G3, G4.
    destruct (eta_small (k + 2) ltac:(lia)) as [Q1 Q2].
    pose proof (c_bound (k + 6) _ _ _ ltac:(lia) (proj1 G3) Q1 G4) as CB.
    assert (B62 : 0 <= B2R (nth k cs' B754_nan) <= 2 ^ 62) by (split; [apply PP; exact Hk|lra]).
    split; [exact G1|]. split; [exact B62|].
    destruct (fmul_ok (nth k cs' B754_nan) (lit32 1000000000) G1 FG) as [V F].
    { apply bp100. rewrite EG. rewrite Rabs_pos_eq by lra. lra. }
    rewrite EG in V. split; [exact V|]. split; [exact F|]. split.
    - intro Hk'. specialize (G (S (S k)) ltac:(simpl; lia)). cbv zeta in G. cbn [nth] in G. apply G.
    - exists E. split; [|split; [exact G3|exact G4]]. unfold exact_mass. f_equal.
      unfold E. cbn [sums nth].
      apply (sums_trap l (B2R T) (B2R S0) _ k (point (1 / 1000) ts) (point (1 / 10 ^ 14) ss) 0).
      + apply (Nat.lt_le_trans _ _ _ Hk), Nat.eq_le_incl; symmetry; exact Ll.
      + exact (eq_sym ET).
      + exact (eq_sym ES).
      + simpl trapezoids. lra.
      + intros m Hm. cbn [plus point]. unfold l. rewrite nth_combine' by exact L. split; reflexivity. }
  intros k Hk. destruct (A k Hk) as (A1 & A2 & A3 & A4 & A5 & E & EE & RE & W). rewrite (NM k Hk).
  split; [exact A4|]. split; [rewrite A3; apply near_nonneg; lra|]. split.
  { intro Hk'. rewrite (NM _ Hk'). destruct (A _ Hk') as (_ & _ & B3 & _). rewrite A3, B3. apply near32_le.
    specialize (A5 Hk'). lra. }
  rewrite <- EE. split; [lra|]. rewrite A3.
  destruct (eta_small (k + 2) ltac:(lia)) as [Q1 Q2]. set (eta := 3 * INR (k + 2) * hh) in *.
  assert (W9 : within (k + 6) (10 ^ 9 * eta) (10 ^ 9 * E) (B2R (nth k cs' B754_nan) * 10 ^ 9)).
  { destruct W as [Wl Wu]. split; lra. }
  apply within_near in W9; [|lra|lra]. destruct W9 as [Wl Wu].
  set (M := 10 ^ 9 * E) in *. set (x := near32 _) in *. set (e9 := 10 ^ 9 * eta + hh) in *.
  assert (He9 : 0 <= e9 <= / 2 ^ 75). { unfold e9. pose proof hh_pos. pose proof hh_small. lra. }
  assert (NN : INR (S (k + 6)) <= 2000000). { rewrite INR_IZR_INZ. apply IZR_le. lia. }
  pose proof (pos_INR (S (k + 6))) as NP.
  pose proof (pow_down (S (k + 6))) as PD. pose proof (pow_up (S (k + 6))) as PU. rewrite uu_val in PD, PU, Wl, Wu. specialize (PU ltac:(lra)).
  assert (N8 : INR (S (k + 6)) <= INR (k + 8)) by (apply le_INR; lia).
  set (n := INR (S (k + 6))) in *. set (n8 := INR (k + 8)) in *.
  assert (PM : 0 <= M) by (unfold M; lra).
  assert (nM : n * M <= n8 * M) by (apply Rmult_le_compat_r; assumption).
  assert (U1 : (1 + / 16777216) ^ S (k + 6) * (M + e9) <= (1 + 2 * n * / 16777216) * (M + e9)) by (apply Rmult_le_compat_r; lra).
  assert (U2 : (1 - n * / 16777216) * M <= (1 - / 16777216) ^ S (k + 6) * M) by (apply Rmult_le_compat_r; lra).
  assert (U3 : n * e9 <= 2000000 * e9) by (apply Rmult_le_compat_r; lra).
  assert (PnM : 0 <= n8 * M) by (apply Rmult_le_pos; lra).
  apply Rabs_le. split; lra.
Qed.

(** ** Stagnation *)
Definition stag_t : list f32 := [lit32 10; lit32 11; lit32 (89 # 8)].
Definition stag_s : list f32 := [lit32 20; lit32 0; lit32 (1 # 131072)].
Lemma stag_vals : forall q m e, B2SF (lit32 q) = SpecFloat.S754_finite false m e -> B2R (lit32 q) = IZR (Zpos m) * bpow radix2 e.
Proof. intros q m e H. rewrite <- (SF2R_B2SF _ _ (lit32 q)), H. reflexivity. Qed.
Lemma v10 : B2R (lit32 10) = 10.
Proof. rewrite (stag_vals 10 10485760 (-20)) by (vm_compute; reflexivity). simpl. lra. Qed.
Lemma v11 : B2R (lit32 11) = 11.
Proof. rewrite (stag_vals 11 11534336 (-20)) by (vm_compute; reflexivity). simpl. lra. Qed.
Lemma v89 : B2R (lit32 (89 # 8)) = 89 / 8.
Proof. rewrite (stag_vals (89 # 8) 11665408 (-20)) by (vm_compute; reflexivity). simpl. lra. Qed.
Lemma v20 : B2R (lit32 20) = 20.
Proof. rewrite (stag_vals 20 10485760 (-19)) by (vm_compute; reflexivity). simpl. lra. Qed.
Lemma vsmall : B2R (lit32 (1 # 131072)) = / 131072.
Proof. rewrite (stag_vals (1 # 131072) 8388608 (-40)) by (vm_compute; reflexivity). simpl. lra. Qed.
Lemma vT : near32 (1 / 1000) <= 10.
Proof. pose proof (near_bounds (1 / 1000) ltac:(lra)). pose proof hh_small. rewrite uu_val in *. lra. Qed.

Lemma stag_input : mass_input stag_t stag_s.
Proof.
  split; [reflexivity|]. split; [simpl; lia|]. unfold stag_t, stag_s.
  split; [repeat constructor; try reflexivity; rewrite ?v10, ?v11, ?v89; lra|].
  split; [repeat constructor; try reflexivity; rewrite ?v20, ?vsmall; try (change (B2R (lit32 0)) with 0); lra|].
  intros i Hi. cbn [List.length] in Hi. pose proof vT.
  destruct i as [|[|[|i]]]; [| | |lia]; cbn [point nth]; rewrite ?v10, ?v11, ?v89; lra.
Qed.

Lemma stagnates fused : exists ts ss ms, mass_input ts ss /\ List.length ts = 3%nat /\
  (forall i, (i < 3)%nat -> point (1 / 1000) ts i < point (1 / 1000) ts (S i)) /\
  0 < B2R (nth 2 ss B754_nan) /\
  cumulative_mstar_formed32 fused ts ss = Some ms /\
  exact_mass ts ss 1 < exact_mass ts ss 2 /\ nth 2 ms B754_nan = nth 1 ms B754_nan.
Proof.
  exists stag_t, stag_s.
  assert (E : exists ms, cumulative_mstar_formed32 fused stag_t stag_s = Some ms /\
    match ms with [_; b; c] => B2SF b = B2SF c | _ => False end).
  { destruct fused; eexists; (split; [reflexivity|]); vm_compute; reflexivity. }
  destruct E as (ms & E & H). exists ms. split; [exact stag_input|]. split; [reflexivity|].
  split.
  { intros i Hi. pose proof (near_bounds (1 / 1000) ltac:(lra)) as NB. pose proof hh_small. rewrite uu_val in NB.
    destruct i as [|[|[|i]]]; [| | |lia]; cbn [point stag_t nth]; rewrite ?v10, ?v11, ?v89; lra. }
  split; [cbn [stag_s nth]; rewrite vsmall; lra|]. split; [exact E|]. split.
  - unfold exact_mass. apply Rmult_lt_compat_l; [lra|].
    change (trapezoids ?t ?s 3) with (trapezoids t s 2 + (t 3%nat - t 2%nat) * (s 3%nat + s 2%nat) / 2).
    cbn [point stag_t stag_s nth]. rewrite v11, v89, vsmall. change (B2R (lit32 0)) with 0. lra.
  - destruct ms as [|a [|b [|c [|]]]]; try contradiction. cbn [nth]. apply B2SF_inj. symmetry. exact H.
Qed.
