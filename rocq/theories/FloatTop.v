(** The parameter transforms in binary32: what saturates and what comes back. *)
From Coq Require Import Reals Lra Lia List Bool String QArith Qreals Qabs ZArith.
From Flocq Require Import Core.Core IEEE754.BinarySingleNaN.
From Verif Require Import XReal ModelUtils ModelKernels ModelSfh ModelPopTables ModelPop ModelFloat SpecCore SpecPop SpecFloat32
  PopParamProofs FloatProofs FloatConst FloatRange.
Import ListNotations.
Open Scope R_scope.

(** [top - lo] rounds to the rounded height, which is positive. *)
Definition back (b : Q * Q) : bool :=
  let lo := lit32 (fst b) in let hi := lit32 (snd b) in
  Beqb (fsub (top lo hi) lo) (fsub hi lo) && Bltb (lit32 0) (fsub hi lo) &&
  Bltb (lit32 (-1000)) (top lo hi) && Bltb (top lo hi) (lit32 1000).

Lemma B2R_1000 : B2R (lit32 1000) = 1000 /\ B2R (lit32 (-1000)) = -1000.
Proof.
  split; rewrite <- SF2R_B2SF.
  - replace (B2SF (lit32 1000)) with (SpecFloat.S754_finite false 16384000 (-14)) by (vm_compute; reflexivity).
    unfold SF2R, F2R. simpl. lra.
  - replace (B2SF (lit32 (-1000))) with (SpecFloat.S754_finite true 16384000 (-14)) by (vm_compute; reflexivity).
    unfold SF2R, F2R. simpl. lra.
Qed.

Lemma back_spec b : bound_ok b = true -> back b = true ->
  let lo := lit32 (fst b) in let hi := lit32 (snd b) in
  near32 (B2R (top lo hi) - B2R lo) = near32 (B2R hi - B2R lo) /\ near32 (B2R hi - B2R lo) <> 0 /\
  Rabs (B2R (top lo hi)) <= 1024.
Proof.
  intros Hb H. cbv zeta. unfold back in H. rewrite !andb_true_iff in H. destruct H as (((H1 & H2) & H3) & H4).
  destruct (bound_ok_spec b Hb) as (F1 & F2 & E1 & E2 & L & A1 & A2).
  pose proof (top_finite b Hb) as FT. destruct zero32 as (Fz & Z). destruct B2R_1000 as (P & N).
  apply lt32 in H3; [|reflexivity|exact FT]. apply lt32 in H4; [|exact FT|reflexivity]. rewrite P in H4. rewrite N in H3.
  apply Rabs_le_inv in A1, A2.
  destruct (fsub_ok (lit32 (snd b)) (lit32 (fst b)) F2 F1) as (D1 & D2).
  { rewrite bpow_100. apply Rabs_le. lra. }
  destruct (fsub_ok (top (lit32 (fst b)) (lit32 (snd b))) (lit32 (fst b)) FT F1) as (T1 & T2).
  { rewrite bpow_100. apply Rabs_le. lra. }
  apply lt32 in H2; [|exact Fz|exact D2]. rewrite Z in H2.
  rewrite (Beqb_correct _ _ _ _ T2 D2) in H1. revert H1. case Req_bool_spec; [intros H1 _|discriminate].
  rewrite T1, D1 in H1. split; [exact H1|]. split; [lra|]. apply Rabs_le. lra.
Qed.

Definition mid_ok (b : Q * Q) : bool :=
  let '(x0, k, _, _) := sigmoid_bounds32 b in Bltb (lit32 (-1000)) x0.

(** ** One of the eight parameters *)
Lemma param_sat s fused b u : sigmoid_saturates s -> sb_ok b = true -> mid_ok b = true -> at_least 50 u ->
  let r := sigmoid_b32 s fused u (sigmoid_bounds32 b) in
  is_finite r = true /\ B2R r = B2R (top (lit32 (fst b)) (lit32 (snd b))).
Proof.
  intros Hs Hb Hm Hu. destruct (sb_spec b Hb) as (x0 & k & E & F0 & Fk & K & X0 & B).
  destruct (bound_ok_spec b B) as (F1 & F2 & E1 & E2 & L & A1 & A2).
  unfold mid_ok in Hm. rewrite E in Hm. apply lt32 in Hm; [|reflexivity|exact F0].
  rewrite (proj2 B2R_1000) in Hm.
  unfold sigmoid_b32. rewrite E. apply sigmoid32_sat with (a := 50) (c := IZR 38); auto; try lra.
  - apply Rabs_le. lra.
  - now apply near32_int.
Qed.
Lemma param_back s lg fused b u : sigmoid_saturates s -> lg (B754_zero false) = B754_infinity true ->
  sb_ok b = true -> mid_ok b = true -> back b = true -> at_least 50 u ->
  inverse_sigmoid_b32 lg (sigmoid_b32 s fused u (sigmoid_bounds32 b)) (sigmoid_bounds32 b) = B754_infinity false.
Proof.
  intros Hs Hl Hb Hm Hk Hu. destruct (param_sat s fused b u Hs Hb Hm Hu) as (F & V).
  destruct (sb_spec b Hb) as (x0 & k & E & F0 & Fk & K & X0 & B).
  destruct (bound_ok_spec b B) as (F1 & F2 & E1 & E2 & L & A1 & A2).
  destruct (back_spec b B Hk) as (N & Z & T).
  unfold inverse_sigmoid_b32. rewrite E in *.
  apply inverse_at_top; auto; rewrite ?V; auto. lra.
Qed.

Definition eight : list (Q * Q) :=
  [(9, 27 # 2); (-12, -8); (0, 5); (-5, 0); (1 # 10, 2); (-3, -1 # 100); (-3, 0)]%Q.
Lemma eight_ok : forallb (fun b => sb_ok b && mid_ok b && back b) eight = true.
Proof. vm_compute. reflexivity. Qed.
Lemma eight_in b : In b eight -> sb_ok b = true /\ mid_ok b = true /\ back b = true.
Proof.
  intro H. pose proof eight_ok as E. rewrite forallb_forall in E. specialize (E b H).
  rewrite !andb_true_iff in E. tauto.
Qed.

Lemma ms_back s lg fused u : sigmoid_saturates s -> lg (B754_zero false) = B754_infinity true ->
  let v := get_unbounded_sfr_params32 lg (get_bounded_sfr_params32 s fused u) in
  (at_least 50 (lgmcrit u) -> lgmcrit v = B754_infinity false) /\
  (at_least 50 (lgy_at_mcrit u) -> lgy_at_mcrit v = B754_infinity false) /\
  (at_least 50 (indx_lo u) -> indx_lo v = B754_infinity false) /\
  (at_least 50 (indx_hi u) -> indx_hi v = B754_infinity false).
Proof.
  intros Hs Hl. cbv zeta. unfold get_unbounded_sfr_params32, get_bounded_sfr_params32.
  cbn [lgmcrit lgy_at_mcrit indx_lo indx_hi MS_SIG32].
  split; [|split; [|split]]; intro H.
  - destruct (eight_in (9, 27 # 2)%Q) as (O1 & O2 & O3); [simpl; tauto|]. now apply param_back.
  - destruct (eight_in (-12, -8)%Q) as (O1 & O2 & O3); [simpl; tauto|]. now apply param_back.
  - destruct (eight_in (0, 5)%Q) as (O1 & O2 & O3); [simpl; tauto|]. now apply param_back.
  - destruct (eight_in (-5, 0)%Q) as (O1 & O2 & O3); [simpl; tauto|]. now apply param_back.
Qed.

Lemma unbounded_q_eq lg p x0 k lo hi : sigmoid_bounds32 drop_sb = (x0, k, lo, hi) ->
  get_unbounded_q_params32 lg p =
    mkQ (inverse_sigmoid_b32 lg (lg_qt p) (sigmoid_bounds32 (1 # 10, 2)%Q))
        (inverse_sigmoid_b32 lg (qlglgdt p) (sigmoid_bounds32 (-3, -1 # 100)%Q))
        (inverse_sigmoid_b32 lg (lg_drop p) (sigmoid_bounds32 drop_sb))
        (inverse_sigmoid32 lg (lg_rejuv p) x0 k (lg_drop p) hi).
Proof.
  intro E. unfold get_unbounded_q_params32. cbn [lg_rejuv lg_drop lg_qt qlglgdt Q_SIG32].
  change (-3, 0)%Q with drop_sb. now rewrite E.
Qed.

Lemma q_back s lg fused u : sigmoid_range s -> sigmoid_saturates s -> lg (B754_zero false) = B754_infinity true ->
  let p := get_bounded_q_params32 s fused u in let v := get_unbounded_q_params32 lg p in
  (at_least 50 (lg_qt u) -> lg_qt v = B754_infinity false) /\
  (at_least 50 (qlglgdt u) -> qlglgdt v = B754_infinity false) /\
  (at_least 50 (lg_drop u) -> lg_drop v = B754_infinity false) /\
  (number (lg_drop u) -> B2R (lg_drop p) < 0 -> at_least 50 (lg_rejuv u) -> lg_rejuv v = B754_infinity false).
Proof.
  intros Hr Hs Hl. cbv zeta.
  destruct (sb_spec _ drop_sb_ok) as (x0 & k & E & F0 & Fk & K & X0 & B).
  rewrite (unbounded_q_eq lg _ _ _ _ _ E), (bounded_q_eq s fused u _ _ _ _ E). cbn [lg_rejuv lg_drop lg_qt qlglgdt].
  split; [|split; [|split]].
  - intro H. destruct (eight_in (1 # 10, 2)%Q) as (O1 & O2 & O3); [simpl; tauto|]. now apply param_back.
  - intro H. destruct (eight_in (-3, -1 # 100)%Q) as (O1 & O2 & O3); [simpl; tauto|]. now apply param_back.
  - intro H. destruct (eight_in drop_sb) as (O1 & O2 & O3); [simpl; tauto|]. now apply param_back.
  - intros Nd Hd H.
    destruct (param_inside s fused drop_sb (lg_drop u) Hr Nd drop_sb_ok drop_tight) as (FD & LD & UD).
    change (fst drop_sb) with (-3)%Q in LD. rewrite near32_m3 in LD.
    set (d := sigmoid_b32 s fused (lg_drop u) (sigmoid_bounds32 drop_sb)) in *.
    change (snd drop_sb) with 0%Q. destruct zero32 as (Fz & Z).
    assert (Ad : Rabs (B2R d) <= 1024) by (apply Rabs_le; lra).
    assert (M : mid_ok drop_sb = true) by (vm_compute; reflexivity).
    unfold mid_ok in M. rewrite E in M. apply lt32 in M; [|reflexivity|exact F0]. rewrite (proj2 B2R_1000) in M.
    destruct (sigmoid32_sat s fused (lg_rejuv u) x0 k d (lit32 0) 50 (IZR 38)) as (FR & VR); auto; try lra.
    + apply Rabs_le. lra.
    + now apply near32_int.
    + rewrite Z, Rabs_R0. lra.
    + rewrite (top_zero d FD Ad) in VR.
      apply inverse_at_top; auto; rewrite ?VR, ?Z; auto; try (rewrite Rabs_R0; lra); try lra.
      replace (0 - B2R d) with (- B2R d) by ring. rewrite near32_opp, near32_B2R. lra.
Qed.

(** The only one of the eight that leaves its interval. *)
Definition ql_top : R := - 41943 / 4194304.
Lemma ql_top_eq : B2R (top (lit32 (-3)) (lit32 (-1 # 100))) = ql_top.
Proof.
  rewrite <- SF2R_B2SF.
  replace (B2SF (top (lit32 (-3)) (lit32 (-1 # 100)))) with (SpecFloat.S754_finite true 10737408 (-30))
    by (vm_compute; reflexivity).
  unfold SF2R, F2R, ql_top. simpl. lra.
Qed.
Lemma ql_above s fused u : sigmoid_saturates s -> at_least 50 (qlglgdt u) ->
  is_finite (qlglgdt (get_bounded_q_params32 s fused u)) = true /\
  B2R (qlglgdt (get_bounded_q_params32 s fused u)) = ql_top.
Proof.
  intros Hs H. destruct (sb_spec _ drop_sb_ok) as (x0 & k & E & _).
  rewrite (bounded_q_eq s fused u _ _ _ _ E). cbn [qlglgdt].
  destruct (eight_in (-3, -1 # 100)%Q) as (O1 & O2 & O3); [simpl; tauto|].
  rewrite <- ql_top_eq. now apply (param_sat s fused (-3, -1 # 100)%Q).
Qed.
Lemma near32_ql : near32 (Q2R (-1 # 100)) = - 10737418 / 1073741824.
Proof.
  replace (Q2R (-1 # 100)) with (- (1 / 100)) by (unfold Q2R; simpl; lra). rewrite near32_opp.
  rewrite (near32_eq (1 / 100) 10737418 (-30)); [|lia| |].
  - change (bpow radix2 (-30)) with (/ 1073741824). lra.
  - change (bpow radix2 (-30 + 23)) with (/ 128). change (bpow radix2 (-30 + 24)) with (/ 64).
    rewrite Rabs_pos_eq by lra. lra.
  - change (bpow radix2 (- -30)) with 1073741824. apply Rabs_def1; lra.
Qed.

(** ** Population parameters *)
Section Pop.
Variables (s lg : f32 -> f32) (fused : bool).
Variables (u : nt f32) (U : string -> f32).
Hypothesis Hu : forall n, In n pop_names -> assoc ("u_" ++ n) u = Some (U n).

Definition val32 (r : string * (Q * Q)) : f32 := get_p_from_u_p32 s fused (U (fst r)) (QQ32 (snd r)).

Lemma bounded_by_rows names unames pdict rs : names = map fst rs -> unames = map u_name names ->
  nt_kwargs names pdict = Some (map snd rs) -> incl rs POP_BOUNDS ->
  bounded_by32 s fused names unames pdict u = Some (map (fun r => (fst r, val32 r)) rs).
Proof.
  intros -> -> Hk Hi. unfold bounded_by32. rewrite Hk.
  assert (E : ModelUtils.vmap (getattr u) (map u_name (map fst rs)) = Some (map (fun r => U (fst r)) rs)).
  { rewrite map_map. unfold ModelUtils.vmap. rewrite map_map.
    apply (sequence_spec (fun r => getattr u (u_name (fst r))) (fun r => U (fst r))).
    intros r Hr. rewrite getattr_assoc. apply Hu. apply in_map. now apply Hi. }
  rewrite E, map_map, map2_rows, nt_make_rows. reflexivity.
Qed.

Lemma bounded32_rows : get_bounded_diffstarpop_params32 s fused u
  = Some (map (fun r => (fst r, val32 r)) POP_BOUNDS).
Proof.
  unfold get_bounded_diffstarpop_params32.
  rewrite (bounded_by_rows _ QSEQ_UNAMES _ QROWS qseq_names eq_refl q_kwargs) by (intros r; apply in_q).
  rewrite (bounded_by_rows _ SATQ_UNAMES _ SROWS satq_names eq_refl s_kwargs) by (intros r; apply in_s).
  rewrite !values_rows, <- map_app, <- rows_split, pop_names_eq, nt_make_rows. reflexivity.
Qed.

Definition pop32 (f : string -> f32) : nt f32 := map (fun n => (n, f n)) pop_names.

(** Checks on the bounds of one row. *)
Definition row_ok (b : Q * Q) : bool :=
  let '(lo, hi) := QQ32 b in
  let p0 := fmul (lit32 (1 # 2)) (fadd lo hi) in
  bound_ok b && back b && is_finite p0 && Bltb p0 (lit32 15) && Bltb (lit32 (-1000)) p0.
Lemma rows_ok32 : forallb (fun r => row_ok (snd r)) POP_BOUNDS = true.
Proof. vm_compute. reflexivity. Qed.
Lemma k_ok : is_finite (lit32 (1 # 10)) = true /\ B2R (lit32 (1 # 10)) = 13421773 / 134217728.
Proof.
  split; [reflexivity|]. rewrite <- SF2R_B2SF.
  replace (B2SF (lit32 (1 # 10))) with (SpecFloat.S754_finite false 13421773 (-27)) by (vm_compute; reflexivity).
  unfold SF2R, F2R. simpl. lra.
Qed.
Lemma row_spec b : row_ok b = true ->
  exists p0, (forall x, get_p_from_u_p32 s fused x (QQ32 b) = sigmoid32 s fused x p0 (lit32 (1 # 10)) (lit32 (fst b)) (lit32 (snd b))) /\
    (forall x, get_u_p_from_p32 lg x (QQ32 b) = inverse_sigmoid32 lg x p0 (lit32 (1 # 10)) (lit32 (fst b)) (lit32 (snd b))) /\
    bound_ok b = true /\ back b = true /\ is_finite p0 = true /\ -1000 < B2R p0 < 15.
Proof.
  unfold row_ok, QQ32. rewrite !andb_true_iff. intros ((((H1 & H2) & H3) & H4) & H5).
  exists (fmul (lit32 (1 # 2)) (fadd (lit32 (fst b)) (lit32 (snd b)))).
  split; [reflexivity|]. split; [reflexivity|]. split; [exact H1|]. split; [exact H2|]. split; [exact H3|].
  apply lt32 in H4; [|exact H3|reflexivity]. apply lt32 in H5; [|reflexivity|exact H3].
  rewrite (proj2 B2R_1000) in H5.
  assert (F : B2R (lit32 15) = 15).
  { rewrite <- SF2R_B2SF.
    replace (B2SF (lit32 15)) with (SpecFloat.S754_finite false 15728640 (-20)) by (vm_compute; reflexivity).
    unfold SF2R, F2R. simpl. lra. }
  rewrite F in H4. lra.
Qed.
Lemma row_in r : In r POP_BOUNDS -> row_ok (snd r) = true.
Proof. intro H. pose proof rows_ok32 as E. rewrite forallb_forall in E. exact (E r H). Qed.

Lemma val_between r : sigmoid_range s -> In r POP_BOUNDS -> number (U (fst r)) ->
  is_finite (val32 r) = true /\
  near32 (Q2R (fst (snd r))) <= B2R (val32 r) <= B2R (top (lit32 (fst (snd r))) (lit32 (snd (snd r)))).
Proof.
  intros Hs Hr Hn. destruct (row_spec _ (row_in r Hr)) as (p0 & E & _ & B & _ & F0 & A0).
  destruct (bound_ok_spec _ B) as (F1 & F2 & E1 & E2 & L & A1 & A2). destruct k_ok as (Fk & K).
  unfold val32. rewrite E, <- E1. apply sigmoid32_between; auto. rewrite K. lra.
Qed.
Lemma val_sat r : sigmoid_saturates s -> In r POP_BOUNDS -> at_least 250 (U (fst r)) ->
  is_finite (val32 r) = true /\ B2R (val32 r) = B2R (top (lit32 (fst (snd r))) (lit32 (snd (snd r)))).
Proof.
  intros Hs Hr Hn. destruct (row_spec _ (row_in r Hr)) as (p0 & E & _ & B & _ & F0 & A0).
  destruct (bound_ok_spec _ B) as (F1 & F2 & E1 & E2 & L & A1 & A2). destruct k_ok as (Fk & K).
  unfold val32. rewrite E. apply sigmoid32_sat with (a := 250) (c := IZR 235); auto; try lra.
  - apply Rabs_le. lra.
  - now apply near32_int.
Qed.
Lemma val_back r : sigmoid_saturates s -> lg (B754_zero false) = B754_infinity true ->
  In r POP_BOUNDS -> at_least 250 (U (fst r)) ->
  get_u_p_from_p32 lg (val32 r) (QQ32 (snd r)) = B754_infinity false.
Proof.
  intros Hs Hl Hr Hn. destruct (val_sat r Hs Hr Hn) as (F & V).
  destruct (row_spec _ (row_in r Hr)) as (p0 & _ & E & B & Bk & F0 & A0).
  destruct (bound_ok_spec _ B) as (F1 & F2 & E1 & E2 & L & A1 & A2). destruct k_ok as (Fk & K).
  destruct (back_spec _ B Bk) as (N & Z & T).
  rewrite E. apply inverse_at_top; auto; rewrite ?V, ?K; auto. lra.
Qed.

Lemma unbounded_by_rows names unames pdict rs (p : nt f32) (P : string * (Q * Q) -> f32) :
  names = map fst rs -> unames = map u_name names ->
  nt_kwargs names pdict = Some (map snd rs) -> (forall r, In r rs -> assoc (fst r) p = Some (P r)) ->
  unbounded_by32 lg names unames pdict p = Some (map (fun r => (u_name (fst r), get_u_p_from_p32 lg (P r) (QQ32 (snd r)))) rs).
Proof.
  intros -> -> Hk Hi. unfold unbounded_by32. rewrite Hk.
  assert (E : ModelUtils.vmap (getattr p) (map fst rs) = Some (map P rs)).
  { unfold ModelUtils.vmap. rewrite map_map.
    apply (sequence_spec (fun r => getattr p (fst r)) P). intros r Hr. rewrite getattr_assoc. now apply Hi. }
  rewrite E, !map_map, map2_rows, nt_make_rows. reflexivity.
Qed.
Lemma unbounded32_rows (p : nt f32) (P : string * (Q * Q) -> f32) :
  (forall r, In r POP_BOUNDS -> assoc (fst r) p = Some (P r)) ->
  get_unbounded_diffstarpop_params32 lg p
  = Some (map (fun r => (u_name (fst r), get_u_p_from_p32 lg (P r) (QQ32 (snd r)))) POP_BOUNDS).
Proof.
  intro H. unfold get_unbounded_diffstarpop_params32.
  rewrite (unbounded_by_rows _ QSEQ_UNAMES _ QROWS p P qseq_names eq_refl q_kwargs) by (intros r Hr; apply H; now apply in_q).
  rewrite (unbounded_by_rows _ SATQ_UNAMES _ SROWS p P satq_names eq_refl s_kwargs) by (intros r Hr; apply H; now apply in_s).
  rewrite !values_rows, <- map_app, <- rows_split. unfold DIFFSTARPOP_UNAMES.
  rewrite pop_names_eq, map_map, nt_make_rows. reflexivity.
Qed.

Lemma rows_assoc {A} (f : string * (Q * Q) -> A) r : In r POP_BOUNDS ->
  assoc (fst r) (map (fun r => (fst r, f r)) POP_BOUNDS) = Some (f r).
Proof. intro H. apply (assoc_map fst f); [exact names_nodup|exact H]. Qed.
Lemma u_rows_assoc {A} (f : string * (Q * Q) -> A) r : In r POP_BOUNDS ->
  assoc ("u_" ++ fst r) (map (fun r => (u_name (fst r), f r)) POP_BOUNDS) = Some (f r).
Proof.
  intro H. apply (assoc_map (fun r => u_name (fst r)) f); [|exact H].
  rewrite <- (map_map fst u_name). apply FinFun.Injective_map_NoDup; [intros a b; apply u_inj|exact names_nodup].
Qed.

Lemma pop_range : sigmoid_range s -> (forall n, In n pop_names -> number (U n)) ->
  exists p, get_bounded_diffstarpop_params32 s fused u = Some p /\ map fst p = pop_names /\
    (forall n lo hi, In (n, (lo, hi)) POP_BOUNDS -> n <> "qphi_lgmu_crit"%string ->
       exists r, assoc n p = Some r /\ inside32 lo hi r) /\
    exists r, assoc "qphi_lgmu_crit" p = Some r /\ is_finite r = true /\ -4 <= B2R r <= B2R (top (lit32 (-4)) (lit32 (-1 # 10))).
Proof.
  intros Hs Hn. exists (map (fun r => (fst r, val32 r)) POP_BOUNDS).
  split; [exact bounded32_rows|]. split; [rewrite map_map; reflexivity|].
  assert (G : forall r, In r POP_BOUNDS -> number (U (fst r))) by (intros r Hr; apply Hn; now apply in_map).
  split.
  - intros n lo hi Hr Hne. exists (val32 (n, (lo, hi))). split; [exact (rows_assoc val32 _ Hr)|].
    destruct (val_between _ Hs Hr (G _ Hr)) as (F & L & T). cbn [fst snd] in *.
    split; [exact F|]. split; [exact L|]. apply Rle_trans with (1 := T).
    pose proof pop_tight as PT. rewrite forallb_forall in PT. specialize (PT _ Hr). cbn [fst snd] in PT.
    apply orb_true_iff in PT. destruct PT as [PT|PT]; [|apply String.eqb_eq in PT; contradiction].
    destruct (row_spec _ (row_in _ Hr)) as (_ & _ & _ & B & _).
    now apply (tight_spec (lo, hi)).
  - assert (Hr : In ("qphi_lgmu_crit"%string, (-4, -1 # 10)%Q) POP_BOUNDS).
    { unfold POP_BOUNDS. repeat (first [left; reflexivity | right]). }
    exists (val32 ("qphi_lgmu_crit"%string, (-4, -1 # 10)%Q)). split; [exact (rows_assoc val32 _ Hr)|].
    destruct (val_between _ Hs Hr (G _ Hr)) as (F & L & T). cbn [fst snd] in *.
    split; [exact F|]. split; [|exact T].
    replace (Q2R (-4)) with (IZR (-4)) in L by (unfold Q2R; simpl; lra). now rewrite near32_int in L by reflexivity.
Qed.

Lemma pop_back : sigmoid_saturates s -> lg (B754_zero false) = B754_infinity true ->
  forall n, In n pop_names -> at_least 250 (U n) ->
  exists p v, get_bounded_diffstarpop_params32 s fused u = Some p /\
    get_unbounded_diffstarpop_params32 lg p = Some v /\ assoc ("u_" ++ n) v = Some (B754_infinity false).
Proof.
  intros Hs Hl n Hn Ha. apply in_map_iff in Hn. destruct Hn as (r & <- & Hr).
  exists (map (fun r => (fst r, val32 r)) POP_BOUNDS). eexists.
  split; [exact bounded32_rows|]. split.
  - apply (unbounded32_rows _ val32). intros r' Hr'. now apply rows_assoc.
  - rewrite (u_rows_assoc (fun r => get_u_p_from_p32 lg (val32 r) (QQ32 (snd r))) r Hr). f_equal.
    now apply val_back.
Qed.
End Pop.

Definition qphi_top : R := - 1677720 / 16777216.
Lemma qphi_top_eq : B2R (top (lit32 (-4)) (lit32 (-1 # 10))) = qphi_top.
Proof.
  rewrite <- SF2R_B2SF.
  replace (B2SF (top (lit32 (-4)) (lit32 (-1 # 10)))) with (SpecFloat.S754_finite true 13421760 (-27))
    by (vm_compute; reflexivity).
  unfold SF2R, F2R, qphi_top. simpl. lra.
Qed.
Lemma near32_qphi : near32 (Q2R (-1 # 10)) = - 13421773 / 134217728.
Proof.
  replace (Q2R (-1 # 10)) with (- (1 / 10)) by (unfold Q2R; simpl; lra). rewrite near32_opp.
  rewrite (near32_eq (1 / 10) 13421773 (-27)); [|lia| |].
  - change (bpow radix2 (-27)) with (/ 134217728). lra.
  - change (bpow radix2 (-27 + 23)) with (/ 16). change (bpow radix2 (-27 + 24)) with (/ 8).
    rewrite Rabs_pos_eq by lra. lra.
  - change (bpow radix2 (- -27)) with 134217728. apply Rabs_def1; lra.
Qed.
