(** Derivatives of the histograms, conditional distributions and mean squared errors. *)
From Coq Require Import Reals Lra Lia.
From Coquelicot Require Import Coquelicot.
From Coq Require Import List Bool ZArith String.
From Verif Require Import XReal XFacts RealFacts ModelUtils ModelKernels ModelSfh ModelPop ModelHist ModelFit ModelGrad ModelPopTables ModelPopGrad
  SpecCore SpecPop SpecHist TriweightProofs SfhProofs PopProofs HistProofs SmhmProofs LossProofs PopLossProofs PopMcProofs PopParamProofs CholeskyProofs PopGradProofs.
Import List ListNotations.
Open Scope R_scope.

Lemma vmap_get {A B} (f : A -> option B) d l : (forall a, In a l -> f a <> None) ->
  vmap f l = Some (map (fun a => match f a with Some v => v | None => d end) l).
Proof. intros H. apply vmap_map_some. intros a Ha. specialize (H a Ha). destruct (f a); [reflexivity|now elim H]. Qed.

Lemma nth_repeat_lt' {A} (x d : A) n i : (i < n)%nat -> nth i (repeat x n) d = x.
Proof. revert i. induction n as [|n IH]; intros [|i] H; try lia; [reflexivity|]. cbn. apply IH. lia. Qed.
Lemma skipn_skipn {A} a : forall b (l : list A), skipn a (skipn b l) = skipn (a + b) l.
Proof. induction b as [|b IH]; intros l; [rewrite Nat.add_0_r; reflexivity|]. rewrite Nat.add_succ_r. destruct l; [rewrite !skipn_nil; reflexivity|]. cbn [skipn]. apply IH. Qed.

Section Hist.
Variable L : (nat -> R) -> R.
Hypothesis L_lin : forall a b f g h, (forall i, h i = a * f i + b * g i) -> L h = a * L f + b * L g.
Variable K : Prop.
Notation trx := (PopGradProofs.trx L K).
Notation trl := (PopGradProofs.trl L K).
Notation trm := (PopGradProofs.trm L K).
Notation dn := (dc NaN).

(** ** Lists related entry by entry *)
Definition trg {T U} (Rel : (R -> T) -> U -> Prop) (t0 : T) (u0 : U) (n : nat) (F : R -> list T) (ps : list U) : Prop :=
  List.length ps = n /\ (forall s, List.length (F s) = n) /\ forall i, (i < n)%nat -> Rel (fun s => nth i (F s) t0) (nth i ps u0).
Definition ext_ok {T U} (Rel : (R -> T) -> U -> Prop) : Prop := forall F G p, (forall s, F s = G s) -> Rel F p -> Rel G p.
Lemma trx_ext_ok : ext_ok trx. Proof. intros F G p H. apply (trx_ext L K F G p H). Qed.
Lemma trl_ext_ok n : ext_ok (trl n). Proof. intros F G p H. apply (trl_ext L K n F G p H). Qed.

Lemma trg_vmap {A B T U} (Rel : (R -> T) -> U -> Prop) (t0 : T) (u0 : U) (f : R -> A -> option T) (df : B -> option U) (l : R -> list A) (dl : list B) a0 b0 n :
  ext_ok Rel -> List.length dl = n -> (forall s, List.length (l s) = n) ->
  (forall i, (i < n)%nat -> exists G dg, (forall s, f s (nth i (l s) a0) = Some (G s)) /\ df (nth i dl b0) = Some dg /\ Rel G dg) ->
  exists Gs ds, (forall s, vmap (f s) (l s) = Some (Gs s)) /\ vmap df dl = Some ds /\ trg Rel t0 u0 n Gs ds.
Proof.
  intros HE Ld Ll H.
  exists (fun s => map (fun a => match f s a with Some v => v | None => t0 end) (l s)), (map (fun b => match df b with Some v => v | None => u0 end) dl).
  split; [|split; [|split; [|split]]].
  - intros s. apply vmap_get. intros a Ha. destruct (In_nth _ _ a0 Ha) as (i & Hi & <-). rewrite Ll in Hi. destruct (H i Hi) as (G & dg & E & _). rewrite E. discriminate.
  - apply vmap_get. intros b Hb. destruct (In_nth _ _ b0 Hb) as (i & Hi & <-). rewrite Ld in Hi. destruct (H i Hi) as (G & dg & _ & E & _). rewrite E. discriminate.
  - rewrite map_length. exact Ld.
  - intros s. rewrite map_length. apply Ll.
  - intros i Hi. destruct (H i Hi) as (G & dg & E1 & E2 & HR). rewrite (nth_map _ dl i b0), E2 by lia.
    apply (HE G); [|exact HR]. intros s. rewrite (nth_map _ (l s) i a0), E1 by (rewrite Ll; exact Hi). reflexivity.
Qed.

(** ** Bin weights *)
Lemma tr_cuml X dx m h : h <> 0 -> trx X dx -> trx (fun s => tw_cuml_lax_kern (X s) (Fin m) (Fin h)) (dtw_cuml_lax_kern dx (Fin m) (Fin h)).
Proof.
  intros Hh HX. unfold dtw_cuml_lax_kern.
  assert (T : trx (fun s => jax_tw ((X s - Fin m) / Fin h)%X) (djax_tw (ddiv (dsub dx (dc (Fin m))) (dc (Fin h))))).
  { apply (trx_tw L L_lin K). apply (trx_div L L_lin K); [cbn; congruence|apply (trx_sub L L_lin K); [exact HX|]|]; apply (trx_c L L_lin K). }
  refine (trx_loc L K _ _ _ _ T). destruct HX as (g & g' & A & _). revert A. apply filter_imp. intros s E. rewrite E.
  rewrite tw_cuml_lax_fin by exact Hh. change (Fin (g s) - Fin m)%X with (Fin (g s - m)). rewrite xdiv_fin, jax_tw_fin by exact Hh. reflexivity.
Qed.
Lemma tr_binw X dx sg lo hi : 0 < sg -> trx X dx ->
  trx (fun s => tw_bin_weight_lax_kern (X s) (Fin sg) (Fin lo) (Fin hi)) (dtw_bin_weight_lax_kern dx (Fin sg) (Fin lo) (Fin hi)).
Proof. intros Hs HX. apply (trx_sub L L_lin K); apply tr_cuml; first [lra|exact HX]. Qed.

Lemma nth_fin' (l : list R) i : (i < List.length l)%nat -> nth i (map Fin l) NaN = Fin (nth i l 0).
Proof. intros H. apply (nth_map Fin l i 0 NaN H). Qed.
Lemma Forall_nth' {A} (P : A -> Prop) l i d : Forall P l -> (i < List.length l)%nat -> P (nth i l d).
Proof. intros H Hi. apply (proj1 (Forall_forall P l) H), nth_In, Hi. Qed.

Lemma tr_binw_vmap d X dX sg lo hi : trl d X dX -> List.length sg = d -> List.length lo = d -> List.length hi = d -> Forall (fun w => 0 < w) sg ->
  exists W dW, (forall s, tw_bin_weight_vmap (X s) (map Fin sg) (map Fin lo) (map Fin hi) = Some (W s)) /\
    dtw_bin_weight_vmap dX (map Fin sg) (map Fin lo) (map Fin hi) = Some dW /\ trl d W dW.
Proof.
  intros (A & B & C) Ls Ll Lh Hs. do 2 eexists. split; [|split].
  - intros s. unfold tw_bin_weight_vmap, same_len, len. rewrite B, !map_length, Ls, Ll, Lh, Nat.eqb_refl. reflexivity.
  - unfold dtw_bin_weight_vmap, same_len, len. rewrite A, !map_length, Ls, Ll, Lh, Nat.eqb_refl. reflexivity.
  - split; [rewrite map_length, !combine_length, !map_length; lia|]. split; [intros s; rewrite map_length, !combine_length, !map_length, B; lia|].
    intros i Hi. rewrite (nth_map _ _ i (dn, NaN, NaN, NaN)) by (rewrite !combine_length, !map_length; lia).
    rewrite !combine_nth by (rewrite ?combine_length, ?map_length; lia). rewrite !nth_fin' by lia.
    apply (trx_ext L K (fun s => tw_bin_weight_lax_kern (nth i (X s) NaN) (Fin (nth i sg 0)) (Fin (nth i lo 0)) (Fin (nth i hi 0)))).
    + intros s. rewrite (nth_map _ _ i (NaN, NaN, NaN, NaN)) by (rewrite !combine_length, !map_length, B; lia).
      rewrite !combine_nth by (rewrite ?combine_length, ?map_length, ?B; lia). rewrite !nth_fin' by lia. reflexivity.
    + apply tr_binw; [|apply C, Hi]. apply (Forall_nth' _ _ _ _ Hs). lia.
Qed.

(** ** Weighted histograms *)
Lemma tr_hist n d D dD (S : list (list R)) Y dY (LO HI : list (list R)) nb : trm n d D dD -> trl n Y dY ->
  List.length S = n -> Forall (fun s => List.length s = d /\ Forall (fun w => 0 < w) s) S ->
  List.length LO = nb -> List.length HI = nb -> Forall (fun l => List.length l = d) LO -> Forall (fun l => List.length l = d) HI ->
  exists H dH, (forall s, tw_ndhist_weighted (D s) (map (map Fin) S) (Y s) (map (map Fin) LO) (map (map Fin) HI) = Some (H s)) /\
    dtw_ndhist_weighted dD (map (map Fin) S) dY (map (map Fin) LO) (map (map Fin) HI) = Some dH /\ trl nb H dH.
Proof.
  intros HD HY LS HS LL LH FL FH. pose proof HD as (A & B & C). pose proof HY as (A' & B' & C').
  unfold tw_ndhist_weighted, dtw_ndhist_weighted, same_len, len. rewrite !map_length, LL, LH, Nat.eqb_refl.
  assert (G := trg_vmap trx NaN dn (fun s b => tw_ndhist_weighted_kern (D s) (map (map Fin) S) (Y s) (fst b) (snd b))
    (fun b => dtw_ndhist_weighted_kern dD (map (map Fin) S) dY (fst b) (snd b)) (fun _ => combine (map (map Fin) LO) (map (map Fin) HI))
    (combine (map (map Fin) LO) (map (map Fin) HI)) ([], []) ([], []) nb trx_ext_ok). apply G.
  1,2: intros; rewrite combine_length, !map_length; lia. clear G.
  intros j Hj. rewrite combine_nth by (rewrite !map_length; lia). cbn [fst snd].
  rewrite !(nth_map (map Fin) _ j []) by lia. pose proof (Forall_nth' _ _ j [] FL ltac:(lia)) as L1. pose proof (Forall_nth' _ _ j [] FH ltac:(lia)) as L2. cbn beta in L1, L2.
  set (lo := nth j LO []) in *. set (hi := nth j HI []) in *. unfold tw_ndhist_weighted_kern, dtw_ndhist_weighted_kern, same_len, len.
  rewrite !map_length, A, A', LS, Nat.eqb_refl.
  destruct (trg_vmap trx NaN dn (fun (_ : R) a => let '(x, s, y) := a in tw_ndhist_weighted_sum_kern x s y (map Fin lo) (map Fin hi))
    (fun a => let '(x, s, y) := a in dtw_ndhist_weighted_sum_kern x s y (map Fin lo) (map Fin hi))
    (fun s => combine (combine (D s) (map (map Fin) S)) (Y s)) (combine (combine dD (map (map Fin) S)) dY) ([], [], NaN) ([], [], dn) n trx_ext_ok) as (Gs & ds & E1 & E2 & T).
  - rewrite !combine_length, map_length; lia.
  - intros s. rewrite !combine_length, map_length, B, B'; lia.
  - intros i Hi. pose proof (Forall_nth' _ _ i [] HS ltac:(lia)) as [L3 P3]. cbn beta in L3, P3.
    destruct (tr_binw_vmap d _ _ _ lo hi (C i Hi) L3 L1 L2 P3) as (W & dW & W1 & W2 & W3).
    exists (fun s => (xprod (W s) * nth i (Y s) NaN)%X), (dmul (dprod dW) (nth i dY dn)). split; [|split].
    + intros s. rewrite !combine_nth by (rewrite ?combine_length, ?map_length, ?B, ?B'; lia). rewrite (nth_map (map Fin) S i []) by lia.
      unfold tw_ndhist_weighted_sum_kern. rewrite W1. reflexivity.
    + rewrite !combine_nth by (rewrite ?combine_length, ?map_length; lia). rewrite (nth_map (map Fin) S i []) by lia.
      unfold dtw_ndhist_weighted_sum_kern. rewrite W2. reflexivity.
    + apply (trx_mul L L_lin K); [apply (trl_prod L L_lin K d W dW W3)|apply C', Hi].
  - exists (fun s => xsum (Gs s)), (dsum ds). split; [|split].
    + intros s. rewrite ?map_length, B, B', ?LS, Nat.eqb_refl. cbn [andb]. rewrite E1. reflexivity.
    + cbn [andb]. rewrite E2. reflexivity.
    + apply (trl_sum L L_lin K n Gs ds T).
Qed.

(** ** Normalised histograms: related wherever some entry is a number *)
Definition cond (n : nat) (F : R -> list xr) (ps : list dual) : Prop :=
  List.length ps = n /\ (forall s, List.length (F s) = n) /\ ((exists j y, (j < n)%nat /\ nth j (F 0) NaN = Fin y) -> trl n F ps).
Lemma cond_ext n : ext_ok (cond n).
Proof.
  intros F G p H (A & B & C). split; [exact A|]. split; [intros s; rewrite <- H; apply B|]. intros (j & y & Hj & E). apply (trl_ext L K n F G p H).
  apply C. exists j, y. rewrite H. auto.
Qed.
Lemma xdiv_zero_not_fin a y : (a / Fin 0)%X <> Fin y.
Proof.
  destruct a as [r| | |]; cbn [xdiv]; try discriminate; try (destruct (Rlt_dec 0 0); discriminate).
  destruct (Req_EM_T 0 0) as [_|N]; [|now elim N]. unfold signed_inf. destruct (Rlt_dec 0 r); [discriminate|]. destruct (Rlt_dec r 0); discriminate.
Qed.
Lemma cond_normalise n F ps : trl n F ps -> cond n (fun s => map (fun w => w / xsum (F s))%X (F s)) (dnormalise ps).
Proof.
  intros H. pose proof (trl_sum L L_lin K n F ps H) as T. pose proof H as (A & B & C).
  split; [unfold dnormalise; rewrite map_length; exact A|]. split; [intros s; rewrite map_length; apply B|].
  intros (j & y & Hj & E). destruct (trx_val _ _ _ _ T) as (t & T1 & T2). apply (trl_normalise L L_lin K n F ps t T2); [|exact H].
  intros ->. rewrite (nth_map _ (F 0) j NaN), T1 in E by (rewrite B; exact Hj). exact (xdiv_zero_not_fin _ _ E).
Qed.

Lemma len_diff (E : list R) : (2 <= List.length E)%nat -> List.length (removelast E) = (List.length E - 1)%nat /\ List.length (tl E) = (List.length E - 1)%nat.
Proof. intros H. destruct E as [|a E]; [cbn in H; lia|]. split; [|cbn; lia]. rewrite removelast_firstn_len, firstn_length. lia. Qed.
Lemma col_map l : col (map Fin l) = map (map Fin) (map (fun x => [x]) l).
Proof. unfold col. rewrite !map_map. reflexivity. Qed.
Lemma removelast_map' {A B} (f : A -> B) l : removelast (map f l) = map f (removelast l).
Proof. induction l as [|a [|b l] IH]; [reflexivity|reflexivity|]. cbn [map removelast] in *. rewrite IH. reflexivity. Qed.
Lemma tl_map' {A B} (f : A -> B) l : tl (map f l) = map f (tl l).
Proof. destruct l; reflexivity. Qed.

Lemma tr_mstar_raw E n X dX W dW : (2 <= List.length E)%nat -> increasing E -> trl n X dX -> trl n W dW ->
  exists H dH, (forall s, compute_diff_histograms_mstar_atmobs_z (map Fin E) (X s) (W s) = Some (map (fun w => w / xsum (H s))%X (H s))) /\
    dcompute_diff_histograms_mstar_atmobs_z (map Fin E) dX dW = Some (dnormalise dH) /\ trl (List.length E - 1) H dH.
Proof.
  intros HE HI HX HW. pose proof HX as (A & B & C). destruct (len_diff E HE) as [L1 L2].
  assert (HD : trm n 1 (fun s => col (X s)) (map (fun x => [x]) dX)).
  { split; [rewrite map_length; exact A|]. split; [intros s; unfold col; rewrite map_length; apply B|]. intros i Hi.
    rewrite (nth_map _ dX i dn) by lia. apply (trl_ext L K 1 (fun s => [nth i (X s) NaN])).
    - intros s. unfold col. rewrite (nth_map _ (X s) i NaN) by (rewrite B; exact Hi). reflexivity.
    - apply trl_cons; [apply C, Hi|apply trl_nil]. }
  destruct (tr_hist n 1 _ _ (map (fun x => [x]) (repeat (mean_bin E) n)) W dW (map (fun x => [x]) (removelast E)) (map (fun x => [x]) (tl E)) (List.length E - 1) HD HW)
    as (H & dH & H1 & H2 & H3).
  - rewrite map_length, repeat_length. reflexivity.
  - apply Forall_forall. intros r Hr. apply in_map_iff in Hr as (x & <- & Hx). apply repeat_spec in Hx. subst x. split; [reflexivity|]. constructor; [|constructor].
    apply mean_bin_pos; assumption.
  - rewrite map_length. exact L1.
  - rewrite map_length. exact L2.
  - apply Forall_forall. intros r Hr. apply in_map_iff in Hr as (x & <- & Hx). reflexivity.
  - apply Forall_forall. intros r Hr. apply in_map_iff in Hr as (x & <- & Hx). reflexivity.
  - exists H, dH. split; [|split; [|exact H3]].
    + intros s. unfold compute_diff_histograms_mstar_atmobs_z, len. cbv zeta. rewrite B, mean_sigma by exact HE. unfold init_, tail_.
      rewrite removelast_map', tl_map', !col_map, H1. reflexivity.
    + unfold dcompute_diff_histograms_mstar_atmobs_z, len. cbv zeta. rewrite A, mean_sigma by exact HE. unfold init_, tail_.
      rewrite removelast_map', tl_map', !col_map, H2. reflexivity.
Qed.

Lemma tr_mstar E n X dX W dW : (2 <= List.length E)%nat -> increasing E -> trl n X dX -> trl n W dW ->
  exists H dH, (forall s, compute_diff_histograms_mstar_atmobs_z (map Fin E) (X s) (W s) = Some (H s)) /\
    dcompute_diff_histograms_mstar_atmobs_z (map Fin E) dX dW = Some dH /\ cond (List.length E - 1) H dH.
Proof.
  intros HE HI HX HW. destruct (tr_mstar_raw E n X dX W dW HE HI HX HW) as (H & dH & A & B & C).
  exists (fun s => map (fun w => w / xsum (H s))%X (H s)), (dnormalise dH). split; [exact A|]. split; [exact B|apply cond_normalise, C].
Qed.

(** ** Joint histograms *)
Lemma tr_ssfr_raw LO HI Em Es n X dX Y dY W dW : (2 <= List.length Em)%nat -> increasing Em -> (2 <= List.length Es)%nat -> increasing Es ->
  cells LO HI -> trl n X dX -> trl n Y dY -> trl n W dW ->
  exists H dH, (forall s, compute_diff_histograms_mstar_ssfr_atz (X s) (Y s) (W s) (map (map Fin) LO) (map (map Fin) HI) (map Fin Em) (map Fin Es) = Some (map (fun w => w / xsum (H s))%X (H s))) /\
    dcompute_diff_histograms_mstar_ssfr_atz dX dY dW (map (map Fin) LO) (map (map Fin) HI) (map Fin Em) (map Fin Es) = Some (dnormalise dH) /\ trl (List.length LO) H dH.
Proof.
  intros HE HI1 HE2 HI2 HC HX HY HW. pose proof HX as (A & B & C). pose proof HY as (A' & B' & C').
  assert (HD : trm n 2 (fun s => map2 (fun x y => [x; y]) (X s) (Y s)) (map2 (fun x y => [x; y]) dX dY)).
  { split; [rewrite map2_length; lia|]. split; [intros s; rewrite map2_length, B, B'; lia|]. intros i Hi.
    rewrite (map2_nth _ dX dY i dn dn) by lia. apply (trl_ext L K 2 (fun s => [nth i (X s) NaN; nth i (Y s) NaN])).
    - intros s. rewrite (map2_nth _ (X s) (Y s) i NaN NaN) by (rewrite ?B, ?B'; exact Hi). reflexivity.
    - apply trl_cons; [apply C, Hi|]. apply trl_cons; [apply C', Hi|apply trl_nil]. }
  assert (LC : List.length LO = List.length HI) by (clear - HC; induction HC; cbn; congruence). set (S := map2 (fun x y => [x; y]) (repeat (mean_bin Em) n) (repeat (mean_bin Es) n)).
  destruct (tr_hist n 2 _ _ S W dW LO HI (List.length LO) HD HW) as (H & dH & H1 & H2 & H3).
  - unfold S. rewrite map2_length, !repeat_length. lia.
  - apply Forall_forall. intros r Hr. destruct (In_nth _ _ [] Hr) as (i & Hi & <-). unfold S in *. rewrite map2_length, !repeat_length in Hi.
    rewrite (map2_nth _ _ _ i 0 0) by (rewrite repeat_length; lia). split; [reflexivity|].
    rewrite !nth_repeat_lt' by lia. constructor; [apply mean_bin_pos; assumption|]. constructor; [apply mean_bin_pos; assumption|constructor].
  - reflexivity.
  - symmetry. exact LC.
  - clear - HC. induction HC as [|? ? ? ? (U & _)]; constructor; assumption.
  - clear - HC. induction HC as [|? ? ? ? (_ & U & _)]; constructor; assumption.
  - exists H, dH. split; [|split; [|exact H3]].
    + intros s. unfold compute_diff_histograms_mstar_ssfr_atz, len. cbv zeta. rewrite B, !mean_sigma, pairs2_fin by (assumption || (rewrite !repeat_length; reflexivity)).
      unfold pairs2, same_len, len. rewrite B, B', Nat.eqb_refl. fold S. rewrite H1. reflexivity.
    + unfold dcompute_diff_histograms_mstar_ssfr_atz, len. cbv zeta. rewrite A, !mean_sigma, pairs2_fin by (assumption || (rewrite !repeat_length; reflexivity)).
      unfold same_len, len. rewrite A, A', Nat.eqb_refl. fold S. rewrite H2. reflexivity.
Qed.

Lemma tr_ssfr LO HI Em Es n X dX Y dY W dW : (2 <= List.length Em)%nat -> increasing Em -> (2 <= List.length Es)%nat -> increasing Es ->
  cells LO HI -> trl n X dX -> trl n Y dY -> trl n W dW ->
  exists H dH, (forall s, compute_diff_histograms_mstar_ssfr_atz (X s) (Y s) (W s) (map (map Fin) LO) (map (map Fin) HI) (map Fin Em) (map Fin Es) = Some (H s)) /\
    dcompute_diff_histograms_mstar_ssfr_atz dX dY dW (map (map Fin) LO) (map (map Fin) HI) (map Fin Em) (map Fin Es) = Some dH /\ cond (List.length LO) H dH.
Proof.
  intros HE HI1 HE2 HI2 HC HX HY HW. destruct (tr_ssfr_raw LO HI Em Es n X dX Y dY W dW HE HI1 HE2 HI2 HC HX HY HW) as (H & dH & A & B & C).
  exists (fun s => map (fun w => w / xsum (H s))%X (H s)), (dnormalise dH). split; [exact A|]. split; [exact B|apply cond_normalise, C].
Qed.

(** ** Matrices *)
Definition condm (a b : nat) (M : R -> list (list xr)) (dM : list (list dual)) : Prop :=
  List.length dM = a /\ (forall s, List.length (M s) = a) /\ Forall (fun r => List.length r = b) dM /\ (forall s, Forall (fun r => List.length r = b) (M s)) /\
  ((exists i j y, (i < a)%nat /\ (j < b)%nat /\ ent (M 0) i j = Fin y) -> trm a b M dM).
Lemma condm_ext a b : ext_ok (condm a b).
Proof.
  intros F G p H (A & B & C & D & E). split; [exact A|]. split; [intros s; rewrite <- H; apply B|]. split; [exact C|]. split; [intros s; rewrite <- H; apply D|].
  intros (i & j & y & Hi & Hj & Y). apply (trm_ext_ L K a b F G p H). apply E. exists i, j, y. rewrite H. auto.
Qed.
Lemma chunks_nth {A} k : forall n i (l : list A), (i < n)%nat -> nth i (chunks n k l) [] = firstn k (skipn (i * k) l).
Proof.
  induction n as [|n IH]; intros i l Hi; [lia|]. destruct i as [|i]; [reflexivity|]. cbn [chunks nth]. rewrite IH by lia.
  f_equal. rewrite skipn_skipn. f_equal. lia.
Qed.
Lemma chunks_len {A} k : forall n (l : list A), List.length (chunks n k l) = n.
Proof. induction n as [|n IH]; intros l; [reflexivity|]. cbn [chunks List.length]. rewrite IH. reflexivity. Qed.
Lemma cond_reshape a b F ps : cond (a * b) F ps -> condm a b (fun s => chunks a b (F s)) (chunks a b ps).
Proof.
  intros (A & B & C). split; [apply chunks_len|]. split; [intros s; apply chunks_len|].
  assert (Q : forall {T} (l : list T), List.length l = (a * b)%nat -> Forall (fun r => List.length r = b) (chunks a b l)).
  { intros T l Hl. apply Forall_forall. intros r Hr. destruct (In_nth _ _ [] Hr) as (i & Hi & <-). rewrite chunks_len in Hi. rewrite chunks_nth by exact Hi.
    rewrite firstn_length, skipn_length, Hl. assert ((i + 1) * b <= a * b)%nat by (apply Nat.mul_le_mono_r; lia). lia. }
  split; [apply Q, A|]. split; [intros s; apply Q, B|].
  intros (i & j & y & Hi & Hj & E).
  assert (IJ : (i * b + j < a * b)%nat) by (assert ((i + 1) * b <= a * b)%nat by (apply Nat.mul_le_mono_r; lia); lia).
  assert (T : trl (a * b) F ps).
  { apply C. exists (i * b + j)%nat, y. split; [exact IJ|]. unfold ent, at_ in E. rewrite chunks_nth in E by exact Hi.
    rewrite nth_firstn', nth_skipn' in E by exact Hj. exact E. }
  split; [apply chunks_len|]. split; [intros s; apply chunks_len|]. intros i' Hi'. rewrite chunks_nth by exact Hi'.
  apply (trl_ext L K b (fun s => firstn b (skipn (i' * b) (F s)))); [intros s; rewrite chunks_nth by exact Hi'; reflexivity|].
  apply (trl_firstn L K b (a * b - i' * b)); [assert ((i' + 1) * b <= a * b)%nat by (apply Nat.mul_le_mono_r; lia); lia|]. apply (trl_skipn L K). exact T.
Qed.
Lemma trm_concat a b : forall M dM, trm a b M dM -> trl (a * b) (fun s => List.concat (M s)) (List.concat dM).
Proof.
  induction a as [|a IH]; intros M dM (A & B & C).
  - destruct dM; [|discriminate]. apply (trl_ext L K 0 (fun _ => [])); [|apply trl_nil]. intros s. specialize (B s). destruct (M s); [reflexivity|discriminate].
  - destruct dM as [|r dM]; [discriminate|]. cbn [List.concat]. apply (trl_ext L K _ (fun s => nth 0 (M s) [] ++ List.concat (tl (M s)))).
    + intros s. specialize (B s). destruct (M s); [discriminate|reflexivity].
    + apply (trl_app L K b (a * b)); [apply (C 0%nat); lia|]. apply IH. split; [cbn in A; lia|]. split; [intros s; specialize (B s); destruct (M s); cbn in *; lia|].
      intros i Hi. specialize (C (Datatypes.S i) ltac:(lia)). cbn [nth] in C. refine (trl_ext L K _ _ _ _ _ C). intros s. cbn beta. specialize (B s). destruct (M s); [discriminate|reflexivity].
Qed.

(** ** Finite sums have finite terms *)
Lemma xadd_fin_inv a b y : (a + b)%X = Fin y -> exists u v, a = Fin u /\ b = Fin v.
Proof. destruct a, b; cbn; try discriminate. eauto. Qed.
Lemma xsum_fin_inv l : forall y i, xsum l = Fin y -> (i < List.length l)%nat -> exists u, nth i l NaN = Fin u.
Proof.
  induction l as [|a l IH]; intros y i E Hi; [cbn in Hi; lia|]. change (xsum (a :: l)) with (a + xsum l)%X in E.
  apply xadd_fin_inv in E as (u & v & E1 & E2). destruct i as [|i]; [exists u; exact E1|]. cbn [nth]. apply (IH v i E2). cbn in Hi. lia.
Qed.
Lemma xdiv_fin_inv a b y : (a / b)%X = Fin y -> exists u, a = Fin u.
Proof. destruct a as [r| | |], b as [q| | |]; cbn; try discriminate; eauto; destruct (Rlt_dec q 0); discriminate. Qed.
Lemma xsub_fin_inv a b y : (a - Fin b)%X = Fin y -> exists u, a = Fin u.
Proof. destruct a; cbn; try discriminate; eauto. Qed.
Lemma signed_not_fin a y : signed_inf a <> Fin y.
Proof. unfold signed_inf. destruct (Rlt_dec 0 a); [discriminate|]. destruct (Rlt_dec a 0); discriminate. Qed.
Lemma xmul_fin_inv a b y : (a * b)%X = Fin y -> exists u v, a = Fin u /\ b = Fin v.
Proof. destruct a, b; cbn [xmul]; intros H; try discriminate H; try (elim (signed_not_fin _ _ H)). eauto. Qed.
Lemma xsq_fin_inv a y : (a ^ 2)%X = Fin y -> exists u, a = Fin u.
Proof. cbn [xpown]. intros H. apply xmul_fin_inv in H as (u & v & E & _). eauto. Qed.
Lemma mse_fin_inv p t v : mse p (map Fin t) = Some (Fin v) -> List.length p = List.length t /\ p <> [] /\ forall i, (i < List.length p)%nat -> exists u, nth i p NaN = Fin u.
Proof.
  unfold mse, same_len, len. rewrite map_length. destruct (Nat.eqb (List.length p) (List.length t)) eqn:EL; [|discriminate]. apply Nat.eqb_eq in EL.
  cbv zeta. intros H. apply Some_inj in H. split; [exact EL|]. split.
  - intros ->. exact (xdiv_zero_not_fin (Fin 0) v H).
  - intros i Hi. unfold xmean in H. apply xdiv_fin_inv in H as (u & H).
    destruct (xsum_fin_inv _ _ i H) as (w & Hw); [rewrite map_length, map2_length, map_length; lia|].
    rewrite (nth_map _ _ i NaN) in Hw by (rewrite map2_length, map_length; lia). apply xsq_fin_inv in Hw as (w' & Hw).
    rewrite (map2_nth xsub _ _ i NaN NaN), nth_fin' in Hw by (rewrite ?map_length; lia). apply xsub_fin_inv in Hw. exact Hw.
Qed.

(** ** Mean squared errors *)
Lemma tr_mse n P dP t : n <> 0%nat -> trl n P dP -> List.length t = n ->
  exists l dl, (forall s, mse (P s) (map Fin t) = Some (l s)) /\ dmse dP (map Fin t) = Some dl /\ trx l dl.
Proof.
  intros Hn HP Lt. pose proof HP as (A & B & C). do 2 eexists. split; [|split].
  - intros s. unfold mse, same_len, len. rewrite B, map_length, Lt, Nat.eqb_refl. reflexivity.
  - unfold dmse, same_len, len. rewrite A, map_length, Lt, Nat.eqb_refl. reflexivity.
  - apply (trl_mean L L_lin K n (fun s => map (fun d => d ^ 2)%X (map2 xsub (P s) (map Fin t)))); [exact Hn|]. apply (trl_map L K).
    + apply (trl_map2c L K); [exact HP|rewrite map_length; exact Lt|]. intros i Hi T. rewrite nth_fin' by lia. apply (trx_sub L L_lin K); [exact T|apply (trx_c L L_lin K)].
    + intros i Hi T. apply (trx_pown L L_lin K). exact T.
Qed.
Lemma shape_rep {A} (l : list (list A)) a b : List.length l = a -> Forall (fun r => List.length r = b) l -> shape2 l = repeat b a.
Proof. intros <- H. unfold shape2. induction H as [|r l Hr _ IH]; [reflexivity|]. cbn [map List.length repeat]. unfold len at 1. rewrite Hr, IH. reflexivity. Qed.
Lemma trm_shape a b M dM : trm a b M dM -> Forall (fun r => List.length r = b) dM /\ forall s, Forall (fun r => List.length r = b) (M s).
Proof.
  intros (A & B & C). split; [|intros s]; apply Forall_forall; intros r Hr; destruct (In_nth _ _ [] Hr) as (i & Hi & <-).
  - apply (C i). lia.
  - apply (C i). rewrite B in Hi. exact Hi.
Qed.
Lemma tr_mse2 a b M dM T : (a * b <> 0)%nat -> trm a b M dM -> mse2 (M 0) (map (map Fin) T) <> None ->
  exists l dl, (forall s, mse2 (M s) (map (map Fin) T) = Some (l s)) /\ dmse2 dM (map (map Fin) T) = Some dl /\ trx l dl.
Proof.
  intros Hn HM HS. pose proof HM as (A & B & _). pose proof (trm_shape _ _ _ _ HM) as (FA & FB). pose proof (trm_concat _ _ _ _ HM) as HC.
  unfold mse2 in HS. destruct (forallb _ _ && same_len (M 0) (map (map Fin) T)) eqn:ES; [|now elim HS].
  rewrite (shape_rep (M 0) a b (B 0) (FB 0)) in ES. unfold same_len, len in ES. rewrite (B 0) in ES.
  rewrite concat_fin in HS.
  assert (LT : List.length (List.concat T) = (a * b)%nat).
  { unfold mse, same_len, len in HS. rewrite map_length in HS. rewrite (proj1 (proj2 HC) 0) in HS. destruct (Nat.eqb_spec (a * b) (List.length (List.concat T))); [congruence|now elim HS]. }
  destruct (tr_mse _ _ _ (List.concat T) Hn HC LT) as (l & dl & E1 & E2 & E3). exists l, dl. split; [|split; [|exact E3]].
  - intros s. unfold mse2, same_len, len. rewrite (shape_rep (M s) a b (B s) (FB s)), (B s), ES, concat_fin. apply E1.
  - unfold dmse2, same_len, len. rewrite (shape_rep dM a b A FA), A, ES, concat_fin. exact E2.
Qed.
End Hist.
