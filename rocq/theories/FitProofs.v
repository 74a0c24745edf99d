(** Proofs about the fit targets, weights and loss. *)
From Coq Require Import Reals List Lra Lia Bool ZArith.
From Verif Require Import XReal ModelUtils ModelKernels ModelSfh ModelPop ModelHist ModelFit RealFacts XFacts SpecCore SpecHist SpecFit
  SigmoidProofs IntegralProofs SfhProofs DtProofs PopProofs FstarProofs HistProofs SmhmProofs LossProofs PopLossProofs.
Import List ListNotations.
Open Scope R_scope.

(** ** NumPy reductions *)
Lemma xmax_fin a b : xmax (Fin a) (Fin b) = Fin (Rmax a b).
Proof. unfold xmax; simpl. unfold Rltb, Rmax. destruct (Rlt_dec a b), (Rle_dec a b); try reflexivity; f_equal; lra. Qed.
Lemma xmin_fin a b : xmin (Fin a) (Fin b) = Fin (Rmin a b).
Proof. unfold xmin; simpl. unfold Rltb, Rmin. destruct (Rlt_dec b a), (Rle_dec a b); try reflexivity; f_equal; lra. Qed.
Lemma clip_fin x lo hi : np_clip (Fin x) (Fin lo) (Fin hi) = Fin (clampR lo hi x).
Proof. unfold np_clip. rewrite xmax_fin, xmin_fin. reflexivity. Qed.
Lemma clip_lo_fin x lo : np_clip (Fin x) (Fin lo) PInf = Fin (Rmax x lo).
Proof. unfold np_clip. rewrite xmax_fin. reflexivity. Qed.
Lemma clamp_range lo hi x : lo <= hi -> lo <= clampR lo hi x <= hi.
Proof. intros H. unfold clampR, Rmin, Rmax. destruct (Rle_dec x lo); destruct (Rle_dec _ hi); lra. Qed.

Lemma fold_max_fin l : forall a, exists m, fold_left xmax (map Fin l) (Fin a) = Fin m /\ In m (a :: l) /\
  forall x, In x (a :: l) -> x <= m.
Proof.
  induction l as [|b l IH]; intros a; cbn [map fold_left].
  - exists a. split; [reflexivity|]. split; [left; reflexivity|]. intros x [->|[]]; lra.
  - rewrite xmax_fin. destruct (IH (Rmax a b)) as (m & Hm & Hin & Hle). exists m. split; [exact Hm|]. split.
    + destruct Hin as [Hin|Hin]; [|right; right; exact Hin].
      rewrite <- Hin. unfold Rmax. destruct (Rle_dec a b); [right; left|left]; reflexivity.
    + intros x [->|[->|Hx]].
      * eapply Rle_trans; [apply (Rmax_l x b)|]. apply Hle. left; reflexivity.
      * eapply Rle_trans; [apply (Rmax_r a x)|]. apply Hle. left; reflexivity.
      * apply Hle. right; exact Hx.
Qed.
Lemma np_max_fin l : l <> [] -> exists m, np_max (map Fin l) = Some (Fin m) /\ In m l /\ forall x, In x l -> x <= m.
Proof.
  destruct l as [|a l]; [congruence|]. intros _. destruct (fold_max_fin l a) as (m & Hm & H1 & H2).
  exists m. split; [cbn; rewrite Hm; reflexivity|]. auto.
Qed.

Lemma argmax_loop l : forall pre best v, (best < length pre)%nat -> nth best pre 0 = v ->
  (forall i, (i < length pre)%nat -> nth i pre 0 <= v) -> (forall i, (i < best)%nat -> nth i pre 0 < v) ->
  first_max (pre ++ l) (argbest xgt best (Fin v) (length pre) (map Fin l)).
Proof.
  induction l as [|a l IH]; intros pre best v Hb Hv Hle Hlt; cbn [argbest map].
  - rewrite app_nil_r. split; [exact Hb|]. rewrite Hv. auto.
  - assert (Hn : forall i, (i < length (pre ++ [a]))%nat -> nth i (pre ++ [a]) 0 = a /\ i = length pre \/ (i < length pre)%nat /\ nth i (pre ++ [a]) 0 = nth i pre 0).
    { intros i Hi. rewrite app_length in Hi; simpl in Hi. destruct (Nat.eq_dec i (length pre)) as [->|Hne].
      - left. rewrite app_nth2, Nat.sub_diag by lia. auto.
      - right. split; [lia|]. apply app_nth1. lia. }
    replace (pre ++ a :: l) with ((pre ++ [a]) ++ l) by (rewrite <- app_assoc; reflexivity).
    replace (S (length pre)) with (length (pre ++ [a])) by (rewrite app_length; simpl; lia).
    cbn [isnan negb andb orb]. unfold xgt. destruct (xlt (Fin v) (Fin a)) eqn:E.
    + apply xlt_fin in E. apply IH.
      * rewrite app_length; simpl; lia.
      * rewrite app_nth2, Nat.sub_diag by lia. reflexivity.
      * intros i Hi. destruct (Hn i Hi) as [[-> _]|[Hi' ->]]; [lra|]. specialize (Hle i Hi'). lra.
      * intros i Hi. rewrite app_nth1 by lia. specialize (Hle i Hi). lra.
    + apply xlt_fin_false in E. apply IH.
      * rewrite app_length; simpl; lia.
      * rewrite app_nth1 by exact Hb. exact Hv.
      * intros i Hi. destruct (Hn i Hi) as [[-> _]|[Hi' ->]]; [lra|]. apply Hle, Hi'.
      * intros i Hi. rewrite app_nth1 by lia. apply Hlt, Hi.
Qed.
Lemma np_argmax_fin l : l <> [] -> exists k, np_argmax (map Fin l) = Some k /\ first_max l k.
Proof.
  destruct l as [|a l]; [congruence|]. intros _. eexists. split; [reflexivity|].
  apply (argmax_loop l [a] 0%nat a); simpl; try lia; try reflexivity.
  - intros [|i] H; [lra|lia].
Qed.
Lemma first_max_max l k m : first_max l k -> In m l -> (forall x, In x l -> x <= m) -> m = nth k l 0.
Proof.
  intros (Hk & Hle & _) Hin Hm. apply Rle_antisym.
  - apply In_nth with (d := 0) in Hin. destruct Hin as (i & Hi & <-). apply Hle, Hi.
  - apply Hm, nth_In, Hk.
Qed.
Lemma list_Rmax_max l m : In m l -> (forall x, In x l -> x <= m) -> 0 <= m -> list_Rmax 0 l = m.
Proof.
  intros Hin Hle H0. apply Rle_antisym; [|apply Rmax_list_ge, Hin].
  clear Hin. induction l as [|a l IH]; simpl; [exact H0|]. apply Rmax_lub.
  - apply Hle. left; reflexivity.
  - apply IH. intros x Hx. apply Hle. right; exact Hx.
Qed.

(** ** Weights *)
Lemma set_where_map {A} (P : A -> bool) v l arr : length arr = length l -> forall i d, (i < length l)%nat ->
  nth i (set_where (map P l) v arr) NaN = if P (nth i l d) then v else nth i arr NaN.
Proof.
  intros Hl i d Hi. unfold set_where. rewrite (map2_nth _ _ _ _ false NaN) by (rewrite ?map_length; lia).
  rewrite (nth_map P l i d) by exact Hi. reflexivity.
Qed.
Lemma set_where_length m v arr : length m = length arr -> length (set_where m v arr) = length arr.
Proof. intros H. unfold set_where. rewrite map2_length, H. apply Nat.min_id. Qed.

Definition cutb (dlogm tmin mmin final s t : R) : bool :=
  (Rltb (final - dlogm) s && Rltb (Rmin (final - 1 / 2) mmin) s) && Rleb tmin t.
Lemma cutb_spec dlogm tmin mmin final s t : if cutb dlogm tmin mmin final s t then in_cut dlogm tmin mmin final s t else ~ in_cut dlogm tmin mmin final s t.
Proof.
  unfold cutb, in_cut, Rltb, Rleb. destruct (Rlt_dec _ s); simpl; [|tauto]. destruct (Rlt_dec _ s); simpl; [|tauto].
  destruct (Rle_dec tmin t); simpl; tauto.
Qed.
Lemma xge_fin t tmin : xge (Fin t) (Fin tmin) = Rleb tmin t.
Proof.
  unfold xge, Rleb. destruct (Rle_dec tmin t); [apply xle_fin_true; assumption|apply xle_fin_false; lra].
Qed.
Lemma pymin_fin a b : (if xlt (Fin b) (Fin a) then Fin b else Fin a) = Fin (Rmin a b).
Proof. simpl. unfold Rltb, Rmin. destruct (Rlt_dec b a), (Rle_dec a b); try reflexivity; f_equal; lra. Qed.

Definition mw (dlogm tmin mmin final s t : R) : R :=
  if Rltb (final - s) (1 / 10) then 1 / 2 else if cutb dlogm tmin mmin final s t then 1 else 10 ^ 10.
Definition fw (tau dlogm tmin mmin final s fmax f t : R) : R :=
  if Rltb t (tau + 1 / 100) then 10 ^ 10 else
  if Rltb (fmax - f) (1 / 10) then 1 / 2 else if cutb dlogm tmin mmin final s t then 1 else 10 ^ 10.
Lemma mw_ok dlogm tmin mmin final s t : mass_weight_ok dlogm tmin mmin final s t (mw dlogm tmin mmin final s t).
Proof.
  unfold mass_weight_ok, mw, Rltb. destruct (Rlt_dec (final - s) (1 / 10)); [left; auto|right].
  pose proof (cutb_spec dlogm tmin mmin final s t) as H. destruct (cutb _ _ _ _ _ _); [left|right]; repeat split; auto; try lra; apply H.
Qed.
Lemma fw_ok tau dlogm tmin mmin final s fmax f t :
  fstar_weight_ok tau dlogm tmin mmin final s fmax f t (fw tau dlogm tmin mmin final s fmax f t).
Proof.
  unfold fstar_weight_ok, fw, Rltb. destruct (Rlt_dec t _); [left; auto|right].
  destruct (Rlt_dec (fmax - f) (1 / 10)); [left; repeat split; auto; lra|right].
  pose proof (cutb_spec dlogm tmin mmin final s t) as H. destruct (cutb _ _ _ _ _ _); [left|right]; repeat split; auto; try lra; apply H.
Qed.

Lemma list_eq_nthX (l : list xr) (m : list R) : length l = length m ->
  (forall i, (i < length m)%nat -> nth i l NaN = Fin (nth i m 0)) -> l = map Fin m.
Proof.
  intros Hl H. apply (list_eq_nth _ _ NaN); [rewrite map_length; exact Hl|].
  intros i Hi. rewrite H by lia. symmetry. apply nth_Fin. lia.
Qed.

Lemma weights_fin ts ls lf tau dlogm tmin mmin fmax : ts <> [] -> length ls = length ts -> length lf = length ts ->
  np_max (map Fin lf) = Some (Fin fmax) ->
  get_weights (map Fin ts) (map Fin ls) (map Fin lf) (Fin tau) (Fin dlogm) (Fin tmin) (Fin mmin)
  = Some (map Fin (map (fun i => mw dlogm tmin mmin (last ls 0) (nth i ls 0) (nth i ts 0)) (seq 0 (length ts))),
          map Fin (map (fun i => fw tau dlogm tmin mmin (last ls 0) (nth i ls 0) fmax (nth i lf 0) (nth i ts 0)) (seq 0 (length ts)))).
Proof.
  intros Hne Hls Hlf Hmax. unfold get_weights. rewrite Hmax.
  assert (Hls0 : ls <> []) by (destruct ls, ts; try discriminate; congruence).
  rewrite last_fin by exact Hls0.
  replace (match map Fin ls with [] => None | _ :: _ => _ end) with
    (let final := Fin (last ls 0) in
     let a := (final - Fin (1 / 2))%X in
     let mass_fit_min := if xlt (Fin mmin) a then Fin mmin else a in
     if same_len (map Fin ts) (map Fin ls) && same_len (map Fin ts) (map Fin lf) then
      let mask := map (fun s => xgt s (final - Fin dlogm)%X) (map Fin ls) in
      let mask := map2 andb mask (map (fun s => xgt s mass_fit_min) (map Fin ls)) in
      let mask := map2 andb mask (map (fun t => xge t (Fin tmin)) (map Fin ts)) in
      let weight := map (fun _ => Fin 1) (map Fin ts) in
      let weight := set_where (map negb mask) (Fin (10 ^ 10)) weight in
      let weight := set_where (map (fun s => xlt (final - s)%X (Fin (1 / 10))) (map Fin ls)) (Fin (1 / 2)) weight in
        let wf := map (fun _ => Fin 1) (map Fin ts) in
        let wf := set_where (map negb mask) (Fin (10 ^ 10)) wf in
        let wf := set_where (map (fun s => xlt (Fin fmax - s)%X (Fin (1 / 10))) (map Fin lf)) (Fin (1 / 2)) wf in
        let wf := set_where (map (fun w => xeq w (Fin (-10))) wf) (Fin (10 ^ 10)) wf in
        let wf := set_where (map (fun t => xlt t (Fin tau + Fin (1 / 100))%X) (map Fin ts)) (Fin (10 ^ 10)) wf in
        Some (weight, wf) else None) by (destruct ls; [congruence|reflexivity]).
  cbv zeta. unfold same_len, len. rewrite !map_length, Hls, Hlf, Nat.eqb_refl. cbn [andb].
  change (Fin (last ls 0) - Fin (1 / 2))%X with (Fin (last ls 0 - 1 / 2)). rewrite pymin_fin.
  set (mask := map2 andb _ _).
  assert (Hml : length mask = length ts).
  { unfold mask. rewrite !map2_length, !map_length. lia. }
  assert (Hmask : forall i, (i < length ts)%nat -> nth i mask false = cutb dlogm tmin mmin (last ls 0) (nth i ls 0) (nth i ts 0)).
  { intros i Hi. unfold mask. rewrite (map2_nth _ _ _ _ false false) by (rewrite ?map2_length, !map_length; lia).
    rewrite (map2_nth _ _ _ _ false false) by (rewrite !map_length; lia).
    rewrite !map_map.
    rewrite (nth_map (fun x => xgt (Fin x) _) ls i 0) by lia. rewrite (nth_map (fun x => xgt (Fin x) _) ls i 0) by lia.
    rewrite (nth_map (fun x => xge (Fin x) _) ts i 0) by lia. rewrite xge_fin. reflexivity. }
  assert (Hw0 : forall i, (i < length ts)%nat -> nth i (set_where (map negb mask) (Fin (10 ^ 10)) (map (fun _ : xr => Fin 1) (map Fin ts))) NaN
     = Fin (if cutb dlogm tmin mmin (last ls 0) (nth i ls 0) (nth i ts 0) then 1 else 10 ^ 10)).
  { intros i Hi. rewrite (set_where_map negb) with (d := false) by (rewrite ?map_length; lia).
    rewrite Hmask by exact Hi. destruct (cutb _ _ _ _ _ _); simpl negb; cbv iota; [|reflexivity].
    rewrite map_map. rewrite (nth_map (fun _ => Fin 1) ts i 0) by exact Hi. reflexivity. }
  set (w0 := set_where (map negb mask) _ _) in *.
  assert (Hw0l : length w0 = length ts).
  { unfold w0. rewrite set_where_length; rewrite !map_length; lia. }
  f_equal. f_equal.
  - apply list_eq_nthX; [rewrite set_where_length; rewrite ?map_length, ?seq_length; lia|].
    rewrite map_length, seq_length. intros i Hi. rewrite nth_map_seq by exact Hi.
    rewrite map_map. rewrite set_where_map with (d := 0) by lia. rewrite Hw0 by exact Hi.
    change (xlt (Fin (last ls 0) - Fin (nth i ls 0)) (Fin (1 / 10)))%X with (Rltb (last ls 0 - nth i ls 0) (1 / 10)).
    unfold mw. destruct (Rltb _ (1 / 10)); reflexivity.
  - set (w1 := set_where (map (fun s => xlt (Fin fmax - s) (Fin (1 / 10)))%X (map Fin lf)) _ _).
    assert (Hw1 : forall i, (i < length ts)%nat -> nth i w1 NaN = Fin (if Rltb (fmax - nth i lf 0) (1 / 10) then 1 / 2 else if cutb dlogm tmin mmin (last ls 0) (nth i ls 0) (nth i ts 0) then 1 else 10 ^ 10)).
    { intros i Hi. unfold w1. rewrite map_map. rewrite set_where_map with (d := 0) by lia. rewrite Hw0 by exact Hi.
      change (xlt (Fin fmax - Fin (nth i lf 0)) (Fin (1 / 10)))%X with (Rltb (fmax - nth i lf 0) (1 / 10)).
      destruct (Rltb _ (1 / 10)); reflexivity. }
    assert (Hw1l : length w1 = length ts).
    { unfold w1. rewrite set_where_length; rewrite ?map_length; lia. }
    assert (Hw2 : forall i, (i < length ts)%nat -> nth i (set_where (map (fun w => xeq w (Fin (-10))) w1) (Fin (10 ^ 10)) w1) NaN = nth i w1 NaN).
    { intros i Hi. rewrite set_where_map with (d := NaN) by lia. rewrite Hw1 by exact Hi.
      destruct (Rltb _ _); [|destruct (cutb _ _ _ _ _ _)]; cbn [xeq]; rewrite Reqb_false by lra; reflexivity. }
    set (w2 := set_where (map (fun w => xeq w (Fin (-10))) w1) _ _) in *.
    assert (Hw2l : length w2 = length ts).
    { unfold w2. rewrite set_where_length; rewrite ?map_length; lia. }
    apply list_eq_nthX; [rewrite set_where_length; rewrite ?map_length, ?seq_length; lia|].
    rewrite map_length, seq_length. intros i Hi. rewrite nth_map_seq by exact Hi.
    rewrite map_map. rewrite set_where_map with (d := 0) by lia. rewrite Hw2, Hw1 by exact Hi.
    change (xlt (Fin (nth i ts 0)) (Fin tau + Fin (1 / 100)))%X with (Rltb (nth i ts 0) (tau + 1 / 100)).
    unfold fw. destruct (Rltb (nth i ts 0) _); reflexivity.
Qed.

Lemma weights_spec ts ls lf tau dlogm tmin mmin : ts <> [] -> length ls = length ts -> length lf = length ts ->
  exists w wf, get_weights (map Fin ts) (map Fin ls) (map Fin lf) (Fin tau) (Fin dlogm) (Fin tmin) (Fin mmin)
    = Some (map Fin w, map Fin wf) /\ weights_ok tau dlogm tmin mmin ts ls lf w wf.
Proof.
  intros Hne Hls Hlf. assert (Hlf0 : lf <> []) by (destruct lf, ts; try discriminate; congruence).
  destruct (np_max_fin lf Hlf0) as (fmax & Hmax & Hin & Hle).
  rewrite (weights_fin ts ls lf tau dlogm tmin mmin fmax Hne Hls Hlf Hmax). eexists; eexists; split; [reflexivity|].
  unfold weights_ok. rewrite !map_length, !seq_length. split; [reflexivity|]. split; [reflexivity|].
  intros i Hi. rewrite !nth_map_seq by exact Hi. split; [apply mw_ok|]. intros k Hk.
  rewrite (first_max_max _ _ _ Hk Hin Hle). apply fw_ok.
Qed.
Lemma weights_pos tau dlogm tmin mmin ts ls lf w wf : lf <> [] -> weights_ok tau dlogm tmin mmin ts ls lf w wf ->
  Forall (fun x => 0 < x) w /\ Forall (fun x => 0 < x) wf.
Proof.
  intros Hlf (Hw & Hwf & H). destruct (np_argmax_fin lf Hlf) as (k & _ & Hk).
  split.
  - apply (F_of_nth _ _ (length ts) Hw). intros i Hi. destruct (H i Hi) as [[[_ ->]|[(_ & _ & ->)|(_ & _ & ->)]] _]; lra.
  - apply (F_of_nth _ _ (length ts) Hwf). intros i Hi. destruct (H i Hi) as [_ Hf]. specialize (Hf k Hk).
    destruct Hf as [[_ ->]|[(_ & _ & ->)|[(_ & _ & _ & ->)|(_ & _ & _ & ->)]]]; lra.
Qed.

(** ** Targets *)
Lemma cumR_pos (l : list (R * R)) : forall a fa c, increasing (a :: map fst l) -> 0 <= fa -> 0 <= c -> 0 < c \/ 0 < fa ->
  Forall (fun p => 0 <= snd p) l -> Forall (fun x => 0 < x) (cumR a fa c l).
Proof.
  induction l as [|[b fb] l IH]; intros a fa c Hi Hfa Hc Hor HF; simpl; [constructor|].
  simpl in Hi. destruct Hi as [Hab Hi]. inversion HF as [|? ? Hfb HF']; subst; simpl in Hfb.
  assert (0 < c + (b - a) * (fb + fa) / 2).
  { destruct Hor; [|].
    - assert (0 <= (b - a) * (fb + fa)) by (apply Rmult_le_pos; lra). lra.
    - assert (0 < (b - a) * (fb + fa)) by (apply Rmult_lt_0_compat; lra). lra. }
  constructor; [assumption|]. apply IH; auto; lra.
Qed.
Lemma massR_pos ts ss : length ts = length ss -> increasing (1 / 1000 :: ts) -> Forall (fun s => 0 <= s) ss ->
  Forall (fun m => 0 < m) (massR ts ss).
Proof.
  intros Hl Hi Hs. unfold massR. rewrite Forall_map.
  assert (H : Forall (fun x => 0 < x) (cumR T_BIRTH_MIN_R SFR_MIN_R 0 (combine ts ss))).
  { apply cumR_pos.
    - rewrite map_fst_combine by exact Hl. exact Hi.
    - unfold SFR_MIN_R. lra.
    - lra.
    - right. unfold SFR_MIN_R. lra.
    - apply Forall_snd_combine, Hs. }
  eapply Forall_impl; [|exact H]. intros a Ha. cbn beta. apply Rmult_lt_0_compat; [exact Ha|lra].
Qed.

Lemma map_fin_ext {A} (g : A -> xr) (h : A -> R) l : (forall a, In a l -> g a = Fin (h a)) -> map g l = map Fin (map h l).
Proof. intros H. rewrite map_map. apply map_ext_in. exact H. Qed.
Lemma map2_fin_in (g : xr -> xr -> xr) (h : R -> R -> R) l : forall m, Forall (fun b => forall a, g (Fin a) (Fin b) = Fin (h a b)) m ->
  map2 g (map Fin l) (map Fin m) = map Fin (map2 h l m).
Proof.
  induction l as [|a l IH]; intros [|b m] H; simpl; auto. inversion H; subst. rewrite IH by assumption. rewrite H2. reflexivity.
Qed.
Lemma map2_xdiv_fin l m : Forall (fun b => 0 < b) m -> map2 xdiv (map Fin l) (map Fin m) = map Fin (map2 Rdiv l m).
Proof.
  intros H. apply map2_fin_in. eapply Forall_impl; [|exact H]. intros b Hb a. apply xdiv_fin. cbn beta in Hb. lra.
Qed.
Lemma map2_map_l {A B C D} (g : A -> B) (h : B -> C -> D) l : forall m, map2 h (map g l) m = map2 (fun a c => h (g a) c) l m.
Proof. induction l as [|a l IH]; intros [|c m]; simpl; auto. rewrite IH. reflexivity. Qed.
Lemma map2_map_r {A B C D} (g : A -> B) (h : C -> B -> D) l : forall m, map2 h l (map g m) = map2 (fun c a => h c (g a)) l m.
Proof. induction l as [|a l IH]; intros [|c m]; simpl; auto. rewrite IH. reflexivity. Qed.
Lemma map_map2 {A B C D} (g : C -> D) (h : A -> B -> C) l : forall m, map g (map2 h l m) = map2 (fun a b => g (h a b)) l m.
Proof. induction l as [|a l IH]; intros [|c m]; simpl; auto. rewrite IH. reflexivity. Qed.
Lemma map2_map2_r {A B C D} (h : A -> B -> C) (k : C -> B -> D) l : forall m, map2 k (map2 h l m) m = map2 (fun a b => k (h a b) b) l m.
Proof. induction l as [|a l IH]; intros [|c m]; simpl; auto. rewrite IH. reflexivity. Qed.
Lemma map2_ext_r {A B C} (g h : A -> B -> C) l : forall m, Forall (fun b => forall a, g a b = h a b) m -> map2 g l m = map2 h l m.
Proof. induction l as [|a l IH]; intros [|c m] H; simpl; auto. inversion H; subst. rewrite H2, IH by assumption. reflexivity. Qed.

Lemma floor_mul f floor m : 0 < m -> Rmax (f / m) floor * m = Rmax f (floor * m).
Proof.
  intros Hm. rewrite Rmult_comm. rewrite <- RmaxRmult by lra. f_equal; [field; lra|ring].
Qed.

Lemma default_ms : DEFAULT_MS_PARAMS = map_ms Fin (mkMS 12 (-10) 1 (-1)). Proof. reflexivity. Qed.

Lemma init_ms_value mp : init_ms (Fin mp) =
  Some (map Fin (ms_array (unbounded_msR (slice_ms (guess_spec mp))))).
Proof.
  unfold init_ms. rewrite default_ms. cbn [ms_array map_ms lgmcrit lgy_at_mcrit indx_lo indx_hi upd ms_make].
  change (Fin (3 / 10) * (Fin mp - Fin 11) + Fin (114 / 10))%X with (Fin (3 / 10 * (mp + - (11)) + 114 / 10)).
  change (Fin (2 / 10) * (Fin mp - Fin 11) - Fin (97 / 10))%X with (Fin (2 / 10 * (mp + - (11)) + - (97 / 10))).
  change (Fin (7 / 10) * (Fin mp - Fin 11) - Fin (3 / 10))%X with (Fin (7 / 10 * (mp + - (11)) + - (3 / 10))).
  rewrite !clip_fin.
  replace (3 / 10 * (mp + - (11)) + 114 / 10) with (114 / 10 + 3 / 10 * (mp - 11)) by lra.
  replace (2 / 10 * (mp + - (11)) + - (97 / 10)) with (-97 / 10 + 2 / 10 * (mp - 11)) by lra.
  replace (7 / 10 * (mp + - (11)) + - (3 / 10)) with (-3 / 10 + 7 / 10 * (mp - 11)) by lra.
  change (mkMS (Fin ?a) (Fin ?b) (Fin ?c) (Fin ?d)) with (map_ms Fin (mkMS a b c d)).
  rewrite unbounded_ms_fin; cbn [lgmcrit lgy_at_mcrit indx_lo indx_hi].
  - reflexivity.
  - pose proof (clamp_range 11 13 (114 / 10 + 3 / 10 * (mp - 11))). lra.
  - pose proof (clamp_range (-105 / 10) (-92 / 10) (-97 / 10 + 2 / 10 * (mp - 11))). lra.
  - pose proof (clamp_range (2 / 10) 3 (-3 / 10 + 7 / 10 * (mp - 11))). lra.
  - lra.
Qed.
Lemma init_q_value mp : init_q (Fin mp) = Some (map Fin (q_array (unbounded_qR (slice_q (guess_spec mp))))).
Proof.
  unfold init_q. cbn [q_make q_array]. f_equal.
  replace (mkQ (lg_qt DEFAULT_Q_PARAMS) (qlglgdt DEFAULT_Q_PARAMS) (lg_drop DEFAULT_Q_PARAMS) (lg_rejuv DEFAULT_Q_PARAMS))
    with (map_q Fin (slice_q (guess_spec mp))) by reflexivity.
  rewrite unbounded_q_fin; [reflexivity|..]; simpl; lra.
Qed.
Lemma guess_in_bounds mp : in_bounds (guess_spec mp).
Proof.
  unfold in_bounds, guess_spec; cbn [d_lgmcrit d_lgy_at_mcrit d_indx_lo d_indx_hi d_lg_qt d_qlglgdt d_lg_drop d_lg_rejuv].
  pose proof (clamp_range 11 13 (114 / 10 + 3 / 10 * (mp - 11))).
  pose proof (clamp_range (-105 / 10) (-92 / 10) (-97 / 10 + 2 / 10 * (mp - 11))).
  pose proof (clamp_range (2 / 10) 3 (-3 / 10 + 7 / 10 * (mp - 11))). lra.
Qed.

Lemma log10_fin_list l : Forall (fun x => 0 < x) l -> map xlog10 (map Fin l) = map Fin (map log10R l).
Proof. intros H. rewrite map_map. apply map_fin_ext. intros a Ha. apply xlog10_fin. rewrite Forall_forall in H. apply H, Ha. Qed.

Lemma increasing_pos ts : increasing (1 / 1000 :: ts) -> Forall (fun t => 0 < t) ts.
Proof.
  intros H. apply increasing_Forall_gt in H. eapply Forall_impl; [|exact H]. intros a Ha. cbn beta in Ha. lra.
Qed.
Lemma map2_len {A B C} (f : A -> B -> C) l m n : length l = n -> length m = n -> length (map2 f l m) = n.
Proof. intros <- H. rewrite map2_length, H. apply Nat.min_id. Qed.

Lemma loss_data_value (msh : MahParams xr -> list xr -> xr -> list xr * list xr) ts ss mah dlogm tmin mmin tau floor lgt0 fb mp :
  fit_input ts ss tau floor -> last (snd (msh mah (map Fin ts) lgt0)) NaN = Fin mp ->
  exists mass f w wf k,
    cumulative_mstar_formed (map Fin ts) (map Fin ss) = Some (map Fin mass) /\
    compute_fstar (map Fin ts) (map Fin mass) (Fin tau) = map Fin f /\
    length mass = length ts /\ length f = length ts /\
    Forall (fun m => 0 < m) mass /\
    Forall (fun x => 0 <= x <= list_Rmax 0 ss) f /\
    let lf := map log10R (fstar_target floor f mass) in
    weights_ok tau dlogm tmin mmin ts (map log10R mass) lf w wf /\ first_max lf k /\
    get_loss_data_default msh (map Fin ts) (map Fin ss) mah (Fin dlogm) (Fin tmin) (Fin mmin) (Fin tau) (Fin floor) lgt0 fb
    = Some ((map Fin (params_list (join_params (unbounded_msR (slice_ms (guess_spec mp))) (unbounded_qR (slice_q (guess_spec mp))))),
             map Fin [1 / 2; 1 / 2; 1; 1; 3 / 10; 1 / 2; 3 / 10; 3 / 10]),
            mkLD (map Fin ts) mah (map Fin mass) (map Fin (map log10R mass)) (map Fin (map (fun s => Rmax s (1 / 10 ^ 14)) ss))
              (map Fin lf) (Fin tau) (Fin floor) (map Fin w) (map Fin wf) (Fin (log10R (nth k ts 0))) lgt0 fb).
Proof.
  intros (Hne & Hl & Hi & Hs & Htau & Hfl) Hmp.
  pose proof (massR_pos ts ss Hl Hi Hs) as Hmpos.
  destruct (fstar_bounds ts ss tau Hl (increasing_tail _ _ Hi) Htau Hs) as (mass & f & Hc & Hf & Hfl' & Hfb).
  rewrite cumulative_fin in Hc by exact Hl. injection Hc as Hc. apply map_Fin_inj in Hc. subst mass.
  set (mass := massR ts ss) in *.
  assert (Hmlen : length mass = length ts) by (apply massR_length, Hl).
  set (ft := fstar_floor floor f mass).
  assert (Hftl : length ft = length ts) by (unfold ft, fstar_floor; apply map2_len; assumption).
  assert (Hft0 : ft <> []) by (destruct ft, ts; try discriminate; congruence).
  assert (Hftpos : Forall (fun x => 0 < x) ft).
  { apply (F_of_nth _ _ (length ts) Hftl). intros i Hi'. unfold ft, fstar_floor.
    rewrite (map2_nth _ _ _ _ 0 0) by lia. eapply Rlt_le_trans; [|apply Rmax_r].
    apply Rmult_lt_0_compat; [exact Hfl|]. apply (F_nth _ _ _ 0 Hmpos). lia. }
  destruct (np_max_fin ft Hft0) as (top & Htop & Hin & Hle).
  assert (Htop0 : 0 < top). { rewrite Forall_forall in Hftpos. apply Hftpos, Hin. }
  assert (Htop' : list_Rmax 0 ft = top) by (apply list_Rmax_max; auto; lra).
  set (tgt := fstar_target floor f mass).
  assert (Htgt : tgt = map (fun x => Rmax x (top / 1000)) ft).
  { unfold tgt, fstar_target. fold ft. rewrite Htop'. reflexivity. }
  assert (Htgtl : length tgt = length ts) by (rewrite Htgt, map_length; exact Hftl).
  assert (Htgtpos : Forall (fun x => 0 < x) tgt).
  { rewrite Htgt, Forall_map. eapply Forall_impl; [|exact Hftpos]. intros a Ha. cbn beta in *.
    eapply Rlt_le_trans; [exact Ha|apply Rmax_l]. }
  set (lf := map log10R tgt).
  assert (Hlfl : length lf = length ts) by (unfold lf; rewrite map_length; exact Htgtl).
  assert (Hlf0 : lf <> []) by (destruct lf, ts; try discriminate; congruence).
  destruct (np_argmax_fin lf Hlf0) as (k & Hk & Hfm).
  destruct (weights_spec ts (map log10R mass) lf tau dlogm tmin mmin Hne ltac:(rewrite map_length; exact Hmlen) Hlfl) as (w & wf & Hw & Hwok).
  exists mass, f, w, wf, k. split; [apply cumulative_fin, Hl|]. split; [exact Hf|]. split; [exact Hmlen|]. split; [exact Hfl'|].
  split; [exact Hmpos|]. split; [exact Hfb|]. cbv zeta. fold tgt. fold lf. split; [exact Hwok|]. split; [exact Hfm|].
  unfold get_loss_data_default. rewrite cumulative_fin by exact Hl. fold mass. rewrite Hf.
  rewrite map2_xdiv_fin by exact Hmpos.
  rewrite (map_map Fin (fun s => np_clip s (Fin floor) PInf)).
  rewrite (map_fin_ext (fun x => np_clip (Fin x) (Fin floor) PInf) (fun x => Rmax x floor) (map2 Rdiv f mass)) by (intros; apply clip_lo_fin).
  rewrite (map2_map_fin xmul Rmult) by reflexivity.
  rewrite (map_map2 (fun x => Rmax x floor) Rdiv f mass), (map2_map2_r (fun a b => Rmax (a / b) floor) Rmult f mass).
  rewrite (map2_ext_r (fun a b => Rmax (a / b) floor * b) (fun x m => Rmax x (floor * m)) f mass)
    by (eapply Forall_impl; [|exact Hmpos]; intros m Hm a; apply floor_mul, Hm).
  fold (fstar_floor floor f mass). fold ft. rewrite Htop.
  rewrite xdiv_fin by lra.
  rewrite (map_map Fin (fun f => if xlt f (Fin (top / 1000)) then Fin (top / 1000) else f)).
  rewrite (map_fin_ext _ (fun x => Rmax x (top / 1000)) ft).
  2:{ intros a _. simpl. unfold Rltb, Rmax. destruct (Rlt_dec a (top / 1000)), (Rle_dec a (top / 1000)); try reflexivity; f_equal; lra. }
  rewrite <- Htgt. rewrite (log10_fin_list tgt) by exact Htgtpos. fold lf. rewrite (log10_fin_list mass) by exact Hmpos.
  rewrite Hw, Hk. unfold last_. rewrite Hmp. rewrite init_ms_value, init_q_value.
  apply f_equal. apply f_equal2; [reflexivity|].
  f_equal.
  - rewrite (map_map Fin). apply map_fin_ext. intros a _. apply clip_lo_fin.
  - unfold at_. pose proof (increasing_pos _ Hi) as Htpos. rewrite log10_fin_list by exact Htpos.
    destruct Hfm as (Hk' & _). rewrite Hlfl in Hk'.
    rewrite nth_Fin by (rewrite map_length; exact Hk'). rewrite (nth_map log10R ts k 0) by exact Hk'. reflexivity.
Qed.

(** ** Loss *)
Lemma prior_sig x lgt : sigmoid (Fin x - Fin lgt)%X (Fin 0) (Fin 50) (Fin 100) (Fin 0) = Fin (prior x lgt).
Proof.
  change (Fin x - Fin lgt)%X with (Fin (x - lgt)). rewrite sigmoid_fin. f_equal. unfold sigR, prior, logisticR.
  replace (- (50 * (x - lgt - 0))) with (- (50 * (x - lgt))) by lra. rewrite exp_Ropp.
  pose proof (exp_pos (50 * (x - lgt))). field. split; lra.
Qed.
Lemma prior_range x lgt : 0 < prior x lgt < 100.
Proof.
  unfold prior. pose proof (exp_pos (50 * (x - lgt))) as H. split.
  - apply Rdiv_lt_0_compat; lra.
  - apply Rmult_lt_reg_r with (1 + exp (50 * (x - lgt))); [lra|]. unfold Rdiv. rewrite Rmult_assoc, Rinv_l by lra. nra.
Qed.
Lemma prior_decr x y lgt : x < y -> prior y lgt < prior x lgt.
Proof.
  intros H. unfold prior. assert (He : exp (50 * (x - lgt)) < exp (50 * (y - lgt))) by (apply exp_increasing; lra).
  pose proof (exp_pos (50 * (x - lgt))). unfold Rdiv. apply Rmult_lt_compat_l; [lra|]. apply Rinv_lt_contravar; [nra|lra].
Qed.
Lemma xmean_fin l : l <> [] -> xmean (map Fin l) = Fin (Rsum l / INR (length l)).
Proof.
  intros H. unfold xmean, len. rewrite xsum_fin, map_length. apply xdiv_fin. apply not_0_INR. destruct l; [congruence|discriminate].
Qed.
Lemma wmse_fin r w n : length r = n -> length w = n -> n <> 0%nat -> Forall (fun x => 0 < x) w ->
  xmean (map (fun x => xpown x 2) (map2 xdiv (map Fin r) (map Fin w))) = Fin (wmse r w).
Proof.
  intros Hr Hw Hn Hpos. rewrite map2_xdiv_fin by exact Hpos. rewrite map_map.
  rewrite (map_fin_ext (fun x => xpown (Fin x) 2) (fun x => x ^ 2)) by (intros; apply xpown_fin).
  rewrite map_map2. rewrite xmean_fin.
  - unfold wmse. rewrite map2_length, Hr, Hw, Nat.min_id. reflexivity.
  - intros H. assert (H' := f_equal (@length R) H). rewrite map2_length, Hr, Hw in H'. simpl in H'. lia.
Qed.
Lemma wmse_nonneg r w : 0 <= wmse r w.
Proof.
  unfold wmse. destruct (length r) eqn:E; [destruct r; [|discriminate]; simpl; unfold Rdiv; rewrite Rmult_0_l; lra|].
  apply Rmult_le_pos; [|left; apply Rinv_0_lt_compat, lt_0_INR; lia].
  apply Rsum_nonneg. rewrite Forall_forall. intros x Hx.
  assert (H : forall l m, In x (map2 (fun a b => (a / b) ^ 2) l m) -> 0 <= x).
  { induction l as [|a l IH]; intros [|b m] H; simpl in H; try contradiction. destruct H as [<-|H]; [apply pow2_ge_0|eapply IH, H]. }
  eapply H, Hx.
Qed.
Lemma wmse_zero r : forall w, length r = length w -> Forall (fun x => 0 < x) w -> (wmse r w = 0 <-> Forall (fun x => x = 0) r).
Proof.
  intros w Hl Hw. unfold wmse. destruct r as [|a r]; [simpl; split; [constructor|intros; lra]|].
  assert (HI : 0 < / INR (length (a :: r))) by (apply Rinv_0_lt_compat, lt_0_INR; simpl; lia).
  assert (Hs : forall l m, length l = length m -> Forall (fun x => 0 < x) m ->
     0 <= Rsum (map2 (fun a b => (a / b) ^ 2) l m) /\ (Rsum (map2 (fun a b => (a / b) ^ 2) l m) = 0 <-> Forall (fun x => x = 0) l)).
  { induction l as [|x l IH]; intros [|y m] H Hm; simpl in H; try discriminate; cbn [map2 Rsum fold_right].
    - split; [lra|]. split; [constructor|reflexivity].
    - inversion Hm; subst. destruct (IH m ltac:(lia) H3) as [H0 Hz]. fold (Rsum (map2 (fun a b => (a / b) ^ 2) l m)) in *.
      pose proof (pow2_ge_0 (x / y)). split; [lra|]. split.
      + intros Heq. assert (E1 : (x / y) ^ 2 = 0) by lra. assert (E2 : x / y = 0) by (simpl in E1; nra).
        constructor; [|apply Hz; lra]. replace x with (x / y * y) by (field; lra). rewrite E2. ring.
      + intros HF. inversion HF as [|? ? Hx0 HF']; subst. destruct Hz as [_ Hz]. rewrite (Hz HF'). unfold Rdiv. ring. }
  destruct (Hs (a :: r) w Hl Hw) as [_ Hz]. rewrite <- Hz. unfold Rdiv. split; intros H.
  - apply Rmult_integral in H. destruct H; [assumption|lra].
  - rewrite H. ring.
Qed.

Lemma d_make_list u : d_make (map Fin (params_list u)) = Some (map_d Fin u). Proof. reflexivity. Qed.

Lemma last_fin' l : l <> [] -> last_ (map Fin l) = Fin (last l 0). Proof. apply last_fin. Qed.

Definition bounded_of (u : DiffstarParams R) : DiffstarParams R := join_params (bounded_msR (slice_ms u)) (bounded_qR (slice_q u)).

Lemma loss_value lmk u ts mah M LM S LF tau floor W WF lq lgt0 fb h :
  ts <> [] -> increasing (1 / 1000 :: ts) -> halo_history lmk mah lgt0 h ts ->
  length M = length ts -> length LM = length ts -> length S = length ts -> length LF = length ts ->
  length W = length ts -> length WF = length ts ->
  Forall (fun x => 0 < x) M -> Forall (fun x => 0 < x) W -> Forall (fun x => 0 < x) WF -> 0 < tau -> 0 < floor ->
  exists p s m f,
    get_bounded_diffstar_params (map_d Fin u) = map_d Fin p /\ in_bounds p /\
    calc_sfh_singlegal_smh lmk (map_d Fin p) mah (map Fin ts) lgt0 (Fin fb) = Some (map Fin s, map Fin m) /\
    compute_fstar (map Fin ts) (map Fin m) (Fin tau) = map Fin f /\
    length s = length ts /\ length m = length ts /\ length f = length ts /\ Forall (fun x => 0 < x) m /\
    loss_default_clipssfrh lmk (map Fin (params_list u))
      (mkLD (map Fin ts) mah (map Fin M) (map Fin LM) (map Fin S) (map Fin LF) (Fin tau) (Fin floor) (map Fin W) (map Fin WF) (Fin lq) lgt0 (Fin fb))
    = Some (Fin (fit_loss floor s m f S M LM LF W WF (d_lg_qt p) lq)).
Proof.
  intros Hne Hi Hh HM HLM HS HLF HW HWF PM PW PWF Htau Hfl.
  set (p := bounded_of u). set (s := map (fun t => sfr_spec p fb (h t) t) ts). set (m := massR ts s).
  assert (Hsl : length ts = length s) by (unfold s; rewrite map_length; reflexivity).
  assert (Hs0 : Forall (fun x => 0 <= x) s).
  { unfold s. rewrite Forall_map. apply Forall_forall. intros t _. pose proof (sfr_spec_floor p fb (h t) t). lra. }
  assert (Hmp : Forall (fun x => 0 < x) m) by (apply massR_pos; assumption).
  assert (Hml : length m = length ts) by (apply massR_length, Hsl).
  destruct (fstar_bounds ts s tau Hsl (increasing_tail _ _ Hi) Htau Hs0) as (m' & f & Hc & Hf & Hfl' & Hfb).
  rewrite cumulative_fin in Hc by exact Hsl. injection Hc as Hc. apply map_Fin_inj in Hc. fold m in Hc. subst m'.
  exists p, s, m, f.
  split; [apply bounded_diffstar_fin|]. split; [apply bounded_in_bounds|].
  pose proof (calc_sfh_smh_value lmk p mah ts lgt0 fb h Hh) as Hv. cbv zeta in Hv. fold s in Hv. fold m in Hv.
  split; [exact Hv|]. split; [exact Hf|]. split; [auto|]. split; [exact Hml|]. split; [exact Hfl'|]. split; [exact Hmp|].
  assert (Hn : length ts <> 0%nat) by (destruct ts; [congruence|discriminate]).
  unfold loss_default_clipssfrh. rewrite d_make_list.
  replace (get_bounded_diffstar_params (map_d Fin u)) with (map_d Fin p) by (symmetry; apply bounded_diffstar_fin).
  cbn [ld_t ld_mah ld_mstar ld_logmstar ld_sfh ld_logfstar ld_tdelay ld_floor ld_w ld_wf ld_lgtmax ld_lgt0 ld_fb].
  rewrite Hv, Hf. rewrite xdiv_fin by lra.
  set (lo := map (fun x => x * (floor / 10)) m).
  replace (map (fun x => (x * Fin (floor / 10))%X) (map Fin m)) with (map Fin lo)
    by (unfold lo; rewrite !map_map; reflexivity).
  rewrite (map2_map_fin (fun f l => np_clip f l PInf) Rmax) by (intros; apply clip_lo_fin).
  rewrite (map2_map_fin (fun f l => np_clip f l PInf) Rmax) by (intros; apply clip_lo_fin).
  assert (Hlo : Forall (fun x => 0 < x) lo).
  { unfold lo. rewrite Forall_map. eapply Forall_impl; [|exact Hmp]. intros a Ha. cbn beta in *. apply Rmult_lt_0_compat; lra. }
  assert (Hlol : length lo = length ts) by (unfold lo; rewrite map_length; exact Hml).
  assert (Hfp : Forall (fun x => 0 < x) (map2 Rmax f lo)).
  { apply (F_of_nth _ _ (length ts)); [apply map2_len; assumption|]. intros i Hi'. rewrite (map2_nth _ _ _ _ 0 0) by lia.
    eapply Rlt_le_trans; [|apply Rmax_r]. apply (F_nth _ _ _ 0 Hlo). lia. }
  rewrite (log10_fin_list (map2 Rmax f lo)) by exact Hfp. rewrite (log10_fin_list m) by exact Hmp.
  rewrite (map2_map_fin xsub Rminus) by reflexivity. rewrite (map2_map_fin xsub Rminus) by reflexivity.
  rewrite (map2_map_fin xsub Rminus) by reflexivity.
  rewrite (map_map Fin (fun x => Fin (10 ^ 8) * x)%X).
  change (map (fun x => (Fin (10 ^ 8) * Fin x)%X) (map2 Rminus (map2 Rmax s lo) S))
    with (map (fun x => Fin (10 ^ 8 * x)) (map2 Rminus (map2 Rmax s lo) S)).
  rewrite <- (map_map (fun x => 10 ^ 8 * x) Fin).
  rewrite (fun l => map2_xdiv_fin l M PM).
  rewrite (map_map Fin (fun r => np_clip r (Fin (-1)) (Fin 1))).
  rewrite (map_fin_ext (fun x => np_clip (Fin x) (Fin (-1)) (Fin 1)) (clampR (-1) 1)) by (intros; apply clip_fin).
  set (rm := map2 Rminus (map log10R m) LM). set (rf := map2 Rminus (map log10R (map2 Rmax f lo)) LF).
  set (rs := map (clampR (-1) 1) _).
  assert (Hrm : length rm = length ts) by (unfold rm; apply map2_len; rewrite ?map_length; auto).
  assert (Hrf : length rf = length ts).
  { unfold rf; apply map2_len; auto. rewrite map_length. apply map2_len; assumption. }
  assert (Hrs : length rs = length ts).
  { unfold rs. rewrite map_length. apply map2_len; auto. rewrite map_length. apply map2_len; auto. apply map2_len; auto. }
  rewrite (wmse_fin rm W (length ts)), (wmse_fin rf WF (length ts)), (wmse_fin rs W (length ts)) by assumption.
  rewrite last_fin' by (intros E; rewrite E in Hrf; simpl in Hrf; lia). rewrite xpown_fin.
  cbn [map_d d_lg_qt]. rewrite prior_sig. cbn [xmul xadd]. f_equal. f_equal.
  unfold fit_loss. fold s. 
  assert (E1 : rm = map2 (fun a b => log10R a - b) m LM) by (unfold rm; apply map2_map_l).
  assert (E0 : forall l, map2 Rmax l lo = map2 (fun x m => Rmax x (m * (floor / 10))) l m)
    by (intros l; unfold lo; apply map2_map_r).
  assert (E2 : rf = map2 Rminus (map2 (fun x m => log10R (Rmax x (m * (floor / 10)))) f m) LF)
    by (unfold rf; rewrite E0, map_map2; reflexivity).
  assert (E3 : rs = map2 (fun x M => clampR (-1) 1 (10 ^ 8 * x / M))
              (map2 (fun a S => a - S) (map2 (fun x m => Rmax x (m * (floor / 10))) s m) S) M)
    by (unfold rs; rewrite E0, map_map2, map2_map_l; reflexivity).
  rewrite <- E1, <- E2, <- E3. reflexivity.
Qed.

Lemma fit_loss_ge_prior floor s m f S M LM LF W WF lgqt lgtmax : prior lgqt lgtmax <= fit_loss floor s m f S M LM LF W WF lgqt lgtmax.
Proof.
  unfold fit_loss. pose proof wmse_nonneg as H. set (rf := map2 Rminus _ LF).
  pose proof (pow2_ge_0 (last rf 0)).
  pose proof (H (map2 (fun a b => log10R a - b) m LM) W). pose proof (H rf WF).
  match goal with |- context [wmse (map2 ?g ?a M) W] => pose proof (H (map2 g a M) W) end. lra.
Qed.

Lemma clamp_zero x : clampR (-1) 1 x = 0 <-> x = 0.
Proof. unfold clampR, Rmin, Rmax. destruct (Rle_dec x (-1)); destruct (Rle_dec _ 1); split; intros; lra. Qed.

Lemma zero_res {A B} (g : A -> B -> R) l : forall m da db, length l = length m ->
  (Forall (fun x => x = 0) (map2 g l m) <-> forall i, (i < length l)%nat -> g (nth i l da) (nth i m db) = 0).
Proof.
  intros m da db Hl. rewrite Forall_forall. split.
  - intros H i Hi. rewrite <- (map2_nth g l m i da db 0) by lia. apply H, nth_In. rewrite map2_length. lia.
  - intros H x Hx. apply In_nth with (d := 0) in Hx. destruct Hx as (i & Hi & <-). rewrite map2_length in Hi.
    rewrite (map2_nth g l m i da db) by lia. apply H. lia.
Qed.

Lemma fit_loss_eq_prior n floor s m f S M LM LF W WF lgqt lgtmax : n <> 0%nat ->
  length s = n -> length m = n -> length f = n -> length S = n -> length M = n -> length LM = n -> length LF = n ->
  length W = n -> length WF = n -> Forall (fun x => 0 < x) M -> Forall (fun x => 0 < x) W -> Forall (fun x => 0 < x) WF ->
  (fit_loss floor s m f S M LM LF W WF lgqt lgtmax = prior lgqt lgtmax <->
   forall i, (i < n)%nat ->
     log10R (nth i m 0) = nth i LM 0 /\
     log10R (Rmax (nth i f 0) (nth i m 0 * (floor / 10))) = nth i LF 0 /\
     Rmax (nth i s 0) (nth i m 0 * (floor / 10)) = nth i S 0).
Proof.
  intros Hn Hs Hm Hf HS HM HLM HLF HW HWF PM PW PWF. unfold fit_loss.
  set (rm := map2 (fun a b => log10R a - b) m LM).
  set (rf := map2 Rminus (map2 (fun x m => log10R (Rmax x (m * (floor / 10)))) f m) LF).
  set (d := map2 (fun a S => a - S) (map2 (fun x m => Rmax x (m * (floor / 10))) s m) S).
  set (rs := map2 (fun x M => clampR (-1) 1 (10 ^ 8 * x / M)) d M).
  assert (Hd : length d = n) by (unfold d; apply map2_len; [apply map2_len; assumption|assumption]).
  assert (Hrm : length rm = n) by (unfold rm; apply map2_len; assumption).
  assert (Hrf : length rf = n) by (unfold rf; apply map2_len; [apply map2_len; assumption|assumption]).
  assert (Hrs : length rs = n) by (unfold rs; apply map2_len; assumption).
  pose proof (wmse_nonneg rm W). pose proof (wmse_nonneg rf WF). pose proof (wmse_nonneg rs W). pose proof (pow2_ge_0 (last rf 0)).
  assert (Zm := wmse_zero rm W ltac:(lia) PW). assert (Zf := wmse_zero rf WF ltac:(lia) PWF). assert (Zs := wmse_zero rs W ltac:(lia) PW).
  assert (Nm : Forall (fun x => x = 0) rm <-> forall i, (i < n)%nat -> log10R (nth i m 0) - nth i LM 0 = 0).
  { unfold rm. rewrite (zero_res _ m LM 0 0) by lia. rewrite Hm. reflexivity. }
  assert (Nf : Forall (fun x => x = 0) rf <-> forall i, (i < n)%nat -> log10R (Rmax (nth i f 0) (nth i m 0 * (floor / 10))) - nth i LF 0 = 0).
  { unfold rf. rewrite (zero_res _ _ LF 0 0) by (rewrite map2_length; lia). rewrite map2_length, Hf, Hm, Nat.min_id.
    split; intros Hx i Hi; specialize (Hx i Hi); rewrite (map2_nth _ f m i 0 0) in * by lia; exact Hx. }
  assert (Ns : Forall (fun x => x = 0) rs <-> forall i, (i < n)%nat -> Rmax (nth i s 0) (nth i m 0 * (floor / 10)) - nth i S 0 = 0).
  { unfold rs. rewrite (zero_res _ d M 0 0) by lia. rewrite Hd.
    assert (Hdi : forall i, (i < n)%nat -> nth i d 0 = Rmax (nth i s 0) (nth i m 0 * (floor / 10)) - nth i S 0).
    { intros i Hi. unfold d. rewrite (map2_nth _ _ S i 0 0) by (rewrite ?map2_length; lia). rewrite (map2_nth _ s m i 0 0) by lia. reflexivity. }
    split; intros Hx i Hi; specialize (Hx i Hi); assert (HMi : 0 < nth i M 0) by (apply (F_nth _ _ _ 0 PM); lia).
    - rewrite clamp_zero in Hx. rewrite <- (Hdi i Hi). apply Rmult_eq_reg_l with (10 ^ 8); [|lra].
      rewrite Rmult_0_r. unfold Rdiv in Hx. apply Rmult_integral in Hx. destruct Hx as [Hx|Hx]; [exact Hx|].
      apply Rinv_neq_0_compat in Hx; [contradiction|lra].
    - apply clamp_zero. rewrite (Hdi i Hi), Hx. unfold Rdiv. ring. }
  split.
  - intros Heq. assert (wmse rm W = 0) by lra. assert (wmse rf WF = 0) by lra. assert (wmse rs W = 0) by lra.
    apply Zm in H3. apply Zf in H4. apply Zs in H5. rewrite Nm in H3. rewrite Nf in H4. rewrite Ns in H5.
    intros i Hi. specialize (H3 i Hi). specialize (H4 i Hi). specialize (H5 i Hi). repeat split; lra.
  - intros Hall. assert (A1 : wmse rm W = 0) by (apply Zm, Nm; intros i Hi; destruct (Hall i Hi) as (? & _); lra).
    assert (A2 : Forall (fun x => x = 0) rf) by (apply Nf; intros i Hi; destruct (Hall i Hi) as (_ & ? & _); lra).
    assert (A3 : wmse rs W = 0) by (apply Zs, Ns; intros i Hi; destruct (Hall i Hi) as (_ & _ & ?); lra).
    assert (A4 : last rf 0 = 0). { rewrite Forall_forall in A2. apply A2, last_In. intros E. rewrite E in Hrf. simpl in Hrf. lia. }
    apply Zf in A2. rewrite A1, A2, A3, A4. ring.
Qed.
