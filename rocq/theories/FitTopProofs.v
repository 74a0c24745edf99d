(** Fitting: statements about the whole fitter, and counterexamples. *)
From Coq Require Import Reals List Lra Lia Bool ZArith.
From Verif Require Import XReal ModelUtils ModelKernels ModelSfh ModelPop ModelHist ModelFit RealFacts XFacts SpecCore SpecHist SpecFit
  SigmoidProofs IntegralProofs SfhProofs PopParamProofs DtProofs PopProofs FstarProofs SmhmProofs PopLossProofs FitProofs OptProofs.
Import List ListNotations.
Open Scope R_scope.

(** ** C50, C51 *)
Lemma guess_bounded mp : get_bounded_diffstar_params (map_d Fin (join_params (unbounded_msR (slice_ms (guess_spec mp))) (unbounded_qR (slice_q (guess_spec mp)))))
  = map_d Fin (guess_spec mp).
Proof.
  rewrite <- (unbounded_diffstar_fin (guess_spec mp) (guess_in_bounds mp)). apply bounded_unbounded_id, guess_in_bounds.
Qed.

Lemma initial_guess msh ts ss mah dlogm tmin mmin tau floor lgt0 fb mp :
  fit_input ts ss tau floor -> last (snd (msh mah (map Fin ts) lgt0)) NaN = Fin mp ->
  exists u d, get_loss_data_default msh (map Fin ts) (map Fin ss) mah (Fin dlogm) (Fin tmin) (Fin mmin) (Fin tau) (Fin floor) lgt0 fb
    = Some ((map Fin (params_list u), map Fin [1 / 2; 1 / 2; 1; 1; 3 / 10; 1 / 2; 3 / 10; 3 / 10]), d) /\
    get_bounded_diffstar_params (map_d Fin u) = map_d Fin (guess_spec mp) /\ in_bounds (guess_spec mp).
Proof.
  intros H1 H2. destruct (loss_data_value msh ts ss mah dlogm tmin mmin tau floor lgt0 fb mp H1 H2)
    as (mass & f & w & wf & k & _ & _ & _ & _ & _ & _ & _ & _ & E).
  eexists; eexists. split; [exact E|]. split; [apply guess_bounded|apply guess_in_bounds].
Qed.

Lemma loss_data_fields msh ts ss mah dlogm tmin mmin tau floor lgt0 fb mp :
  fit_input ts ss tau floor -> last (snd (msh mah (map Fin ts) lgt0)) NaN = Fin mp ->
  exists mass f w wf k u,
    cumulative_mstar_formed (map Fin ts) (map Fin ss) = Some (map Fin mass) /\
    compute_fstar (map Fin ts) (map Fin mass) (Fin tau) = map Fin f /\
    Forall (fun m => 0 < m) mass /\
    let lf := map log10R (fstar_target floor f mass) in
    weights_ok tau dlogm tmin mmin ts (map log10R mass) lf w wf /\ first_max lf k /\
    get_loss_data_default msh (map Fin ts) (map Fin ss) mah (Fin dlogm) (Fin tmin) (Fin mmin) (Fin tau) (Fin floor) lgt0 fb
    = Some (u, mkLD (map Fin ts) mah (map Fin mass) (map Fin (map log10R mass)) (map Fin (map (fun s => Rmax s (1 / 10 ^ 14)) ss))
              (map Fin lf) (Fin tau) (Fin floor) (map Fin w) (map Fin wf) (Fin (log10R (nth k ts 0))) lgt0 fb).
Proof.
  intros H1 H2. destruct (loss_data_value msh ts ss mah dlogm tmin mmin tau floor lgt0 fb mp H1 H2)
    as (mass & f & w & wf & k & A1 & A2 & _ & _ & A5 & _ & A7 & A8 & E).
  exists mass, f, w, wf, k. eexists. split; [exact A1|]. split; [exact A2|]. split; [exact A5|]. cbv zeta. split; [exact A7|]. split; [exact A8|exact E].
Qed.

(** the quenching half of the guess is a constant, whatever the halo *)
Lemma quench_guess_constant msh t s mah a b c tau floor lgt0 fb u e d :
  get_loss_data_default msh t s mah a b c tau floor lgt0 fb = Some ((u, e), d) ->
  exists v1 v2 v3 v4, skipn 4 u = map Fin [v1; v2; v3; v4] /\
   get_bounded_q_params (mkQ (Fin v1) (Fin v2) (Fin v3) (Fin v4))
     = mkQ (Fin 1) (Fin (-50725 / 100000)) (Fin (-101773 / 100000)) (Fin (-212307 / 1000000)).
Proof.
  unfold get_loss_data_default. destruct (cumulative_mstar_formed t s); [|discriminate].
  destruct (np_max _); [|discriminate]. destruct (get_weights _ _ _ _ _ _ _) as [[? ?]|]; [|discriminate].
  destruct (np_argmax _); [|discriminate].
  destruct (init_ms (last_ (snd (msh mah t lgt0)))) as [um|] eqn:Em; [|discriminate].
  destruct (init_q (last_ (snd (msh mah t lgt0)))) as [uq|] eqn:Eq; [|discriminate].
  intros H. injection H as <- _ _.
  assert (Hm : length um = 4%nat).
  { unfold init_ms in Em. rewrite default_ms in Em. cbn [ms_array map_ms lgmcrit lgy_at_mcrit indx_lo indx_hi upd ms_make] in Em.
    injection Em as <-. reflexivity. }
  assert (Hq : uq = map Fin (q_array (unbounded_qR (mkQ 1 (-50725 / 100000) (-101773 / 100000) (-212307 / 1000000))))).
  { change (init_q (last_ (snd (msh mah t lgt0)))) with (init_q (Fin 0)) in Eq. rewrite init_q_value in Eq. injection Eq as <-. reflexivity. }
  do 4 eexists. split.
  { destruct um as [|? [|? [|? [|? [|]]]]]; try discriminate Hm. cbn [app skipn]. exact Hq. }
  set (U := unbounded_qR (mkQ 1 (-50725 / 100000) (-101773 / 100000) (-212307 / 1000000))).
  assert (GQ : get_bounded_q_params (map_q Fin U) = map_q Fin (mkQ 1 (-50725 / 100000) (-101773 / 100000) (-212307 / 1000000))).
  { rewrite bounded_q_fin. f_equal. unfold U, bounded_qR, unbounded_qR. cbn [lg_qt qlglgdt lg_drop lg_rejuv].
    rewrite !bnd_ubnd by lra. rewrite sig_isig by lra. reflexivity. }
  exact GQ.
Qed.

Lemma intended_quench_guess mp : clampR (7 / 10) (15 / 10) (15 / 10 - 1 / 2 * (mp - 11)) = d_lg_qt (guess_spec mp) <-> mp = 12.
Proof.
  cbn [guess_spec d_lg_qt]. unfold clampR, Rmin, Rmax. destruct (Rle_dec _ (7 / 10)); destruct (Rle_dec _ (15 / 10)); split; intros; lra.
Qed.

(** ** C52 *)
Lemma weight_values tau dlogm tmin mmin ts ls lf w wf i : weights_ok tau dlogm tmin mmin ts ls lf w wf -> (i < length ts)%nat ->
  (nth i w 0 = 1 / 2 <-> last ls 0 - nth i ls 0 < 1 / 10) /\
  (nth i w 0 = 10 ^ 10 <-> 1 / 10 <= last ls 0 - nth i ls 0 /\ ~ in_cut dlogm tmin mmin (last ls 0) (nth i ls 0) (nth i ts 0)) /\
  (nth i w 0 = 1 / 2 \/ nth i w 0 = 1 \/ nth i w 0 = 10 ^ 10).
Proof.
  intros (_ & _ & H) Hi. destruct (H i Hi) as [Hm _].
  destruct Hm as [(A & ->)|[(A & B & ->)|(A & B & ->)]]; repeat split; intros; try lra; try tauto.
Qed.

Lemma early_snapshot_weighted : exists ts ss i w,
  fit_input ts ss 1 (1 / 10 ^ 12) /\ (i < length ts)%nat /\ nth i ts 0 < 1 /\ w = 1 / 2 /\
  forall msh mah lgt0 fb mp, last (snd (msh mah (map Fin ts) lgt0)) NaN = Fin mp ->
  exists u d, get_loss_data_default msh (map Fin ts) (map Fin ss) mah DLOGM_CUT T_FIT_MIN MIN_MASS_CUT FSTAR_TIME_DELAY SSFRH_FLOOR lgt0 fb = Some (u, d) /\
    nth i (ld_w d) NaN = Fin w.
Proof.
  exists [1 / 2; 9 / 10; 13], [1; 0; 0], 1%nat, (1 / 2).
  assert (HI : fit_input [1 / 2; 9 / 10; 13] [1; 0; 0] 1 (1 / 10 ^ 12)).
  { split; [discriminate|]. split; [reflexivity|]. split; [simpl; lra|]. split; [repeat constructor; lra|]. split; [lra|].
    apply Rdiv_lt_0_compat; [lra|]. apply pow_lt; lra. }
  split; [exact HI|]. split; [simpl; lia|]. split; [simpl; lra|]. split; [reflexivity|].
  intros msh mah lgt0 fb mp Hmp.
  destruct (loss_data_value msh _ _ mah (35 / 10) 1 7 1 (1 / 10 ^ 12) lgt0 fb mp HI Hmp)
    as (mass & f & w & wf & k & A1 & A2 & A3 & A4 & A5 & _ & A7 & A8 & E).
  eexists; eexists. split; [exact E|]. cbn [ld_w].
  destruct A7 as (Hw & _ & Hall). rewrite nth_Fin by (rewrite Hw; simpl; lia). f_equal.
  assert (Hmass : mass = massR [1 / 2; 9 / 10; 13] [1; 0; 0]).
  { rewrite cumulative_fin in A1 by reflexivity. apply Some_inj in A1. apply map_Fin_inj in A1. symmetry. exact A1. }
  pose proof (massR_diff [1 / 2; 9 / 10; 13] [1; 0; 0] 1 eq_refl ltac:(simpl; lia)) as Hd. rewrite <- Hmass in Hd.
  assert (Hlast : last (map log10R mass) 0 = nth 1 (map log10R mass) 0).
  { rewrite last_nth, map_length, A3. cbn [length Nat.sub]. rewrite !(nth_map log10R mass _ 0) by (rewrite A3; simpl; lia).
    f_equal. cbn [nth] in Hd |- *. lra. }
  destruct (Hall 1%nat ltac:(simpl; lia)) as [Hm _]. rewrite Hlast in Hm.
  destruct Hm as [(_ & ->)|[(C & _)|(C & _)]]; [reflexivity|lra|lra].
Qed.

(** ** C53 *)
Lemma fit_loss_end_to_end lmk msh ts ss mah dlogm tmin mmin tau floor lgt0 fb mp h :
  fit_input ts ss tau floor -> last (snd (msh mah (map Fin ts) lgt0)) NaN = Fin mp -> halo_history lmk mah lgt0 h ts ->
  exists init d lgtmax,
    get_loss_data_default msh (map Fin ts) (map Fin ss) mah (Fin dlogm) (Fin tmin) (Fin mmin) (Fin tau) (Fin floor) lgt0 (Fin fb) = Some (init, d) /\
    forall u, exists p v, get_bounded_diffstar_params (map_d Fin u) = map_d Fin p /\
      loss_default_clipssfrh lmk (map Fin (params_list u)) d = Some (Fin v) /\
      0 < prior (d_lg_qt p) lgtmax <= v.
Proof.
  intros H1 H2 Hh. destruct (loss_data_value msh ts ss mah dlogm tmin mmin tau floor lgt0 (Fin fb) mp H1 H2)
    as (mass & f & w & wf & k & A1 & A2 & A3 & A4 & A5 & _ & A7 & A8 & E).
  destruct H1 as (Hne & Hl & Hi & Hs & Htau & Hfl).
  set (lf := map log10R (fstar_target floor f mass)) in *.
  assert (Hlf : length lf = length ts).
  { unfold lf, fstar_target, fstar_floor. rewrite !map_length. apply map2_len; assumption. }
  assert (Hlf0 : lf <> []) by (destruct lf, ts; try discriminate; congruence).
  destruct (weights_pos _ _ _ _ _ _ _ _ _ Hlf0 A7) as [Pw Pwf]. destruct A7 as (Hw & Hwf & _).
  eexists; eexists; exists (log10R (nth k ts 0)). split; [exact E|]. intros u.
  destruct (loss_value lmk u ts mah mass (map log10R mass) (map (fun s => Rmax s (1 / 10 ^ 14)) ss) lf tau floor w wf (log10R (nth k ts 0)) lgt0 fb h)
    as (p & s & m & f' & B1 & B2 & B3 & B4 & _ & _ & _ & _ & B5); auto; rewrite ?map_length; auto.
  exists p. eexists. split; [exact B1|]. split; [exact B5|]. split; [apply prior_range|apply fit_loss_ge_prior].
Qed.

(** ** Random starting points *)
Section Rng.
Variable rng : Type.
Variable normal : rng -> list xr -> list xr -> list xr * rng.
Variable grad : list xr -> list xr.
Variable p_init : list xr * list xr.
Notation after := (rng_after rng normal p_init).
Notation drw := (draw rng normal p_init).

Lemma random_bad s : (forall k, (k < 1001)%nat -> In NaN (grad (drw s k))) ->
  return_random_pinit rng normal grad s p_init = (drw s 1000, true, after s 1001).
Proof.
  intros H. destruct (return_random_pinit rng normal grad s p_init) as [[p flag] s'] eqn:E. apply random_pinit in E.
  destruct E as (n & Hn & Hp & Hs & _ & Hf & Hfl).
  assert (Ht : flag = true). { apply Hf. rewrite Hp. apply H. lia. }
  specialize (Hfl Ht). subst. reflexivity.
Qed.
Lemma random_good s : ~ In NaN (grad (drw s 0)) -> return_random_pinit rng normal grad s p_init = (drw s 0, false, after s 1).
Proof.
  intros H. unfold return_random_pinit. change (normal s) with (normal (after s 0)). rewrite normal_draw.
  destruct (any_nan (grad (drw s 0))) eqn:E; [apply any_nan_In in E; contradiction|reflexivity].
Qed.
End Rng.

(** A generator that counts its draws. *)
Definition count_normal (f : nat -> list xr) (s : nat) (_ _ : list xr) : list xr * nat := (f s, S s).
Lemma count_after f pi s k : rng_after nat (count_normal f) pi s k = (s + k)%nat.
Proof. induction k as [|k IH]; [simpl; lia|]. cbn [rng_after]. rewrite IH. simpl. lia. Qed.
Lemma count_draw f pi s k : draw nat (count_normal f) pi s k = f (s + k)%nat.
Proof. unfold draw. rewrite count_after. reflexivity. Qed.
Lemma count_bad f grad pi s : (forall k, (k < 1001)%nat -> In NaN (grad (f (s + k)%nat))) ->
  return_random_pinit nat (count_normal f) grad s pi = (f (s + 1000)%nat, true, (s + 1001)%nat).
Proof.
  intros H. rewrite random_bad by (intros k Hk; rewrite count_draw; apply H, Hk). rewrite count_draw, count_after. reflexivity.
Qed.
Lemma count_good f grad pi s : ~ In NaN (grad (f s)) -> return_random_pinit nat (count_normal f) grad s pi = (f s, false, S s).
Proof.
  intros H. rewrite random_good by (rewrite count_draw, Nat.add_0_r; exact H). rewrite count_draw, count_after, Nat.add_0_r, Nat.add_1_r. reflexivity.
Qed.

(** C56: an infinite gradient is accepted *)
Lemma infinite_gradient_accepted : exists (normal : nat -> list xr -> list xr -> list xr * nat) grad pi p s',
  return_random_pinit nat normal grad 0%nat pi = (p, false, s') /\ In PInf (grad p).
Proof.
  exists (count_normal (fun _ => [Fin 0])), (fun _ => [PInf]), ([Fin 0], [Fin 1]), [Fin 0], 1%nat.
  split; [apply (count_good (fun _ => [Fin 0]) (fun _ => [PInf])); intros [H|[]]; discriminate|left; reflexivity].
Qed.

(** C54: the returned loss can be NaN, reported as a success *)
Lemma nan_loss_returned : exists (normal : nat -> list xr -> list xr -> list xr * nat) grad minimize pi p s' l,
  minimizer_wrapper nat normal grad minimize 0%nat pi (Fin (1 / 10)) 2 = Some ((p, NaN, 1%Z), s') /\
  attempts nat normal grad minimize pi 0%nat l s' /\ exists a, In a l /\ snd (fst a) <> NaN.
Proof.
  set (f := fun s : nat => match s with O => [Fin 0] | _ => [Fin 1] end).
  set (mn := fun p : list xr => match p with [Fin r] => if Req_EM_T r 0 then (p, NaN, true) else (p, PInf, true) | _ => (p, NaN, true) end).
  exists (count_normal f), (fun p => p), mn, ([Fin 9], [Fin 1]), [Fin 0], 2%nat, [([Fin 0], NaN, 1%Z); ([Fin 1], PInf, 1%Z)].
  assert (M0 : mn [Fin 0] = ([Fin 0], NaN, true)) by (cbn; destruct (Req_EM_T 0 0); [reflexivity|lra]).
  assert (M1 : mn [Fin 1] = ([Fin 1], PInf, true)) by (cbn; destruct (Req_EM_T 1 0); [lra|reflexivity]).
  assert (G0 : return_random_pinit nat (count_normal f) (fun p => p) 0%nat ([Fin 9], [Fin 1]) = ([Fin 0], false, 1%nat))
    by (apply (count_good f (fun p => p)); intros [H|[]]; discriminate).
  assert (G1 : return_random_pinit nat (count_normal f) (fun p => p) 1%nat ([Fin 9], [Fin 1]) = ([Fin 1], false, 2%nat))
    by (apply (count_good f (fun p => p)); intros [H|[]]; discriminate).
  split.
  - unfold minimizer_wrapper. cbn [restarts]. cbn [xgt xlt]. rewrite G0, M0. cbn [app losses map fst snd all_nan forallb isnan andb xgt xlt].
    rewrite G1, M1. reflexivity.
  - split; [|exists ([Fin 1], PInf, 1%Z); split; [right; left; reflexivity|discriminate]].
    apply random_pinit in G0, G1. eapply valid_attempt; [exact G0|exact M0|]. eapply valid_attempt; [exact G1|exact M1|constructor].
Qed.

(** C54: a converged attempt can lose to a placeholder *)
Lemma placeholder_wins : exists (normal : nat -> list xr -> list xr -> list xr * nat) grad minimize pi s' x,
  minimizer_wrapper nat normal grad minimize 0%nat pi (Fin (1 / 10)) 2 = Some ((fst pi, Fin (99999 / 100), (-1)%Z), s') /\
  attempts nat normal grad minimize pi 0%nat [(fst pi, Fin (99999 / 100), (-1)%Z); (x, Fin 5000, 1%Z)] s' /\
  forall p, minimize p = (x, Fin 5000, true).
Proof.
  set (f := fun s : nat => if Nat.ltb s 1001 then [NaN] else [Fin 1]).
  set (mn := fun _ : list xr => ([Fin 2], Fin 5000, true)).
  exists (count_normal f), (fun p => p), mn, ([Fin 9], [Fin 1]), 1002%nat, [Fin 2].
  assert (G0 : return_random_pinit nat (count_normal f) (fun p => p) 0%nat ([Fin 9], [Fin 1]) = (f (0 + 1000)%nat, true, (0 + 1001)%nat)).
  { apply (count_bad f (fun p => p)). intros k Hk. unfold f. apply Nat.ltb_lt in Hk. rewrite Nat.add_0_l, Hk. left; reflexivity. }
  assert (F1 : f 1001%nat = [Fin 1]) by reflexivity.
  assert (G1 : return_random_pinit nat (count_normal f) (fun p => p) 1001%nat ([Fin 9], [Fin 1]) = (f 1001%nat, false, 1002%nat)).
  { apply (count_good f (fun p => p)). rewrite F1. intros [H|[]]; discriminate. }
  change (0 + 1001)%nat with 1001%nat in G0.
  split; [|split; [|reflexivity]].
  - assert (T1 : xgt PInf (Fin (1 / 10)) = true) by reflexivity.
    assert (T2 : xgt (Fin (99999 / 100)) (Fin (1 / 10)) = true) by (apply xlt_fin; lra).
    unfold minimizer_wrapper. cbn [restarts]. rewrite T1, G0. cbn [app losses map fst snd np_min fold_left].
    rewrite T2, G1. unfold mn. cbn [app losses map fst snd all_nan forallb isnan andb np_nanmin filter negb np_min fold_left].
    unfold np_nanargmin. cbn [all_nan forallb isnan andb map np_argmin argbest negb orb].
    assert (T3 : xlt (Fin 5000) (Fin (99999 / 100)) = false) by (apply xlt_fin_false; lra).
    rewrite T3. reflexivity.
  - apply random_pinit in G0, G1. eapply invalid_attempt; [exact G0|]. eapply valid_attempt; [exact G1|reflexivity|constructor].
Qed.

Lemma restarts_S rng normal grad mn fuel s pi tol acc cur :
  restarts rng normal grad mn (S fuel) s pi tol acc cur
  = if xgt cur tol then
      let '(p, isnan, s) := return_random_pinit rng normal grad s pi in
      if isnan then
        let acc := acc ++ [(fst pi, Fin (99999 / 100), (-1)%Z)] in
        match np_min (losses acc) with
        | Some m => restarts rng normal grad mn fuel s pi tol acc m
        | None => None
        end
      else
        let '(x, f, _) := mn p in
        let acc := acc ++ [(x, f, 1%Z)] in
        if all_nan (losses acc) then restarts rng normal grad mn fuel s pi tol acc PInf
        else match np_nanmin (losses acc) with
             | Some m => restarts rng normal grad mn fuel s pi tol acc m
             | None => None
             end
    else Some (acc, s).
Proof. reflexivity. Qed.

(** C55: the loop gives up after two of ten attempts; the third would have reached loss 0 *)
Lemma early_exit : exists (normal : nat -> list xr -> list xr -> list xr * nat) grad minimize pi s' s'' l x,
  minimizer_wrapper nat normal grad minimize 0%nat pi (Fin (1 / 10)) 10 = Some ((fst pi, Fin (99999 / 100), (-1)%Z), s') /\
  attempts nat normal grad minimize pi 0%nat l s' /\ length l = 2%nat /\ over (Fin (1 / 10)) l /\
  attempts nat normal grad minimize pi s' [(x, Fin 0, 1%Z)] s''.
Proof.
  set (f := fun s : nat => match s with O => [Fin 0] | _ => if Nat.leb s 1001 then [NaN] else [Fin 1] end).
  set (mn := fun p : list xr => match p with [Fin r] => if Req_EM_T r 0 then (p, NaN, true) else (p, Fin 0, true) | _ => (p, NaN, true) end).
  exists (count_normal f), (fun p => p), mn, ([Fin 9], [Fin 1]), 1002%nat, 1003%nat,
    [([Fin 0], NaN, 1%Z); ([Fin 9], Fin (99999 / 100), (-1)%Z)], [Fin 1].
  assert (M0 : mn [Fin 0] = ([Fin 0], NaN, true)) by (cbn; destruct (Req_EM_T 0 0); [reflexivity|lra]).
  assert (M1 : mn [Fin 1] = ([Fin 1], Fin 0, true)) by (cbn; destruct (Req_EM_T 1 0); [lra|reflexivity]).
  assert (G0 : return_random_pinit nat (count_normal f) (fun p => p) 0%nat ([Fin 9], [Fin 1]) = ([Fin 0], false, 1%nat))
    by (apply (count_good f (fun p => p)); intros [H|[]]; discriminate).
  assert (G1 : return_random_pinit nat (count_normal f) (fun p => p) 1%nat ([Fin 9], [Fin 1]) = (f (1 + 1000)%nat, true, (1 + 1001)%nat)).
  { apply (count_bad f (fun p => p)). intros k Hk. unfold f. cbn [Nat.add]. destruct (Nat.leb (S k) 1001) eqn:E; [left; reflexivity|].
    apply Nat.leb_gt in E. lia. }
  assert (F2 : f 1002%nat = [Fin 1]) by reflexivity.
  assert (G2 : return_random_pinit nat (count_normal f) (fun p => p) 1002%nat ([Fin 9], [Fin 1]) = (f 1002%nat, false, 1003%nat)).
  { apply (count_good f (fun p => p)). rewrite F2. intros [H|[]]; discriminate. }
  change (1 + 1001)%nat with 1002%nat in G1.
  split; [|split; [|split; [reflexivity|split]]].
  - assert (T1 : xgt PInf (Fin (1 / 10)) = true) by reflexivity.
    unfold minimizer_wrapper. rewrite restarts_S, T1, G0, M0.
    cbv zeta. change (all_nan (losses ([] ++ [([Fin 0], NaN, 1%Z)]))) with true. cbv iota.
    rewrite restarts_S, T1, G1. cbv zeta. change (np_min (losses _)) with (Some NaN). cbv iota.
    rewrite restarts_S. reflexivity.
  - apply random_pinit in G0, G1. eapply valid_attempt; [exact G0|exact M0|]. eapply invalid_attempt; [exact G1|constructor].
  - intros a [<-|[<-|[]]]; [reflexivity|]. cbn [fst snd]. apply xlt_not_le. apply xlt_fin. lra.
  - apply random_pinit in G2. rewrite F2 in G2. eapply valid_attempt; [exact G2|exact M1|constructor].
Qed.

(** ** The whole fitter *)
Section FitterProofs.
Variable lmk : MahParams xr -> xr -> xr -> xr.
Variable msh : MahParams xr -> list xr -> xr -> list xr * list xr.
Variable rng : Type.
Variable normal : rng -> list xr -> list xr -> list xr * rng.
Variable loss_grad : LossData -> list xr -> list xr.
Variable minimize : (list xr -> option xr) -> (list xr -> list xr) -> list xr -> list xr * xr * bool.

Lemma attempts_In mn grad pi s l s' : attempts rng normal grad mn pi s l s' -> forall a, In a l ->
  a = (fst pi, Fin (99999 / 100), (-1)%Z) \/ exists p x f ok, mn p = (x, f, ok) /\ ~ In NaN (grad p) /\ a = (x, f, 1%Z).
Proof.
  induction 1 as [|s p s1 x f ok l s2 Hst Hm Hat IH|s p s1 l s2 Hst Hat IH]; intros a Ha.
  - contradiction.
  - destruct Ha as [<-|Ha]; [|apply IH, Ha]. right. exists p, x, f, ok. split; [exact Hm|]. split; [|reflexivity].
    destruct Hst as (n & _ & _ & _ & _ & Hf & _). intros H. apply Hf in H. discriminate.
  - destruct Ha as [<-|Ha]; [left; reflexivity|apply IH, Ha].
Qed.

Lemma fitter_spec s ts ss mah dlogm tmin mmin tau floor lgt0 fb mp :
  fit_input ts ss tau floor -> last (snd (msh mah (map Fin ts) lgt0)) NaN = Fin mp ->
  (forall L g x, exists v f ok, minimize L g x = (map Fin (params_list v), f, ok)) ->
  exists p lb c s', diffstar_fitter lmk msh rng normal loss_grad minimize s (map Fin ts) (map Fin ss) mah (Fin dlogm) (Fin tmin) (Fin mmin)
      (Fin tau) (Fin floor) lgt0 fb = Some (map_d Fin p, lb, c, s') /\ in_bounds p /\
    ((c = 1%Z /\ exists init d start u ok,
        get_loss_data_default msh (map Fin ts) (map Fin ss) mah (Fin dlogm) (Fin tmin) (Fin mmin) (Fin tau) (Fin floor) lgt0 fb = Some (init, d) /\
        ~ In NaN (loss_grad d start) /\
        minimize (fun u => loss_default_clipssfrh lmk u d) (loss_grad d) start = (map Fin (params_list u), lb, ok) /\
        get_bounded_diffstar_params (map_d Fin u) = map_d Fin p) \/
     (c = (-1)%Z /\ lb = Fin (99999 / 100) /\ p = guess_spec mp)).
Proof.
  intros H1 H2 Hmin. destruct (initial_guess msh ts ss mah dlogm tmin mmin tau floor lgt0 fb mp H1 H2) as (u0 & d & E & Hb & Hin).
  unfold diffstar_fitter. rewrite E. set (pi := (map Fin (params_list u0), _)). set (mn := minimize _ _).
  destruct (wrapper_spec rng normal (loss_grad d) mn pi s (1 / 10) 10) as (l & s' & res & Hw & Hat & _ & _ & _ & Hnan & _ & HIn).
  rewrite Hw.
  assert (Hres : res = (fst pi, Fin (99999 / 100), (-1)%Z) \/ exists p x f ok, mn p = (x, f, ok) /\ ~ In NaN (loss_grad d p) /\ res = (x, f, 1%Z)).
  { destruct (Classical_Prop.classic (exists a, In a l /\ snd (fst a) <> NaN)) as [Hex|Hno].
    - apply (attempts_In _ _ _ _ _ _ Hat). apply HIn; [|exact Hex]. destruct Hex as (a & Ha & _). intros ->. contradiction.
    - left. apply Hnan. intros a Ha. destruct (Classical_Prop.classic (snd (fst a) = NaN)) as [|Hc]; [assumption|]. exfalso. apply Hno. exists a; auto. }
  destruct Hres as [->|(st & x & f & ok & Hm & Hg & ->)].
  - exists (guess_spec mp), (Fin (99999 / 100)), (-1)%Z, s'. cbn [pi fst]. rewrite d_make_list, Hb. split; [reflexivity|].
    split; [exact Hin|]. right. auto.
  - unfold mn in Hm. destruct (Hmin (fun u => loss_default_clipssfrh lmk u d) (loss_grad d) st) as (v & f' & ok' & Hm').
    rewrite Hm in Hm'. apply pair_equal_spec in Hm'. destruct Hm' as [Hm' _]. apply pair_equal_spec in Hm'. destruct Hm' as [-> _].
    rewrite d_make_list. destruct (bounded_diffstar_in_bounds v) as (p & Hp & Hpin). rewrite Hp.
    exists p, f, 1%Z, s'. split; [reflexivity|]. split; [exact Hpin|]. left. split; [reflexivity|].
    exists pi, d, st, v, ok. split; [reflexivity|auto].
Qed.
End FitterProofs.

(** ** The true parameters of an exact model history *)
Lemma fstar_first ts ms tau f : length ts = length ms -> ts <> [] -> increasing ts -> 0 < tau ->
  compute_fstar (map Fin ts) (map Fin ms) (Fin tau) = map Fin f -> nth 0 f 0 = 0.
Proof.
  intros Hl Hne Hi Ht Hf. destruct ts as [|t ts]; [congruence|]. destruct ms as [|m ms]; [discriminate|].
  destruct (jnp_interp_fin (t - tau) (t :: ts) (m :: ms) Hl ltac:(simpl; lia) Hi) as (v & Hv & H0 & _).
  cbn [nth] in H0. rewrite H0 in Hv by lra.
  destruct f as [|f0 f]; [discriminate|]. cbn [nth].
  unfold compute_fstar in Hf. cbn [map] in Hf. change (xsub (Fin t) (Fin tau)) with (Fin (t - tau)) in Hf.
  change (Fin t :: map Fin ts) with (map Fin (t :: ts)) in Hf. change (Fin m :: map Fin ms) with (map Fin (m :: ms)) in Hf.
  rewrite Hv in Hf. cbn [map map2] in Hf. apply (f_equal (hd NaN)) in Hf. cbn [hd] in Hf. revert Hf.
  change (xsub (Fin m) (Fin m)) with (Fin (m - m)). rewrite !xdiv_fin by lra.
  replace ((m - m) / tau / 10 ^ 9) with 0 by (field; lra). rewrite (proj2 (xlt_fin_false 0 0)) by lra.
  intros H; injection H; auto.
Qed.

Lemma fit_loss_ge_last floor s m f S M LM LF W WF lgqt lgtmax :
  prior lgqt lgtmax + 1 / 2 * last (map2 Rminus (map2 (fun x m => log10R (Rmax x (m * (floor / 10)))) f m) LF) 0 ^ 2
  <= fit_loss floor s m f S M LM LF W WF lgqt lgtmax.
Proof.
  unfold fit_loss. pose proof wmse_nonneg as H. set (rf := map2 Rminus _ LF).
  pose proof (H (map2 (fun a b => log10R a - b) m LM) W). pose proof (H rf WF).
  match goal with |- context [wmse (map2 ?g ?a M) W] => pose proof (H (map2 g a M) W) end. lra.
Qed.

Lemma fstar_target_nth floor f mass i : length f = length mass -> (i < length f)%nat ->
  floor * nth i mass 0 <= nth i (fstar_target floor f mass) 0.
Proof.
  intros Hl Hi. unfold fstar_target, fstar_floor. cbv zeta.
  rewrite (nth_map _ _ _ 0) by (rewrite map2_length; lia). rewrite (map2_nth _ _ _ _ 0 0) by lia.
  eapply Rle_trans; [|apply Rmax_l]. apply Rmax_r.
Qed.

Lemma floor_residual floor x m t : 0 < floor -> 0 < m -> x <= floor / 10 * m -> floor * m <= t ->
  log10R (Rmax x (m * (floor / 10))) - log10R t <= -1.
Proof.
  intros Hf Hm Hx Ht. assert (Hp : 0 < floor * m) by (apply Rmult_lt_0_compat; assumption).
  rewrite Rmax_right by lra. pose proof (log10_le (floor * m) t Hp Ht).
  replace (floor * m) with (m * (floor / 10) * 10) in H by field. rewrite log10_mult, log10_10 in H; [lra| |lra].
  apply Rmult_lt_0_compat; lra.
Qed.

Lemma true_params_loss lmk msh ts mah dlogm tmin mmin tau floor lgt0 fb mp h p :
  ts <> [] -> increasing (1 / 1000 :: ts) -> 0 < tau -> 0 < floor ->
  last (snd (msh mah (map Fin ts) lgt0)) NaN = Fin mp -> halo_history lmk mah lgt0 h ts -> in_bounds p ->
  exists s m f u init d lgtmax v,
    calc_sfh_singlegal_smh lmk (map_d Fin p) mah (map Fin ts) lgt0 (Fin fb) = Some (map Fin s, map Fin m) /\
    compute_fstar (map Fin ts) (map Fin m) (Fin tau) = map Fin f /\
    get_unbounded_diffstar_params (map_d Fin p) = map_d Fin u /\
    get_loss_data_default msh (map Fin ts) (map Fin s) mah (Fin dlogm) (Fin tmin) (Fin mmin) (Fin tau) (Fin floor) lgt0 (Fin fb) = Some (init, d) /\
    loss_default_clipssfrh lmk (map Fin (params_list u)) d = Some (Fin v) /\
    prior (d_lg_qt p) lgtmax < v /\
    (last f 0 <= floor / 10 * last m 0 -> prior (d_lg_qt p) lgtmax + 1 / 2 <= v).
Proof.
  intros Hne Hi Htau Hfl Hmp Hh Hin.
  set (s := map (fun t => sfr_spec p fb (h t) t) ts).
  pose proof (calc_sfh_smh_value lmk p mah ts lgt0 fb h Hh) as Hv. cbv zeta in Hv. fold s in Hv.
  assert (Hsl : length ts = length s) by (unfold s; rewrite map_length; reflexivity).
  assert (Hs0 : Forall (fun x => 0 <= x) s).
  { unfold s. rewrite Forall_map. apply Forall_forall. intros t _. pose proof (sfr_spec_floor p fb (h t) t). lra. }
  assert (HI : fit_input ts s tau floor) by (repeat split; assumption).
  destruct (loss_data_value msh ts s mah dlogm tmin mmin tau floor lgt0 (Fin fb) mp HI Hmp)
    as (m & f & w & wf & k & A1 & A2 & A3 & A4 & A5 & _ & A7 & A8 & E).
  assert (Hm : m = massR ts s).
  { rewrite cumulative_fin in A1 by exact Hsl. apply Some_inj in A1. apply map_Fin_inj in A1. auto. }
  rewrite <- Hm in Hv.
  set (lf := map log10R (fstar_target floor f m)) in *.
  assert (Hlf : length lf = length ts).
  { unfold lf, fstar_target, fstar_floor. rewrite !map_length. apply map2_len; assumption. }
  assert (Hlf0 : lf <> []) by (destruct lf, ts; try discriminate; congruence).
  destruct (weights_pos _ _ _ _ _ _ _ _ _ Hlf0 A7) as [Pw Pwf]. destruct A7 as (Hw & Hwf & _).
  set (u := join_params (unbounded_msR (slice_ms p)) (unbounded_qR (slice_q p))).
  pose proof (unbounded_diffstar_fin p Hin) as Hu. fold u in Hu.
  destruct (loss_value lmk u ts mah m (map log10R m) (map (fun s => Rmax s (1 / 10 ^ 14)) s) lf tau floor w wf (log10R (nth k ts 0)) lgt0 fb h)
    as (p' & s' & m' & f' & B1 & B2 & B3 & B4 & C1 & C2 & C3 & C4 & B5); auto; rewrite ?map_length; auto.
  assert (Hp' : p' = p).
  { rewrite <- Hu, bounded_unbounded_id in B1 by exact Hin. destruct p, p'. unfold map_d in B1. cbn in B1. injection B1; intros; subst. reflexivity. }
  subst p'. rewrite Hv in B3. apply Some_inj in B3. apply pair_equal_spec in B3. destruct B3 as [Hs' Hm'].
  apply map_Fin_inj in Hs', Hm'. subst s' m'. rewrite A2 in B4. apply map_Fin_inj in B4. subst f'.
  assert (Hn : length ts <> 0%nat) by (destruct ts; [congruence|discriminate]).
  assert (Res : forall i, (i < length ts)%nat -> nth i f 0 <= floor / 10 * nth i m 0 ->
     log10R (Rmax (nth i f 0) (nth i m 0 * (floor / 10))) - nth i lf 0 <= -1).
  { intros i Hi' Hx. unfold lf. rewrite (nth_map _ _ _ 0) by (unfold lf in Hlf; rewrite map_length in Hlf; lia).
    apply floor_residual; auto; [apply (F_nth _ _ _ 0 A5); lia|]. apply fstar_target_nth; lia. }
  exists s, m, f, u. eexists; eexists; exists (log10R (nth k ts 0)). eexists.
  split; [exact Hv|]. split; [exact A2|]. split; [exact Hu|]. split; [exact E|]. split; [exact B5|]. split.
  - destruct (fit_loss_ge_prior floor s m f (map (fun s => Rmax s (1 / 10 ^ 14)) s) m (map log10R m) lf w wf (d_lg_qt p) (log10R (nth k ts 0))) as [H|H]; [exact H|].
    exfalso. symmetry in H. rewrite (fit_loss_eq_prior (length ts)) in H; auto; rewrite ?map_length; auto.
    destruct (H 0%nat ltac:(lia)) as (_ & H0 & _).
    pose proof (fstar_first ts m tau f ltac:(lia) Hne (increasing_tail _ _ Hi) Htau A2) as Hf0.
    assert (0 < nth 0 m 0) by (apply (F_nth _ _ _ 0 A5); lia).
    assert (0 < floor / 10 * nth 0 m 0) by (apply Rmult_lt_0_compat; lra).
    specialize (Res 0%nat ltac:(lia) ltac:(rewrite Hf0; lra)). lra.
  - intros Hq. eapply Rle_trans; [|apply fit_loss_ge_last].
    rewrite (last_nth (map2 Rminus _ _)), !map2_length. replace (Nat.min (Nat.min (length f) (length m)) (length lf) - 1)%nat with (length ts - 1)%nat by lia.
    rewrite (map2_nth _ _ _ _ 0 0) by (rewrite ?map2_length; lia). rewrite (map2_nth _ _ _ _ 0 0) by lia.
    rewrite !last_nth, A3, A4 in Hq. specialize (Res (length ts - 1)%nat ltac:(lia) Hq).
    set (x := _ - nth _ lf 0) in *. nra.
Qed.

(** A starless three-snapshot history satisfies the second hypothesis. *)
Lemma quiet_history : exists s m f,
  calc_sfh_singlegal_smh (fun _ _ _ => Fin 12) (map_d Fin (guess_spec 12)) (mkMah NaN NaN NaN NaN NaN) (map Fin [1; 5; 13]) NaN (Fin 0)
    = Some (map Fin s, map Fin m) /\
  compute_fstar (map Fin [1; 5; 13]) (map Fin m) (Fin 1) = map Fin f /\ last f 0 <= 1 / 10 ^ 6 / 10 * last m 0.
Proof.
  set (p := guess_spec 12). set (ts := [1; 5; 13]).
  assert (Hh : halo_history (fun _ _ _ => Fin 12) (mkMah NaN NaN NaN NaN NaN) NaN (fun _ => 12) ts) by (repeat constructor; lra).
  pose proof (calc_sfh_smh_value (fun _ _ _ => Fin 12) p (mkMah NaN NaN NaN NaN NaN) ts NaN 0 (fun _ => 12) Hh) as Hv. cbv zeta beta in Hv.
  assert (Hs : map (fun t => sfr_spec p 0 12 t) ts = [1 / 10 ^ 14; 1 / 10 ^ 14; 1 / 10 ^ 14]).
  { assert (G : forall t, sfr_spec p 0 12 t = 1 / 10 ^ 14).
    { intros t. unfold sfr_spec, ms_spec. rewrite !Rmult_0_l, Rmult_0_r. apply Rmax_left. left. apply Rdiv_lt_0_compat; [lra|apply pow_lt; lra]. }
    unfold ts. cbn [map]. rewrite !G. reflexivity. }
  rewrite Hs in Hv. set (s := [1 / 10 ^ 14; 1 / 10 ^ 14; 1 / 10 ^ 14]) in *.
  assert (He : 0 < 1 / 10 ^ 14) by (apply Rdiv_lt_0_compat; [lra|apply pow_lt; lra]).
  destruct (fstar_bounds ts s 1 eq_refl ltac:(unfold ts; simpl; lra) ltac:(lra) ltac:(repeat constructor; lra)) as (m & f & Hm & Hf & Hfl & Hfb).
  rewrite cumulative_fin in Hm by reflexivity. apply Some_inj in Hm. apply map_Fin_inj in Hm. subst m.
  exists s, (massR ts s), f. split; [exact Hv|]. split; [exact Hf|].
  assert (Hml : length (massR ts s) = 3%nat) by (apply massR_length; reflexivity).
  pose proof (massR_pos ts s eq_refl ltac:(unfold ts; simpl; lra) ltac:(repeat constructor; lra)) as Hpos.
  pose proof (massR_diff ts s 0 eq_refl ltac:(simpl; lia)) as D0. pose proof (massR_diff ts s 1 eq_refl ltac:(simpl; lia)) as D1.
  assert (P0 : 0 < nth 0 (massR ts s) 0) by (apply (F_nth _ _ _ 0 Hpos); lia).
  rewrite !last_nth, Hml, Hfl. cbn [length ts Nat.sub].
  assert (F2 : 0 <= nth 2 f 0 <= list_Rmax 0 s) by (apply (F_nth _ _ _ 0 Hfb); rewrite Hfl; simpl; lia).
  assert (HR : list_Rmax 0 s = 1 / 10 ^ 14).
  { unfold s, list_Rmax. set (e := 1 / 10 ^ 14) in *. cbn [fold_right fold_left]. unfold Rmax. repeat destruct (Rle_dec _ _); lra. }
  rewrite HR in F2. unfold ts, s in D0, D1. cbn [nth] in D0, D1. unfold ts, s in *. lra.
Qed.
