(** Concrete cases for the properties of refined tables and of the parameter directions. *)
From Coq Require Import Reals Lra Lia List.
From Coquelicot Require Import Coquelicot.
From Verif Require Import XReal XFacts RealFacts ModelUtils ModelKernels ModelSfh SpecCore SpecRefine
  IntegralProofs SfhProofs GasProofs RefineProofs DirectionProofs.
Import List ListNotations.
Open Scope R_scope.

Lemma refine_example : (forall t, 1 <= t <= 13 -> continuous (fun t => log10R (10 ^ 12 * t)) t) /\
  halo_history linear_halo mah_any LGT0 (fun t => log10R (10 ^ 12 * t)) [1; 5 / 2; 13] /\
  increasing [1; 5 / 2; 13] /\ Forall (fun t => 1 <= t <= 13) [1; 5 / 2; 13] /\ spacing (21 / 2) [1; 5 / 2; 13].
Proof.
  split; [|split; [|split; [simpl; lra|split]]].
  - intros t Ht. apply (ex_derive_continuous (V := R_NormedModule)). unfold log10R. auto_derive. 
    repeat apply Rmult_lt_0_compat; lra.
  - unfold halo_history. repeat apply Forall_cons; try apply Forall_nil; (split; [lra|]);
      unfold linear_halo; cbn [xmul]; apply xlog10_fin; apply Rmult_lt_0_compat; try lra; apply pow_lt; lra.
  - repeat apply Forall_cons; try apply Forall_nil; lra.
  - intros i Hi. simpl in Hi. destruct i as [|[|i]]; simpl; lra || lia.
Qed.

Lemma sharp_example : (forall t, 1 <= t <= 4 -> is_derive (fun t => t ^ 2) t (2 * t)) /\ (forall t, 1 <= t <= 4 -> is_derive (fun t => 2 * t) t 2) /\
  exists mass, cumulative_mstar_formed (map Fin [1; 2; 4]) (map Fin (map (fun t => t ^ 2) [1; 2; 4])) = Some (map Fin mass) /\
  nth 2 mass 0 - nth 1 mass 0 - 10 ^ 9 * RInt (fun t => t ^ 2) 2 4 = 10 ^ 9 * (2 * 2 ^ 2 / 12) * (4 - 2).
Proof.
  split; [intros t _; auto_derive; [exact I|ring]|]. split; [intros t _; auto_derive; [exact I|ring]|].
  eexists. split; [apply cumulative_fin; reflexivity|].
  assert (E : RInt (fun t => t ^ 2) 2 4 = 56 / 3).
  { apply is_RInt_unique. replace (56 / 3) with (minus ((fun t => t ^ 3 / 3) 4) ((fun t => t ^ 3 / 3) 2)) by (unfold minus, plus, opp; simpl; field).
    apply (is_RInt_derive (fun t : R => t ^ 3 / 3) (fun t : R => t ^ 2)).
    - intros x _. auto_derive; [exact I|field].
    - intros x _. apply (ex_derive_continuous (V := R_NormedModule)). auto_derive. exact I. }
  rewrite E. unfold massR, cumR. cbn. field.
Qed.

Lemma direction_example : increasing (1 / 1000 :: [1; 5 / 2; 13]) /\
  forms_no_less (map (fun t => log10R (10 ^ 12 * t)) [1; 5 / 2; 13]) early (mkDiffstar 12 (-9) 2 (-1 / 2) (1 / 2) (-1) (-1) (-1 / 2)) /\
  differ_in_lgmcrit (mkDiffstar 14 (-10) 1 (-1) (1 / 2) (-1) (-2) (-1)) (mkDiffstar 15 (-10) 1 (-1) (1 / 2) (-1) (-2) (-1)) /\
  Forall (fun t => log10R (10 ^ 12 * t) <= 14) [1; 5 / 2; 13] /\
  differ_in_lgmcrit (mkDiffstar 11 (-10) 1 (-1) (1 / 2) (-1) (-2) (-1)) early /\
  Forall (fun t => 12 <= log10R (10 ^ 12 * t)) [1; 5 / 2; 13].
Proof.
  assert (B : forall t, 1 <= t <= 13 -> 12 <= log10R (10 ^ 12 * t) <= 14).
  { intros t Ht. rewrite log10_mult by (try lra; apply pow_lt; lra).
    rewrite <- (pow10_IZR 12), log10_pow10. replace (INR 12) with 12 by (simpl; ring). split.
    - pose proof (log10_le 1 t ltac:(lra) ltac:(lra)) as L. rewrite log10_1 in L. lra.
    - pose proof (log10_le t (10 * 10) ltac:(lra) ltac:(lra)) as L. rewrite log10_mult, log10_10 in L by lra. lra. }
  split; [simpl; lra|]. split; [|split; [reflexivity|split; [|split; [reflexivity|]]]].
  - unfold forms_no_less, early. cbn [d_lgmcrit d_lgy_at_mcrit d_indx_lo d_indx_hi d_lg_qt d_qlglgdt d_lg_drop d_lg_rejuv map].
    repeat (split; [lra|]).
    repeat apply Forall_cons; try apply Forall_nil;
      match goal with |- context [log10R (10 ^ 12 * ?t)] => pose proof (B t ltac:(lra)); generalize dependent (log10R (10 ^ 12 * t)); intros; nra end.
  - repeat apply Forall_cons; try apply Forall_nil; apply B; lra.
  - repeat apply Forall_cons; try apply Forall_nil; apply B; lra.
Qed.
