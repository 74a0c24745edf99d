(** The loaded halo histories and the masses of the Galacticus targets. *)
From Coq Require Import Reals List Lra Lia Bool ZArith String QArith Qreals.
From Verif Require Import XReal ModelUtils ModelKernels ModelSfh ModelPop ModelHist ModelLoad RealFacts XFacts SpecCore SpecLoad SpecGalacticus MoreLoadProofs GalacticusProofs.
Import List ListNotations.
Open Scope R_scope.

(** ** C65 *)
Lemma smdpl_gap sfh mh t sd : load_SMDPL_data sfh (map (map Fin) mh) t = Some sd ->
  exists ms, sd_log_mahs sd = map (map Fin) ms /\ Forall (Forall (fun x => x = 0 \/ 7 <= x)) ms.
Proof.
  intros H. destruct (smdpl_running_max sfh mh t sd H) as [(ms & E & F) _]. exists ms. split; [exact E|].
  clear -F. unfold running_max_rows in F. remember (map (map clipped_log) mh) as raw eqn:R. revert mh R.
  induction F as [|l m raw ms [L V] F IH]; intros mh R; [constructor|]. destruct mh as [|a mh]; [discriminate R|].
  injection R as R1 R2. constructor; [|exact (IH mh R2)]. apply Forall_forall. intros x Hx.
  apply In_nth with (d := 0) in Hx. destruct Hx as (i & Hi & <-). destruct (V i ltac:(lia)) as [_ (j & Hj & <-)].
  subst l. assert (J : (j < List.length (map clipped_log a))%nat) by lia.
  rewrite (nth_indep _ 0 (clipped_log 0)) by exact J. rewrite map_nth. apply clipped_log_range.
Qed.
Lemma running_rows_mono raw ms : running_max_rows raw ms ->
  Forall (fun m => forall i j, (i <= j < List.length m)%nat -> nth i m 0 <= nth j m 0) ms.
Proof.
  intros F. induction F as [|l m raw ms [L V] F IH]; constructor; [|exact IH].
  intros i j Hij. apply (running_mono l i j); [lia|apply V; lia|apply V; lia].
Qed.
Lemma loaded_masses_mono sfh mh t sd :
  load_tng_data sfh (map (map Fin) mh) t = Some sd \/ load_SMDPL_data sfh (map (map Fin) mh) t = Some sd ->
  exists ms, sd_log_mahs sd = map (map Fin) ms /\
    Forall (fun m => forall i j, (i <= j < List.length m)%nat -> nth i m 0 <= nth j m 0) ms.
Proof.
  intros [H|H]; [destruct (tng_running_max sfh mh t sd H) as [(ms & E & F) _]|destruct (smdpl_running_max sfh mh t sd H) as [(ms & E & F) _]];
    exists ms; (split; [exact E|exact (running_rows_mono _ _ F)]).
Qed.

(** ** C110 *)
Lemma model_mass_lags ts dm s M : increasing (0 :: ts) -> ts <> [] -> average_rates ts dm s ->
  cumulative_mstar_formed (map Fin ts) (map Fin s) = Some (map Fin M) ->
  (forall k, 0 <= dm k) -> (forall k, (S k < List.length ts)%nat -> interval ts (S k) <= interval ts k) ->
  forall k, (k < List.length ts)%nat -> nth k M 0 <= formed dm k - dm k / 2 + nth 0 ts 0 / 10 ^ 5 / 2.
Proof.
  intros Hi N A E D C k Hk. destruct (mass_seen ts dm s Hi N A) as (M' & E' & _ & V). rewrite E in E'. injection E' as E'.
  apply map_Fin_inj in E'. subst M'. rewrite (V k Hk). exact (interval_sum ts dm Hi N D C k Hk).
Qed.
Lemma model_mass_equal ts dm s M : increasing (0 :: ts) -> ts <> [] -> average_rates ts dm s ->
  cumulative_mstar_formed (map Fin ts) (map Fin s) = Some (map Fin M) ->
  (forall k, (S k < List.length ts)%nat -> interval ts (S k) = interval ts k) ->
  forall k, (k < List.length ts)%nat ->
  nth k M 0 = formed dm k - dm k / 2 - dm O / (2000 * nth 0 ts 0) + (nth 0 ts 0 - 1 / 1000) / 10 ^ 5 / 2.
Proof.
  intros Hi N A E C k Hk. destruct (mass_seen ts dm s Hi N A) as (M' & E' & _ & V). rewrite E in E'. injection E' as E'.
  apply map_Fin_inj in E'. subst M'. rewrite (V k Hk). exact (uniform_sum ts dm Hi N C k Hk).
Qed.
