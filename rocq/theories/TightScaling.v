(** The mean parameters of the population against straight lines. *)
From Coq Require Import Reals List Lra Lia Bool ZArith String QArith Qreals.
From Verif Require Import XReal ModelUtils ModelKernels ModelSfh ModelPopTables ModelPop RealFacts XFacts SpecPop SpecScaling SpecClose PopKernelProofs ScalingProofs ScalingTop.
Import List ListNotations.
Open Scope R_scope.

(** ** C103 *)
Lemma means_bent p P m tp mu mh gy : holds "" p P -> pop_in_bounds P -> slopes_nonzero P ->
  exists mc, diffstarpop_means_covs p (Fin m) (Fin tp) (Fin mu) (Fin mh) (Fin gy) = Some mc /\
    let close xs := fun e : nat * string => let (i, name) := e in
      exists x, nth i xs NaN = Fin x /\ Rabs (x - broken_line P name m) <= Rabs (P (name ++ "_hi")%string - P (name ++ "_lo")%string) / 9 in
    Forall (close (mu_mseq mc)) broken_mseq /\ Forall (close (mu_qseq mc)) broken_qseq.
Proof.
  intros H1 H2 H3. eexists. split; [exact (relations p P m tp mu mh gy H1 H2 H3)|]. cbv zeta.
  split; repeat constructor; (eexists; split; [reflexivity|]); exact (bent_close P _ m).
Qed.
Lemma means_stopped p P m tp mu mh gy : holds "" p P -> pop_in_bounds P -> slopes_nonzero P ->
  exists mc, diffstarpop_means_covs p (Fin m) (Fin tp) (Fin mu) (Fin mh) (Fin gy) = Some mc /\
    let close xs := fun e : nat * string * (R * R) => let '(i, name, (lo, hi)) := e in
      exists x, nth i xs NaN = Fin x /\ Rabs (x - stopped_line P name lo hi m) <= (P (name ++ "_int")%string - lo) / 6000 in
    Forall (close (mu_mseq mc)) stopped_mseq /\ Forall (close (mu_qseq mc)) stopped_qseq.
Proof.
  intros H1 H2 H3. eexists. split; [exact (relations p P m tp mu mh gy H1 H2 H3)|]. cbv zeta.
  assert (B : forall n lo hi lo' hi', assoc (n ++ "_int")%string POP_BOUNDS = Some (lo, hi) -> Q2R lo = lo' -> Q2R hi = hi' ->
    Rabs (line_in P n lo' hi' m - stopped_line P n lo' hi' m) <= (P (n ++ "_int")%string - lo') / 6000).
  { intros n lo hi lo' hi' E <- <-. pose proof (bound_of P _ _ _ H2 E) as B. apply kept_close; lra. }
  split; repeat constructor; (eexists; split; [reflexivity|]); (eapply B; [reflexivity|unfold Q2R; cbn; lra..]).
Qed.
