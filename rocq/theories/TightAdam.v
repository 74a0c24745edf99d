(** The first step of the optimiser. *)
From Coq Require Import Reals List Lra Lia Bool ZArith String QArith Qreals.
From Verif Require Import XReal ModelAdam RealFacts XFacts SpecHist SpecAdam AdamProofs.
Import List ListNotations.
Open Scope R_scope.

(** ** C124 *)
Lemma first_update s p g : List.length g = List.length p -> exists x,
  adam_params (adam_update (Fin s) 0 (map Fin g) (adam_init (Fin s) (map Fin p))) = map Fin x /\ List.length x = List.length p /\
  forall j, (j < List.length p)%nat -> nth j x 0 = nth j p 0 - s * nth j g 0 / (Rabs (nth j g 0) + 1 / 10 ^ 8).
Proof.
  intros L. pose proof (run_positions s p [g] ltac:(repeat constructor; exact L)) as E.
  cbn [numbered combine seq List.length adam_updates fold_left fst snd] in E.
  change (adam_updates s (numbered [g]) (adam_init (Fin s) (map Fin p))) with (adam_update (Fin s) 0 (map Fin g) (adam_init (Fin s) (map Fin p))) in E.
  eexists. split; [exact E|]. rewrite map_length, seq_length. split; [reflexivity|]. intros j Hj.
  rewrite (nth_indep _ 0 (adam_position s (nth 0 p 0) (column 0 [g]))) by (rewrite map_length, seq_length; exact Hj).
  rewrite (map_nth (fun j => adam_position s (nth j p 0) (column j [g]))), seq_nth by exact Hj. exact (first_position s _ _).
Qed.
