(** The snapshots and pooled means of the targets. *)
From Coq Require Import Reals List Lra Lia Bool ZArith String QArith Qreals.
From Verif Require Import XReal ModelUtils ModelKernels ModelSfh ModelPop ModelHist ModelLoad ModelIO ModelTargets RealFacts XFacts SpecCore SpecHist SpecTargets SnapshotProofs TargetTopProofs.
Import List ListNotations.
Open Scope R_scope.

(** ** C74 *)
Section Snap.
Variables (age : xr -> xr) (A : R -> R).
Hypothesis Hage : forall z, 0 <= z <= 10 -> age (Fin z) = Fin (A z).
Hypothesis HA : forall z z', 0 <= z < z' -> z' <= 10 -> A z' < A z.
Lemma snapshot_first T zs : increasing T -> (2 <= List.length T)%nat -> hd 0 T < A 0 -> A 10 < last T 0 -> Forall (fun z => 0 <= z < 10) zs ->
  exists ids, return_target_redshift_index age (map Fin T) (map Fin zs) = Some ids /\
    Forall2 (fun z n => exists a, age_at A z a /\ (n <= List.length T)%nat /\
      (forall i, (i < n)%nat -> nth i T 0 < a) /\ (forall i, (n <= i < List.length T)%nat -> a <= nth i T 0)) zs ids.
Proof.
  intros HT H2 H0 H1 Hz. destruct (snapshot age A Hage HA T zs HT H2 H0 H1 Hz) as (ids & E & F). exists ids. split; [exact E|].
  clear -F HT. induction F as [|z n zs ids (a & H1 & ->) F IH]; constructor; [|exact IH].
  exists a. split; [exact H1|]. apply count_below_spec, HT.
Qed.
Lemma snapshot_age T zs : increasing T -> (2 <= List.length T)%nat -> hd 0 T < A 0 -> A 10 < last T 0 -> Forall (fun z => 0 <= z < 10) zs ->
  exists ids, return_target_redshift_index age (map Fin T) (map Fin zs) = Some ids /\
    Forall2 (fun z n => exists lo hi, lo <= z < hi /\ hi - lo = 10 / 1999 /\ 0 <= lo /\ hi <= 10 /\
      (forall i, (i < n)%nat -> nth i T 0 < A lo) /\ (forall i, (n <= i < List.length T)%nat -> A hi < nth i T 0)) zs ids.
Proof.
  intros HT H2 H0 H1 Hz. destruct (snapshot_first T zs HT H2 H0 H1 Hz) as (ids & E & F). exists ids. split; [exact E|].
  clear -F HA Hz. induction F as [|z n zs ids (a & Ha & _ & B & C) F IH]; [constructor|].
  inversion Hz as [|? ? Z1 Z2]; subst. constructor; [|exact (IH Z2)].
  destruct (age_at_bounds A z a HA Z1 Ha) as (lo & hi & B1 & B2 & B3 & B4 & B5).
  exists lo, hi. repeat split; try lra.
  - intros i H. specialize (B i H). lra.
  - intros i H. specialize (C i H). lra.
Qed.
End Snap.

(** ** C78 *)
Lemma pooled_bounds nz nm nms nsf ages outs f (P : Out -> nat -> nat -> list R) i j lo hi : outs <> [] ->
  (forall o, In o outs -> td_counts (fst o) = tbl nz nm (fun i j => INR (List.length (P o i j))) /\
                          td_hist (fst o) = tbl nz nm (fun i j => Rsum (P o i j))) ->
  collect nz nm nms nsf ages outs = Some f -> (i < nz)%nat -> (j < nm)%nat ->
  (exists o, In o outs /\ P o i j <> []) -> (forall o, In o outs -> Forall (fun x => lo <= x <= hi) (P o i j)) ->
  exists m, entry (f_smhm f) i j = Fin m /\ lo <= m <= hi.
Proof.
  intros N H E Hi Hj (o & Ho & Hn) B. destruct (collect_means nz nm nms nsf ages outs P N H) as (f' & E' & _ & V).
  rewrite E in E'. injection E' as <-. destruct (V i j Hi Hj) as (_ & _ & ->). apply mean_bounds.
  - destruct (P o i j) as [|x l] eqn:Q; [congruence|]. intros Z.
    assert (I : In x (List.concat (map (fun o => P o i j) outs))).
    { apply in_concat. exists (P o i j). split; [exact (in_map (fun o => P o i j) outs o Ho)|rewrite Q; now left]. }
    rewrite Z in I. destruct I.
  - apply Forall_forall. intros x Hx. apply in_concat in Hx. destruct Hx as (l & Hl & Hx). apply in_map_iff in Hl. destruct Hl as (o' & <- & Ho').
    exact (proj1 (Forall_forall _ _) (B o' Ho') x Hx).
Qed.
