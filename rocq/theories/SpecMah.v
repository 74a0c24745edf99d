(** Vocabulary for the fits of halo histories. *)
From Coq Require Import Reals List Bool Ascii.
From Verif Require Import XReal ModelMah SpecLoad SpecIO.
Import List ListNotations.
Open Scope R_scope.

Local Notation length := List.length.

(** A catalog of halos with masses [m g] at times [t g]; every halo has a history. *)
Definition catalog (f : MahFile) (N : nat) (t m : nat -> list R) : Prop :=
  mf_mass f = map (fun g => map Fin (m g)) (seq 0 N) /\ mf_time f = map (fun g => map Fin (t g)) (seq 0 N) /\
  forall g, (g < N)%nat -> t g <> [] /\ length (m g) = length (t g).

(** The end of a history, and the latest end of all. *)
Definition end_of (l : list R) : R := nth (length l - 1) l 0.
Definition latest (N : nat) (t : nat -> list R) (T0 : R) : Prop :=
  (forall g, (g < N)%nat -> end_of (t g) <= T0) /\ exists g, (g < N)%nat /\ end_of (t g) = T0.

(** What the fitter is given for a halo: the largest mass so far, kept to the common end time. *)
Definition prepared (T0 : R) (t m T M : list R) : Prop :=
  (forall i, (i < length t)%nat -> nth i T 0 = nth i t 0 /\ is_running_max m i (nth i M 0)) /\ length M = length T /\
  ((end_of t = T0 /\ length T = length t) \/
   (end_of t < T0 /\ length T = S (length t) /\ end_of T = T0 /\ end_of M = nth (length t - 1) M 0)).

(** Shares of a catalog: consecutive, as equal as possible, larger ones first. *)
Definition shares (N n : nat) (parts : list (list nat)) : Prop :=
  length parts = n /\ List.concat parts = seq 0 N /\
  forall r, (r < n)%nat -> length (nth r parts []) = (N / n + if r <? N mod n then 1 else 0)%nat.

(** A row format: one line of [k] blank-separated fields per fit, below a comment line. *)
Record row_format {fitted} (HEADER : list ascii) (get_outline : fitted -> list ascii) (k : nat) (fields : fitted -> list (list ascii)) : Prop := {
  rf_header : exists c, HEADER = "#"%char :: c ++ [ascii_of_nat 10] /\ ~ In (ascii_of_nat 10) c;
  rf_line : forall r, line_of (get_outline r) (fields r);
  rf_width : forall r, length (fields r) = k }.

(** The row written for halo [g] of share [parts]: the fields of what the fitter, in the loop of
    the rank that has the halo, makes of the prepared history. *)
Definition row_for {fitted} (fitter : nat -> nat -> list xr -> list xr -> bool -> option fitted) (fields : fitted -> list (list ascii))
    (T0 dt_min : R) (t m : nat -> list R) (parts : list (list nat)) (g : nat) (row : list (list ascii)) : Prop :=
  exists T M skip rank i out, prepared T0 (t g) (m g) T M /\ (skip = true <-> end_of (t g) - nth 0 (t g) 0 < dt_min) /\
    nth_error (nth rank parts []) i = Some g /\ fitter rank i (map Fin T) (map Fin M) skip = Some out /\ row = fields out.
