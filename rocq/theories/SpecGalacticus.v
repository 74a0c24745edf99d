(** Vocabulary for the Galacticus target histories. *)
From Coq Require Import Reals List ZArith.
From Verif Require Import XReal ModelGalacticus SpecCore SpecLoad.
Import List ListNotations.
Open Scope R_scope.

(** Raw arrays of real numbers: [n] galaxies, increasing positive times, and for every
    galaxy the stellar mass formed in each time step in the bulge and in the disk. *)
Record RawR := mkRawR { rt : list R; rib : list (list R); rid : list (list R);
                        rtb : list (list R); rtd : list (list R); rcen : list R }.
Definition rect (n m : nat) (a : list (list R)) : Prop := length a = n /\ Forall (fun r => length r = m) a.
Definition raw_ok (n : nat) (r : RawR) : Prop :=
  rt r <> [] /\ increasing (0 :: rt r) /\
  rect n (length (rt r)) (rib r) /\ rect n (length (rt r)) (rid r) /\
  rect n (length (rt r)) (rtb r) /\ rect n (length (rt r)) (rtd r) /\ length (rcen r) = n.
Definition raw_of (r : RawR) : GalRaw :=
  mkRaw (map Fin (rt r)) (map (map Fin) (rib r)) (map (map Fin) (rid r))
        (map (map Fin) (rtb r)) (map (map Fin) (rtd r)) (map Fin (rcen r)).

(** Mass formed by galaxy [g] in step [k], and by the end of step [k]. *)
Definition made (bulge disk : list (list R)) (g k : nat) : R := nth k (nth g bulge []) 0 + nth k (nth g disk []) 0.
Fixpoint formed (dm : nat -> R) (k : nat) : R :=
  match k with O => dm O | S j => formed dm j + dm (S j) end.

(** The average star formation rates (Msun/yr) of the steps of a history. *)
Definition average_rates (ts : list R) (dm : nat -> R) (s : list R) : Prop :=
  length s = length ts /\
  forall k, (k < length ts)%nat -> nth k s 0 = dm k / (interval ts k * 10 ^ 9).

(** The mass by the end of step [k] when the averages are taken as instantaneous rates at
    the ends of the steps and joined by straight lines, starting from the rate 1e-14 at
    1 Myr: half of each step's mass, and half of the previous step's scaled by the ratio of
    the step lengths. *)
Fixpoint seen (ts : list R) (dm : nat -> R) (k : nat) : R :=
  match k with
  | O => (nth 0 ts 0 - 1 / 1000) * (1 / 10 ^ 5 + dm O / nth 0 ts 0) / 2
  | S j => seen ts dm j + dm (S j) / 2 + dm j / 2 * (interval ts (S j) / interval ts j)
  end.
