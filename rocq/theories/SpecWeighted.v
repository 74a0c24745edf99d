(** Smooth halo-mass histograms of a list of galaxies today.  Nothing here refers to the
    model's functions. *)
From Coq Require Import Reals List.
From Verif Require Import XReal SpecCore SpecHist.
Import List ListNotations.
Open Scope R_scope.

(** Table [w] over the bins with edges [E] adds, for every galaxy of [G], the triweight
    probability of its bin (centre: its last halo mass in [M]; width: the mean bin width)
    times [y]. *)
Definition smooth_table (G : list nat) (M : nat -> list R) (y : nat -> R) (E w : list R) : Prop :=
  length w = (length E - 1)%nat /\
  forall j, (S j < length E)%nat ->
  nth j w 0 = Rsum (map (fun g => tw_mass (last (M g) 0) (mean_bin E) (nth j E 0) (nth (S j) E 0) * y g) G).
