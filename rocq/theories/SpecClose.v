(** Straight-line approximations of the relations between a halo and the mean parameters of its
    galaxies.  Nothing here refers to the model's functions. *)
From Coq Require Import Reals List String.
From Verif Require Import SpecScaling.
Import ListNotations.
Open Scope R_scope.

(** The broken line with slopes [lo] and [hi] through the turning point (xtp, ytp). *)
Definition broken_line (P : string -> R) (name : string) (m : R) : R :=
  let par s := P (name ++ s)%string in
  par "_ytp"%string + (if Rlt_dec m (par "_xtp"%string) then par "_lo"%string else par "_hi"%string) * (m - par "_xtp"%string).

(** The straight line, stopped one percent of the way from the bounds to the anchor. *)
Definition stopped_line (P : string -> R) (name : string) (lo hi m : R) : R :=
  let y0 := P (name ++ "_int")%string in
  Rmax (lo + (y0 - lo) / 100) (Rmin (hi - (hi - y0) / 100) (line_y P name m)).

(** The mean parameters that follow a broken line, and those that follow a stopped one, by
    position. *)
Definition broken_mseq : list (nat * string) := [(0%nat, "mean_ulgm_mseq"%string); (1%nat, "mean_ulgy_mseq"%string)].
Definition broken_qseq : list (nat * string) := [(0%nat, "mean_ulgm_qseq"%string); (1%nat, "mean_ulgy_qseq"%string)].
Definition stopped_mseq : list (nat * string * (R * R)) :=
  [(2%nat, "mean_ul_mseq"%string, (-3, 5)); (3%nat, "mean_uh_mseq"%string, (-5, 3))].
Definition stopped_qseq : list (nat * string * (R * R)) :=
  [(2%nat, "mean_ul_qseq"%string, (-3, 5)); (3%nat, "mean_uh_qseq"%string, (-5, 3));
   (5%nat, "mean_uqs"%string, (-5, 2)); (6%nat, "mean_udrop"%string, (-3, 2)); (7%nat, "mean_urej"%string, (-10, 2))].
