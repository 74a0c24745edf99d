(** Model of scripts/galacticus_analysis/galacticus_diffmah_fitter_script.py:26-138 and of
    diffstar/data_loaders/extract_galacticus_sfh_data.py:22-46: halo histories are shared out
    over ranks, prepared, fitted by diffmah and collated.  Definitions only.

    Simplifications: as in ModelIO (files are their contents, an exception in any rank is
    [None] for the run).  diffmah's fitter, header and row format are variables; the run ends
    with the table handed to diffmah's [write_collated_data]. *)
From Coq Require Import Reals List Bool ZArith Ascii.
From Verif Require Import XReal ModelUtils ModelLoad ModelIO.
Import List ListNotations.
Open Scope R_scope.

Local Notation length := List.length.

(** [nodeData] of the file: one history of masses and one of times per halo *)
Record MahFile := mkMahFile { mf_mass : list (list xr); mf_time : list (list xr) }.

Definition N_HALOS_TEST : nat := 50.

(** [x[-1]] and [x[0]] of an array that may be empty *)
Definition last_opt (l : list xr) : option xr := match l with [] => None | _ => Some (last l NaN) end.
Definition max_opt (l : list xr) : option xr := match l with [] => None | x :: l => Some (fold_left xmax l x) end.

Section Script.
Variable fitted : Type.
Variable HEADER : str.
(** [cfh.get_outline] and [cfh.diffmah_fitter] at a rank and a position in its loop *)
Variable get_outline : fitted -> str.
Variable fitter : nat -> nat -> list xr -> list xr -> bool -> option fitted.

(** 60-66: one rank's part of the catalog; an empty part raises *)
Definition part (f : MahFile) (nranks rank : nat) : option (list (list xr) * list (list xr)) :=
  match indices_for_rank (length (mf_mass f)) nranks rank with
  | Some ((istart :: _) as indx) =>
      let iend := (last indx 0 + 1)%nat in
      Some (firstn (iend - istart) (skipn istart (mf_mass f)), firstn (iend - istart) (skipn istart (mf_time f)))
  | _ => None
  end.

(** 77-78 *)
Definition t_max (times : list (list xr)) : option xr :=
  match vmap last_opt times with Some l => max_opt l | None => None end.
Definition t0_of (f : MahFile) (nranks : nat) : option xr :=
  match vmap (fun rank => match part f nranks rank with Some (_, times) => t_max times | None => None end) (seq 0 nranks) with
  | Some l => max_opt l
  | None => None
  end.

(** 90-103: the arguments of the fitter *)
Definition fit_input (T0 dt_fit_min : xr) (t_sim mah : list xr) : option (list xr * list xr * bool) :=
  let mah_sim := cummax mah in
  match last_opt t_sim with
  | None => None
  | Some t1 =>
      let dt := (t1 - hd NaN t_sim)%X in
      let force_skip_fit := (dt <? dt_fit_min)%X in
      if (t1 <? T0)%X then
        match last_opt mah_sim with
        | Some m1 => Some (t_sim ++ [T0], mah_sim ++ [m1], force_skip_fit)
        | None => None
        end
      else Some (t_sim, mah_sim, force_skip_fit)
  end.

(** 68-73, 84-110 *)
Definition mah_rank (f : MahFile) (dt_fit_min : xr) (is_test : bool) (T0 : xr) (nranks rank : nat) : option str :=
  match part f nranks rank with
  | None => None
  | Some (mahs, times) =>
      let n := if is_test then Nat.min (length mahs) N_HALOS_TEST else length mahs in
      match vmap (fun i =>
        match nth_error times i, nth_error mahs i with
        | Some t_sim, Some mah =>
            match fit_input T0 dt_fit_min t_sim mah with
            | Some (t, m, skip) => option_map get_outline (fitter rank i t m skip)
            | None => None
            end
        | _, _ => None
        end) (seq 0 n) with
      | Some lines => Some (HEADER ++ List.concat lines)
      | None => None
      end
  end.

(** 121-129 *)
Definition mah_script (f : MahFile) (dt_fit_min : xr) (is_test : bool) (nranks : nat) : option sarr :=
  match t0_of f nranks with
  | None => None
  | Some T0 =>
      match vmap (mah_rank f dt_fit_min is_test T0 nranks) (seq 0 nranks) with
      | Some files => match vmap genfromtxt_str files with Some c => np_concatenate c | None => None end
      | None => None
      end
  end.
End Script.
