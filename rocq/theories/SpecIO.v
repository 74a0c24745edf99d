(** Vocabulary for fit tables and data loading. *)
From Coq Require Import Reals List Bool ZArith Ascii String.
From Verif Require Import XReal ModelKernels ModelSfh ModelLoad ModelIO SpecFit.
Import List ListNotations.
Open Scope R_scope.

(** A number survives printing to six significant digits: relative error at most half a unit
    of the sixth digit; non-finite values survive unchanged. *)
Definition printed (x y : xr) : Prop :=
  match x with
  | Fin a => exists b, y = Fin b /\ Rabs (b - a) <= 5 / 10 ^ 6 * Rabs a
  | _ => y = x
  end.

(** The line [t] consists of the blank-separated fields [ws]. *)
Definition field (w : list ascii) : Prop :=
  w <> [] /\ ~ In " "%char w /\ ~ In (ascii_of_nat 10) w /\ ~ In "#"%char w.
Fixpoint spaced (ws : list (list ascii)) : list ascii :=
  match ws with
  | [] => []
  | [w] => w
  | w :: ws => w ++ " "%char :: spaced ws
  end.
Definition line_of (t : list ascii) (ws : list (list ascii)) : Prop :=
  Forall field ws /\ t = spaced ws ++ [ascii_of_nat 10].

(** What the fitting script found for one galaxy: nothing, or parameters, loss and flag. *)
Definition outcome := option (DiffstarParams xr * xr * Z).

(** One galaxy's entry in a fit table, and the whole table. *)
Record Entry := mkEntry { e_id : Z; e_params : DiffstarParams xr; e_loss : xr; e_success : Z }.
Definition fit_table (es : list Entry) : list (string * column) :=
  [("halo_id", CInt (map e_id es));
   ("lgmcrit", CFlt (map (fun e => d_lgmcrit (e_params e)) es));
   ("lgy_at_mcrit", CFlt (map (fun e => d_lgy_at_mcrit (e_params e)) es));
   ("indx_lo", CFlt (map (fun e => d_indx_lo (e_params e)) es));
   ("indx_hi", CFlt (map (fun e => d_indx_hi (e_params e)) es));
   ("lg_qt", CFlt (map (fun e => d_lg_qt (e_params e)) es));
   ("qlglgdt", CFlt (map (fun e => d_qlglgdt (e_params e)) es));
   ("lg_drop", CFlt (map (fun e => d_lg_drop (e_params e)) es));
   ("lg_rejuv", CFlt (map (fun e => d_lg_rejuv (e_params e)) es));
   ("loss", CFlt (map e_loss es));
   ("success", CInt (map e_success es))]%string.

(** The entry of galaxy [id] with outcome [o]: parameters rounded to single precision by
    [f4] and printed; placeholders -99, -1, -1 without a fit. *)
Definition entry_for (f4 : xr -> xr) (id : Z) (o : outcome) (e : Entry) : Prop :=
  e_id e = id /\
  match o with
  | None => params_list (e_params e) = repeat (Fin (-99)) 8 /\ e_loss e = Fin (-1) /\ e_success e = (-1)%Z
  | Some (p, loss, s) =>
      Forall2 printed (map f4 (params_list p)) (params_list (e_params e)) /\
      printed loss (e_loss e) /\ e_success e = s
  end.

(** The text file of one rank. *)
Definition outline (f4 : xr -> xr) (g : Z * outcome) : list ascii :=
  match snd g with
  | None => get_outline_nofit (fst g)
  | Some (p, loss, s) => get_outline f4 (fst g) p loss s
  end.
Definition rank_file (f4 : xr -> xr) (gs : list (Z * outcome)) : list ascii :=
  fst get_header ++ List.concat (map (outline f4) gs).

(** What a fitting script must do with one galaxy: fit it, in some rank and at some position
    of that rank's loop, when it is selected; leave it without a fit otherwise. *)
Definition treated (nranks : nat) (fit_at : nat -> nat -> outcome) (selected : Prop) (o : outcome) : Prop :=
  (selected -> exists rank i, (rank < nranks)%nat /\ o = fit_at rank i) /\ (~ selected -> o = None).
