(** Model of the fit tables: diffstar_fitting_helpers.py:245-288, the text files the fitting
    scripts write, read back and collate (scripts/galacticus_diffstar_fitter_script_mgash.py,
    scripts/diffstar_fitting_script_umachine_mgash.py, scripts/history_fitting_script_TNG_mgash.py),
    and the split of a catalog over MPI ranks.

    Text is a list of characters.  Files are their contents.  Barriers, timing, printing and
    file names are not modelled; an exception in any rank is [None] for the run. *)
From Coq Require Import Reals List Bool ZArith NArith Ascii String.
From Verif Require Import XReal ModelUtils ModelKernels ModelSfh ModelLoad.
Import ListNotations.
Open Scope R_scope.

Definition str := list ascii.
Definition lit (s : string) : str := list_ascii_of_string s.
Definition NL : ascii := ascii_of_nat 10.
Definition SP : ascii := " "%char.

(** ** Numbers as text *)

Definition digit (n : N) : ascii := ascii_of_N (48 + n).

(** [str] of an integer *)
Fixpoint dec_digits (fuel : nat) (n : N) (acc : str) : str :=
  match fuel with
  | O => acc
  | S fuel =>
      let acc := digit (n mod 10) :: acc in
      if (n / 10 =? 0)%N then acc else dec_digits fuel (n / 10)%N acc
  end.
Definition str_of_N (n : N) : str := dec_digits (S (N.size_nat n)) n [].
Definition str_of_Z (z : Z) : str :=
  match z with
  | Zneg p => "-"%char :: str_of_N (Npos p)
  | _ => str_of_N (Z.to_N z)
  end.

(** ["{:.5e}".format(x)]: six significant digits, round half to even, sign only when
    negative, exponent with a sign and at least two digits *)
Definition round_half_even (r : R) : Z :=
  let f := Int_part r in
  let d := r - IZR f in
  if Rltb d (1 / 2) then f
  else if Rltb (1 / 2) d then (f + 1)%Z
  else if Z.even f then f else (f + 1)%Z.

(** (mantissa, exponent) of a non-negative real: mantissa 0 or 100000..999999, value
    mantissa * 10 ** (exponent - 5) *)
Definition sci (a : R) : Z * Z :=
  if Reqb a 0 then (0, 0)%Z
  else
    let e := Int_part (log10R a) in
    let m := round_half_even (a / powerRZ 10 (e - 5)) in
    if (m =? 1000000)%Z then (100000, e + 1)%Z else (m, e).

Definition fmt_mantissa (m : N) : str :=
  [digit (m / 100000); "."%char; digit (m / 10000 mod 10); digit (m / 1000 mod 10);
   digit (m / 100 mod 10); digit (m / 10 mod 10); digit (m mod 10)]%N.
Definition fmt_exponent (e : Z) : str :=
  let a := Z.abs_N e in
  "e"%char :: (if (e <? 0)%Z then "-"%char else "+"%char)
    :: (if (a <? 10)%N then "0"%char :: str_of_N a else str_of_N a).
Definition fmt_5e (x : xr) : str :=
  match x with
  | NaN => lit "nan"
  | PInf => lit "inf"
  | NInf => lit "-inf"
  | Fin r =>
      let '(m, e) := sci (Rabs r) in
      (if Rltb r 0 then ["-"%char] else []) ++ fmt_mantissa (Z.to_N m) ++ fmt_exponent e
  end.

(** ** Text as numbers: the part of Python's [int] and [float] grammars without
    surrounding blanks, underscores and upper-case spellings *)
Definition is_digit (c : ascii) : bool :=
  let n := N_of_ascii c in (48 <=? n)%N && (n <=? 57)%N.
Fixpoint take_digits (s : str) : str * str :=
  match s with
  | [] => ([], [])
  | c :: t => if is_digit c then let '(d, r) := take_digits t in (c :: d, r) else ([], s)
  end.
Definition num_of_digits (ds : str) : N :=
  fold_left (fun v c => 10 * v + (N_of_ascii c - 48))%N ds 0%N.
Definition parse_sign (s : str) : bool * str :=
  match s with
  | c :: t => if Ascii.eqb c "-" then (true, t) else if Ascii.eqb c "+" then (false, t) else (false, s)
  | [] => (false, [])
  end.
Definition parse_int (s : str) : option Z :=
  let '(neg, t) := parse_sign s in
  match take_digits t with
  | ([], _) => None
  | (ds, []) => let v := Z.of_N (num_of_digits ds) in Some (if neg then (- v)%Z else v)
  | _ => None
  end.

Definition str_eqb (a b : str) : bool := if list_eq_dec ascii_dec a b then true else false.

Definition parse_float (s : str) : option xr :=
  let '(neg, t) := parse_sign s in
  if str_eqb t (lit "nan") then Some NaN
  else if str_eqb t (lit "inf") then Some (if neg then NInf else PInf)
  else
    let '(ip, r1) := take_digits t in
    let '(fp, r2) := match r1 with
                     | c :: u => if Ascii.eqb c "." then take_digits u else ([], r1)
                     | [] => ([], r1)
                     end in
    match ip ++ fp with
    | [] => None
    | ds =>
      let ex := match r2 with
                | [] => Some 0%Z
                | c :: u => if Ascii.eqb c "e" || Ascii.eqb c "E" then parse_int u else None
                end in
      match ex with
      | Some e =>
          let v := IZR (Z.of_N (num_of_digits ds)) * powerRZ 10 (e - Z.of_nat (List.length fp)) in
          Some (Fin (if neg then - v else v))
      | None => None
      end
    end.

(** ** diffstar_fitting_helpers.py:245-275: header and rows *)
Fixpoint join (sep : str) (l : list str) : str :=
  match l with
  | [] => []
  | [x] => x
  | x :: l => x ++ sep ++ join sep l
  end.

Definition MS_FIELDS : list string := ["lgmcrit"; "lgy_at_mcrit"; "indx_lo"; "indx_hi"]%string.
Definition Q_FIELDS : list string := ["lg_qt"; "qlglgdt"; "lg_drop"; "lg_rejuv"]%string.
Definition get_header : str * list string :=
  let colnames := ["halo_id"]%string ++ MS_FIELDS ++ Q_FIELDS ++ ["loss"; "success"]%string in
  (lit "# " ++ join [SP] (map lit colnames) ++ [NL], colnames).

Definition field_values {A} (p : DiffstarParams A) : list A :=
  [d_lgmcrit p; d_lgy_at_mcrit p; d_indx_lo p; d_indx_hi p;
   d_lg_qt p; d_qlglgdt p; d_lg_drop p; d_lg_rejuv p].

Section Rows.
(** [np.array(p).astype("f4")]: rounding of one number to single precision *)
Variable f4 : xr -> xr.

Definition row_text (halo_id : Z) (vals : list xr) (success : Z) : str :=
  str_of_Z halo_id ++ [SP] ++ join [SP] (map fmt_5e vals) ++ [SP] ++ str_of_Z success ++ [NL].

(** 255-261 *)
Definition get_outline (halo_id : Z) (p_best : DiffstarParams xr) (loss_best : xr) (success : Z) : str :=
  row_text halo_id (map f4 (field_values p_best) ++ [loss_best]) success.

(** 264-275 *)
Definition NOFIT_FILL : xr := Fin (-99).
Definition get_outline_nofit (halo_id : Z) : str :=
  row_text halo_id (map (fun z => z + NOFIT_FILL)%X (zeros (List.length MS_FIELDS + List.length Q_FIELDS)) ++ [Fin (-1)]) (-1).
End Rows.

(** ** Reading: np.genfromtxt(fn, dtype="str") *)
Fixpoint split_on (c : ascii) (s : str) : list str :=
  match s with
  | [] => [[]]
  | x :: t => match split_on c t with
              | [] => [[x]]
              | w :: ws => if Ascii.eqb x c then [] :: w :: ws else (x :: w) :: ws
              end
  end.
Fixpoint cut_comment (s : str) : str :=
  match s with
  | [] => []
  | c :: t => if Ascii.eqb c "#" then [] else c :: cut_comment t
  end.
(** str.split() on blanks *)
Definition split_ws (s : str) : list str :=
  filter (fun w => match w with [] => false | _ => true end) (split_on SP s).

(** numpy string arrays of dimension 0, 1 and 2 *)
Inductive sarr := S0 (s : str) | S1 (l : list str) | S2 (l : list (list str)).
(** np.squeeze of a table with rows of equal length *)
Definition squeeze (rows : list (list str)) : sarr :=
  match rows with
  | [] => S1 []
  | [[x]] => S0 x
  | [r] => S1 r
  | r :: _ => if Nat.eqb (List.length r) 1 then S1 (List.concat rows) else S2 rows
  end.
Definition genfromtxt_str (text : str) : option sarr :=
  let ls := split_on NL text in
  let rows := filter (fun r => match r with [] => false | _ => true end)
                     (map (fun l => split_ws (cut_comment l)) ls) in
  match rows with
  | [] => Some (S1 [])
  | r :: _ => if forallb (fun x => Nat.eqb (List.length x) (List.length r)) rows
              then Some (squeeze rows) else None
  end.

(** np.concatenate *)
Definition as1 (a : sarr) : option (list str) := match a with S1 l => Some l | _ => None end.
Definition as2 (a : sarr) : option (list (list str)) := match a with S2 l => Some l | _ => None end.
Definition np_concatenate (arrs : list sarr) : option sarr :=
  match arrs with
  | [] => None
  | S0 _ :: _ => None
  | S1 _ :: _ => match vmap as1 arrs with Some ls => Some (S1 (List.concat ls)) | None => None end
  | S2 r :: _ =>
      match vmap as2 arrs with
      | Some ls =>
          let rows := List.concat ls in
          if forallb (fun x => Nat.eqb (List.length x) (List.length (hd [] r))) rows
          then Some (S2 rows) else None
      | None => None
      end
  end.

(** ** diffstar_fitting_helpers.py:278-288 [write_collated_data] *)
Inductive column := CInt (v : list Z) | CFlt (v : list xr).
Definition write_collated_data (data : sarr) (colnames : list string) : option (list (string * column)) :=
  match data with
  | S2 ((r :: _) as rows) =>
      if Nat.eqb (List.length colnames) (List.length r) then
        vmap (fun ci => let '(i, name) := ci in
          let col := map (fun row => nth i row []) rows in
          if String.eqb name "halo_id" || String.eqb name "success" then
            match vmap parse_int col with Some v => Some (name, CInt v) | None => None end
          else
            match vmap parse_float col with Some v => Some (name, CFlt v) | None => None end)
          (combine (seq 0 (List.length colnames)) colnames)
      else None
  | _ => None
  end.

(** the collation code of the scripts (galacticus 168-179, umachine 211-221, TNG 139-147) *)
Definition collate (files : list str) : option (list (string * column)) :=
  match vmap genfromtxt_str files with
  | Some collector =>
      match np_concatenate collector with
      | Some results => write_collated_data results (snd get_header)
      | None => None
      end
  | None => None
  end.

(** ** np.array_split *)
Fixpoint cumsum (s : nat) (l : list nat) : list nat :=
  match l with [] => [] | x :: l => (s + x)%nat :: cumsum (s + x) l end.
Definition array_split {A} (a : list A) (n : nat) : option (list (list A)) :=
  if Nat.eqb n 0 then None
  else
    let N := List.length a in
    let each := (N / n)%nat in
    let extras := (N mod n)%nat in
    let sizes := [0%nat] ++ repeat (each + 1)%nat extras ++ repeat each (n - extras) in
    let div_points := cumsum 0 sizes in
    Some (map (fun i => let st := nth i div_points 0%nat in let en := nth (i + 1) div_points 0%nat in
                        firstn (en - st) (skipn st a)) (seq 0 n)).
Definition indices_for_rank (nhalos nranks rank : nat) : option (list nat) :=
  match array_split (seq 0 nhalos) nranks with
  | Some parts => nth_error parts rank
  | None => None
  end.

(** ** The scripts.  [fit] is [dfh.diffstar_fitter] at the script's settings; it draws from
    numpy's global generator, so its result may also depend on the rank and on the position
    of the galaxy in that rank's loop (the first two arguments). *)
Section Scripts.
Variable f4 : xr -> xr.
Variable mah_singlehalo : MahParams xr -> list xr -> xr -> list xr * list xr.
Variable DEFAULT_MAH_PARAMS : MahParams xr.
(** t_table, sfh, mah_params, lgt0, fb -> sfh_params_best, loss, success *)
Variable fit : nat -> nat -> list xr -> list xr -> MahParams xr -> xr -> xr -> option (DiffstarParams xr * xr * Z).

Definition LOGMP0_MIN : xr := Fin (105 / 10).
Definition MIN_LOGSM_Z0 : xr := Fin 8.
Definition FB_GALACTICUS : xr := Fin (493 / 10000 / (3153 / 10000)).
Definition FB_SMDPL : xr := Fin (48206 / 1000000 / (307115 / 1000000)).
Definition FB_TNG : xr := Fin (486 / 10000 / (3089 / 10000)).
Definition T0_SMDPL : xr := Fin (13820002 / 1000000).

Definition row_mah (p : MahParams (list xr)) (i : nat) : option (MahParams xr) :=
  match nth_error (logm0 p) i, nth_error (logtc p) i, nth_error (early_index p) i,
        nth_error (late_index p) i, nth_error (t_peak p) i with
  | Some a, Some b, Some c, Some d, Some e => Some (mkMah a b c d e)
  | _, _, _, _, _ => None
  end.

Definition outline_for (rank i : nat) (run_fitter : bool) (halo_id : Z) (tarr sfh : list xr) (mah : MahParams xr)
    (lgt0 fb : xr) : option str :=
  if run_fitter then
    match fit rank i tarr sfh mah lgt0 fb with
    | Some (p_best, loss, success) => Some (get_outline f4 halo_id p_best loss success)
    | None => None
    end
  else Some (get_outline_nofit halo_id).

Definition write_rows (rows : option (list str)) : option str :=
  match rows with Some ls => Some (fst get_header ++ List.concat ls) | None => None end.

(** galacticus_diffstar_fitter_script_mgash.py:95-157, one rank, without [-test] *)
Definition galacticus_rank (sfh_file diffmah_file : hdf) (sfh_colname : string) (logmp0_min : xr)
    (nranks rank : nat) : option str :=
  match col2 "sfh_in_situ" sfh_file with
  | None => None
  | Some tbl =>
    let nhalos_tot := List.length tbl in
    match indices_for_rank nhalos_tot nranks rank with
    | Some ((istart :: _) as indx) =>
      let iend := (last indx 0 + 1)%nat in
      match load_galacticus_sfh_data_block sfh_file (Z.of_nat istart) (Z.of_nat iend) with
      | Some block =>
        match col1 "tarr" block, col2 sfh_colname block with
        | Some tarr, Some sfhs =>
          let T0 := last_ tarr in
          match load_smdpl_diffmah_fits mah_singlehalo DEFAULT_MAH_PARAMS diffmah_file NPTS_FIT_MIN T0
                  (Z.of_nat istart) (Some (Z.of_nat iend)) with
          | Some fits =>
            let halo_ids := firstn (iend - istart) (skipn istart (seq 0 nhalos_tot)) in
            write_rows (vmap (fun i =>
              match nth_error halo_ids i, row_mah (df_params fits) i, nth_error (df_logmp0 fits) i,
                    nth_error (df_loss fits) i, nth_error sfhs i with
              | Some halo_id, Some mah, Some logmp0, Some loss, Some sfh =>
                match cumulative_mstar_formed tarr sfh with
                | Some mstar =>
                  let logsm_z0 := xlog10 (last_ mstar) in
                  let has_fit := (Fin 0 <? loss)%X && (logmp0_min <? logmp0)%X in
                  let run_fitter := ((logmp0_min <? logmp0)%X && has_fit) && (MIN_LOGSM_Z0 <? logsm_z0)%X in
                  outline_for rank i run_fitter (Z.of_nat halo_id) tarr sfh mah (xlog10 T0) FB_GALACTICUS
                | None => None
                end
              | _, _, _, _, _ => None
              end) (seq 0 (List.length halo_ids)))
          | None => None
          end
        | _, _ => None
        end
      | None => None
      end
    | _ => None
    end
  end.
Definition galacticus_script (sfh_file diffmah_file : hdf) (sfh_colname : string) (logmp0_min : xr)
    (nranks : nat) : option (list (string * column)) :=
  match vmap (galacticus_rank sfh_file diffmah_file sfh_colname logmp0_min nranks) (seq 0 nranks) with
  | Some files => collate files
  | None => None
  end.

(** diffstar_fitting_script_umachine_mgash.py:128-195, one subvolume, one rank, without
    [-test]; [take] is numpy's [a[indx]] *)
Definition take {A} (a : list A) (indx : list nat) : option (list A) := vmap (fun i => nth_error a i) indx.
Definition umachine_rank (halo_ids : list Z) (sfhs : list (list xr)) (t_smdpl : list xr)
    (diffmah_file : hdf) (logmp0_min : xr) (nranks rank : nat) : option str :=
  match load_smdpl_diffmah_fits mah_singlehalo DEFAULT_MAH_PARAMS diffmah_file NPTS_FIT_MIN T0_SMDPL 0 None with
  | None => None
  | Some fits =>
    if Nat.eqb (List.length halo_ids) (List.length (df_logmp0 fits)) then
      let has_fit := map2 (fun l m => (Fin 0 <? l)%X && (logmp0_min <? m)%X) (df_loss fits) (df_logmp0 fits) in
      match indices_for_rank (List.length halo_ids) nranks rank with
      | None => None
      | Some indx =>
        match take halo_ids indx, take sfhs indx,
              vmap (row_mah (df_params fits)) indx, take (df_logmp0 fits) indx, take has_fit indx with
        | Some ids, Some ss, Some mahs, Some lms, Some hf =>
          write_rows (vmap (fun g => let '(((((i, halo_id), sfh), mah), logmp0), h) := g in
            outline_for rank i ((logmp0_min <? logmp0)%X && h) halo_id t_smdpl sfh mah (xlog10 T0_SMDPL) FB_SMDPL)
            (combine (combine (combine (combine (combine (seq 0 (List.length ids)) ids) ss) mahs) lms) hf))
        | _, _, _, _, _ => None
        end
      end
    else None
  end.
Definition umachine_script (halo_ids : list Z) (sfhs : list (list xr)) (t_smdpl : list xr)
    (diffmah_file : hdf) (logmp0_min : xr) (nranks : nat) : option (list (string * column)) :=
  match vmap (umachine_rank halo_ids sfhs t_smdpl diffmah_file logmp0_min nranks) (seq 0 nranks) with
  | Some files => collate files
  | None => None
  end.

(** history_fitting_script_TNG_mgash.py:71-133, one rank, without [-test]: every halo is
    fitted *)
Definition tng_rank (sd : SimData) (diffmah_file : hdf) (nranks rank : nat) : option str :=
  let nhalos_tot := List.length (sd_sfrh sd) in
  let tarr := sd_t sd in
  let T0 := last_ tarr in
  match indices_for_rank nhalos_tot nranks rank with
  | Some ((istart :: _) as indx) =>
    let iend := (last indx 0 + 1)%nat in
    match load_smdpl_diffmah_fits mah_singlehalo DEFAULT_MAH_PARAMS diffmah_file NPTS_FIT_MIN T0
            (Z.of_nat istart) (Some (Z.of_nat iend)) with
    | Some fits =>
      match take (seq 0 nhalos_tot) indx, take (sd_sfrh sd) indx with
      | Some ids, Some ss =>
        write_rows (vmap (fun i =>
          match nth_error ids i, nth_error ss i, row_mah (df_params fits) i with
          | Some halo_id, Some sfh, Some mah =>
              outline_for rank i true (Z.of_nat halo_id) tarr sfh mah (xlog10 T0) FB_TNG
          | _, _, _ => None
          end) (seq 0 (List.length ids)))
      | _, _ => None
      end
    | None => None
    end
  | _ => None
  end.
Definition tng_script (sd : SimData) (diffmah_file : hdf) (nranks : nat) : option (list (string * column)) :=
  match vmap (tng_rank sd diffmah_file nranks) (seq 0 nranks) with
  | Some files => collate files
  | None => None
  end.
End Scripts.
