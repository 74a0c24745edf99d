(** Vocabulary for the properties of the population targets. *)
From Coq Require Import Reals List Bool ZArith.
From Verif Require Import XReal ModelUtils ModelKernels ModelSfh ModelTargets SpecCore SpecHist.
Import List ListNotations.
Open Scope R_scope.

(** Number of elements with a property. *)
Definition count {A} (P : A -> bool) (l : list A) : nat := length (filter P l).
Definition below (a t : R) : bool := if Rlt_dec t a then true else false.

(** Straight-line interpolation, between redshifts 0, 10/1999, 20/1999, ..., 10, of an
    age-redshift relation: [a] is the interpolated age at redshift [z]. *)
Definition knot (j : nat) : R := 10 * INR j / 1999.
Definition age_at (A : R -> R) (z a : R) : Prop :=
  exists j, (j < 1999)%nat /\ knot j <= z < knot (S j) /\
    a = A (knot j) + (A (knot (S j)) - A (knot j)) * ((z - knot j) / (knot (S j) - knot j)).

(** Bins of increasing edges, numbered from 0: closed on the left; the last is closed on the
    right too. *)
Definition inbin (E : list R) (j : nat) (x : R) : bool :=
  if Rle_dec (nth j E 0) x then
    if Nat.eqb (j + 2) (length E) then if Rle_dec x (nth (S j) E 0) then true else false
    else if Rlt_dec x (nth (S j) E 0) then true else false
  else false.
(** The same without the right end of the last bin, and without either end. *)
Definition half_open (E : list R) (j : nat) (x : R) : bool :=
  if Rle_dec (nth j E 0) x then if Rlt_dec x (nth (S j) E 0) then true else false else false.
Definition interior (E : list R) (j : nat) (x : R) : bool :=
  if Rlt_dec (nth j E 0) x then if Rlt_dec x (nth (S j) E 0) then true else false else false.
(** Between the first and the last edge. *)
Definition within (E : list R) (x : R) : bool := if Rle_dec (hd 0 E) x then if Rle_dec x (last E 0) then true else false else false.

(** Indices with a property. *)
Definition those (n : nat) (P : nat -> bool) : list nat := filter P (seq 0 n).

(** Tables of [n] halos at the times [T]: log halo mass, log stellar mass, log sSFR; with
    parameter columns of length [n]. *)
Record tables_are (tb : Tables) (n : nat) (T : list R) (M S F : list (list R)) : Prop := {
  ta_t : tb_t tb = map Fin T;
  ta_m : tb_log_mah tb = map (map Fin) M;
  ta_s : tb_log_smh tb = map (map Fin) S;
  ta_f : tb_log_ssfr tb = map (map Fin) F;
  ta_nm : length M = n; ta_ns : length S = n; ta_nf : length F = n;
  ta_wm : Forall (fun r => length r = length T) M;
  ta_ws : Forall (fun r => length r = length T) S;
  ta_wf : Forall (fun r => length r = length T) F;
  ta_mah : Forall (fun c => length c = n) (cols_mah (tb_mah tb));
  ta_sfh : Forall (fun c => length c = n) (ds_cols (tb_sfh tb)) }.

(** Value of halo [k] at table time [t]. *)
Definition val (X : list (list R)) (t k : nat) : R := nth t (nth k X []) 0.

(** numpy's choice without replacement: as many distinct members of the list as asked for. *)
Definition choice_ok (choice : nat -> nat -> list nat -> nat -> bool -> list nat) : Prop :=
  forall i j a k, NoDup a -> (k <= length a)%nat ->
    length (choice i j a k false) = k /\ NoDup (choice i j a k false) /\ incl (choice i j a k false) a.

(** A sample described by its list of (target, mass bin, halo): every column holds the value
    of that halo, bin or target. *)
Definition tgt (r : nat * nat * nat) : nat := fst (fst r).
Definition bin (r : nat * nat * nat) : nat := snd (fst r).
Definition halo (r : nat * nat * nat) : nat := snd r.
Record sample_is (tb : Tables) (upid : list Z) (E : list R) (ids : list nat) (zs : list xr) (h : Haloes)
    (L : list (nat * nat * nat)) : Prop := {
  si_bin : h_logmh_id h = map bin L;
  si_val : h_logmh_val h = map (fun r => Fin ((nth (bin r) E 0 + nth (S (bin r)) E 0) / 2)) L;
  si_mah : h_mah h = map (fun r => map (fun c => nth (halo r) c NaN) (cols_mah (tb_mah tb))) L;
  si_ms : h_ms h = map (fun r => map (fun c => nth (halo r) c NaN) (firstn 4 (ds_cols (tb_sfh tb)))) L;
  si_q : h_q h = map (fun r => map (fun c => nth (halo r) c NaN) (skipn 4 (ds_cols (tb_sfh tb)))) L;
  si_upid : h_upid h = map (fun r => nth (halo r) upid 0%Z) L;
  si_tid : h_tobs_id h = map tgt L;
  si_t : h_tobs_val h = map (fun r => nth (nth (tgt r) ids 0%nat) (tb_t tb) NaN) L;
  si_z : h_redshift h = map (fun r => nth (tgt r) zs NaN) L }.

(** [n] numbers spaced evenly from [a] to [b]. *)
Definition evenly (a b : R) (n : nat) : list R := map (fun i => a + INR i * ((b - a) / INR (n - 1))) (seq 0 n).

(** An [a] by [b] table of finite numbers. *)
Definition tbl (a b : nat) (c : nat -> nat -> R) : list (list xr) := map (fun i => map (fun j => Fin (c i j)) (seq 0 b)) (seq 0 a).
Definition entry (X : list (list xr)) (i j : nat) : xr := nth j (nth i X []) NaN.

(** Mean of a list; nothing has no mean. *)
Definition mean (l : list R) : xr := match l with [] => NaN | _ => Fin (Rsum l / INR (length l)) end.

(** Tables with three and four indices. *)
Definition tbl3 (a b c : nat) (f : nat -> nat -> nat -> R) := map (fun i => tbl b c (f i)) (seq 0 a).
Definition tbl4 (a b c d : nat) (f : nat -> nat -> nat -> nat -> R) := map (fun i => tbl3 b c d (f i)) (seq 0 a).
