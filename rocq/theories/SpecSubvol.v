(** Vocabulary for directories of numbered files. *)
From Coq Require Import List Arith Ascii String.
From Verif Require Import ModelLoad ModelIO ModelSubvol.
Import List ListNotations.

Local Notation length := List.length.

(** Digit strings and their value. *)
Definition digits (s : str) : Prop := Forall (fun c => In c (list_ascii_of_string "0123456789")) s.
Fixpoint value (s : str) : nat :=
  match s with
  | [] => 0
  | c :: t => (nat_of_ascii c - nat_of_ascii "0") * 10 ^ length t + value t
  end.
Definition numeral (s : str) (v : nat) : Prop := s <> [] /\ digits s /\ value s = v.
(** The shortest numeral. *)
Definition plain (s : str) (v : nat) : Prop := numeral s v /\ forall s', numeral s' v -> length s <= length s'.

Definition bn (pre suf : string) (s : str) : str := list_ascii_of_string pre ++ s ++ list_ascii_of_string suf.

(** Directory [d] has a file [pre]number[suf] for each member of [V], numbered [nm v] and
    holding [file v]; no other name of it is such, with one to three digits and perhaps a final
    newline.  Names that are not of this form are not restricted. *)
Record holds (pre suf : string) (d : list (str * hdf)) (V : list nat) (nm : nat -> str) (file : nat -> hdf) : Prop := {
  ho_names : NoDup (map fst d);
  ho_files : forall v, In v V -> In (bn pre suf (nm v), file v) d;
  ho_number : forall v, In v V -> numeral (nm v) v /\ length (nm v) <= 3;
  ho_only : forall n s, In n (map fst d) -> s <> [] -> digits s -> length s <= 3 ->
    n = bn pre suf s \/ n = bn pre suf s ++ [ascii_of_nat 10] -> In (value s) V /\ n = bn pre suf (nm (value s)) }.

(** The two ways of numbering that the loader knows: unpadded with some number below ten, or
    all of one width. *)
Definition unpadded (V : list nat) (nm : nat -> str) : Prop :=
  (forall v, In v V -> plain (nm v) v) /\ exists v, In v V /\ v < 10.
Definition of_width (w : nat) (V : list nat) (nm : nat -> str) : Prop := forall v, In v V -> length (nm v) = w.
Definition regular (V : list nat) (nm : nat -> str) : Prop := unpadded V nm \/ exists w, of_width w V nm.

Definition ascending (l : list nat) : Prop := forall i j, i < j -> j < length l -> nth i l 0 < nth j l 0.

(** A name that is not [pre]number[suf]. *)
Definition unrelated (pre suf : string) (n : str) : Prop :=
  forall s, s <> [] -> digits s -> length s <= 3 -> n <> bn pre suf s /\ n <> bn pre suf s ++ [ascii_of_nat 10].

(** The halo fits lie beside the galaxy fits, under the name each simulation gives them. *)
Definition beside (sim_name : sim) (dmdir : dir) (V : list nat) (nm : nat -> str) (dm : nat -> hdf) : Prop :=
  match sim_name with
  | DR1 => NoDup (map fst dmdir) /\ forall v, In v V -> In (bn "diffmah_fits_subvol_" ".hdf5" (nm v), dm v) dmdir
  | DR1_nomerging => exists W nm', holds "subvol_" "_diffmah_fits.h5" dmdir W nm' dm /\ regular W nm' /\ incl V W
  | Other => False
  end.
