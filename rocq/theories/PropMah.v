(** Properties of the halo-history fitting script: C97. *)
From Coq Require Import Reals Lra Lia ZArith List Bool String Ascii.
From Verif Require Import XReal ModelUtils ModelLoad ModelIO ModelMah SpecLoad SpecIO SpecMah MahTopProofs.
Import List ListNotations.
Open Scope nat_scope.
Local Notation length := List.length.

(** C97: with at least two halos per rank the collated table has one row per halo in catalog
    order (with [-test], of the first 50 of each rank's share): the fields of the fit of the
    halo's largest mass so far, kept to the latest end of all histories, the fit being skipped
    when the history is shorter than the limit. *)
Theorem C97_table : forall fitted HEADER (outl : fitted -> str) fitter k fields f N t m,
  row_format HEADER outl k fields -> 2 <= k -> catalog f N t m -> (forall r i T M s, fitter r i T M s <> None) ->
  forall dt_min test n, 0 < n -> 2 * n <= N ->
  exists T0 parts rows, latest N t T0 /\ shares N n parts /\
    mah_script fitted HEADER outl fitter f (Fin dt_min) test n = Some (S2 rows) /\
    Forall2 (row_for fitter fields T0 dt_min t m parts) (if test then List.concat (map (firstn 50) parts) else seq 0 N) rows.
Proof. exact @mah_value. Qed.
Print Assumptions C97_table.

(** C97: the table does not depend on the number of ranks when the fitter does not. *)
Theorem C97_any_ranks : forall fitted HEADER (outl : fitted -> str) fitter k fields f N t m,
  row_format HEADER outl k fields -> 2 <= k -> catalog f N t m -> (forall r i T M s, fitter r i T M s <> None) ->
  forall dt_min n n', (forall r i r' i' T M s, fitter r i T M s = fitter r' i' T M s) -> 0 < n -> 2 * n <= N -> 0 < n' -> 2 * n' <= N ->
  mah_script fitted HEADER outl fitter f (Fin dt_min) false n = mah_script fitted HEADER outl fitter f (Fin dt_min) false n'.
Proof. exact @mah_any_ranks. Qed.
Print Assumptions C97_any_ranks.

(** C97: with fewer halos than twice the ranks the script raises; with one halo per rank it
    hands on a single row of all fields instead of a table. *)
Theorem C97_few_halos_raise : forall fitted HEADER (outl : fitted -> str) fitter k fields f N t m,
  row_format HEADER outl k fields -> 2 <= k -> catalog f N t m -> (forall r i T M s, fitter r i T M s <> None) ->
  forall dt_min test n, 0 < n -> N < n \/ (n < N /\ N < 2 * n) -> mah_script fitted HEADER outl fitter f (Fin dt_min) test n = None.
Proof. exact @mah_raises. Qed.
Print Assumptions C97_few_halos_raise.

Theorem C97_one_halo_per_rank_refuted : forall fitted HEADER (outl : fitted -> str) fitter k fields f N t m,
  row_format HEADER outl k fields -> 2 <= k -> catalog f N t m -> (forall r i T M s, fitter r i T M s <> None) ->
  forall dt_min test, 0 < N -> exists l, mah_script fitted HEADER outl fitter f (Fin dt_min) test N = Some (S1 l) /\ length l = N * k.
Proof. exact @mah_flat. Qed.
Print Assumptions C97_one_halo_per_rank_refuted.

Open Scope R_scope.
Example C97_format : row_format exm_header exm_outline 2 exm_fields.
Proof. exact exm_format. Qed.
Example C97_catalog : catalog exm_file 5 exm_t exm_m.
Proof. exact exm_catalog. Qed.
Example C97_prepared : latest 5 exm_t 13 /\ prepared 13 (exm_t 0) (exm_m 0) [1; 2; 13] [10; 12; 12] /\ prepared 13 (exm_t 1) (exm_m 1) [1; 5 / 4; 13] [9; 9; 9] /\
  end_of (exm_t 1) - nth 0 (exm_t 1) 0 < 1 / 2.
Proof. exact exm_prepared. Qed.
