(** Properties of the target measurements from the fit files to the final tables: C85-C87. *)
From Coq Require Import Reals Lra Lia ZArith List Bool String.
From Verif Require Import XReal ModelUtils ModelKernels ModelSfh ModelPop ModelHist ModelLoad ModelIO SpecLoad ModelTargets SpecCore SpecHist SpecTargets SpecMeasure
  TargetTopProofs MeasureProofs MeasureTopProofs.
Import List ListNotations.
Open Scope R_scope.
Local Notation length := List.length.

(** C85: SMDPL.  Of every subvolume the galaxies with positive halo loss and a successful fit,
    and no others, enter the final tables; each as central when its parent id is -1; at most
    20000 over the number of subvolumes are sampled from each bin. *)
Theorem C85_smdpl : forall kern sing age A lgt0 T zs ids, setup age A lgt0 T zs ids ->
  forall hm q p h M (choice : nat -> nat -> nat -> list nat -> nat -> bool -> list nat) (dm ds : nat -> hdf) (I : nat -> list nat) lm su up subvols nmax nranks,
  (forall v, choice_ok (choice v)) -> subvols <> [] -> (0 < nranks)%nat ->
  let G v := filter (fun g => above0 (lm g) && is1 (su g)) (I v) in
  (forall v, In v subvols -> (v < nmax)%nat /\ NoDup (I v) /\ fit_files (dm v) (ds v) (I v) lm su hm q /\ (forall g, In g (G v) -> good kern sing T hm q p h M g) /\
     (exists g, In g (G v) /\ up g = (-1)%Z) /\ (exists g, In g (G v) /\ up g <> (-1)%Z)) ->
  let process v := match smdpl_subvol (Some FB) kern sing age (choice v) (dm v) (ds v) (map up (I v)) (length subvols) (map Fin zs) (Fin lgt0) with
                   | Some o => Contributes o | None => Raises end in
  exists f S F, smdpl_script process subvols nmax (length zs) 11 25 29 nranks
      = Some (f, map (fun k => if existsb (Nat.eqb k) subvols then 1%nat else 0%nat) (seq 0 nmax)) /\
    (forall v g, In v subvols -> In g (G v) -> galaxy_is kern sing T (hm g) (q g) (M g) (S g) (F g)) /\
    final_tables (20000 / length subvols) hm q up (map G subvols) (fun g => (up g =? -1)%Z) (fun g => negb (up g =? -1)%Z) M S F T ids zs
      (evenly 11 (1475 / 100) 12) (evenly 7 13 26) (evenly (-13) (-8) 30) f.
Proof. exact smdpl_final. Qed.
Print Assumptions C85_smdpl.

Example C85_hyp : forall T, T = evenly (1 / 100) (pow10R 2) 200 ->
  setup ex_age (fun z => 14 - z) 2 T [0; 1] [count (below 14) T; count (below 13) T] /\
  (forall v : nat, choice_ok ex_choice) /\
  let I (v : nat) := [2 * v; 2 * v + 1; 2 * v + 50]%nat in
  let G v := filter (fun g => above0 (ex_loss g) && is1 (ex_flag g)) (I v) in
  let up g := if Nat.even g then (-1)%Z else 3%Z in
  forall v, In v [4; 7]%nat -> (v < 10)%nat /\ NoDup (I v) /\ fit_files (ex_dm (I v)) (ex_ds (I v)) (I v) ex_loss ex_flag ex_hm ex_q /\
     (forall g, In g (G v) -> good ex_kern ex_sing T ex_hm ex_q (fun _ => mkDiffstar 12 (-1) 1 (-1) 1 0 (-1) 0) (fun _ _ => 12) (fun _ => map (fun _ => 12) T) g) /\
     (exists g, In g (G v) /\ up g = (-1)%Z) /\ (exists g, In g (G v) /\ up g <> (-1)%Z).
Proof. exact ex_smdpl. Qed.

(** C86: TNG.  The rows are shared out over 20 chunks in order; of every chunk the galaxies
    with positive losses and a successful fit, and no others, enter the final tables; 1000 at
    most are sampled from each bin and chunk. *)
Theorem C86_tng : forall kern sing age A lgt0 T zs ids, setup age A lgt0 T zs ids ->
  forall hm q p h M (choice : nat -> nat -> nat -> list nat -> nat -> bool -> list nat) dm ds N lm ls su c,
  (forall r, choice_ok (choice r)) -> fit_files dm ds (seq 0 N) lm su hm q -> lookup "loss" ds = Some (D1 (map ls (seq 0 N))) ->
  all_rows N dm -> all_rows N ds ->
  let sel g := above0 (lm g) && above0 (ls g) && is1 (su g) in
  (forall g, (g < N)%nat -> sel g = true -> good kern sing T hm q p h M g) ->
  (forall r, (r < 20)%nat -> (exists g, In g (part N 20 r) /\ sel g = true /\ c g = 1%Z) /\ (exists g, In g (part N 20 r) /\ sel g = true /\ c g = 0%Z)) ->
  exists f S F, tng_measure_script (fun r => tng_chunk kern sing age (choice r) dm ds (map c (seq 0 N)) r (map Fin zs) (Fin lgt0)) (length zs) 11 25 29 20 = Some f /\
    (forall g, (g < N)%nat -> sel g = true -> galaxy_is kern sing T (hm g) (q g) (M g) (S g) (F g)) /\
    final_tables 1000 hm q (fun g => if (c g =? 1)%Z then (-1)%Z else c g) (map (fun r => filter sel (part N 20 r)) (seq 0 20))
      (fun g => (c g =? 1)%Z) (fun g => (c g =? 0)%Z) M S F T ids zs (evenly 11 (1475 / 100) 12) (evenly 7 13 26) (evenly (-13) (-8) 30) f.
Proof. exact tng_final. Qed.
Print Assumptions C86_tng.

(** C86: the chunks are all rows, each once. *)
Theorem C86_chunks : forall N n, (0 < n)%nat -> List.concat (map (part N n) (seq 0 n)) = seq 0 N.
Proof. exact parts_all. Qed.
Print Assumptions C86_chunks.

Example C86_hyp : forall T, T = evenly (1 / 100) (pow10R 2) 200 ->
  let c g := if Nat.even g then 1%Z else 0%Z in
  let sel g := above0 (ex_loss g) && above0 (ex_loss g) && is1 (ex_flag g) in
  all_rows 40 (ex_dm (seq 0 40)) /\ all_rows 40 (ex_ds (seq 0 40)) /\ lookup "loss" (ex_ds (seq 0 40)) = Some (D1 (map ex_loss (seq 0 40))) /\
  (forall g, (g < 40)%nat -> sel g = true ->
     good ex_kern ex_sing T ex_hm ex_q (fun _ => mkDiffstar 12 (-1) 1 (-1) 1 0 (-1) 0) (fun _ _ => 12) (fun _ => map (fun _ => 12) T) g) /\
  (forall r, (r < 20)%nat -> (exists g, In g (part 40 20 r) /\ sel g = true /\ c g = 1%Z) /\ (exists g, In g (part 40 20 r) /\ sel g = true /\ c g = 0%Z)).
Proof. exact ex_tng. Qed.

(** C87: Galacticus.  The galaxies with positive losses and a successful fit, and no others,
    enter the final tables, whatever the number of ranks. *)
Theorem C87_galacticus : forall kern sing age A lgt0 T zs ids, setup age A lgt0 T zs ids ->
  forall hm q p h M (choice : nat -> nat -> nat -> list nat -> nat -> bool -> list nat) dm ds I lm ls su c nranks,
  (forall r, choice_ok (choice r)) -> (0 < nranks)%nat -> NoDup I -> fit_files dm ds I lm su hm q -> lookup "loss" ds = Some (D1 (map ls I)) ->
  let G := filter (fun g => above0 (lm g) && above0 (ls g) && is1 (su g)) I in
  (forall g, In g G -> good kern sing T hm q p h M g) -> (exists g, In g G /\ c g = 1%Z) -> (exists g, In g G /\ c g = 0%Z) ->
  (forall t, In t ids -> exists j g, (j < 11)%nat /\ In g G /\ half_open (evenly 11 (145 / 10) 12) j (nth t (M g) 0) = true) ->
  exists f S F, galacticus_measure_script (fun r => galacticus_catalog (Some FB) kern sing age (choice r) dm ds (map c I) (map Fin zs) (Fin lgt0)) (length zs) 11 25 29 nranks = Some f /\
    (forall g, In g G -> galaxy_is kern sing T (hm g) (q g) (M g) (S g) (F g)) /\
    final_tables 20000 hm q (fun g => if (c g =? 1)%Z then (-1)%Z else c g) [G]
      (fun g => (c g =? 1)%Z) (fun g => (c g =? 0)%Z) M S F T ids zs (evenly 11 (145 / 10) 12) (evenly 7 13 26) (evenly (-13) (-8) 30) f.
Proof. exact galacticus_final. Qed.
Print Assumptions C87_galacticus.

Example C87_hyp : forall T, T = evenly (1 / 100) (pow10R 2) 200 ->
  let I := [5; 8; 60]%nat in
  let c g := if Nat.even g then 1%Z else 0%Z in
  let G := filter (fun g => above0 (ex_loss g) && above0 (ex_loss g) && is1 (ex_flag g)) I in
  (exists g, In g G /\ c g = 1%Z) /\ (exists g, In g G /\ c g = 0%Z) /\
  (forall g, In g G -> good ex_kern ex_sing T ex_hm ex_q (fun _ => mkDiffstar 12 (-1) 1 (-1) 1 0 (-1) 0) (fun _ _ => 12) (fun _ => map (fun _ => 12) T) g) /\
  (forall t, In t [count (below 14) T; count (below 13) T] ->
     exists j g, (j < 11)%nat /\ In g G /\ half_open (evenly 11 (145 / 10) 12) j (nth t (map (fun _ => 12) T) 0) = true).
Proof. exact ex_galacticus. Qed.
