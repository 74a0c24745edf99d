(** Properties of the histories computed from a fit table: C142. *)
From Coq Require Import Reals Lra Lia ZArith.
From Coq Require Import List.
From Verif Require Import XReal RealFacts ModelUtils ModelKernels ModelSfh ModelLoad ModelIO SpecCore SpecFit SpecIO SpecSymmetry SpecRobust
  SymmetryProofs RobustProofs RobustTable.
Import List ListNotations.
Open Scope R_scope.

(** C142: the parameters of a collated table give back each fitted galaxy's history up to [printed_shift] dex. *)
Theorem C142_table_history : forall f4 ranks, single f4 -> ranks <> [] -> Forall (fun gs => (2 <= List.length gs)%nat) ranks ->
  exists es, collate (map (rank_file f4) ranks) = Some (fit_table es) /\
  Forall2 (fun g e => forall p loss flag lmk mah ts lgt0 fb m X, snd g = Some (map_d Fin p, loss, flag) -> in_bounds p ->
    halo_history lmk mah lgt0 m ts -> increasing (1 / 1000 :: ts) -> 0 <= fb -> (forall t, In t ts -> Rabs (m t - d_lgmcrit p) <= X) ->
    exists s M s' M',
      calc_sfh_singlegal_smh lmk (map_d Fin p) mah (map Fin ts) lgt0 (Fin fb) = Some (map Fin s, map Fin M) /\
      calc_sfh_singlegal_smh lmk (e_params e) mah (map Fin ts) lgt0 (Fin fb) = Some (map Fin s', map Fin M') /\
      length s = length ts /\ length M = length ts /\ length s' = length ts /\ length M' = length ts /\
      forall i, (i < length ts)%nat -> 0 < nth i s 0 /\ 0 < nth i M 0 /\
        within (printed_shift p X) (nth i s 0) (nth i s' 0) /\ within (printed_shift p X) (nth i M 0) (nth i M' 0))
    (List.concat ranks) es.
Proof. exact table_history. Qed.
Print Assumptions C142_table_history.

(** C142: for a galaxy whose quenching lasts at least 0.1 dex, in a halo within 3 dex of its critical mass, they are off by at most
    0.005 dex. *)
Theorem C142_one_percent : forall f4 ranks, single f4 -> ranks <> [] -> Forall (fun gs => (2 <= List.length gs)%nat) ranks ->
  exists es, collate (map (rank_file f4) ranks) = Some (fit_table es) /\
  Forall2 (fun g e => forall p loss flag lmk mah ts lgt0 fb m, snd g = Some (map_d Fin p, loss, flag) -> in_bounds p -> -1 <= d_qlglgdt p ->
    halo_history lmk mah lgt0 m ts -> increasing (1 / 1000 :: ts) -> 0 <= fb -> (forall t, In t ts -> Rabs (m t - d_lgmcrit p) <= 3) ->
    exists s M s' M',
      calc_sfh_singlegal_smh lmk (map_d Fin p) mah (map Fin ts) lgt0 (Fin fb) = Some (map Fin s, map Fin M) /\
      calc_sfh_singlegal_smh lmk (e_params e) mah (map Fin ts) lgt0 (Fin fb) = Some (map Fin s', map Fin M') /\
      length s = length ts /\ length M = length ts /\ length s' = length ts /\ length M' = length ts /\
      forall i, (i < length ts)%nat -> 0 < nth i s 0 /\ 0 < nth i M 0 /\
        within (5 / 1000) (nth i s 0) (nth i s' 0) /\ within (5 / 1000) (nth i M 0) (nth i M' 0))
    (List.concat ranks) es.
Proof. exact table_one_percent. Qed.
Print Assumptions C142_one_percent.

(** A table of two galaxies, one of them fitted with parameters in bounds, with rounding to the nearest binary32 numbers. *)
Example C142_hyp : single to_single /\ in_bounds usual /\ -1 <= d_qlglgdt usual /\
  let ranks := [[(7%Z, None); (8%Z, Some (map_d Fin usual, Fin (1 / 8), 1%Z))]] in
  ranks <> [] /\ Forall (fun gs : list (Z * outcome) => (2 <= List.length gs)%nat) ranks /\
  let halo := fun (h : MahParams xr) (_ _ : xr) => logm0 h in
  halo_history halo (mkMah (Fin 12) NaN NaN NaN NaN) NaN (fun _ => 12) [1; 5; 10] /\ increasing (1 / 1000 :: [1; 5; 10]) /\
  forall t, In t [1; 5; 10] -> Rabs (12 - d_lgmcrit usual) <= 3.
Proof.
  split; [exact to_single_ok|].
  unfold in_bounds, usual. cbn [d_lgmcrit d_lgy_at_mcrit d_indx_lo d_indx_hi d_lg_qt d_qlglgdt d_lg_drop d_lg_rejuv].
  split; [lra|]. split; [lra|]. split; [discriminate|]. split; [repeat constructor|].
  split; [repeat constructor; lra|]. split; [cbn; lra|]. intros t _. apply Rabs_le; lra.
Qed.
