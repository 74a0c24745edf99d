(** Properties of the Galacticus target histories: C109, C110. *)
From Coq Require Import Reals Lra Lia ZArith List Bool String.
From Verif Require Import XReal ModelUtils ModelKernels ModelSfh ModelLoad ModelIO ModelGalacticus
  SpecCore SpecFit SpecIO SpecLoad SpecGalacticus GalacticusProofs TightLoad.
Import List ListNotations.
Open Scope string_scope.
Open Scope list_scope.
Open Scope R_scope.

(** C109: the target data hold, for every galaxy and step, the average rate of bulge and disk
    together; any block of rows read back from the written file is that block of the target
    data, with all the times. *)
Theorem C109_blocks_of_targets : forall n r, raw_ok n r -> exists ins tot f,
  load_galacticus_sfh_target_data (raw_of r) =
    Some [("tarr", D1 (map Fin (rt r))); ("sfh_in_situ", D2 (map (map Fin) ins)); ("sfh_tot", D2 (map (map Fin) tot));
          ("is_cen", D1 (map Fin (rcen r)))] /\
  write_galacticus_sfh_data_block (raw_of r) = Some f /\
  List.length ins = n /\ List.length tot = n /\
  (forall g, (g < n)%nat -> average_rates (rt r) (made (rib r) (rid r) g) (nth g ins []) /\
                            average_rates (rt r) (made (rtb r) (rtd r) g) (nth g tot [])) /\
  forall a b, load_galacticus_sfh_data_block f (Z.of_nat a) (Z.of_nat b) =
    Some [("sfh_in_situ", D2 (map (map Fin) (rows_from ins a b)));
          ("sfh_tot", D2 (map (map Fin) (rows_from tot a b)));
          ("is_cen", D1 (map Fin (rows_from (rcen r) a b))); ("tarr", D1 (map Fin (rt r)))].
Proof. exact target_blocks. Qed.
Print Assumptions C109_blocks_of_targets.

(** C109: from the raw arrays to the table of fits. *)
Theorem C109_raw_to_fits : forall f4 msh dflt fit,
  (forall m t l, List.length (snd (msh m t l)) = List.length t) ->
  (forall r i t s m l fb, fit r i t s m l fb <> None) ->
  forall r diffmah_file colname lmin bulge disk hs,
  raw_ok (List.length hs) r -> halo_table diffmah_file hs ->
  (colname = "sfh_in_situ" /\ bulge = rib r /\ disk = rid r) \/
  (colname = "sfh_tot" /\ bulge = rtb r /\ disk = rtd r) ->
  forall nranks, (0 < nranks)%nat -> (2 * nranks <= List.length hs)%nat ->
  exists f es, write_galacticus_sfh_data_block (raw_of r) = Some f /\
    galacticus_script f4 msh dflt fit f diffmah_file colname lmin nranks = Some (fit_table es) /\
    Forall2 (fun g e => exists h s o m x,
      nth_error hs g = Some h /\ average_rates (rt r) (made bulge disk g) s /\
      used_mah 5 h m /\ used_mass msh dflt 5 (Fin (last (rt r) 0)) h x /\
      entry_for f4 (Z.of_nat g) o e /\
      treated nranks (fun rank i => fit rank i (map Fin (rt r)) (map Fin s) m (Fin (log10R (last (rt r) 0))) (Fin (493 / 3153)))
        ((Fin 0 <? h_loss h)%X = true /\ (lmin <? x)%X = true /\
         10 ^ 8 < seen (rt r) (made bulge disk g) (List.length (rt r) - 1)) o)
      (seq 0 (List.length hs)) es.
Proof. exact pipeline. Qed.
Print Assumptions C109_raw_to_fits.

(** C109: the data bundle holds the three tables unchanged and the target data. *)
Theorem C109_bundle : forall n r a b c, raw_ok n r ->
  NoDup (map fst a) -> NoDup (map fst b) -> NoDup (map fst c) ->
  exists d, load_galacticus_sfh_target_data (raw_of r) = Some d /\
    load_galacticus_diffstar_data a b c (raw_of r) =
      Some [("diffmah_fit_data", a); ("diffstar_in_situ_fit_data", b);
            ("diffstar_in_plus_ex_situ_fit_data", c); ("galcus_sfh_data", d)].
Proof. exact bundle. Qed.
Print Assumptions C109_bundle.

Example C109_hyp : exists r (hs : list HaloRow), raw_ok (List.length hs) r /\ (2 * 1 <= List.length hs)%nat /\
  made (rib r) (rid r) 0 1 = 3 /\ made (rtb r) (rtd r) 1 0 = 5 /\
  10 ^ 8 < seen (rt r) (made (rtb r) (rtd r) 0) 1 /\ ~ 10 ^ 8 < seen (rt r) (made (rib r) (rid r) 0) 1.
Proof.
  exists (mkRawR [1; 3] [[0; 1]; [0; 0]] [[0; 2]; [0; 0]] [[10 ^ 8; 10 ^ 8]; [5; 0]] [[0; 0]; [0; 0]] [1; 0]),
    (repeat (mkHalo minus_ones (Fin 1) (Fin 20)) 2).
  split; [|split; [cbn; lia|]].
  - split; [discriminate|]. split; [cbn; lra|].
    repeat (split; [split; [reflexivity|repeat constructor]|]). reflexivity.
  - unfold made. cbn [rt rib rid rtb rtd nth seen interval]. repeat split; lra.
Qed.

(** C110: the masses computed from the target rates of a history. *)
Theorem C110_mass_seen : forall ts dm s, increasing (0 :: ts) -> ts <> [] -> average_rates ts dm s ->
  exists M, cumulative_mstar_formed (map Fin ts) (map Fin s) = Some (map Fin M) /\
    List.length M = List.length ts /\ forall k, (k < List.length ts)%nat -> nth k M 0 = seen ts dm k.
Proof. exact mass_seen. Qed.
Print Assumptions C110_mass_seen.

(** C110: with steps that never grow, half of the latest step's mass is missing. *)
Theorem C110_mass_lags : forall ts dm s M, increasing (0 :: ts) -> ts <> [] -> average_rates ts dm s ->
  cumulative_mstar_formed (map Fin ts) (map Fin s) = Some (map Fin M) ->
  (forall k, 0 <= dm k) -> (forall k, (S k < List.length ts)%nat -> interval ts (S k) <= interval ts k) ->
  forall k, (k < List.length ts)%nat -> nth k M 0 <= formed dm k - dm k / 2 + nth 0 ts 0 / 10 ^ 5 / 2.
Proof. exact model_mass_lags. Qed.
Print Assumptions C110_mass_lags.

(** C110: with equal steps, the exact difference. *)
Theorem C110_equal_steps : forall ts dm s M, increasing (0 :: ts) -> ts <> [] -> average_rates ts dm s ->
  cumulative_mstar_formed (map Fin ts) (map Fin s) = Some (map Fin M) ->
  (forall k, (S k < List.length ts)%nat -> interval ts (S k) = interval ts k) ->
  forall k, (k < List.length ts)%nat ->
  nth k M 0 = formed dm k - dm k / 2 - dm O / (2000 * nth 0 ts 0) + (nth 0 ts 0 - 1 / 1000) / 10 ^ 5 / 2.
Proof. exact model_mass_equal. Qed.
Print Assumptions C110_equal_steps.

(** C110: the mass at the end of a step is not the mass formed by then. *)
Theorem C110_mass_formed_refuted : exists ts dm s M, increasing (0 :: ts) /\ (forall k, 0 <= dm k) /\
  average_rates ts dm s /\ cumulative_mstar_formed (map Fin ts) (map Fin s) = Some (map Fin M) /\
  formed dm 1 = 10 ^ 10 /\ 10 ^ 10 = 2 * nth 1 M 0 - (1 / 10 ^ 5 - 1 / 10 ^ 8).
Proof. exact mass_formed_refuted. Qed.
Print Assumptions C110_mass_formed_refuted.

Example C110_hyp : increasing [0; 1; 2] /\ average_rates [1; 2] (fun k => match k with O => 4 * 10 ^ 9 | _ => 2 * 10 ^ 9 end) [4; 2] /\
  forall k, (S k < 2)%nat -> interval [1; 2] (S k) = interval [1; 2] k.
Proof.
  split; [cbn; lra|]. split.
  - split; [reflexivity|]. intros [|[|k]] Hk; cbn [List.length] in Hk; try lia; cbn [nth interval]; field.
  - intros [|k] Hk; [|lia]. cbn [nth interval]. lra.
Qed.
