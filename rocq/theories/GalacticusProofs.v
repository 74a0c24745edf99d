(** Proofs about the Galacticus target histories. *)
From Coq Require Import Reals Lra Lia ZArith List Bool String.
From Verif Require Import XReal ModelUtils ModelKernels ModelSfh ModelLoad ModelIO ModelGalacticus
  SpecCore SpecFit SpecIO SpecLoad SpecGalacticus XFacts RealFacts IntegralProofs FstarProofs
  LoadProofs MoreLoadProofs LoadTopProofs ScriptProofs.
Import List ListNotations.
Open Scope string_scope.
Open Scope list_scope.
Open Scope R_scope.

Lemma rates_exist n ts b d : increasing (0 :: ts) -> rect n (List.length ts) b -> rect n (List.length ts) d ->
  exists sfh, galacticus_sfh (map Fin ts) (map (map Fin) b) (map (map Fin) d) = Some (map (map Fin) sfh) /\
    List.length sfh = n /\ forall g, (g < n)%nat -> average_rates ts (made b d g) (nth g sfh []).
Proof.
  intros Hi [Lb Fb] [Ld Fd].
  destruct (galacticus_sfh_value ts b d Hi Fb Fd) as (sfh & E & L & F & V); [lia|].
  exists sfh. split; [exact E|]. split; [lia|]. intros g Hg. split.
  - rewrite Forall_forall in F. apply F, nth_In. lia.
  - intros k Hk. specialize (V g k ltac:(lia) Hk).
    pose proof (interval_pos ts k Hi Hk) as Hp.
    unfold made. rewrite <- V. field. lra.
Qed.

Lemma target_data n r : raw_ok n r -> exists ins tot,
  load_galacticus_sfh_target_data (raw_of r) =
    Some [("tarr", D1 (map Fin (rt r))); ("sfh_in_situ", D2 (map (map Fin) ins)); ("sfh_tot", D2 (map (map Fin) tot));
          ("is_cen", D1 (map Fin (rcen r)))] /\
  write_galacticus_sfh_data_block (raw_of r) =
    Some [("sfh_in_situ", D2 (map (map Fin) ins)); ("sfh_tot", D2 (map (map Fin) tot));
          ("is_cen", D1 (map Fin (rcen r))); ("tarr", D1 (map Fin (rt r)))] /\
  List.length ins = n /\ List.length tot = n /\
  forall g, (g < n)%nat -> average_rates (rt r) (made (rib r) (rid r) g) (nth g ins []) /\
                           average_rates (rt r) (made (rtb r) (rtd r) g) (nth g tot []).
Proof.
  intros (Ne & Hi & R1 & R2 & R3 & R4 & Lc).
  destruct (rates_exist n (rt r) (rib r) (rid r) Hi R1 R2) as (ins & E1 & L1 & V1).
  destruct (rates_exist n (rt r) (rtb r) (rtd r) Hi R3 R4) as (tot & E2 & L2 & V2).
  assert (E : load_galacticus_sfh_target_data (raw_of r) =
    Some [("tarr", D1 (map Fin (rt r))); ("sfh_in_situ", D2 (map (map Fin) ins)); ("sfh_tot", D2 (map (map Fin) tot));
          ("is_cen", D1 (map Fin (rcen r)))]).
  { unfold load_galacticus_sfh_target_data, raw_of. cbn [raw_tarr raw_in_bulge raw_in_disk raw_tot_bulge raw_tot_disk raw_isolated].
    rewrite E1, E2. reflexivity. }
  exists ins, tot. split; [exact E|]. split.
  { unfold write_galacticus_sfh_data_block. rewrite E. reflexivity. }
  split; [exact L1|]. split; [exact L2|]. intros g Hg. split; [apply V1|apply V2]; exact Hg.
Qed.

Lemma target_blocks n r : raw_ok n r -> exists ins tot f,
  load_galacticus_sfh_target_data (raw_of r) =
    Some [("tarr", D1 (map Fin (rt r))); ("sfh_in_situ", D2 (map (map Fin) ins)); ("sfh_tot", D2 (map (map Fin) tot));
          ("is_cen", D1 (map Fin (rcen r)))] /\
  write_galacticus_sfh_data_block (raw_of r) = Some f /\
  List.length ins = n /\ List.length tot = n /\
  (forall g, (g < n)%nat -> average_rates (rt r) (made (rib r) (rid r) g) (nth g ins []) /\
                            average_rates (rt r) (made (rtb r) (rtd r) g) (nth g tot [])) /\
  forall a b, load_galacticus_sfh_data_block f (Z.of_nat a) (Z.of_nat b) =
    Some [("sfh_in_situ", D2 (map (map Fin) (rows_from ins a b)));
          ("sfh_tot", D2 (map (map Fin) (rows_from tot a b)));
          ("is_cen", D1 (map Fin (rows_from (rcen r) a b))); ("tarr", D1 (map Fin (rt r)))].
Proof.
  intros H. destruct (target_data n r H) as (ins & tot & E1 & E2 & L1 & L2 & V).
  eexists ins, tot, _. split; [exact E1|]. split; [exact E2|]. split; [exact L1|]. split; [exact L2|].
  split; [exact V|]. intros a b.
  rewrite (galacticus_block _ (map (map Fin) ins) (map (map Fin) tot) (map Fin (rcen r)) (map Fin (rt r))) by reflexivity.
  unfold rows_from. rewrite !skipn_map, !firstn_map. reflexivity.
Qed.

(** ** Mass under the trapezoid rule *)
Lemma massR_0 ts ss : List.length ts = List.length ss -> ts <> [] ->
  nth 0 (massR ts ss) 0 = (nth 0 ts 0 - 1 / 1000) * (nth 0 ss 0 + 1 / 10 ^ 14) / 2 * 10 ^ 9.
Proof.
  intros L N. destruct ts as [|t ts]; [congruence|]. destruct ss as [|s ss]; [discriminate|].
  unfold massR. cbn [combine cumR map nth]. unfold T_BIRTH_MIN_R, SFR_MIN_R. lra.
Qed.
Lemma massR_length ts ss : List.length ts = List.length ss -> List.length (massR ts ss) = List.length ts.
Proof. intros L. unfold massR. rewrite map_length, cumR_length, combine_length. lia. Qed.

Lemma massR_seen ts dm s : increasing (0 :: ts) -> ts <> [] -> average_rates ts dm s ->
  forall k, (k < List.length ts)%nat -> nth k (massR ts s) 0 = seen ts dm k.
Proof.
  intros Hi N [L V]. induction k as [|k IH]; intros Hk.
  - rewrite massR_0 by (auto; lia). rewrite (V 0%nat Hk). cbn [seen interval].
    pose proof (interval_pos ts 0 Hi Hk) as P. cbn [interval] in P. field. lra.
  - cbn [seen]. rewrite <- IH by lia.
    pose proof (massR_diff ts s k ltac:(lia) ltac:(lia)) as D.
    pose proof (interval_pos ts k Hi ltac:(lia)) as P. pose proof (interval_pos ts (S k) Hi ltac:(lia)) as Q.
    rewrite (V k ltac:(lia)), (V (S k) ltac:(lia)) in D.
    change (nth (S k) ts 0 - nth k ts 0) with (interval ts (S k)) in D.
    apply Rplus_eq_reg_r with (- nth k (massR ts s) 0).
    transitivity (nth (S k) (massR ts s) 0 - nth k (massR ts s) 0); [ring|]. rewrite D. field. lra.
Qed.

Lemma mass_seen ts dm s : increasing (0 :: ts) -> ts <> [] -> average_rates ts dm s ->
  exists M, cumulative_mstar_formed (map Fin ts) (map Fin s) = Some (map Fin M) /\
    List.length M = List.length ts /\ forall k, (k < List.length ts)%nat -> nth k M 0 = seen ts dm k.
Proof.
  intros Hi N A. pose proof A as [L V]. exists (massR ts s).
  split; [apply cumulative_fin; lia|]. split; [apply massR_length; lia|].
  apply massR_seen; assumption.
Qed.

Lemma interval_sum ts dm : increasing (0 :: ts) -> ts <> [] ->
  (forall k, 0 <= dm k) -> (forall k, (S k < List.length ts)%nat -> interval ts (S k) <= interval ts k) ->
  forall k, (k < List.length ts)%nat -> seen ts dm k <= formed dm k - dm k / 2 + nth 0 ts 0 / 10 ^ 5 / 2.
Proof.
  intros Hi N Hd Hs. induction k as [|k IH]; intros Hk.
  - cbn [seen formed]. pose proof (interval_pos ts 0 Hi Hk) as P. cbn [interval] in P.
    specialize (Hd 0%nat). set (t := nth 0 ts 0) in *. set (d := dm 0%nat) in *.
    replace ((t - 1 / 1000) * (1 / 10 ^ 5 + d / t) / 2)
      with (d / 2 + t / 10 ^ 5 / 2 - (1 / 1000) * (1 / 10 ^ 5 + d / t) / 2) by (field; lra).
    assert (0 <= d / t). { apply Rmult_le_pos; [exact Hd|]. left. apply Rinv_0_lt_compat. exact P. }
    lra.
  - cbn [seen formed]. specialize (IH ltac:(lia)). specialize (Hs k Hk).
    pose proof (interval_pos ts k Hi ltac:(lia)) as P. pose proof (Hd k) as D.
    assert (interval ts (S k) / interval ts k <= 1).
    { apply Rmult_le_reg_r with (interval ts k); [exact P|]. unfold Rdiv. rewrite Rmult_assoc, Rinv_l by lra. lra. }
    assert (dm k / 2 * (interval ts (S k) / interval ts k) <= dm k / 2 * 1) by (apply Rmult_le_compat_l; lra).
    lra.
Qed.

Lemma uniform_sum ts dm : increasing (0 :: ts) -> ts <> [] ->
  (forall k, (S k < List.length ts)%nat -> interval ts (S k) = interval ts k) ->
  forall k, (k < List.length ts)%nat ->
  seen ts dm k = formed dm k - dm k / 2 - dm O / (2000 * nth 0 ts 0) + (nth 0 ts 0 - 1 / 1000) / 10 ^ 5 / 2.
Proof.
  intros Hi N Hs. induction k as [|k IH]; intros Hk.
  - cbn [seen formed]. pose proof (interval_pos ts 0 Hi Hk) as P. cbn [interval] in P. field. lra.
  - cbn [seen formed]. rewrite IH by lia. rewrite (Hs k Hk).
    pose proof (interval_pos ts k Hi ltac:(lia)) as P.
    replace (interval ts k / interval ts k) with 1 by (field; lra). lra.
Qed.

Lemma mass_formed_refuted : exists ts dm s M, increasing (0 :: ts) /\ (forall k, 0 <= dm k) /\
  average_rates ts dm s /\ cumulative_mstar_formed (map Fin ts) (map Fin s) = Some (map Fin M) /\
  formed dm 1 = 10 ^ 10 /\ 10 ^ 10 = 2 * nth 1 M 0 - (1 / 10 ^ 5 - 1 / 10 ^ 8).
Proof.
  set (dm := fun k => match k with 1%nat => 10 ^ 10 | _ => 0 end).
  set (s := [0; 10]).
  assert (A : average_rates [1; 2] dm s).
  { split; [reflexivity|]. intros [|[|k]] Hk; cbn [List.length] in Hk; try lia; unfold s, dm; cbn [nth interval]; field. }
  destruct (mass_seen [1; 2] dm s) as (M & E & _ & V); [cbn; lra|discriminate|exact A|].
  exists [1; 2], dm, s, M. split; [cbn; lra|]. split; [intros [|[|k]]; unfold dm; lra|].
  split; [exact A|]. split; [exact E|]. split; [unfold dm; cbn [formed]; ring|].
  rewrite V by (cbn; lia). unfold dm. cbn [seen interval nth]. field.
Qed.

(** ** From the raw arrays to the table of fits *)
Lemma last_nth_fin M n : List.length M = S n -> last_ (map Fin M) = Fin (nth n M 0).
Proof.
  intros L. unfold last_.
  destruct (exists_last (l := M)) as (l & x & E); [intros ->; discriminate|]. subst M.
  rewrite app_length in L. cbn in L. rewrite map_app. cbn [map]. rewrite last_last.
  rewrite app_nth2 by lia. replace (n - List.length l)%nat with 0%nat by lia. reflexivity.
Qed.

Lemma last_pos : forall n l z, increasing (z :: l) -> List.length l = S n -> z < nth n l 0.
Proof.
  induction n as [|n IH]; intros [|a l] z Hi L; try discriminate; cbn [increasing] in Hi; destruct Hi as [Ha Hi]; cbn [nth]; [exact Ha|].
  apply Rlt_trans with a; [exact Ha|]. apply (IH l a Hi). cbn in L. lia.
Qed.

Lemma above8 a : (Fin 8 <? xlog10 (Fin a))%X = true <-> 10 ^ 8 < a.
Proof.
  assert (E8 : log10R (10 ^ 8) = 8).
  { unfold log10R. rewrite ln_pow by lra. cbn [INR]. field. pose proof ln10_pos. lra. }
  unfold xlog10. destruct (Rlt_dec 0 a) as [P|P].
  - rewrite xlt_fin. split; intro H.
    + apply Rnot_le_lt. intro C. pose proof (log10_le a (10 ^ 8) P C). lra.
    + rewrite <- E8. apply RealFacts.log10_lt; lra.
  - split; [|intro; lra]. destruct (Req_EM_T a 0); intro H; discriminate H.
Qed.

Lemma pipeline f4 msh dflt fit :
  (forall m t l, List.length (snd (msh m t l)) = List.length t) ->
  (forall r i t s m l fb, fit r i t s m l fb <> None) ->
  forall r diffmah_file colname lmin bulge disk hs,
  raw_ok (List.length hs) r -> halo_table diffmah_file hs ->
  (colname = "sfh_in_situ" /\ bulge = rib r /\ disk = rid r) \/
  (colname = "sfh_tot" /\ bulge = rtb r /\ disk = rtd r) ->
  forall nranks, (0 < nranks)%nat -> (2 * nranks <= List.length hs)%nat ->
  exists f es, write_galacticus_sfh_data_block (raw_of r) = Some f /\
    galacticus_script f4 msh dflt fit f diffmah_file colname lmin nranks = Some (fit_table es) /\
    Forall2 (fun g e => exists h s o m x,
      nth_error hs g = Some h /\ average_rates (rt r) (made bulge disk g) s /\
      used_mah 5 h m /\ used_mass msh dflt 5 (Fin (last (rt r) 0)) h x /\
      entry_for f4 (Z.of_nat g) o e /\
      treated nranks (fun rank i => fit rank i (map Fin (rt r)) (map Fin s) m (Fin (log10R (last (rt r) 0))) (Fin (493 / 3153)))
        ((Fin 0 <? h_loss h)%X = true /\ (lmin <? x)%X = true /\
         10 ^ 8 < seen (rt r) (made bulge disk g) (List.length (rt r) - 1)) o)
      (seq 0 (List.length hs)) es.
Proof.
  intros Hm Hf r dfile colname lmin bulge disk hs OK HT C nranks Hn H2.
  destruct (target_data _ r OK) as (ins & tot & _ & E & L1 & L2 & V).
  pose proof OK as (Ne & Hi & _).
  eexists. 
  set (sfhs := if String.eqb colname "sfh_in_situ" then ins else tot).
  assert (Vs : forall g, (g < List.length hs)%nat -> average_rates (rt r) (made bulge disk g) (nth g sfhs [])).
  { intros g Hg. destruct (V g Hg) as [Va Vb]. unfold sfhs. destruct C as [(-> & -> & ->)|(-> & -> & ->)]; cbn; assumption. }
  assert (Ls : List.length sfhs = List.length hs) by (unfold sfhs; destruct (String.eqb _ _); assumption).
  assert (Lt : exists n, List.length (rt r) = S n) by (destruct (rt r); [congruence|eexists; reflexivity]).
  destruct Lt as [n Ln].
  assert (T : last (rt r) 0 = nth n (rt r) 0).
  { destruct (exists_last Ne) as (l & x & El). rewrite El in Ln |- *. rewrite last_last, app_nth2; rewrite app_length in Ln; cbn in Ln; [|lia].
    replace (n - List.length l)%nat with 0%nat by lia. reflexivity. }
  assert (T0 : last_ (map Fin (rt r)) = Fin (last (rt r) 0)) by (rewrite T; apply last_nth_fin; exact Ln).
  assert (Tp : 0 < last (rt r) 0).
  { rewrite T. exact (last_pos n (rt r) 0 Hi Ln). }
  destruct (galacticus_spec f4 msh dflt fit Hm Hf
    [("sfh_in_situ", D2 (map (map Fin) ins)); ("sfh_tot", D2 (map (map Fin) tot));
     ("is_cen", D1 (map Fin (rcen r))); ("tarr", D1 (map Fin (rt r)))] dfile colname lmin
    (map (map Fin) ins) (map (map Fin) tot) (D1 (map Fin (rcen r))) (map Fin (rt r)) (map (map Fin) sfhs) hs) with (nranks := nranks)
    as (es & Es & F); try reflexivity; try assumption.
  { unfold sfhs. destruct C as [(-> & _)|(-> & _)]; [left|right]; split; reflexivity. }
  { apply Forall_forall. intros s I. apply in_map_iff in I. destruct I as (s' & <- & I).
    apply In_nth with (d := []) in I. destruct I as (g & Hg & <-). rewrite !map_length. apply Vs. lia. }
  { rewrite map_length. exact L1. }
  { rewrite map_length. exact Ls. }
  exists es. split; [exact E|]. split; [exact Es|].
  assert (I : Forall (fun g => (g < List.length hs)%nat) (seq 0 (List.length hs))).
  { apply Forall_forall. intros g Ig. apply in_seq in Ig. lia. }
  clear Es. revert I. induction F as [|g e gs es' (h & sfh & o & m & x & Eh & Esf & U1 & U2 & En & Tr) F IH]; intros I; constructor.
  - inversion I as [|? ? Hg _]; subst. exists h, (nth g sfhs []), o, m, x.
    specialize (Vs g Hg).
    assert (Q : sfh = map Fin (nth g sfhs [])).
    { rewrite nth_error_map in Esf. rewrite (nth_error_nth' sfhs []) in Esf by lia. cbn in Esf. congruence. }
    subst sfh. rewrite T0 in U2, Tr. rewrite xlog10_fin in Tr by exact Tp.
    split; [exact Eh|]. split; [exact Vs|]. split; [exact U1|]. split; [exact U2|]. split; [exact En|].
    destruct (mass_seen (rt r) (made bulge disk g) (nth g sfhs []) Hi Ne Vs) as (M & EM & LM & VM).
    assert (EQ : (exists ms, cumulative_mstar_formed (map Fin (rt r)) (map Fin (nth g sfhs [])) = Some ms /\
                    (Fin 8 <? xlog10 (last_ ms))%X = true) <->
                 10 ^ 8 < seen (rt r) (made bulge disk g) (List.length (rt r) - 1)).
    { rewrite EM, Ln. replace (S n - 1)%nat with n by lia. rewrite <- VM by lia. rewrite <- above8.
      rewrite <- (last_nth_fin M n) by lia. split.
      - intros (ms & Q & B). injection Q as <-. exact B.
      - intros B. eexists. split; [reflexivity|exact B]. }
    destruct Tr as [Tr1 Tr2]. split.
    + intros (A1 & A2 & A3). apply Tr1. split; [exact A1|]. split; [exact A2|]. apply EQ. exact A3.
    + intros NS. apply Tr2. intros (A1 & A2 & A3). apply NS. split; [exact A1|]. split; [exact A2|]. apply EQ. exact A3.
  - apply IH. inversion I; assumption.
Qed.

(** ** The bundle of tables *)
Lemma whole_dset d : dslice d 0 None = d.
Proof.
  destruct d; cbn [dslice]; f_equal; unfold pyslice, norm_index; cbn [Z.ltb Z.compare];
    rewrite Z.min_l by lia; cbn [Z.to_nat skipn]; rewrite Nat.sub_0_r; apply firstn_all.
Qed.
Lemma load_whole f : NoDup (map fst f) -> load_flat_hdf5 f 0 None None = Some f.
Proof.
  intros N. unfold load_flat_hdf5.
  assert (G : forall l, (forall k d, In (k, d) l -> lookup k f = Some d) ->
    vmap (fun key => match lookup key f with Some d => Some (key, dslice d 0 None) | None => None end) (map fst l) = Some l).
  { unfold vmap. induction l as [|[k d] l IH]; intros H; [reflexivity|]. cbn [map fst sequence].
    rewrite (H k d) by (left; reflexivity). rewrite whole_dset.
    rewrite IH by (intros; apply H; right; assumption). reflexivity. }
  apply G. clear G. induction f as [|[k' d'] f IH]; intros k d I; [destruct I|].
  cbn [map fst] in N. inversion N as [|? ? N1 N2]; subst. cbn [lookup].
  destruct (String.eqb k' k) eqn:Q.
  - apply String.eqb_eq in Q. subst k'. destruct I as [I|I]; [congruence|].
    exfalso. apply N1. apply in_map_iff. exists (k, d). split; [reflexivity|exact I].
  - destruct I as [I|I]; [|apply IH; assumption]. injection I as -> ->. rewrite String.eqb_refl in Q. discriminate.
Qed.

Lemma bundle n r a b c : raw_ok n r -> NoDup (map fst a) -> NoDup (map fst b) -> NoDup (map fst c) ->
  exists d, load_galacticus_sfh_target_data (raw_of r) = Some d /\
    load_galacticus_diffstar_data a b c (raw_of r) =
      Some [("diffmah_fit_data", a); ("diffstar_in_situ_fit_data", b);
            ("diffstar_in_plus_ex_situ_fit_data", c); ("galcus_sfh_data", d)].
Proof.
  intros OK Na Nb Nc. destruct (target_data n r OK) as (ins & tot & E & _).
  eexists. split; [exact E|]. unfold load_galacticus_diffstar_data.
  rewrite !load_whole by assumption. rewrite E. reflexivity.
Qed.
