(** A population whose losses are finite and away from every cut-off. *)
From Coq Require Import Reals Lra Lia List Bool ZArith String.
From Coquelicot Require Import Coquelicot.
From Verif Require Import XReal XFacts RealFacts ModelUtils ModelKernels ModelSfh ModelPop ModelHist ModelGrad ModelPopGrad
  SpecCore SpecPop SpecHist SpecGrad SpecPopProgram SpecPopGrad SigmoidProofs SfhProofs IntegralProofs HistProofs SmhmProofs LossProofs PopParamProofs PopLossProofs
  CholeskyProofs GradTop PopGradProofs PopGradGal PopGradTop PopGradClaims.
Import List ListNotations.
Open Scope R_scope.
Local Notation length := List.length.

(** Every galaxy in bounds in a halo of 10^11.25 solar masses with baryon fraction 10 forms stars above the floor. *)
Lemma demo_ms P : in_bounds P -> 1 / 10 ^ 11 < ms_spec P 10 (45 / 4).
Proof.
  intros (B1 & B2 & B3 & B4 & _). unfold ms_spec, eff_spec. cbv zeta. set (x := 45 / 4 - d_lgmcrit P). set (q := 1 / (1 + exp (- (9 * x)))).
  assert (Q : 0 < q < 1).
  { unfold q. pose proof (exp_pos (- (9 * x))). split; [apply Rdiv_lt_0_compat; lra|]. apply (Rmult_lt_reg_r (1 + exp (- (9 * x)))); [lra|].
    unfold Rdiv. rewrite Rmult_assoc, Rinv_l by lra. lra. }
  set (k := d_indx_lo P + (d_indx_hi P - d_indx_lo P) * q).
  assert (K : -5 < k < 5) by (unfold k; nra).
  assert (X : - (9 / 4) < x < 9 / 4) by (unfold x; lra).
  assert (XK : - (45 / 4) < x * k) by nra.
  rewrite Rmult_assoc, <- pow10_plus.
  set (y := pow10R (45 / 4 + (d_lgy_at_mcrit P + x * k))).
  assert (L : pow10R (- (1 + 1 + 1 + 1 + 1 + 1 + 1 + 1 + 1 + 1 + 1 + 1)) < y) by (apply pow10_lt; lra).
  clearbody y. rewrite pow10_opp, !pow10_plus, !pow10_1 in L.
  replace (/ (10 * 10 * 10 * 10 * 10 * 10 * 10 * 10 * 10 * 10 * 10 * 10)) with (1 / 10 ^ 12) in L by (field). lra.
Qed.
Lemma demo_sfr P t : in_bounds P -> 1 / 10 ^ 14 < sfr_unfloored P 10 (45 / 4) t /\
  1 / 1000 * ms_spec P 10 (45 / 4) < sfr_unfloored P 10 (45 / 4) t <= ms_spec P 10 (45 / 4).
Proof.
  intros B. pose proof (demo_ms P B) as M. destruct B as (_ & _ & _ & _ & _ & _ & B7 & B8).
  pose proof (quench_spec_range (d_lg_qt P) (pow10R (d_qlglgdt P)) (d_lg_drop P) (d_lg_rejuv P) (log10R t) (pow10_pos _) ltac:(lra) ltac:(lra)) as Q.
  assert (P3 : pow10R (- (1 + 1 + 1)) < pow10R (d_lg_drop P)) by (apply pow10_lt; lra).
  rewrite pow10_opp, !pow10_plus, !pow10_1 in P3. replace (/ (10 * 10 * 10)) with (1 / 1000) in P3 by field.
  unfold sfr_unfloored. set (q := quench_spec _ _ _ _ _) in *. clearbody q. set (m := ms_spec _ _ _) in *. clearbody m.
  assert (1 / 10 ^ 11 * (1 / 1000) = 1 / 10 ^ 14) by field. split; [|split]; nra.
Qed.
Lemma demo_spec P t : in_bounds P -> sfr_spec P 10 (45 / 4) t = sfr_unfloored P 10 (45 / 4) t.
Proof. intros B. unfold sfr_spec. fold (sfr_unfloored P 10 (45 / 4) t). apply Rmax_right. pose proof (demo_sfr P t B). lra. Qed.

Lemma cum_bound B : forall l a fa c, increasing (a :: map fst l) -> fa <= B -> Forall (fun p => snd p <= B) l -> l <> [] ->
  last (cumR a fa c l) 0 <= c + B * (last (map fst l) 0 - a).
Proof.
  induction l as [|[b fb] l IH]; intros a fa c I Fa Fl N; [congruence|]. inversion Fl as [|? ? F1 F2]; subst. cbn [snd] in F1.
  destruct I as [Hab I]. cbn [cumR]. assert (T : (b - a) * (fb + fa) / 2 <= B * (b - a)).
  { cbn [fst] in Hab. pose proof (Rmult_le_compat_l (b - a) (fb + fa) (2 * B) ltac:(lra) ltac:(lra)). lra. }
  destruct l as [|p l]; [cbn [cumR last map fst]; lra|].
  specialize (IH b fb (c + (b - a) * (fb + fa) / 2) I F1 F2 ltac:(discriminate)).
  assert (R1 : last ((c + (b - a) * (fb + fa) / 2) :: cumR b fb (c + (b - a) * (fb + fa) / 2) (p :: l)) 0 = last (cumR b fb (c + (b - a) * (fb + fa) / 2) (p :: l)) 0)
    by (destruct p; reflexivity).
  cbv zeta. rewrite R1.
  assert (R2 : last (map fst ((b, fb) :: p :: l)) 0 = last (map fst (p :: l)) 0) by reflexivity. rewrite R2.
  set (X := last (map fst (p :: l)) 0) in *. clearbody X. lra.
Qed.
Lemma obs_last tobs : 0 < tobs -> last (obs_times tobs) 0 = tobs.
Proof.
  intros H. unfold obs_times. change (seq 0 20) with (seq 0 19 ++ [19%nat]). rewrite map_app. cbn [map]. rewrite last_last.
  replace (INR 19) with 19 by (cbn; lra). pose proof ln10_pos.
  replace ((-1 + 19 / 19 * (ln tobs / ln 10 + 1)) * ln 10) with (ln tobs) by (field; lra). apply exp_ln, H.
Qed.
Lemma last_map_ {A B} (f : A -> B) l d e : l <> [] -> last (map f l) e = f (last l d).
Proof.
  intros N. induction l as [|a l IH]; [congruence|]. destruct l as [|b l]; [reflexivity|].
  change (last (map f (a :: b :: l)) e) with (last (map f (b :: l)) e). rewrite IH by discriminate. reflexivity.
Qed.

Lemma demo_history mah lgt0 tobs : 1 / 10 < tobs -> halo_history ex_lmk mah lgt0 (fun _ => 45 / 4) (obs_times tobs).
Proof. intros _. apply Forall_map, Forall_forall. intros j _. split; [apply exp_pos|reflexivity]. Qed.
Lemma demo_ssfr P mah lgt0 s M : in_bounds P ->
  obs_row (3 / 20) (calc_sfh_singlegal ex_lmk (map_d Fin P) mah (map Fin (obs_times (3 / 20))) lgt0 (Fin 10)) s M -> -12 < ln s / ln 10 - ln M / ln 10.
Proof.
  intros B (E1 & Ps & mass & E2 & E3 & PM). set (ts := obs_times (3 / 20)) in *.
  rewrite (calc_sfh_value ex_lmk P mah ts lgt0 10 (fun _ => 45 / 4)) in * by (apply demo_history; lra). cbn beta in *.
  set (ss := map (fun t => sfr_spec P 10 (45 / 4) t) ts) in *.
  assert (NT : ts <> []) by (intros E; discriminate E).
  assert (NS : ss <> []) by (unfold ss; intros E; apply map_eq_nil in E; contradiction).
  rewrite last_fin in E1 by exact NS. apply Fin_inj in E1.
  rewrite cumulative_fin in E2 by (unfold ss; rewrite map_length; reflexivity). apply Some_inj in E2. subst mass.
  set (c := ms_spec P 10 (45 / 4)) in *. pose proof (demo_ms P B) as C. fold c in C.
  assert (S1 : 1 / 1000 * c < s).
  { rewrite <- E1. unfold ss. rewrite (last_map_ _ ts 0) by exact NT. rewrite demo_spec by exact B. apply (demo_sfr P _ B). }
  assert (NM : combine ts ss <> []).
  { intros E. apply (f_equal (@List.length _)) in E. rewrite combine_length in E. unfold ss, ts in E. rewrite map_length in E. discriminate E. }
  assert (HM : M <= c * (3 / 20) * 10 ^ 9).
  { rewrite last_fin in E3. 2:{ intros E. apply (f_equal (@List.length _)) in E. rewrite massR_length in E by (unfold ss; rewrite map_length; reflexivity). discriminate E. }
    apply Fin_inj in E3. rewrite <- E3. unfold massR.
    rewrite (last_map_ _ _ 0) by (destruct (combine ts ss) as [|[] ?]; [contradiction|discriminate]).
    assert (FST : map fst (combine ts ss) = ts) by (unfold ss; clear; induction ts; cbn; congruence).
    pose proof (cum_bound c (combine ts ss) T_BIRTH_MIN_R SFR_MIN_R 0) as Q. rewrite FST in Q.
    assert (Q' : last (cumR T_BIRTH_MIN_R SFR_MIN_R 0 (combine ts ss)) 0 <= 0 + c * (last ts 0 - T_BIRTH_MIN_R)).
    { apply Q; [apply obs_times_incr; lra|unfold SFR_MIN_R; lra| |exact NM].
      apply Forall_forall. intros [a b] Hab. apply in_combine_r in Hab. unfold ss in Hab. apply in_map_iff in Hab as (t & <- & _). cbn [snd].
      rewrite demo_spec by exact B. apply (demo_sfr P t B). }
    unfold ts in Q'. rewrite obs_last in Q' by lra. unfold T_BIRTH_MIN_R in Q' at 2. fold ts in Q'.
    set (z := last _ 0) in *. clearbody z. clear -Q' C. nra. }
  pose proof ln10_pos as L10.
  assert (R1 : ln s / ln 10 - ln M / ln 10 = log10R (s / M)).
  { unfold log10R. rewrite ln_div by assumption. field. lra. }
  rewrite R1. replace (-12) with (log10R (pow10R (-12))) by apply log10_pow10. apply log10_lt; [apply pow10_pos|].
  replace (-12) with (- (1 + 1 + 1 + 1 + 1 + 1 + 1 + 1 + 1 + 1 + 1 + 1)) by ring. rewrite pow10_opp, !pow10_plus, !pow10_1.
  apply (Rmult_lt_reg_r M); [exact PM|]. unfold Rdiv. rewrite (Rmult_assoc s), Rinv_l, Rmult_1_r by lra.
  replace (/ (10 * 10 * 10 * 10 * 10 * 10 * 10 * 10 * 10 * 10 * 10 * 10)) with (1 / 10 ^ 12) by field. lra.
Qed.

(** Two galaxies, a central and a satellite, observed at 0.15 Gyr. *)
Definition demo_z (u : Z * Z) : ZPop unit :=
  let c := [Fin 12; Fin 13] in mkZPop unit (mkMah c c c c c) c [fst u; snd u] c c c tt (Fin (3 / 20)).
Definition demo_split (k : unit) (n : nat) : list unit := repeat tt n.
Definition demo_normal (k : unit) (n : nat) : list xr := repeat (Fin 1) n.
Definition demo_uniform (k : unit) : xr := Fin (1 / 2).
Lemma demo_split_ok : splits_ok demo_split.
Proof. intros k n. apply repeat_length. Qed.
Lemma demo_normal_ok : normals_ok demo_normal.
Proof. intros k n. exists (repeat 1 n). split; [|apply repeat_length]. unfold demo_normal. induction n as [|n IH]; cbn; [reflexivity|]. rewrite IH. reflexivity. Qed.
Lemma demo_sim u lgt0 : sim_ok ex_lmk lgt0 2 (3 / 20) (demo_z u).
Proof.
  exists [12; 13], [12; 13], [12; 13], [12; 13], [12; 13].
  repeat (split; [reflexivity|]). split; [lra|]. repeat (split; [reflexivity|]). split; [repeat split|].
  intros i _. exists (fun _ => 45 / 4). apply demo_history. lra.
Qed.

Section Demo.
Variable u : Z * Z.
Variables U P : string -> R.
Hypothesis HB : pop_in_bounds P.
Hypothesis HS : slopes_nonzero P.
Hypothesis HP : get_bounded_diffstarpop_params (pop_u_params U) = Some (pop_params P).
Notation mvn := (mvn_of demo_normal).
Variable lgt0 : xr.

Lemma demo_res i tobs res : (i < 2)%nat -> simulated unit demo_split demo_uniform mvn ex_lmk (pop_params P) (demo_z u) lgt0 10 tobs res ->
  exists a q, tobs = 3 / 20 /\ in_bounds a /\ in_bounds q /\ gal_d (diffstar_params_ms res) i = map_d Fin a /\ gal_d (diffstar_params_q res) i = map_d Fin q /\
    nth i (sfh_ms res) [] = calc_sfh_singlegal ex_lmk (map_d Fin a) (gal_mah (z_mah unit (demo_z u)) i) (map Fin (obs_times (3 / 20))) lgt0 (Fin 10) /\
    nth i (sfh_q res) [] = calc_sfh_singlegal ex_lmk (map_d Fin q) (gal_mah (z_mah unit (demo_z u)) i) (map Fin (obs_times (3 / 20))) lgt0 (Fin 10).
Proof.
  intros Hi [ET ER]. assert (tobs = 3 / 20) as -> by (apply Fin_inj; symmetry; exact ET).
  set (V := fun _ : string => 0).
  assert (GS : forall j, (j < 2)%nat -> exists a q f b, PopGradTables.u_gal demo_split demo_uniform mvn 2 (pop_params P) (demo_z u) j = Some (map_d Fin a, map_d Fin q, f, b)).
  { intros j Hj. rewrite <- (pm_params U V P HP).
    exact (gal_some (LV V) (LV_lin V) True demo_split demo_uniform demo_normal ex_lmk demo_split_ok demo_normal_ok (fun s => pop_params (Pm U V s)) (Pm U V) (dpb U)
      (fun s => holds_params _) (pok_bounded U V True) (pm_bounds U V 0) (pm_slopes U V P HP HS) lgt0 (demo_z u) 2%nat (3 / 20) j (demo_sim u lgt0) Hj). }
  destruct (GS i Hi) as (a & q & f & b & EA).
  assert (Hsome : forall j, (j < 2)%nat -> PopGradTables.u_gal demo_split demo_uniform mvn 2 (pop_params P) (demo_z u) j <> None).
  { intros j Hj. destruct (GS j Hj) as (c1 & c2 & c3 & c4 & EC). rewrite EC. discriminate. }
  destruct (sim_res demo_split demo_uniform demo_normal ex_lmk demo_split_ok (pop_params P) (demo_z u) 2 (3 / 20) 10 lgt0 (demo_sim u lgt0) Hsome i _ _ f b Hi EA)
    as (res' & [_ R1] & _ & R3 & R4 & R5 & R6).
  rewrite ER in R1. apply Some_inj in R1. subst res'.
  exists (join_params (bounded_msR (slice_ms a)) (bounded_qR (slice_q a))), (join_params (bounded_msR (slice_ms q)) (bounded_qR (slice_q q))).
  split; [reflexivity|]. split; [apply bounded_in_bounds|]. split; [apply bounded_in_bounds|].
  rewrite <- !bounded_diffstar_fin. split; [exact R3|]. split; [exact R4|].
  pose proof (PopGradGal.zgrid ex_lmk (demo_z u) 2 (3 / 20) lgt0 (demo_sim u lgt0)) as G. unfold PopGradTables.sfr_of in R5, R6. rewrite G in R5, R6. split; assumption.
Qed.
Lemma demo_smooth_sfr zs : (forall z, In z zs -> z = (demo_z u)) -> smooth_sfr unit demo_split demo_uniform mvn ex_lmk (pop_params P) lgt0 10 zs.
Proof.
  intros Hz. apply Forall_forall. intros z Hin. rewrite (Hz z Hin). intros tobs res Hr i Hi. destruct (demo_res i tobs res Hi Hr) as (a & q & -> & Ba & Bq & E1 & E2 & _).
  assert (X : forall c, in_bounds c -> off_sfr_floor ex_lmk lgt0 10 (3 / 20) (gal_mah (z_mah unit (demo_z u)) i) (map_d Fin c)).
  { intros c Bc Q h EQ Hh. assert (Q = c) as ->.
    { clear -EQ. destruct Q, c. unfold map_d in EQ. cbn in EQ. injection EQ. intros. subst. reflexivity. }
    apply Forall_forall. intros t Ht. destruct (proj1 (Forall_forall _ _) Hh t Ht) as [_ Em]. unfold ex_lmk in Em. apply Fin_inj in Em. rewrite <- Em.
    pose proof (demo_sfr c t Bc). lra. }
  rewrite E1, E2. split; apply X; assumption.
Qed.
Lemma demo_smooth_ssfr zs : (forall z, In z zs -> z = (demo_z u)) -> smooth_ssfr unit demo_split demo_uniform mvn ex_lmk (pop_params P) lgt0 10 zs.
Proof.
  intros Hz. apply Forall_forall. intros z Hin. rewrite (Hz z Hin). intros tobs res Hr i Hi. destruct (demo_res i tobs res Hi Hr) as (a & q & -> & Ba & Bq & _ & _ & E1 & E2).
  rewrite E1, E2. split; intros s M HO; [pose proof (demo_ssfr a _ _ s M Ba HO)|pose proof (demo_ssfr q _ _ s M Bq HO)]; lra.
Qed.

Lemma demo_mstar : exists d v, mstar_data_ok unit ex_lmk d 10 /\ ml_zs unit d = [(demo_z u)] /\ ml_lgt0 unit d = lgt0 /\
  loss_mstar unit demo_split demo_uniform mvn ex_lmk (pop_u_params U) d = Some (Fin v).
Proof.
  destruct (tables_sample unit demo_split demo_uniform mvn ex_lmk demo_split_ok (mvn_of_ok _ demo_normal_ok) (pop_params P) P 2 (3 / 20) (demo_z u) lgt0 10
     (holds_params P) HB HS (demo_sim u lgt0)) as (X & Y & W & _ & TA & LX & LY & LW & PW).
  set (x := nth 0 X 0). set (E := [x - 1; x; x + 1]).
  assert (IE : increasing E) by (cbn; lra).
  destruct (mstar_pdf X W E ltac:(lia) IE ltac:(cbn; lia)) as (h & F1 & F2 & _).
  - eapply Forall_impl; [|exact PW]. cbv beta. intros; lra.
  - exists 0%nat. split; [lia|]. split; [apply (SmhmProofs.F_nth (fun w => 0 < w < 1) W 0 0 PW); lia|]. fold x. cbn [hd last E length Nat.sub INR]. unfold E. cbn [hd last length Nat.sub INR]. lra.
  - set (d := mkML unit [(demo_z u)] lgt0 (Fin 10) (map Fin E) (map (map Fin) [[1 / 2; 1 / 2]])).
    destruct (loss_mstar_props unit demo_split demo_uniform mvn ex_lmk (pop_u_params U) [(demo_z u)] lgt0 (Fin 10) (map Fin E) [h] [[1 / 2; 1 / 2]]) as (v & Hv & _).
    + unfold mstar_kern_tobs. rewrite HP. unfold vmap. cbn [map sequence]. rewrite TA, F1. reflexivity.
    + cbn [map]. rewrite F2. reflexivity.
    + cbn [List.concat]. rewrite app_nil_r. intros ->. discriminate F2.
    + exists d, v. split; [|split; [reflexivity|split; [reflexivity|exact Hv]]]. exists E, [[1 / 2; 1 / 2]]. split; [reflexivity|].
      split; [|split; [cbn; lia|exact IE]]. constructor; [|constructor]. exists 2%nat, (3 / 20). apply demo_sim.
Qed.
Lemma demo_ssfr_loss : exists d v, ssfr_data_ok unit ex_lmk d 10 /\ sl_zs unit d = [(demo_z u)] /\ sl_lgt0 unit d = lgt0 /\ s_nmhalo (sl_data unit d) = [[Fin 1]] /\
  loss_ssfr unit demo_split demo_uniform mvn ex_lmk (pop_u_params U) d = Some (Fin v).
Proof.
  destruct (tables_sample unit demo_split demo_uniform mvn ex_lmk demo_split_ok (mvn_of_ok _ demo_normal_ok) (pop_params P) P 2 (3 / 20) (demo_z u) lgt0 10
     (holds_params P) HB HS (demo_sim u lgt0)) as (X & Y & W & _ & TA & LX & LY & LW & PW).
  set (x := nth 0 X 0). set (y := nth 0 Y 0). set (E1 := [x - 1; x + 1]). set (E2 := [y - 1; y; y + 1]).
  set (LO := [[x - 1; y - 1]; [x - 1; y]]). set (HI := [[x + 1; y]; [x + 1; y + 1]]).
  assert (I1 : increasing E1) by (cbn; lra). assert (I2 : increasing E2) by (cbn; lra).
  assert (HC : cells LO HI) by (repeat constructor; lra).
  destruct (ssfr_pdf X Y W LO HI E1 E2 ltac:(lia) ltac:(lia) I1 ltac:(cbn; lia) I2 ltac:(cbn; lia) HC) as (r & R1 & R2 & R3).
  { eapply Forall_impl; [|exact PW]. cbv beta. intros; lra. }
  cbv zeta in R3. destruct R3 as [(_ & h & -> & Hh)|(N & _)].
  2:{ exfalso. apply N. exists 0%nat, 0%nat. split; [lia|]. split; [cbn; lia|]. split; [apply (SmhmProofs.F_nth (fun w => 0 < w < 1) W 0 0 PW); lia|].
      fold x y. unfold overlaps, mean_bin, E1, E2, LO, HI. cbn [nth last hd length Nat.sub INR]. lra. }
  rewrite map_length in R2. destruct h as [|h0 [|h1 [|]]]; try discriminate R2.
  destruct (conditional_pdf 1 2 [[[h0; h1]]] [[1]] [[0%nat]] [0%nat]) as (c & C1 & C2 & C3).
  { intros m [<-|[]]. split; [reflexivity|]. constructor; [|constructor]. split; [reflexivity|]. apply Hh. }
  { constructor; [|constructor]. split; [reflexivity|]. split; [repeat constructor; lra|]. repeat constructor. }
  { repeat constructor. }
  destruct (C3 0%nat 0%nat ltac:(cbn; lia) ltac:(cbn; lia)) as (C4 & [(g & G1 & G2 & _)|(_ & Z)]).
  2:{ exfalso. destruct Hh as [_ Sh]. pose proof (Z 0%nat ltac:(lia)) as Z0. pose proof (Z 1%nat ltac:(lia)) as Z1. cbn in Z0, Z1, Sh. lra. }
  destruct c as [|c0 [|]]; try discriminate C2. cbn [nth] in C4, G1. destruct c0 as [|c0 [|]]; try discriminate C4. cbn [nth] in G1. subst c0.
  set (d := mkSL unit [(demo_z u)] lgt0 (Fin 10) (mkSsfr (map (map Fin) LO) (map (map Fin) HI) (map Fin E1) (map Fin E2) (map (map Fin) [[1]]) [[0%nat]] [0%nat]) (map (map (map Fin)) [[[1 / 2; 1 / 2]]])).
  destruct (loss_ssfr_props unit demo_split demo_uniform mvn ex_lmk (pop_u_params U) [(demo_z u)] lgt0 (Fin 10) (sl_data unit d) [[g]] [[[1 / 2; 1 / 2]]]) as (v & Hv & _).
  - unfold mstar_ssfr_kern_tobs. rewrite HP. unfold vmap. cbn [map sequence]. rewrite TA. unfold d. cbn [sl_data s_lo s_hi s_mbins s_sbins s_nmhalo s_indx s_ids].
    cbv zeta. rewrite R1. cbn [map] in *. exact C1.
  - cbn [map]. rewrite G2. reflexivity.
  - cbn [List.concat app]. rewrite app_nil_r. intros ->. discriminate G2.
  - exists d, v. split; [|split; [reflexivity|split; [reflexivity|split; [reflexivity|exact Hv]]]]. exists LO, HI, E1, E2, [[1]], [[0%nat]], [0%nat], [[[1 / 2; 1 / 2]]]. split; [reflexivity|].
    split; [constructor; [|constructor]; exists 2%nat, (3 / 20); apply demo_sim|]. split; [cbn; lia|]. split; [exact I1|]. split; [cbn; lia|]. split; [exact I2|exact HC].
Qed.
End Demo.

Lemma demo_gradients u : exists U P dm vm dc vc,
  get_bounded_diffstarpop_params (pop_u_params U) = Some (pop_params P) /\ slopes_nonzero P /\
  mstar_data_ok unit ex_lmk dm 10 /\ ssfr_data_ok unit ex_lmk dc 10 /\
  map (z_upid unit) (ml_zs unit dm) = [[fst u; snd u]] /\ map (z_upid unit) (sl_zs unit dc) = [[fst u; snd u]] /\
  loss_mstar unit demo_split demo_uniform (mvn_of demo_normal) ex_lmk (pop_u_params U) dm = Some (Fin vm) /\
  loss_ssfr unit demo_split demo_uniform (mvn_of demo_normal) ex_lmk (pop_u_params U) dc = Some (Fin vc) /\
  smooth_sfr unit demo_split demo_uniform (mvn_of demo_normal) ex_lmk (pop_params P) (ml_lgt0 unit dm) 10 (ml_zs unit dm) /\
  smooth_sfr unit demo_split demo_uniform (mvn_of demo_normal) ex_lmk (pop_params P) (sl_lgt0 unit dc) 10 (sl_zs unit dc) /\
  smooth_ssfr unit demo_split demo_uniform (mvn_of demo_normal) ex_lmk (pop_params P) (sl_lgt0 unit dc) 10 (sl_zs unit dc).
Proof.
  destruct default_in_bounds as (P & U & _ & HB & HS & _ & HP).
  destruct (demo_mstar u U P HB HS HP (Fin 1)) as (dm & vm & A1 & A2 & A3 & A4). destruct (demo_ssfr_loss u U P HB HS HP (Fin 1)) as (dc & vc & B1 & B2 & B3 & _ & B4).
  exists U, P, dm, vm, dc, vc. rewrite A2, A3, B2, B3. do 4 (split; [assumption|]). do 2 (split; [reflexivity|]). do 2 (split; [assumption|]).
  assert (Z : forall z, In z [(demo_z u)] -> z = (demo_z u)) by (intros z [<-|[]]; reflexivity).
  split; [apply (demo_smooth_sfr u U P HS HP (Fin 1) _ Z)|]. split; [apply (demo_smooth_sfr u U P HS HP (Fin 1) _ Z)|apply (demo_smooth_ssfr u U P HS HP (Fin 1) _ Z)].
Qed.
