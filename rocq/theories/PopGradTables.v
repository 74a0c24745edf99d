(** The simulated tables of one redshift and their derivatives. *)
From Coq Require Import Reals Lra Lia.
From Coquelicot Require Import Coquelicot.
From Coq Require Import List Bool ZArith String.
From Verif Require Import XReal XFacts RealFacts ModelUtils ModelKernels ModelSfh ModelPop ModelHist ModelFit ModelGrad ModelPopTables ModelPopGrad
  SpecCore SpecPop SpecHist IntegralProofs PopProofs PopMcProofs LossProofs PopLossProofs PopParamProofs PopKernelProofs MatrixProofs CholeskyProofs PopGradProofs.
Import List ListNotations.
Open Scope R_scope.

Section Tables.
Context {key : Type}.
Variable split : key -> nat -> list key.
Variable uniform : key -> xr.
Variable mvn : key -> list xr -> matrix -> list xr.
Variable lmk : MahParams xr -> xr -> xr -> xr.
Hypothesis Hsplit : splits_ok split.
Notation u_single := (mc_diffstar_u_params_singlegal key split uniform mvn).
Notation p_single := (mc_diffstar_params_singlegal key split uniform mvn).
Notation tables := (tobs_tables key split uniform mvn lmk).

Definition args_ok (n : nat) (z : ZPop key) : Prop :=
  cols_len_mah n (z_mah key z) /\ pop_args n (z_logmp0 key z) (t_peak (z_mah key z)) (z_upid key z) (z_lgmu_infall key z) (z_logmhost_infall key z) (z_gyr_since_infall key z).
Definition u_gal (n : nat) (p : nt xr) (z : ZPop key) (i : nat) :=
  u_single p (nth i (z_logmp0 key z) NaN) (nth i (t_peak (z_mah key z)) NaN) (nth i (z_upid key z) 0%Z) (nth i (z_lgmu_infall key z) NaN)
    (nth i (z_logmhost_infall key z) NaN) (nth i (z_gyr_since_infall key z) NaN) (nth i (split (z_key key z) n) (z_key key z)).
Definition mass_of (ts ss : list xr) : list xr := match cumulative_mstar_formed ts ss with Some m => m | None => [] end.
Definition sfr_of (u : DiffstarParams xr) (z : ZPop key) (lgt0 fb : xr) (i : nat) : list xr :=
  calc_sfh_singlegal lmk (get_bounded_diffstar_params u) (gal_mah (z_mah key z) i) (tobs_grid (z_tobs key z)) lgt0 fb.
Definition logm_of u z lgt0 fb i := xlog10 (last_ (mass_of (tobs_grid (z_tobs key z)) (sfr_of u z lgt0 fb i))).
Definition ssfr_of u z lgt0 fb i := clip_lo (Fin (-12)) (xlog10 (last_ (sfr_of u z lgt0 fb i)) - logm_of u z lgt0 fb i)%X.

Lemma len_calc p mah ts lgt0 fb : List.length (calc_sfh_singlegal lmk p mah ts lgt0 fb) = List.length ts.
Proof. unfold calc_sfh_singlegal, sfh_singlegal_kern. apply map_length. Qed.
Lemma cum_galpop n (f : nat -> list xr) ts : (forall i, List.length (f i) = List.length ts) ->
  cumulative_mstar_formed_galpop ts (map f (seq 0 n)) = Some (map (fun i => mass_of ts (f i)) (seq 0 n)).
Proof.
  intros H. unfold cumulative_mstar_formed_galpop. rewrite <- (map_map f (mass_of ts)). apply vmap_map_some.
  intros a Ha. apply in_map_iff in Ha as (i & <- & _). unfold mass_of. destruct (cumulative_some ts (f i) (eq_sym (H i))) as (m & -> & _). reflexivity.
Qed.
Lemma tables_rows n p z lgt0 fb (Ums Uq : nat -> DiffstarParams xr) (f : nat -> xr) (b : nat -> bool) : args_ok n z ->
  (forall i, (i < n)%nat -> u_gal n p z i = Some (Ums i, Uq i, f i, b i)) ->
  tables p z lgt0 fb = Some (map (fun i => logm_of (Ums i) z lgt0 fb i) (seq 0 n) ++ map (fun i => logm_of (Uq i) z lgt0 fb i) (seq 0 n),
    map (fun i => ssfr_of (Ums i) z lgt0 fb i) (seq 0 n) ++ map (fun i => ssfr_of (Uq i) z lgt0 fb i) (seq 0 n),
    map (fun i => Fin 1 * (Fin 1 - f i))%X (seq 0 n) ++ map (fun i => Fin 1 * f i)%X (seq 0 n)).
Proof.
  intros (Hc & A) Hu. unfold tobs_tables.
  assert (EP : forall i, (i < n)%nat -> p_single p (nth i (z_logmp0 key z) NaN) (nth i (t_peak (z_mah key z)) NaN) (nth i (z_upid key z) 0%Z) (nth i (z_lgmu_infall key z) NaN)
    (nth i (z_logmhost_infall key z) NaN) (nth i (z_gyr_since_infall key z) NaN) (nth i (split (z_key key z) n) (z_key key z))
    = Some (get_bounded_diffstar_params (Ums i), get_bounded_diffstar_params (Uq i), f i, b i)).
  { intros i Hi. specialize (Hu i Hi). unfold u_gal in Hu. unfold mc_diffstar_params_singlegal. rewrite Hu. reflexivity. }
  destruct (s_pop_total split uniform mvn lmk Hsplit n p (z_mah key z) (z_logmp0 key z) (z_upid key z) (z_lgmu_infall key z) (z_logmhost_infall key z)
              (z_gyr_since_infall key z) (z_key key z) (tobs_grid (z_tobs key z)) lgt0 fb Hc A) as (res & ER).
  { intros i Hi. rewrite (EP i Hi). discriminate. }
  destruct (s_pop_inv split uniform mvn lmk Hsplit n _ _ _ _ _ _ _ _ _ _ _ _ Hc A ER) as (_ & _ & R1 & R2 & R3 & _ & _ & _ & HR).
  unfold mc_sfh_at_tobs. rewrite ER.
  assert (HS : forall i, (i < n)%nat -> nth i (sfh_ms res) [] = sfr_of (Ums i) z lgt0 fb i /\ nth i (sfh_q res) [] = sfr_of (Uq i) z lgt0 fb i /\ nth i (frac_q res) NaN = f i).
  { intros i Hi. specialize (HR i Hi). unfold mc_diffstar_sfh_singlegal in HR. cbv zeta in HR.
    change (t_peak (gal_mah (z_mah key z) i)) with (nth i (t_peak (z_mah key z)) NaN) in HR. rewrite (EP i Hi) in HR.
    apply Some_inj in HR. pose proof (f_equal sfh_ms HR) as H1. pose proof (f_equal sfh_q HR) as H2. pose proof (f_equal frac_q HR) as H3. cbn [sfh_ms sfh_q frac_q] in H1, H2, H3.
    rewrite <- H1, <- H2, <- H3. split; [reflexivity|]. split; reflexivity. }
  assert (E1 : sfh_ms res = map (fun i => sfr_of (Ums i) z lgt0 fb i) (seq 0 n)).
  { apply (list_eq_nth _ _ []); [rewrite map_length, seq_length; exact R1|]. intros i Hi. rewrite nth_map_seq by lia. apply HS. lia. }
  assert (E2 : sfh_q res = map (fun i => sfr_of (Uq i) z lgt0 fb i) (seq 0 n)).
  { apply (list_eq_nth _ _ []); [rewrite map_length, seq_length; exact R2|]. intros i Hi. rewrite nth_map_seq by lia. apply HS. lia. }
  assert (E3 : frac_q res = map f (seq 0 n)).
  { apply (list_eq_nth _ _ NaN); [rewrite map_length, seq_length; exact R3|]. intros i Hi. rewrite nth_map_seq by lia. apply HS. lia. }
  unfold calculate_obs_data. rewrite E1, E2, E3. cbv zeta. rewrite !cum_galpop by (intros i; apply len_calc).
  rewrite !map_map, !map2_map_same, !map_map. reflexivity.
Qed.
End Tables.
