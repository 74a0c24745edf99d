(** Proofs about the draws and the quenched fractions of the population model (C103-C105). *)
From Coq Require Import Reals Lra Lia List Bool String QArith Qreals ZArith.
From Verif Require Import XReal ModelUtils ModelKernels ModelSfh ModelPopTables ModelPop SpecPop SpecScaling
  RealFacts XFacts SigmoidProofs PopProofs PopParamProofs PopKernelProofs MatrixProofs ScalingProofs.
Import ListNotations.
Open Scope R_scope.

(** ** C103: bent relations *)
Lemma third_logistic x : 0 <= x -> 0 <= x * logisticR (- (3 * x)) <= 1 / 9.
Proof.
  intros Hx. assert (L := logistic_range (- (3 * x))). assert (H := x_logistic_opp_le (3 * x)).
  set (l := logisticR _) in *. split; nra.
Qed.
Lemma bent_close : forall P name m,
  let par s := P (name ++ s)%string in
  Rabs (bent P name m - (par "_ytp"%string + (if Rlt_dec m (par "_xtp"%string) then par "_lo"%string else par "_hi"%string)
                                       * (m - par "_xtp"%string)))
  <= Rabs (par "_hi"%string - par "_lo"%string) / 9.
Proof.
  intros P name m par. unfold bent, par. clear par. cbv zeta. change step with sigR. unfold sigR.
  generalize (P (name ++ "_ytp")%string) (P (name ++ "_xtp")%string) (P (name ++ "_lo")%string) (P (name ++ "_hi")%string).
  intros y x lo hi.
  set (d := m - x). destruct (Rlt_dec m x) as [H|H].
  - assert (S := third_logistic (- d) ltac:(unfold d; lra)). replace (- (3 * - d)) with (3 * d) in S by ring.
    set (l := logisticR (3 * d)) in *.
    replace (y + (lo + (hi - lo) * l) * d - (y + lo * d)) with ((hi - lo) * (- (- d * l))) by ring.
    rewrite Rabs_mult, Rabs_Ropp, (Rabs_right (- d * l)) by lra. assert (0 <= Rabs (hi - lo)) by apply Rabs_pos. nra.
  - assert (S := third_logistic d ltac:(unfold d; lra)). rewrite logistic_opp in S.
    set (l := logisticR (3 * d)) in *.
    replace (y + (lo + (hi - lo) * l) * d - (y + hi * d)) with ((hi - lo) * (- (d * (1 - l)))) by ring.
    rewrite Rabs_mult, Rabs_Ropp, (Rabs_right (d * (1 - l))) by lra. assert (0 <= Rabs (hi - lo)) by apply Rabs_pos. nra.
Qed.

(** ** C104: draws *)
Section Draws.
Context {key : Type}.
Variable split : key -> nat -> list key.
Variable uniform : key -> xr.
Variable mvn : key -> list xr -> matrix -> list xr.

Lemma frac_of_eq upid P m tp mu mh gy :
  (if Z.eqb upid (-1) then Fin (frac "cen" P m tp) else Fin (frac_sat P m tp mu mh gy)) = Fin (frac_of upid P m tp mu mh gy).
Proof. unfold frac_of. destruct (Z.eqb_spec upid (-1)), (Z.eq_dec upid (-1)); try easy; congruence. Qed.

Lemma draws : forall p P m tp upid mu mh gy k k1 k2 k3 k4 a b c d a' b' c' d' e f g h,
  holds "" p P -> pop_in_bounds P -> slopes_nonzero P ->
  split k 4%nat = [k1; k2; k3; k4] ->
  mvn k1 (map Fin (mean_ms P m)) (uncorrelated (std_ms "mseq" P m)) = [a; b; c; d] ->
  mvn k2 (map Fin (firstn 4 (mean_q P m tp))) (uncorrelated (std_ms "qseq" P m)) = [a'; b'; c'; d'] ->
  mvn k3 (map Fin (skipn 4 (mean_q P m tp))) (uncorrelated (std_q P m)) = [e; f; g; h] ->
  let fq := Fin (frac_of upid P m tp mu mh gy) in
  let u_ms := mkDiffstar a b c d (Fin 5) (Fin 5) (Fin 5) (Fin 5) in
  let u_q := mkDiffstar a' b' c' d' e f g h in
  mc_diffstar_u_params_singlegal key split uniform mvn p (Fin m) (Fin tp) upid (Fin mu) (Fin mh) (Fin gy) k
    = Some (u_ms, u_q, fq, xlt (uniform k4) fq) /\
  mc_diffstar_params_singlegal key split uniform mvn p (Fin m) (Fin tp) upid (Fin mu) (Fin mh) (Fin gy) k
    = Some (get_bounded_diffstar_params u_ms, get_bounded_diffstar_params u_q, fq, xlt (uniform k4) fq).
Proof.
  intros p P m tp upid mu mh gy k k1 k2 k3 k4 a b c d a' b' c' d' e f g h Hp Hb Hs Ek E1 E2 E3 fq u_ms u_q.
  assert (G : mc_diffstar_u_params_singlegal key split uniform mvn p (Fin m) (Fin tp) upid (Fin mu) (Fin mh) (Fin gy) k
    = Some (u_ms, u_q, fq, xlt (uniform k4) fq)).
  { unfold mc_diffstar_u_params_singlegal. rewrite (relations p P) by auto. rewrite Ek.
    cbn [mc_frac_cen mc_frac_sat mu_mseq mu_qseq cov_mseq_ms cov_qseq_ms cov_qseq_q]. rewrite frac_of_eq.
    rewrite firstn_map, skipn_map, E1, E2, E3. reflexivity. }
  split; [exact G|]. unfold mc_diffstar_params_singlegal. rewrite G. reflexivity.
Qed.
End Draws.

(** ** C105: the quenched fraction and halo mass *)
Lemma sigR_mono x y x0 k lo hi : 0 < k -> x < y ->
  (lo < hi -> sigR x x0 k lo hi < sigR y x0 k lo hi) /\ (hi < lo -> sigR y x0 k lo hi < sigR x x0 k lo hi) /\
  (lo = hi -> sigR y x0 k lo hi = sigR x x0 k lo hi).
Proof.
  intros Hk H. unfold sigR.
  assert (L : logisticR (k * (x - x0)) < logisticR (k * (y - x0))) by (apply logistic_lt; nra).
  split; [|split]; intros; nra.
Qed.

Lemma frac_mono P c m1 m2 tp : 0 < P ("frac_quench_" ++ c ++ "_k")%string -> m1 < m2 ->
  let yhi := P ("frac_quench_" ++ c ++ "_yhi")%string in
  (frac_floor c P tp < yhi -> frac c P m1 tp < frac c P m2 tp) /\
  (yhi < frac_floor c P tp -> frac c P m2 tp < frac c P m1 tp) /\
  (frac_floor c P tp = yhi -> frac c P m2 tp = frac c P m1 tp).
Proof. intros Hk H yhi. exact (sigR_mono _ _ _ _ _ _ Hk H). Qed.

Lemma infall_lt1 P mu mh gy : pop_in_bounds P -> 0 < infall_quenched P mu mh gy < 1.
Proof.
  intros Hb. unfold infall_quenched. change step with sigR.
  bnd P "lgmu_lo_mh_lo"%string Hb. bnd P "lgmu_lo_mh_hi"%string Hb. bnd P "lgmu_hi_mh_lo"%string Hb.
  bnd P "lgmu_hi_mh_hi"%string Hb. set (h := sigR mh (P "qp_lgmh_crit"%string) _ _ _).
  assert (Hh : 0 < h < 1) by (apply sigR_between; apply sigR_between; lra).
  unfold sigR. rewrite Rplus_0_l, Rminus_0_r. match goal with |- 0 < h * ?l < 1 => assert (L : 0 < l < 1) by apply logistic_range; set (z := l) in * end. nra.
Qed.

Lemma fraction_vs_mass : forall p P m1 m2 tp mu mh gy mc1 mc2, holds "" p P -> pop_in_bounds P -> slopes_nonzero P -> m1 < m2 ->
  diffstarpop_means_covs p (Fin m1) (Fin tp) (Fin mu) (Fin mh) (Fin gy) = Some mc1 ->
  diffstarpop_means_covs p (Fin m2) (Fin tp) (Fin mu) (Fin mh) (Fin gy) = Some mc2 ->
  exists c1 c2 s1 s2, mc_frac_cen mc1 = Fin c1 /\ mc_frac_cen mc2 = Fin c2 /\ mc_frac_sat mc1 = Fin s1 /\ mc_frac_sat mc2 = Fin s2 /\
    (frac_floor "cen" P tp < P "frac_quench_cen_yhi"%string -> c1 < c2) /\
    (P "frac_quench_cen_yhi"%string < frac_floor "cen" P tp -> c2 < c1) /\
    (frac_floor "cen" P tp = P "frac_quench_cen_yhi"%string -> c1 = c2) /\
    (frac_floor "sat" P tp < P "frac_quench_sat_yhi"%string -> s1 < s2) /\
    (P "frac_quench_sat_yhi"%string < frac_floor "sat" P tp -> s2 < s1) /\
    (frac_floor "sat" P tp = P "frac_quench_sat_yhi"%string -> s1 = s2).
Proof.
  intros p P m1 m2 tp mu mh gy mc1 mc2 Hp Hb Hs Hm E1 E2.
  rewrite (relations p P) in E1, E2 by auto. apply Some_inj in E1, E2. subst mc1 mc2.
  cbn [mc_frac_cen mc_frac_sat]. do 4 eexists. do 4 (split; [reflexivity|]).
  bnd P "frac_quench_cen_k"%string Hb. bnd P "frac_quench_sat_k"%string Hb.
  destruct (frac_mono P "cen" m1 m2 tp ltac:(cbn [append]; lra) Hm) as (A1 & A2 & A3).
  destruct (frac_mono P "sat" m1 m2 tp ltac:(cbn [append]; lra) Hm) as (B1 & B2 & B3).
  assert (I := infall_lt1 P mu mh gy Hb). cbv zeta in *. cbn [append] in *.
  unfold frac_sat. set (q := infall_quenched P mu mh gy) in *.
  split; [exact A1|]. split; [exact A2|]. split; [intros X; symmetry; auto|].
  split; [intros X; specialize (B1 X); nra|]. split; [intros X; specialize (B2 X); nra|].
  intros X. rewrite (B3 X). reflexivity.
Qed.

(** Published tables *)
Definition table_value (t : list (string * Q)) (n : string) : R :=
  match assoc n (combine pop_names (map snd t ++ map snd DEFAULT_SATQUENCHPOP_PDICT)) with Some q => Q2R q | None => 0 end.
Lemma table_holds t p : List.length (map snd t ++ map snd DEFAULT_SATQUENCHPOP_PDICT) = 88%nat ->
  calibration t = Some p -> p = pop_params (table_value t).
Proof.
  intros L E. unfold calibration in E. rewrite <- (map_map snd Q2X t) in E. unfold values, DEFAULT_SATQUENCHPOP_PARAMS in E.
  rewrite (map_map _ snd) in E. cbn [snd] in E. rewrite <- (map_map snd Q2X), <- map_app in E.
  rewrite (nt_make_by_position _ L) in E. apply Some_inj in E. now subst.
Qed.
Lemma table_good t : In t CALIBRATIONS -> exists p, calibration t = Some p /\ holds "" p (table_value t) /\
  pop_in_bounds (table_value t) /\ slopes_nonzero (table_value t).
Proof.
  intros H. destruct (calibrations_in_bounds t H) as (P & U & E & Hb & Hs & _).
  assert (L : List.length (map snd t ++ map snd DEFAULT_SATQUENCHPOP_PDICT) = 88%nat).
  { assert (C := calib_all). rewrite forallb_forall in C. specialize (C t (or_intror H)).
    unfold calib_row in C. apply andb_prop in C as [C _]. apply andb_prop in C as [C _]. now apply Nat.eqb_eq. }
  assert (X := table_holds t _ L E).
  assert (Y : forall n, In n pop_names -> P n = table_value t n).
  { intros n Hn. assert (H1 := holds_params P n Hn). assert (H2 := holds_params (table_value t) n Hn). rewrite X in H1. congruence. }
  exists (pop_params P). split; [exact E|]. split; [rewrite X; apply holds_params|]. split.
  - unfold pop_in_bounds in *. rewrite Forall_forall in *. intros r Hr. rewrite <- Y by (apply in_map; auto). auto.
  - unfold slopes_nonzero in *. rewrite Forall_forall in *. intros n Hn. rewrite <- Y; auto.
    assert (T : forallb (fun n => existsb (String.eqb n) pop_names) pop_slopes = true) by (vm_compute; reflexivity).
    rewrite forallb_forall in T. specialize (T n Hn). apply existsb_exists in T as (r & R1 & R2).
    apply String.eqb_eq in R2. now subst.
Qed.

Ltac tv := unfold table_value; repeat match goal with |- context [match assoc ?n ?l with _ => _ end] =>
   let v := eval vm_compute in (assoc n l) in change (assoc n l) with v; cbv iota end; rewrite !q2r; cbn [Qnum Qden].

Lemma floor_below t tp : In t tables_rising -> frac_floor "cen" (table_value t) tp < table_value t "frac_quench_cen_yhi"%string.
Proof.
  intros H. unfold frac_floor. change step with sigR. cbn [append].
  repeat (destruct H as [<-|H]; [tv; unfold sigR;
    match goal with |- _ + _ * ?l < _ => assert (L : 0 < l < 1) by apply logistic_range; set (z := l) in *; clearbody z end; lra|]).
  destruct H.
Qed.
Lemma exp8 : 81 <= exp 8.
Proof.
  replace 8 with (2 + 2 + 2 + 2) by lra. rewrite !exp_plus. assert (H := exp_ineq1_le 2). set (e := exp 2) in *.
  assert (9 <= e * e) by nra. nra.
Qed.
Lemma floor_above t tp : In t tables_falling -> tp <= 3 ->
  table_value t "frac_quench_cen_yhi"%string < frac_floor "cen" (table_value t) tp.
Proof.
  intros H Ht. unfold frac_floor. change step with sigR. cbn [append].
  assert (L : logisticR (2 * (tp - 7)) <= / 82).
  { apply Rle_trans with (logisticR (-8)); [apply logistic_le; lra|]. unfold logisticR.
    replace (- -8) with 8 by ring. assert (X := exp8). apply Rinv_le_contravar; lra. }
  assert (L' := logistic_range (2 * (tp - 7))).
  repeat (destruct H as [<-|H]; [tv; unfold sigR;
    match goal with |- context [logisticR ?x] => replace x with (2 * (tp - 7)) by field end;
    set (z := logisticR _) in *; clearbody z; lra|]).
  destruct H.
Qed.

Lemma rising_published t : In t tables_rising -> In t CALIBRATIONS.
Proof. intros H. unfold CALIBRATIONS. repeat (destruct H as [<-|H]; [simpl; tauto|]). destruct H. Qed.
Lemma falling_published t : In t tables_falling -> In t CALIBRATIONS.
Proof. intros H. unfold CALIBRATIONS. repeat (destruct H as [<-|H]; [simpl; tauto|]). destruct H. Qed.

Lemma published_rise : forall t m1 m2 tp mu mh gy, In t tables_rising -> m1 < m2 ->
  exists p mc1 mc2 c1 c2, calibration t = Some p /\
    diffstarpop_means_covs p (Fin m1) (Fin tp) (Fin mu) (Fin mh) (Fin gy) = Some mc1 /\
    diffstarpop_means_covs p (Fin m2) (Fin tp) (Fin mu) (Fin mh) (Fin gy) = Some mc2 /\
    mc_frac_cen mc1 = Fin c1 /\ mc_frac_cen mc2 = Fin c2 /\ c1 < c2.
Proof.
  intros t m1 m2 tp mu mh gy Ht Hm. destruct (table_good t (rising_published t Ht)) as (p & E & Hp & Hb & Hs).
  assert (E1 := relations p _ m1 tp mu mh gy Hp Hb Hs). assert (E2 := relations p _ m2 tp mu mh gy Hp Hb Hs).
  destruct (fraction_vs_mass p _ m1 m2 tp mu mh gy _ _ Hp Hb Hs Hm E1 E2) as (c1 & c2 & s1 & s2 & C1 & C2 & _ & _ & R & _).
  exists p. do 2 eexists. exists c1, c2. split; [exact E|]. split; [exact E1|]. split; [exact E2|].
  split; [exact C1|]. split; [exact C2|]. apply R. now apply floor_below.
Qed.
Lemma published_fall : forall t m1 m2 tp mu mh gy, In t tables_falling -> tp <= 3 -> m1 < m2 ->
  exists p mc1 mc2 c1 c2, calibration t = Some p /\
    diffstarpop_means_covs p (Fin m1) (Fin tp) (Fin mu) (Fin mh) (Fin gy) = Some mc1 /\
    diffstarpop_means_covs p (Fin m2) (Fin tp) (Fin mu) (Fin mh) (Fin gy) = Some mc2 /\
    mc_frac_cen mc1 = Fin c1 /\ mc_frac_cen mc2 = Fin c2 /\ c2 < c1.
Proof.
  intros t m1 m2 tp mu mh gy Ht Htp Hm. destruct (table_good t (falling_published t Ht)) as (p & E & Hp & Hb & Hs).
  assert (E1 := relations p _ m1 tp mu mh gy Hp Hb Hs). assert (E2 := relations p _ m2 tp mu mh gy Hp Hb Hs).
  destruct (fraction_vs_mass p _ m1 m2 tp mu mh gy _ _ Hp Hb Hs Hm E1 E2) as (c1 & c2 & s1 & s2 & C1 & C2 & _ & _ & _ & R & _).
  exists p. do 2 eexists. exists c1, c2. split; [exact E|]. split; [exact E1|]. split; [exact E2|].
  split; [exact C1|]. split; [exact C2|]. apply R. now apply floor_above.
Qed.
