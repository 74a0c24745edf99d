(** Statements about loaded halos, blocks and selections. *)
From Coq Require Import Reals List Bool ZArith Ascii String Lia Lra.
From Verif Require Import XReal ModelUtils ModelKernels ModelSfh ModelLoad ModelIO SpecCore SpecFit SpecIO SpecLoad
  RealFacts XFacts IntegralProofs PopProofs PopParamProofs TextProofs TableProofs SplitProofs LoadProofs ScriptProofs MoreLoadProofs.
Import List ListNotations.
Open Scope R_scope.

Section Mah.
Variable msh : MahParams xr -> list xr -> xr -> list xr * list xr.
Variable dflt : MahParams xr.
Hypothesis mah_len : forall m t l, List.length (snd (msh m t l)) = List.length t.

Lemma used_mah_loaded : forall nmin h, used_mah nmin h (loaded_mah (Fin nmin) h).
Proof.
  intros nmin h. unfold loaded_mah. pose proof (nofitb_spec nmin h) as S.
  split; intro H; destruct (nofitb (Fin nmin) h); try reflexivity; exfalso; [apply S in H; discriminate|apply H, S; reflexivity].
Qed.
Lemma used_mass_loaded : forall nmin t0 h, used_mass msh dflt nmin t0 h (loaded_logmp0 msh dflt (Fin nmin) t0 h).
Proof.
  intros nmin t0 h. unfold loaded_logmp0. pose proof (nofitb_spec nmin h) as S.
  split; intro H; destruct (nofitb (Fin nmin) h); try reflexivity; exfalso; [apply S in H; discriminate|apply H, S; reflexivity].
Qed.
Lemma Forall2_map_self {A B} (P : A -> B -> Prop) (f : A -> B) l : (forall a, P a (f a)) -> Forall2 P l (map f l).
Proof. intro H. induction l; constructor; auto. Qed.

Lemma loaded_rows : forall f hs nmin t0 i j, halo_table f hs ->
  exists fits, load_smdpl_diffmah_fits msh dflt f (Fin nmin) t0 (Z.of_nat i) (Some (Z.of_nat j)) = Some fits /\
    halos_loaded msh dflt nmin t0 (rows_from hs i j) fits.
Proof.
  intros f hs nmin t0 i j H. rewrite (load_halo_fits msh dflt f hs) by assumption.
  rewrite pyslice_nat by lia. rewrite !Nat2Z.id. eexists. split; [reflexivity|].
  exists (map (loaded_mah (Fin nmin)) (rows_from hs i j)). split; [apply Forall2_map_self; intro; apply used_mah_loaded|].
  split; [unfold maps_mah; cbn [df_params]; rewrite !map_map; reflexivity|].
  split; [apply Forall2_map_self; intro; apply used_mass_loaded|]. split; reflexivity.
Qed.
Lemma loaded_all : forall f hs nmin t0, halo_table f hs ->
  exists fits, load_smdpl_diffmah_fits msh dflt f (Fin nmin) t0 0 None = Some fits /\ halos_loaded msh dflt nmin t0 hs fits.
Proof.
  intros f hs nmin t0 H. rewrite (load_halo_fits msh dflt f hs) by assumption.
  rewrite pyslice_all. eexists. split; [reflexivity|].
  exists (map (loaded_mah (Fin nmin)) hs). split; [apply Forall2_map_self; intro; apply used_mah_loaded|].
  split; [unfold maps_mah; cbn [df_params]; rewrite !map_map; reflexivity|].
  split; [apply Forall2_map_self; intro; apply used_mass_loaded|]. split; reflexivity.
Qed.

Lemma halo_blocks : forall f hs nmin t0 i b e, halo_table f hs -> (0 <= i <= b)%Z ->
  match e with Some k => (b <= k)%Z | None => True end ->
  exists x y z,
    load_smdpl_diffmah_fits msh dflt f (Fin nmin) t0 i (Some b) = Some x /\
    load_smdpl_diffmah_fits msh dflt f (Fin nmin) t0 b e = Some y /\
    load_smdpl_diffmah_fits msh dflt f (Fin nmin) t0 i e = Some z /\ fits_appended x y z.
Proof.
  intros f hs nmin t0 i b e H Hi He. do 3 eexists.
  split; [apply (load_halo_fits msh dflt f hs); assumption|]. split; [apply (load_halo_fits msh dflt f hs); assumption|]. split; [apply (load_halo_fits msh dflt f hs); assumption|].
  unfold fits_appended, maps_mah. cbn [df_params df_logmp0 df_loss df_npts logm0 logtc early_index late_index t_peak].
  rewrite <- (pyslice_app hs i b e Hi He). rewrite !map_app. repeat split; reflexivity.
Qed.

(** Selection on loss and default mass alone. *)
Variable f4 : xr -> xr.
Variable fit : nat -> nat -> list xr -> list xr -> MahParams xr -> xr -> xr -> option (DiffstarParams xr * xr * Z).
Hypothesis fit_total : forall r i t s m l fb, fit r i t s m l fb <> None.

Lemma few_points_nofit : forall h n, h_npts h = Fin n -> n < 5 -> no_halo_fit 5 h.
Proof. intros h n E L. right. right. left. exists n. auto. Qed.

Lemma umachine_placeholder : forall ids sfhs tarr file lmin hs nranks g h n,
  List.length ids = List.length hs -> List.length sfhs = List.length hs -> halo_table file hs ->
  (0 < nranks)%nat -> (2 * nranks <= List.length hs)%nat ->
  nth_error hs g = Some h -> (Fin 0 <? h_loss h)%X = true -> h_npts h = Fin n -> n < 5 ->
  (lmin <? mass_at msh dflt (Fin (13820002 / 1000000)))%X = true ->
  exists es e id r i sfh, umachine_script f4 msh dflt fit ids sfhs tarr file lmin nranks = Some (fit_table es) /\
    nth_error es g = Some e /\ nth_error ids g = Some id /\ nth_error sfhs g = Some sfh /\
    entry_for f4 id (fit r i tarr sfh minus_ones (xlog10 (Fin (13820002 / 1000000))) (Fin (48206 / 307115))) e.
Proof.
  intros ids sfhs tarr file lmin hs nranks g h n L1 L2 Ht Hn H2 Hg Hl Hp Hn5 Hm.
  destruct (umachine_spec f4 msh dflt fit mah_len fit_total ids sfhs tarr file lmin hs nranks L1 L2 Ht Hn H2) as (es & E & F).
  assert (Hgl : (g < List.length hs)%nat) by (apply nth_error_Some; congruence).
  assert (Le : List.length es = List.length hs) by (rewrite <- (F2len _ _ _ F); apply seq_length).
  destruct (nth_error es g) as [e|] eqn:Ee; [|apply nth_error_None in Ee; lia].
  assert (P : forall {B C} (P : B -> C -> Prop) l m, Forall2 P l m -> forall k b c, nth_error l k = Some b -> nth_error m k = Some c -> P b c).
  { intros B C P l m Fl. induction Fl; intros [|k] b' c' Hb Hc; cbn in *; try discriminate; [congruence|eauto]. }
  assert (Es : nth_error (seq 0 (List.length hs)) g = Some g).
  { rewrite (nth_error_nth' _ 0%nat) by (rewrite seq_length; exact Hgl). rewrite seq_nth by exact Hgl. reflexivity. }
  destruct (P _ _ _ _ _ F g g e Es Ee) as (id & h' & sfh & o & m & x & I1 & I2 & I3 & U1 & U2 & Ef & T).
  rewrite Hg in I2. injection I2 as <-. pose proof (few_points_nofit h n Hp Hn5) as NF.
  rewrite (proj1 U1 NF) in T. rewrite (proj1 U2 NF) in T.
  destruct (proj1 T) as (r & i & _ & ->); [auto|].
  exists es, e, id, r, i, sfh. auto.
Qed.
End Mah.

Lemma tau_dep_missing : forall es,
  load_fit_sfh (map (fun kc => (fst kc, match snd kc with CInt l => D1 (map (fun z => Fin (IZR z)) l) | CFlt l => D1 l end)) (fit_table es)) = None.
Proof. intro es. reflexivity. Qed.

(** The script's mass cut and the mass in the table. *)
Lemma half_mass : exists ts bulge disk sfh ms,
  increasing (0 :: ts) /\ galacticus_sfh (map Fin ts) [map Fin bulge] [map Fin disk] = Some [sfh] /\
  10 ^ 8 < rsum bulge + rsum disk /\
  cumulative_mstar_formed (map Fin ts) sfh = Some ms /\ (MIN_LOGSM_Z0 <? xlog10 (last_ ms))%X = false.
Proof.
  exists [1; 2], [0; 3 / 2 * 10 ^ 8], [0; 0].
  destruct (galacticus_sfh_value [1; 2] [[0; 3 / 2 * 10 ^ 8]] [[0; 0]]) as (sfh & E & L & F & V).
  { cbn; lra. } { repeat constructor. } { repeat constructor. } { reflexivity. }
  destruct sfh as [|s [|]]; try discriminate. cbn [map] in E.
  exists (map Fin s), (map Fin (massR [1; 2] s)).
  inversion F as [|? ? Ls _]; subst. cbn [length] in Ls.
  split; [cbn; lra|]. split; [exact E|]. split; [cbn [rsum]; lra|].
  split; [apply cumulative_fin; symmetry; exact Ls|].
  destruct s as [|s0 [|s1 [|]]]; try discriminate.
  pose proof (V 0%nat 0%nat ltac:(cbn; lia) ltac:(cbn; lia)) as V0. pose proof (V 0%nat 1%nat ltac:(cbn; lia) ltac:(cbn; lia)) as V1.
  cbn [nth interval] in V0, V1.
  assert (E0 : s0 = 0) by lra. assert (E1 : s1 = 15 / 100) by lra. subst s0 s1.
  unfold massR. cbn [combine cumR map last_ last]. unfold last_. cbn [last].
  match goal with |- (_ <? xlog10 (Fin ?a))%X = _ => assert (B : 0 < a < 10 ^ 8) end.
  { unfold T_BIRTH_MIN_R, SFR_MIN_R. lra. }
  rewrite xlog10_fin by lra. apply xlt_fin_false.
  replace 8 with (log10R (10 ^ 8)); [apply log10_le; lra|].
  unfold log10R. rewrite ln_pow by lra. cbn [INR]. field. pose proof ln10_pos. lra.
Qed.

Open Scope string_scope.
Open Scope list_scope.
Lemma galacticus_block : forall f ins tot cen tarr,
  lookup "sfh_in_situ" f = Some (D2 ins) -> lookup "sfh_tot" f = Some (D2 tot) ->
  lookup "is_cen" f = Some (D1 cen) -> lookup "tarr" f = Some (D1 tarr) ->
  forall a b, load_galacticus_sfh_data_block f (Z.of_nat a) (Z.of_nat b) =
    Some [("sfh_in_situ", D2 (rows_from ins a b)); ("sfh_tot", D2 (rows_from tot a b));
          ("is_cen", D1 (rows_from cen a b)); ("tarr", D1 tarr)].
Proof.
  intros f ins tot cen tarr F1 F2 F3 F4 a b. rewrite (block_ok f ins tot (D1 cen) tarr F1 F2 F3 F4).
  cbn [dslice]. rewrite !pyslice_nat by lia. rewrite !Nat2Z.id. reflexivity.
Qed.
