(** Fit tables: rows, rank files and their collation. *)
From Coq Require Import Reals List Bool ZArith NArith Ascii String Lia Lra.
From Verif Require Import XReal ModelUtils ModelKernels ModelSfh ModelLoad ModelIO SpecFit SpecIO
  RealFacts XFacts SfhProofs TextProofs.
Import List ListNotations.
Open Scope R_scope.

(** ** Rows as fields *)
Lemma join_spaced : forall ws, join [SP] ws = spaced ws.
Proof.
  induction ws as [|w ws IH]; [reflexivity|]. cbn [join spaced]. destruct ws; [reflexivity|].
  rewrite IH. reflexivity.
Qed.
Lemma spaced_app : forall a b, a <> [] -> b <> [] -> spaced (a ++ b) = spaced a ++ [SP] ++ spaced b.
Proof.
  induction a as [|x a IH]; intros b Ha Hb; [congruence|].
  destruct a as [|y a].
  - cbn [app]. destruct b; [congruence|reflexivity].
  - specialize (IH b). assert (N : y :: a <> []) by discriminate.
    change ((x :: y :: a) ++ b) with (x :: ((y :: a) ++ b)).
    assert (E : forall w l, l <> [] -> spaced (w :: l) = w ++ " "%char :: spaced l) by (intros w [|? ?] ?; [congruence|reflexivity]).
    rewrite (E x (y :: a)) by exact N. rewrite E by discriminate.
    rewrite IH by assumption. rewrite <- !app_assoc. reflexivity.
Qed.

Definition row_fields (id : Z) (vals : list xr) (s : Z) : list str :=
  str_of_Z id :: map fmt_5e vals ++ [str_of_Z s].
Lemma row_text_fields : forall id vals s, vals <> [] ->
  row_text id vals s = spaced (row_fields id vals s) ++ [NL].
Proof.
  intros id vals s H. unfold row_text, row_fields. rewrite join_spaced.
  change (str_of_Z id :: map fmt_5e vals ++ [str_of_Z s])
    with ([str_of_Z id] ++ (map fmt_5e vals ++ [str_of_Z s])).
  assert (M : map fmt_5e vals <> []) by (destruct vals; [congruence|discriminate]).
  rewrite spaced_app; [|discriminate|intro E; apply app_eq_nil in E; destruct E; discriminate].
  rewrite spaced_app by (assumption || discriminate).
  cbn [spaced]. rewrite <- !app_assoc. reflexivity.
Qed.
Lemma row_fields_ok : forall id vals s, Forall field (row_fields id vals s).
Proof.
  intros. unfold row_fields. constructor; [apply str_of_Z_field|].
  apply Forall_app. split; [|constructor; [apply str_of_Z_field|constructor]].
  apply Forall_forall. intros w H. apply in_map_iff in H. destruct H as (x & E & _). subst. apply fmt_5e_field.
Qed.
Lemma row_line : forall id vals s, vals <> [] -> line_of (row_text id vals s) (row_fields id vals s).
Proof. intros. split; [apply row_fields_ok|]. apply row_text_fields. assumption. Qed.

(** ** Splitting *)
Lemma split_on_none : forall c l, ~ In c l -> split_on c l = [l].
Proof.
  intros c. induction l as [|x l IH]; intro H; [reflexivity|].
  cbn [split_on]. rewrite IH by (intro; apply H; right; assumption).
  destruct (Ascii.eqb_spec x c) as [E|E]; [exfalso; apply H; left; exact E|reflexivity].
Qed.
Lemma split_on_ne : forall c l, split_on c l <> [].
Proof.
  intros c. induction l as [|x l IH]; [discriminate|]. cbn [split_on].
  destruct (split_on c l); [congruence|]. destruct (Ascii.eqb x c); discriminate.
Qed.
Lemma split_on_app : forall c l t, ~ In c l -> split_on c (l ++ c :: t) = l :: split_on c t.
Proof.
  intros c. induction l as [|x l IH]; intros t H.
  - cbn [app split_on]. pose proof (split_on_ne c t). destruct (split_on c t) eqn:E; [congruence|].
    rewrite Ascii.eqb_refl. reflexivity.
  - cbn [app split_on]. rewrite IH by (intro; apply H; right; assumption).
    destruct (Ascii.eqb_spec x c) as [E|E]; [exfalso; apply H; left; exact E|reflexivity].
Qed.

Lemma split_spaced : forall ws, ws <> [] -> Forall field ws -> split_on SP (spaced ws) = ws.
Proof.
  induction ws as [|w ws IH]; intros Hne H; [congruence|].
  inversion H as [|? ? (H0 & H1 & _) H2]; subst. destruct ws as [|v ws].
  - cbn [spaced]. apply split_on_none. exact H1.
  - change (spaced (w :: v :: ws)) with (w ++ " "%char :: spaced (v :: ws)).
    change SP with " "%char. rewrite split_on_app by exact H1. apply f_equal.
    apply IH; [discriminate|exact H2].
Qed.
Lemma split_ws_spaced : forall ws, ws <> [] -> Forall field ws -> split_ws (spaced ws) = ws.
Proof.
  intros ws Hne H. unfold split_ws. rewrite split_spaced by assumption. clear Hne.
  induction H as [|w ws (H0 & _) H IH]; [reflexivity|]. cbn [filter].
  destruct w; [congruence|]. apply f_equal. exact IH.
Qed.
Lemma spaced_plain : forall c ws, c <> " "%char -> Forall (fun w => ~ In c w) ws -> ~ In c (spaced ws).
Proof.
  intros c ws Hc. induction 1 as [|w ws Hw H IH]; [intros []|].
  destruct ws as [|v ws]; [exact Hw|].
  change (spaced (w :: v :: ws)) with (w ++ " "%char :: spaced (v :: ws)).
  intro I. apply in_app_or in I. destruct I as [I|I]; [contradiction|].
  destruct I as [I|I]; [congruence|contradiction].
Qed.
Lemma fields_no_NL : forall ws, Forall field ws -> ~ In NL (spaced ws).
Proof.
  intros ws H. apply spaced_plain; [discriminate|]. eapply Forall_impl; [|exact H].
  intros w (_ & _ & A & _). exact A.
Qed.
Lemma fields_no_hash : forall ws, Forall field ws -> ~ In "#"%char (spaced ws).
Proof.
  intros ws H. apply spaced_plain; [discriminate|]. eapply Forall_impl; [|exact H].
  intros w (_ & _ & _ & A). exact A.
Qed.
Lemma cut_comment_id : forall l, ~ In "#"%char l -> cut_comment l = l.
Proof.
  induction l as [|c l IH]; intro H; [reflexivity|]. cbn [cut_comment].
  destruct (Ascii.eqb_spec c "#") as [E|E]; [exfalso; apply H; left; exact E|].
  apply f_equal, IH. intro; apply H; right; assumption.
Qed.

(** ** Reading a rank file *)
Definition keep_row (r : list str) : bool := match r with [] => false | _ => true end.
Definition read_lines (t : str) : list (list str) :=
  filter keep_row (map (fun l => split_ws (cut_comment l)) (split_on NL t)).

Lemma read_rows : forall (rs : list (list str)), Forall (fun r => r <> [] /\ Forall field r) rs ->
  read_lines (List.concat (map (fun r => spaced r ++ [NL]) rs)) = rs.
Proof.
  induction 1 as [|r rs (Hne & Hf) H IH]; [reflexivity|].
  cbn [map List.concat]. unfold read_lines. rewrite <- app_assoc. cbn [app].
  rewrite split_on_app by (apply fields_no_NL; exact Hf).
  cbn [map filter]. rewrite cut_comment_id by (apply fields_no_hash; exact Hf).
  rewrite split_ws_spaced by assumption.
  destruct r; [congruence|]. cbn [keep_row]. apply f_equal. exact IH.
Qed.

Definition header_line : str := removelast (fst get_header).
Lemma header_text : fst get_header = header_line ++ [NL].
Proof. vm_compute. reflexivity. Qed.
Lemma header_no_NL : ~ In NL header_line.
Proof. vm_compute. intuition discriminate. Qed.
Lemma header_comment : split_ws (cut_comment header_line) = [].
Proof. vm_compute. reflexivity. Qed.
Lemma read_file : forall (rs : list (list str)), Forall (fun r => r <> [] /\ Forall field r) rs ->
  read_lines (fst get_header ++ List.concat (map (fun r => spaced r ++ [NL]) rs)) = rs.
Proof.
  intros rs H. rewrite header_text, <- app_assoc. cbn [app].
  unfold read_lines. rewrite split_on_app by apply header_no_NL.
  cbn [map filter]. rewrite header_comment. cbn [keep_row]. apply read_rows. exact H.
Qed.

(** ** Outlines *)
Definition out_vals (f4 : xr -> xr) (o : outcome) : list xr :=
  match o with
  | None => repeat (Fin (-99)) 8 ++ [Fin (-1)]
  | Some (p, loss, _) => map f4 (params_list p) ++ [loss]
  end.
Definition out_flag (o : outcome) : Z := match o with None => (-1)%Z | Some (_, _, s) => s end.
Definition out_fields (f4 : xr -> xr) (g : Z * outcome) : list str :=
  row_fields (fst g) (out_vals f4 (snd g)) (out_flag (snd g)).

Lemma nofit_vals : map (fun z => z + NOFIT_FILL)%X (zeros (List.length MS_FIELDS + List.length Q_FIELDS)) ++ [Fin (-1)]
  = repeat (Fin (-99)) 8 ++ [Fin (-1)].
Proof.
  unfold zeros. change (List.length MS_FIELDS + List.length Q_FIELDS)%nat with 8%nat.
  cbn [repeat map app]. unfold NOFIT_FILL. cbn [xadd]. rewrite Rplus_0_l. reflexivity.
Qed.
Lemma out_vals_length : forall f4 o, List.length (out_vals f4 o) = 9%nat.
Proof. intros f4 [[[p l] s]|]; reflexivity. Qed.
Lemma outline_text : forall f4 g, outline f4 g = spaced (out_fields f4 g) ++ [NL].
Proof.
  intros f4 [id o]. unfold outline, out_fields. cbn [fst snd].
  rewrite <- row_text_fields.
  - destruct o as [[[p l] s]|]; [reflexivity|].
    unfold get_outline_nofit. rewrite nofit_vals. reflexivity.
  - intro E. pose proof (out_vals_length f4 o) as L. rewrite E in L. discriminate.
Qed.
Lemma out_fields_ok : forall f4 g, out_fields f4 g <> [] /\ Forall field (out_fields f4 g).
Proof. intros. split; [discriminate|apply row_fields_ok]. Qed.
Lemma out_fields_length : forall f4 g, List.length (out_fields f4 g) = 11%nat.
Proof.
  intros. unfold out_fields, row_fields. cbn [List.length]. rewrite app_length, map_length, out_vals_length. reflexivity.
Qed.

Lemma read_rank_file : forall f4 gs, read_lines (rank_file f4 gs) = map (out_fields f4) gs.
Proof.
  intros. unfold rank_file.
  replace (map (outline f4) gs) with (map (fun r => spaced r ++ [NL]) (map (out_fields f4) gs)).
  - apply read_file. apply Forall_forall. intros r I. apply in_map_iff in I. destruct I as (g & E & _). subst.
    apply out_fields_ok.
  - rewrite map_map. apply map_ext. intro g. symmetry. apply outline_text.
Qed.

Lemma genfromtxt_rank : forall f4 gs,
  genfromtxt_str (rank_file f4 gs) = Some (squeeze (map (out_fields f4) gs)).
Proof.
  intros. unfold genfromtxt_str. cbv zeta. fold keep_row.
  change (filter keep_row (map (fun l => split_ws (cut_comment l)) (split_on NL (rank_file f4 gs))))
    with (read_lines (rank_file f4 gs)).
  rewrite read_rank_file.
  destruct (map (out_fields f4) gs) as [|r rs] eqn:E; [reflexivity|].
  replace (forallb _ _) with true; [reflexivity|]. symmetry. apply forallb_forall.
  assert (L : forall x, In x (r :: rs) -> List.length x = 11%nat).
  { intros x I. rewrite <- E in I. apply in_map_iff in I. destruct I as (g & Eg & _). subst. apply out_fields_length. }
  intros x I. apply Nat.eqb_eq. rewrite (L x I), (L r (or_introl eq_refl)). reflexivity.
Qed.

Lemma squeeze_many : forall (rs : list (list str)), (2 <= List.length rs)%nat ->
  Forall (fun r => List.length r = 11%nat) rs -> squeeze rs = S2 rs.
Proof.
  intros [|a [|b rs]] H F; try (cbn in H; lia). inversion F; subst. cbn [squeeze].
  destruct a as [|x [|y a]]; try discriminate. reflexivity.
Qed.
Lemma squeeze_few : forall (rs : list (list str)), (List.length rs < 2)%nat ->
  Forall (fun r => List.length r = 11%nat) rs -> exists l, squeeze rs = S1 l.
Proof.
  intros [|a [|b rs]] H F; try (cbn in H; lia); [exists []; reflexivity|].
  inversion F; subst. destruct a as [|x [|y a]]; try discriminate. exists (x :: y :: a). reflexivity.
Qed.
Lemma fields_F11 : forall f4 gs, Forall (fun r => List.length r = 11%nat) (map (out_fields f4) gs).
Proof.
  intros. apply Forall_forall. intros r I. apply in_map_iff in I. destruct I as (g & E & _). subst. apply out_fields_length.
Qed.

(** ** Collation *)
Definition rb (x : xr) : xr := match parse_float (fmt_5e x) with Some y => y | None => NaN end.
Lemma rb_parse : forall x, parse_float (fmt_5e x) = Some (rb x).
Proof. intro x. unfold rb. destruct (parse_fmt x) as (y & E & _). rewrite E. reflexivity. Qed.
Lemma rb_printed : forall x, printed x (rb x).
Proof. intro x. unfold rb. destruct (parse_fmt x) as (y & E & P). rewrite E. exact P. Qed.
Lemma rb_99 : rb (Fin (-99)) = Fin (-99).
Proof.
  unfold rb. replace (-99) with (IZR (-99) * powerRZ 10 0) by (cbn [powerRZ]; lra).
  rewrite parse_fmt_exact by lia. reflexivity.
Qed.
Lemma rb_1 : rb (Fin (-1)) = Fin (-1).
Proof.
  unfold rb. replace (-1) with (IZR (-1) * powerRZ 10 0) by (cbn [powerRZ]; lra).
  rewrite parse_fmt_exact by lia. reflexivity.
Qed.

Lemma vmap_map {A B C} (f : B -> option C) (g : A -> B) l : vmap f (map g l) = vmap (fun a => f (g a)) l.
Proof. unfold vmap. rewrite map_map. reflexivity. Qed.
Lemma vmap_all {A B} (f : A -> option B) g l : (forall a, In a l -> f a = Some (g a)) -> vmap f l = Some (map g l).
Proof.
  intro H. apply vmap_spec. induction l as [|a l IH]; [constructor|]. cbn [map].
  constructor; [apply H; left; reflexivity|apply IH; intros; apply H; right; assumption].
Qed.
Lemma vmap_none {A B} (f : A -> option B) l : (exists a, In a l /\ f a = None) -> vmap f l = None.
Proof.
  intros (a & I & E). destruct (vmap f l) as [r|] eqn:V; [|reflexivity]. exfalso.
  apply vmap_spec in V. induction V as [|x y l r H V IH]; [contradiction|].
  destruct I as [I|I]; [subst; congruence|apply IH; exact I].
Qed.

Lemma col_id : forall f4 gs,
  vmap parse_int (map (fun row => nth 0 row []) (map (out_fields f4) gs)) = Some (map fst gs).
Proof. intros. rewrite map_map, vmap_map. apply vmap_all. intros g _. apply parse_int_str. Qed.
Lemma col_flag : forall f4 gs,
  vmap parse_int (map (fun row => nth 10 row []) (map (out_fields f4) gs)) = Some (map (fun g => out_flag (snd g)) gs).
Proof.
  intros. rewrite map_map, vmap_map. apply vmap_all. intros g _.
  unfold out_fields, row_fields. cbn [nth]. rewrite app_nth2; rewrite map_length, out_vals_length; [|lia].
  cbn [Nat.sub nth]. apply parse_int_str.
Qed.
Lemma col_val : forall f4 gs k, (k < 9)%nat ->
  vmap parse_float (map (fun row => nth (S k) row []) (map (out_fields f4) gs)) =
  Some (map (fun g => rb (nth k (out_vals f4 (snd g)) NaN)) gs).
Proof.
  intros f4 gs k Hk. rewrite map_map, vmap_map. apply vmap_all. intros g _.
  unfold out_fields, row_fields. cbn [nth]. rewrite app_nth1 by (rewrite map_length, out_vals_length; exact Hk).
  rewrite (nth_indep _ [] (fmt_5e NaN)) by (rewrite map_length, out_vals_length; exact Hk).
  rewrite map_nth. apply rb_parse.
Qed.

Definition entry_of (f4 : xr -> xr) (g : Z * outcome) : Entry :=
  let v k := rb (nth k (out_vals f4 (snd g)) NaN) in
  mkEntry (fst g) (mkDiffstar (v 0) (v 1) (v 2) (v 3) (v 4) (v 5) (v 6) (v 7))%nat (v 8%nat) (out_flag (snd g)).

Lemma write_rows_table : forall f4 gs, gs <> [] ->
  write_collated_data (S2 (map (out_fields f4) gs)) (snd get_header) = Some (fit_table (map (entry_of f4) gs)).
Proof.
  intros f4 gs Hne. unfold write_collated_data.
  assert (E : exists r rs, map (out_fields f4) gs = r :: rs /\ List.length r = 11%nat).
  { destruct gs as [|g gs]; [congruence|]. exists (out_fields f4 g), (map (out_fields f4) gs).
    split; [reflexivity|apply out_fields_length]. }
  destruct E as (r & rs & E & L).
  pose proof (col_id f4 gs) as C0. pose proof (col_flag f4 gs) as C10. pose proof (col_val f4 gs) as CV.
  rewrite E in *. rewrite L. change (Nat.eqb (List.length (snd get_header)) 11) with true. cbn iota.
  change (combine (seq 0 (List.length (snd get_header))) (snd get_header)) with
    (combine (seq 0 11) ["halo_id"; "lgmcrit"; "lgy_at_mcrit"; "indx_lo"; "indx_hi"; "lg_qt"; "qlglgdt"; "lg_drop"; "lg_rejuv"; "loss"; "success"]%string).
  cbn [combine seq]. apply vmap_spec. unfold fit_table.
  constructor.
  { cbv beta iota zeta. change (String.eqb "halo_id" "halo_id" || String.eqb "halo_id" "success") with true. cbn iota.
    rewrite C0. rewrite map_map. reflexivity. }
  repeat (constructor;
    [cbv beta iota zeta; match goal with |- context [String.eqb ?n "halo_id" || _] =>
       change (String.eqb n "halo_id" || String.eqb n "success") with false
     end; cbn iota; rewrite CV by lia; rewrite map_map; reflexivity|]).
  constructor; [|constructor].
  cbv beta iota zeta. change (String.eqb "success" "halo_id" || String.eqb "success" "success") with true. cbn iota.
  rewrite C10, map_map. reflexivity.
Qed.

Lemma entry_of_spec : forall f4 g, entry_for f4 (fst g) (snd g) (entry_of f4 g).
Proof.
  intros f4 [id o]. unfold entry_for. split; [reflexivity|].
  destruct o as [[[p l] s]|]; cbn [snd entry_of].
  - unfold entry_of. cbn [e_params e_loss e_success snd]. split; [|split; [apply rb_printed|reflexivity]].
    unfold params_list. cbn. repeat (constructor; [apply rb_printed|]). constructor.
  - unfold entry_of. cbn [e_params e_loss e_success snd]. unfold params_list.
    cbn [d_lgmcrit d_lgy_at_mcrit d_indx_lo d_indx_hi d_lg_qt d_qlglgdt d_lg_drop d_lg_rejuv].
    cbn [out_vals repeat app nth]. rewrite rb_99, rb_1. repeat split; reflexivity.
Qed.

Lemma Forall2_map_r {A B} (P : A -> B -> Prop) (f : A -> B) l : (forall a, P a (f a)) -> Forall2 P l (map f l).
Proof. intro H. induction l; constructor; auto. Qed.

Lemma collate_spec : forall f4 ranks, ranks <> [] -> Forall (fun gs => (2 <= List.length gs)%nat) ranks ->
  exists es, collate (map (rank_file f4) ranks) = Some (fit_table es) /\
    Forall2 (fun g e => entry_for f4 (fst g) (snd g) e) (List.concat ranks) es.
Proof.
  intros f4 ranks Hne H.
  exists (map (entry_of f4) (List.concat ranks)). split; [|apply Forall2_map_r; intro; apply entry_of_spec].
  unfold collate. rewrite vmap_map.
  rewrite (vmap_all _ (fun gs => S2 (map (out_fields f4) gs))).
  2:{ intros gs I. rewrite genfromtxt_rank. rewrite squeeze_many; [reflexivity| |apply fields_F11].
      rewrite map_length. rewrite Forall_forall in H. apply H. exact I. }
  unfold np_concatenate. destruct ranks as [|g0 ranks]; [congruence|]. cbn [map].
  change (S2 (map (out_fields f4) g0) :: map (fun gs => S2 (map (out_fields f4) gs)) ranks)
    with (map (fun gs => S2 (map (out_fields f4) gs)) (g0 :: ranks)).
  rewrite vmap_map. rewrite (vmap_all _ (fun gs => map (out_fields f4) gs)) by reflexivity.
  cbv zeta.
  assert (EC : List.concat (map (fun gs => map (out_fields f4) gs) (g0 :: ranks)) =
               map (out_fields f4) (List.concat (g0 :: ranks))) by (symmetry; apply concat_map).
  rewrite EC.
  inversion H as [|? ? H0 H1]; subst. destruct g0 as [|x g0]; [cbn in H0; lia|].
  replace (forallb _ _) with true.
  - apply write_rows_table. discriminate.
  - symmetry. apply forallb_forall. intros r I. apply in_map_iff in I. destruct I as (g & E & _). subst.
    cbn [map hd]. rewrite !out_fields_length. reflexivity.
Qed.

Lemma collate_short : forall f4 ranks, Exists (fun gs => (List.length gs < 2)%nat) ranks ->
  collate (map (rank_file f4) ranks) = None.
Proof.
  intros f4 ranks H. unfold collate. rewrite vmap_map.
  rewrite (vmap_all _ (fun gs => squeeze (map (out_fields f4) gs))) by (intros; apply genfromtxt_rank).
  apply Exists_exists in H. destruct H as (gs & I & L).
  destruct (squeeze_few (map (out_fields f4) gs)) as (l & El); [rewrite map_length; exact L|apply fields_F11|].
  destruct ranks as [|g0 ranks]; [contradiction|].
  unfold np_concatenate. cbn [map].
  change (squeeze (map (out_fields f4) g0) :: map (fun gs => squeeze (map (out_fields f4) gs)) ranks)
    with (map (fun gs => squeeze (map (out_fields f4) gs)) (g0 :: ranks)).
  destruct (le_lt_dec 2 (List.length g0)) as [L0|L0].
  - rewrite (squeeze_many (map (out_fields f4) g0)); [|rewrite map_length; exact L0|apply fields_F11].
    rewrite (vmap_none as2); [reflexivity|].
    exists (S1 l). split; [|reflexivity]. rewrite <- El. apply in_map_iff. exists gs. split; [reflexivity|exact I].
  - destruct (squeeze_few (map (out_fields f4) g0)) as (l0 & El0); [rewrite map_length; exact L0|apply fields_F11|].
    rewrite El0. destruct (vmap as1 _); reflexivity.
Qed.

Lemma header_columns :
  fst get_header = list_ascii_of_string
    "# halo_id lgmcrit lgy_at_mcrit indx_lo indx_hi lg_qt qlglgdt lg_drop lg_rejuv loss success" ++ [ascii_of_nat 10] /\
  snd get_header = map fst (fit_table []).
Proof. split; reflexivity. Qed.
