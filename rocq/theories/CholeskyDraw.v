(** Galaxies drawn through the Cholesky factor. *)
From Coq Require Import Reals List Lia Lra ZArith String.
From Verif Require Import XReal XFacts ModelUtils ModelKernels ModelSfh ModelPop ModelGrad ModelPopGrad SpecCore SpecFit SpecPop SpecPopGrad PopParamProofs PopProofs MatrixProofs PopMcProofs HistProofs CholeskyProofs.
Import List ListNotations.
Open Scope R_scope.
Local Notation length := List.length.

Lemma draw_covariance (key : Type) (normal : key -> nat -> list xr) : normals_ok normal ->
  forall k mean cov, positive_definite (length mean) cov ->
  exists z L M, normal k (length mean) = map Fin z /\ cov = real_matrix (length mean) M /\
    (forall i, (i < length mean)%nat -> 0 < L i i) /\ (forall i j, (i < j)%nat -> L i j = 0) /\
    (forall i j, (i < length mean)%nat -> (j < length mean)%nat -> sumR (fun l => L i l * L j l) (length mean) = M i j) /\
    mvn_of normal k (map Fin mean) cov =
      map (fun i => Fin (nth i mean 0 + sumR (fun l => L i l * nth l z 0) (length mean))) (seq 0 (length mean)).
Proof.
  intros HN k mean cov HP. destruct (chol_ok _ _ HP) as (L & M & E & G & EC). destruct (HN k (length mean)) as (z & Ez & Lz).
  exists z, L, M. pose proof G as (G1 & G2 & G3). do 5 (split; [assumption|]).
  unfold mvn_of. rewrite map_length, Ez. exact (draw_value _ mean cov L M z E G EC eq_refl Lz).
Qed.

Lemma sumR_single f n k : (k < n)%nat -> (forall i, (i < n)%nat -> i <> k -> f i = 0) -> sumR f n = f k.
Proof.
  intros H Z. induction n as [|n IH]; [lia|]. rewrite sumR_S. destruct (Nat.eq_dec k n) as [->|ne].
  - rewrite (sumR_ext f (fun _ => 0) n), sumR_zero by (intros i Hi; apply Z; lia). lra.
  - rewrite IH by (try lia; intros i Hi; apply Z; lia). rewrite (Z n) by lia. lra.
Qed.
Lemma good_diag L n s : good L (fun i j => if Nat.eqb i j then s i ^ 2 else 0) n -> (forall i, (i < n)%nat -> 0 < s i) ->
  forall j, (j < n)%nat -> forall i, (i < n)%nat -> L i j = if Nat.eqb i j then s j else 0.
Proof.
  intros (G1 & G2 & G3) Hs. induction j as [j IH] using (well_founded_induction lt_wf). intros Hj.
  assert (S : forall i, (i < n)%nat -> L i j * L j j = if Nat.eqb i j then s i ^ 2 else 0).
  { intros i Hi. rewrite <- (G3 i j Hi Hj). symmetry. apply (sumR_single (fun l => L i l * L j l)); [exact Hj|]. intros l Hl ne.
    destruct (Nat.lt_ge_cases l j) as [lt|ge]; [|rewrite (G2 j l) by lia; ring].
    rewrite (IH l lt Hl j Hj). replace (Nat.eqb j l) with false by (symmetry; apply Nat.eqb_neq; lia). ring. }
  assert (D : L j j = s j).
  { pose proof (S j Hj) as Q. rewrite Nat.eqb_refl in Q. specialize (G1 j Hj). specialize (Hs j Hj). apply Rsqr_inj; unfold Rsqr; nra. }
  intros i Hi. specialize (S i Hi). destruct (Nat.eqb_spec i j) as [e|ne]; [rewrite e; exact D|].
  specialize (Hs j Hj). rewrite D in S. apply Rmult_integral in S as [S|S]; [exact S|lra].
Qed.
Lemma matrix_inj n A B : real_matrix n A = real_matrix n B -> forall i j, (i < n)%nat -> (j < n)%nat -> A i j = B i j.
Proof.
  intros H i j Hi Hj. apply (f_equal (fun m => nth j (nth i m []) NaN)) in H. unfold real_matrix in H.
  rewrite !(nth_indep _ [] (map (fun j => Fin 0) (seq 0 n))) in H by (rewrite map_length, seq_length; exact Hi).
  rewrite (nth_indep (map (fun i => map (fun j => Fin (A i j)) (seq 0 n)) (seq 0 n)) _ (map (fun j => Fin (A 0%nat j)) (seq 0 n))) in H by (rewrite map_length, seq_length; exact Hi).
  rewrite (nth_indep (map (fun i => map (fun j => Fin (B i j)) (seq 0 n)) (seq 0 n)) _ (map (fun j => Fin (B 0%nat j)) (seq 0 n))) in H by (rewrite map_length, seq_length; exact Hi).
  rewrite !(map_nth (fun i => map (fun j => Fin (_ i j)) (seq 0 n))) in H.
  rewrite !seq_nth in H by exact Hi. cbn [plus] in H.
  rewrite !(nth_indep (map _ (seq 0 n)) NaN (Fin (A i 0%nat))) in H by (rewrite map_length, seq_length; exact Hj).
  rewrite (map_nth (fun j => Fin (A i j))) in H. rewrite (nth_indep _ _ (Fin (B i 0%nat))) in H by (rewrite map_length, seq_length; exact Hj).
  rewrite (map_nth (fun j => Fin (B i j))) in H. rewrite !seq_nth in H by exact Hj. apply Fin_inj in H. exact H.
Qed.

Section Draw.
Variable key : Type.
Variable split : key -> nat -> list key.
Variable uniform : key -> xr.
Variable normal : key -> nat -> list xr.
Hypothesis Hsplit : splits_ok split.
Hypothesis Hn : normals_ok normal.

Lemma draw_diag k mean s : length mean = 4%nat -> (forall i, (i < 4)%nat -> 0 < s i) ->
  positive_definite 4 (real_matrix 4 (fun i j => if Nat.eqb i j then s i ^ 2 else 0)) ->
  forall z, normal k 4 = map Fin z -> mvn_of normal k (map Fin mean) (real_matrix 4 (fun i j => if Nat.eqb i j then s i ^ 2 else 0)) =
  map (fun i => Fin (nth i mean 0 + s i * nth i z 0)) (seq 0 4).
Proof.
  intros Lm Hs HP z Hz. rewrite <- Lm in HP. destruct (chol_ok _ _ HP) as (L & M & E & G & EC). rewrite Lm in *.
  pose proof (matrix_inj 4 _ _ E) as EM. cbv beta in EM.
  assert (G' : good L (fun i j => if Nat.eqb i j then s i ^ 2 else 0) 4).
  { destruct G as (G1 & G2 & G3). split; [exact G1|]. split; [exact G2|]. intros i j Hi Hj. rewrite (G3 i j Hi Hj). symmetry. apply EM; assumption. }
  destruct (Hn k 4%nat) as (z' & Ez & Lz). rewrite Hz in Ez. assert (z = z') as <-.
  { clear -Ez. revert z' Ez. induction z as [|a z IH]; intros [|b z'] E; try discriminate E; [reflexivity|]. cbn [map] in E. injection E as -> E. f_equal. apply IH, E. }
  unfold mvn_of. rewrite map_length, Lm, Hz.
  rewrite (draw_value 4 mean _ L (fun i j => if Nat.eqb i j then s i ^ 2 else 0) z eq_refl G' EC Lm Lz). unfold vec. apply map_ext_in. intros i Hi. apply in_seq in Hi. f_equal. f_equal.
  rewrite (sumR_single _ 4 i); [rewrite (good_diag L 4 s G' Hs i ltac:(lia) i ltac:(lia)), Nat.eqb_refl; reflexivity|lia|].
  intros j Hj ne. rewrite (good_diag L 4 s G' Hs j Hj i ltac:(lia)). replace (Nat.eqb i j) with false by (symmetry; apply Nat.eqb_neq; lia). ring.
Qed.

Lemma galaxy_draw p P m tp upid mu mh gy k : holds "" p P -> pop_in_bounds P -> slopes_nonzero P ->
  exists mc a1 a2 s1 s2 s3 z1 z2 z3 ums uq f b,
    diffstarpop_means_covs p (Fin m) (Fin tp) (Fin mu) (Fin mh) (Fin gy) = Some mc /\ mu_mseq mc = map Fin a1 /\ mu_qseq mc = map Fin a2 /\
    cov_mseq_ms mc = real_matrix 4 (fun i j => if Nat.eqb i j then s1 i ^ 2 else 0) /\
    cov_qseq_ms mc = real_matrix 4 (fun i j => if Nat.eqb i j then s2 i ^ 2 else 0) /\
    cov_qseq_q mc = real_matrix 4 (fun i j => if Nat.eqb i j then s3 i ^ 2 else 0) /\
    (forall i, (i < 4)%nat -> 0 < s1 i /\ 0 < s2 i /\ 0 < s3 i) /\
    normal (nth 0 (split k 4) k) 4 = map Fin z1 /\ normal (nth 1 (split k 4) k) 4 = map Fin z2 /\ normal (nth 2 (split k 4) k) 4 = map Fin z3 /\
    mc_diffstar_u_params_singlegal key split uniform (mvn_of normal) p (Fin m) (Fin tp) upid (Fin mu) (Fin mh) (Fin gy) k = Some (map_d Fin ums, map_d Fin uq, f, b) /\
    (forall i, (i < 4)%nat -> nth i (params_list ums) 0 = nth i a1 0 + s1 i * nth i z1 0 /\ nth (4 + i) (params_list ums) 0 = 5 /\
       nth i (params_list uq) 0 = nth i a2 0 + s2 i * nth i z2 0 /\ nth (4 + i) (params_list uq) 0 = nth (4 + i) a2 0 + s3 i * nth i z3 0).
Proof.
  intros Hp Hb Hs.
  destruct (covariances_pd p P m tp (Fin mu) (Fin mh) (Fin gy) Hp Hb Hs) as (mc & E & C1 & C2 & C3 & (a1 & M1 & L1) & (a2 & M2 & L2)).
  destruct (covariances_diag p P m tp (Fin mu) (Fin mh) (Fin gy) Hp Hb Hs) as (mc' & s1 & s2 & s3 & E' & D1 & D2 & D3 & DB). rewrite E in E'. apply Some_inj in E'. subst mc'.
  assert (B1 : forall i, (i < 4)%nat -> 0 < s1 i) by (intros i Hi; specialize (DB i Hi); lra).
  assert (B2 : forall i, (i < 4)%nat -> 0 < s2 i) by (intros i Hi; specialize (DB i Hi); lra).
  assert (B3 : forall i, (i < 4)%nat -> 0 < s3 i) by (intros i Hi; specialize (DB i Hi); lra).
  destruct (Hn (nth 0 (split k 4) k) 4%nat) as (z1 & Z1 & _). destruct (Hn (nth 1 (split k 4) k) 4%nat) as (z2 & Z2 & _). destruct (Hn (nth 2 (split k 4) k) 4%nat) as (z3 & Z3 & _).
  rewrite D1 in C1. rewrite D2 in C2. rewrite D3 in C3.
  exists mc, a1, a2, s1, s2, s3, z1, z2, z3.
  set (ums := mkDiffstar (nth 0 a1 0 + s1 0%nat * nth 0 z1 0) (nth 1 a1 0 + s1 1%nat * nth 1 z1 0) (nth 2 a1 0 + s1 2%nat * nth 2 z1 0) (nth 3 a1 0 + s1 3%nat * nth 3 z1 0) 5 5 5 5).
  set (uq := mkDiffstar (nth 0 a2 0 + s2 0%nat * nth 0 z2 0) (nth 1 a2 0 + s2 1%nat * nth 1 z2 0) (nth 2 a2 0 + s2 2%nat * nth 2 z2 0) (nth 3 a2 0 + s2 3%nat * nth 3 z2 0)
    (nth 4 a2 0 + s3 0%nat * nth 0 z3 0) (nth 5 a2 0 + s3 1%nat * nth 1 z3 0) (nth 6 a2 0 + s3 2%nat * nth 2 z3 0) (nth 7 a2 0 + s3 3%nat * nth 3 z3 0)).
  exists ums, uq, (if Z.eqb upid (-1) then mc_frac_cen mc else mc_frac_sat mc), (xlt (uniform (nth 3 (split k 4) k)) (if Z.eqb upid (-1) then mc_frac_cen mc else mc_frac_sat mc)).
  do 6 (split; [assumption|]). split; [intros i Hi; auto|]. do 3 (split; [assumption|]). split.
  - unfold mc_diffstar_u_params_singlegal. rewrite E. destruct (len4 _ (Hsplit k 4%nat)) as (k1 & k2 & k3 & k4 & EK). rewrite EK in *. cbn [nth] in Z1, Z2, Z3. cbv zeta.
    rewrite M1, M2, firstn_map, skipn_map, D1, D2, D3.
    rewrite (draw_diag k1 a1 s1 L1 B1 C1 z1 Z1), (draw_diag k2 (firstn 4 a2) s2 ltac:(rewrite firstn_length; lia) B2 C2 z2 Z2), (draw_diag k3 (skipn 4 a2) s3 ltac:(rewrite skipn_length; lia) B3 C3 z3 Z3).
    destruct a2 as [|b0 [|b1 [|b2 [|b3 [|b4 [|b5 [|b6 [|b7 [|]]]]]]]]]; try discriminate L2. cbn [seq map firstn skipn app unpack_d unpack_ms unpack_q nth]. reflexivity.
  - intros i Hi. destruct i as [|[|[|[|]]]]; [..|lia]; cbn [params_list plus nth ums uq d_lgmcrit d_lgy_at_mcrit d_indx_lo d_indx_hi d_lg_qt d_qlglgdt d_lg_drop d_lg_rejuv]; repeat split; reflexivity.
Qed.
End Draw.
