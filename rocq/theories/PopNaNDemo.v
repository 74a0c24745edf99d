(** A population with finite losses, and one whose masses all miss the bins. *)
From Coq Require Import Reals Lra Lia List Bool ZArith String.
From Verif Require Import XReal XFacts RealFacts ModelUtils ModelKernels ModelSfh ModelPop ModelHist ModelGrad ModelPopGrad
  SpecCore SpecPop SpecHist SpecGrad SpecPopProgram SpecPopGrad SpecPopNaN HistProofs SmhmProofs LossProofs PopParamProofs PopLossProofs
  CholeskyProofs GradTop PopGradTop PopGradClaims PopGradDemo.
Import List ListNotations.
Open Scope R_scope.
Local Notation length := List.length.

Lemma obs_row_unique tobs row s M s' M' : obs_row tobs row s M -> obs_row tobs row s' M' -> M = M'.
Proof. intros (_ & _ & m & A & B & _) (_ & _ & m' & A' & B' & _). rewrite A in A'. apply Some_inj in A'. subst m'. rewrite B in B'. apply Fin_inj, B'. Qed.
Lemma sample_unique (key : Type) split uniform mvn lmk p (z : ZPop key) lgt0 fb tobs n X Y W n' X' Y' W' :
  sample key split uniform mvn lmk p z lgt0 fb tobs n X Y W -> sample key split uniform mvn lmk p z lgt0 fb tobs n' X' Y' W' -> X = X'.
Proof.
  intros (r & Sm & Sq & Mm & Mq & f & A1 & A2 & A3 & A4 & A5 & A6 & A7 & A8 & _ & _ & A9 & -> & _) (r' & Sm' & Sq' & Mm' & Mq' & f' & B1 & B2 & B3 & B4 & B5 & B6 & B7 & B8 & _ & _ & B9 & -> & _).
  rewrite A1 in B1. apply Some_inj in B1. subst r'. assert (En : n' = n) by congruence. rewrite En in *. f_equal. f_equal.
  - apply (nth_ext _ _ 0 0); [congruence|]. intros i Hi. rewrite A6 in Hi. destruct (A9 i Hi) as [P1 _]. destruct (B9 i Hi) as [P2 _]. exact (obs_row_unique _ _ _ _ _ _ P1 P2).
  - apply (nth_ext _ _ 0 0); [congruence|]. intros i Hi. rewrite A7 in Hi. destruct (A9 i Hi) as [_ P1]. destruct (B9 i Hi) as [_ P2]. exact (obs_row_unique _ _ _ _ _ _ P1 P2).
Qed.
Lemma list_max (l : list R) : exists M, Forall (fun x => x <= M) l.
Proof.
  induction l as [|x l (M & H)]; [exists 0; constructor|]. exists (Rmax x M). constructor; [apply Rmax_l|]. eapply Forall_impl; [|exact H]. cbv beta. intros y Hy. pose proof (Rmax_r x M). lra.
Qed.
Lemma demo_empty : exists U P d E, get_bounded_diffstarpop_params (pop_u_params U) = Some (pop_params P) /\ slopes_nonzero P /\
  mstar_data_ok unit ex_lmk d 10 /\ ml_bins unit d = map Fin E /\ ml_zs unit d = [demo_z (-1, 7)%Z] /\
  out_of_bins unit demo_split demo_uniform (mvn_of demo_normal) ex_lmk (pop_params P) (ml_lgt0 unit d) 10 E (demo_z (-1, 7)%Z) /\
  loss_mstar unit demo_split demo_uniform (mvn_of demo_normal) ex_lmk (pop_u_params U) d <> None.
Proof.
  destruct default_in_bounds as (P & U & _ & HB & HS & _ & HP). set (z := demo_z (-1, 7)%Z).
  destruct (tables_sample unit demo_split demo_uniform (mvn_of demo_normal) ex_lmk demo_split_ok (mvn_of_ok _ demo_normal_ok) (pop_params P) P 2 (3 / 20) z (Fin 1) 10
     (holds_params P) HB HS (demo_sim _ (Fin 1))) as (X & Y & W & SM & TA & LX & LY & LW & PW).
  destruct (list_max X) as (M & HM). set (E := [M + 10; M + 11; M + 12]). assert (IE : increasing E) by (cbn; lra).
  assert (OUT : Forall (fun x => x <= hd 0 E - 3 * ((last E 0 - hd 0 E) / INR (length E - 1)) \/ last E 0 + 3 * ((last E 0 - hd 0 E) / INR (length E - 1)) <= x) X).
  { eapply Forall_impl; [|exact HM]. cbv beta. intros x Hx. left. unfold E. cbn [hd last length Nat.sub INR]. lra. }
  exists U, P, (mkML unit [z] (Fin 1) (Fin 10) (map Fin E) (map (map Fin) [[1 / 2; 1 / 2]])), E. split; [exact HP|]. split; [exact HS|]. split; [|split; [reflexivity|split; [reflexivity|split]]].
  - exists E, [[1 / 2; 1 / 2]]. split; [reflexivity|]. split; [|split; [cbn; lia|exact IE]]. constructor; [|constructor]. exists 2%nat, (3 / 20). apply demo_sim.
  - intros n tobs X' Y' W' Ht SM'. assert (tobs = 3 / 20) by (symmetry; apply Fin_inj; exact Ht). subst tobs. rewrite <- (sample_unique _ _ _ _ _ _ _ _ _ _ _ _ _ _ _ _ _ _ SM SM'). exact OUT.
  - unfold loss_mstar, loss_mstar_kern_tobs, mstar_kern_tobs. cbn [ml_zs ml_lgt0 ml_fb ml_bins ml_target]. rewrite HP. unfold vmap. cbn [map sequence]. rewrite TA.
    rewrite (mstar_pdf_nan X W E ltac:(lia) IE ltac:(cbn; lia)); [discriminate|]. intros i Hi. right. rewrite Forall_forall in OUT. apply OUT, nth_In, Hi.
Qed.
Lemma demo_finite : exists U P dm vm dc vc, get_bounded_diffstarpop_params (pop_u_params U) = Some (pop_params P) /\ slopes_nonzero P /\
  mstar_data_ok unit ex_lmk dm 10 /\ ssfr_data_ok unit ex_lmk dc 10 /\ counts_ok unit dc /\
  loss_mstar unit demo_split demo_uniform (mvn_of demo_normal) ex_lmk (pop_u_params U) dm = Some (Fin vm) /\
  loss_ssfr unit demo_split demo_uniform (mvn_of demo_normal) ex_lmk (pop_u_params U) dc = Some (Fin vc).
Proof.
  destruct default_in_bounds as (P & U & _ & HB & HS & _ & HP). destruct (demo_mstar (-1, 7)%Z U P HB HS HP (Fin 1)) as (dm & vm & A1 & _ & _ & A4).
  destruct (demo_ssfr_loss (-1, 7)%Z U P HB HS HP (Fin 1)) as (dc & vc & B1 & _ & _ & B3 & B4). exists U, P, dm, vm, dc, vc. do 4 (split; [assumption|]).
  split; [|split; assumption]. unfold counts_ok. rewrite B3. constructor; [|constructor]. constructor; [|constructor]. exists 1. split; [reflexivity|lra].
Qed.
