(** Independent specifications used in the statements about the population model.
    Nothing here refers to the model's functions. *)
From Coq Require Import Reals List String QArith Qreals ZArith.
From Verif Require Import XReal.
Import ListNotations.

(** Published bounds of the 88 population parameters, in the order of the fields of
    DiffstarPopParams. *)
Definition POP_BOUNDS : list (string * (Q * Q)) := [
  ("frac_quench_cen_x0_tpeak", (1, 14));
  ("frac_quench_cen_k_tpeak", ((1 # 100), 10));
  ("frac_quench_cen_x0_ylotpeak", (11, 14));
  ("frac_quench_cen_x0_yhitpeak", (11, 14));
  ("frac_quench_cen_ylo_ylotpeak", (0, 1));
  ("frac_quench_cen_ylo_yhitpeak", (0, 1));
  ("frac_quench_cen_k", ((1 # 100), 5));
  ("frac_quench_cen_yhi", (0, 1));
  ("frac_quench_sat_x0_tpeak", (1, 14));
  ("frac_quench_sat_k_tpeak", ((1 # 100), 10));
  ("frac_quench_sat_x0_ylotpeak", (11, 14));
  ("frac_quench_sat_x0_yhitpeak", (11, 14));
  ("frac_quench_sat_ylo_ylotpeak", (0, 1));
  ("frac_quench_sat_ylo_yhitpeak", (0, 1));
  ("frac_quench_sat_k", ((1 # 100), 5));
  ("frac_quench_sat_yhi", (0, 1));
  ("mean_ulgm_mseq_xtp", (11, 14));
  ("mean_ulgm_mseq_ytp", (11, 14));
  ("mean_ulgm_mseq_lo", (-1, 5));
  ("mean_ulgm_mseq_hi", (-5, 1));
  ("mean_ulgy_mseq_xtp", (11, 14));
  ("mean_ulgy_mseq_ytp", (-13, -8));
  ("mean_ulgy_mseq_lo", (-1, 5));
  ("mean_ulgy_mseq_hi", (-5, 1));
  ("mean_ul_mseq_int", (-3, 5));
  ("mean_ul_mseq_slp", (-20, 20));
  ("mean_uh_mseq_int", (-5, 3));
  ("mean_uh_mseq_slp", (-20, 20));
  ("mean_ulgm_qseq_xtp", (11, 14));
  ("mean_ulgm_qseq_ytp", (11, 14));
  ("mean_ulgm_qseq_lo", (-1, 5));
  ("mean_ulgm_qseq_hi", (-5, 1));
  ("mean_ulgy_qseq_xtp", (11, 14));
  ("mean_ulgy_qseq_ytp", (-13, -8));
  ("mean_ulgy_qseq_lo", (-1, 5));
  ("mean_ulgy_qseq_hi", (-5, 1));
  ("mean_ul_qseq_int", (-3, 5));
  ("mean_ul_qseq_slp", (-20, 20));
  ("mean_uh_qseq_int", (-5, 3));
  ("mean_uh_qseq_slp", (-20, 20));
  ("mean_uqt_xtp", (11, 14));
  ("mean_uqt_ytp", (0, 2));
  ("mean_uqt_lo", (-1, 0));
  ("mean_uqt_hi", (-1, 0));
  ("mean_uqs_int", (-5, 2));
  ("mean_uqs_slp", (-20, 20));
  ("mean_udrop_int", (-3, 2));
  ("mean_udrop_slp", (-20, 20));
  ("mean_urej_int", (-10, 2));
  ("mean_urej_slp", (-20, 20));
  ("std_ulgm_mseq_int", ((1 # 100), 1));
  ("std_ulgm_mseq_slp", (-1, 1));
  ("std_ulgy_mseq_int", ((1 # 100), 1));
  ("std_ulgy_mseq_slp", (-1, 1));
  ("std_ul_mseq_int", ((1 # 100), 3));
  ("std_ul_mseq_slp", (-1, 1));
  ("std_uh_mseq_int", ((1 # 100), 3));
  ("std_uh_mseq_slp", (-1, 1));
  ("std_ulgm_qseq_int", ((1 # 100), 1));
  ("std_ulgm_qseq_slp", (-1, 1));
  ("std_ulgy_qseq_int", ((1 # 100), 1));
  ("std_ulgy_qseq_slp", (-1, 1));
  ("std_ul_qseq_int", ((1 # 100), 3));
  ("std_ul_qseq_slp", (-1, 1));
  ("std_uh_qseq_int", ((1 # 100), 3));
  ("std_uh_qseq_slp", (-1, 1));
  ("std_uqt_int", ((1 # 100), (1 # 2)));
  ("std_uqt_slp", (-1, 1));
  ("std_uqs_int", ((1 # 100), 1));
  ("std_uqs_slp", (-1, 1));
  ("std_udrop_int", ((1 # 100), 2));
  ("std_udrop_slp", (-1, 1));
  ("std_urej_int", ((1 # 100), 2));
  ("std_urej_slp", (-1, 1));
  ("delta_uqt_x0", (1, 14));
  ("delta_uqt_k", ((1 # 100), 5));
  ("delta_uqt_ylo", (-1, 1));
  ("delta_uqt_yhi", (-1, 1));
  ("delta_uqt_slope", ((-1 # 10), (1 # 10)));
  ("qp_lgmh_crit", (11, 15));
  ("td_lgmhc", (11, 15));
  ("td_mlo", (-5, 10));
  ("td_mhi", (-5, 10));
  ("qphi_lgmu_crit", (-4, (-1 # 10)));
  ("lgmu_lo_mh_lo", (0, 1));
  ("lgmu_hi_mh_lo", (0, 1));
  ("lgmu_lo_mh_hi", (0, 1));
  ("lgmu_hi_mh_hi", (0, 1)) ]%string%Q.

Open Scope R_scope.
Definition pop_names : list string := map fst POP_BOUNDS.

(** A parameter assignment [P] (by name) is strictly inside the published bounds. *)
Definition pop_in_bounds (P : string -> R) : Prop :=
  Forall (fun r => Q2R (fst (snd r)) < P (fst r) < Q2R (snd (snd r))) POP_BOUNDS.

(** Names of the slopes of the clipped lines. *)
Definition pop_slopes : list string := [
  "mean_ul_mseq_slp"; "mean_uh_mseq_slp"; "mean_ul_qseq_slp"; "mean_uh_qseq_slp";
  "mean_uqs_slp"; "mean_udrop_slp"; "mean_urej_slp";
  "std_ulgm_mseq_slp"; "std_ulgy_mseq_slp"; "std_ul_mseq_slp"; "std_uh_mseq_slp";
  "std_ulgm_qseq_slp"; "std_ulgy_qseq_slp"; "std_ul_qseq_slp"; "std_uh_qseq_slp";
  "std_uqt_slp"; "std_uqs_slp"; "std_udrop_slp"; "std_urej_slp" ]%string.
Definition slopes_nonzero (P : string -> R) : Prop := Forall (fun n => P n <> 0) pop_slopes.

(** Named tuples holding the assignment [P]: the 88 fields in published order, without
    and with the "u_" prefix. *)
Definition pop_params (P : string -> R) : list (string * xr) :=
  map (fun n => (n, Fin (P n))) pop_names.
Definition pop_u_params (U : string -> R) : list (string * xr) :=
  map (fun n => (("u_" ++ n)%string, Fin (U n))) pop_names.

(** First entry with a given name in an association list. *)
Fixpoint assoc {A} (name : string) (l : list (string * A)) : option A :=
  match l with
  | [] => None
  | (k, v) :: rest => if String.eqb name k then Some v else assoc name rest
  end.

(** [p] is any named tuple (any field order, possibly with further fields) that holds the
    value [P n] under [prefix ++ n] for each of the 88 names. *)
Definition holds (prefix : string) (p : list (string * xr)) (P : string -> R) : Prop :=
  forall n, In n pop_names -> assoc (prefix ++ n)%string p = Some (Fin (P n)).

(** Square real matrices and positive definiteness. *)
Definition real_matrix (n : nat) (M : nat -> nat -> R) : list (list xr) :=
  map (fun i => map (fun j => Fin (M i j)) (seq 0 n)) (seq 0 n).
Definition sumR (f : nat -> R) (n : nat) : R := fold_right Rplus 0 (map f (seq 0 n)).
Definition positive_definite (n : nat) (A : list (list xr)) : Prop :=
  exists M : nat -> nat -> R, A = real_matrix n M /\
    (forall i j, M i j = M j i) /\
    (forall v : nat -> R, (exists i, (i < n)%nat /\ v i <> 0) ->
       0 < sumR (fun i => sumR (fun j => v i * M i j * v j) n) n).

(** Contracts of the random number generator used by the Monte Carlo statements.
    [jax.random.split(key, n)] returns [n] keys. *)
Definition splits_ok {key} (split : key -> nat -> list key) : Prop :=
  forall k n, List.length (split k n) = n.
(** [jax.random.multivariate_normal(key, mean, cov)] returns a finite vector with the
    length of the mean for finite means and positive definite covariances. *)
Definition mvn_ok {key} (mvn : key -> list xr -> list (list xr) -> list xr) : Prop :=
  forall k mean cov, positive_definite (List.length mean) cov ->
    exists r : list R, mvn k (map Fin mean) cov = map Fin r /\ List.length r = List.length mean.

(** The arguments of a population draw all describe [n] galaxies. *)
Definition pop_args (n : nat) (m tp : list xr) (upid : list Z) (mu mh gy : list xr) : Prop :=
  List.length m = n /\ List.length tp = n /\ List.length upid = n /\
  List.length mu = n /\ List.length mh = n /\ List.length gy = n.
