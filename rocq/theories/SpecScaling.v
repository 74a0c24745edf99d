(** What the population parameters mean: the relations between a halo and the distribution
    its galaxies are drawn from, as formulas in the parameter names.  Nothing here refers to
    the model's functions. *)
From Coq Require Import Reals List String ZArith.
From Verif Require Import XReal ModelPopTables.
Import ListNotations.
Open Scope R_scope.

(** A step of height [hi - lo] at [x0]. *)
Definition step (x x0 k lo hi : R) : R := lo + (hi - lo) / (1 + exp (- (k * (x - x0)))).

(** A relation through the turning point (xtp, ytp) whose slope goes from [lo] to [hi]. *)
Definition bent (P : string -> R) (name : string) (m : R) : R :=
  let par s := P (name ++ s)%string in
  par "_ytp"%string + step m (par "_xtp"%string) 3 (par "_lo"%string) (par "_hi"%string) * (m - par "_xtp"%string).

(** A value [y] kept between [lo] and [hi]: unchanged in the middle, smoothly stopped one
    percent of the way from either end to the anchor [y0]. *)
Definition kept (y0 lo hi y : R) : R :=
  let w := (y0 - lo) / 2000 in
  let a := lo + (y0 - lo) / 100 in
  let b := hi - (hi - y0) / 100 in
  step y b (/ w) (step y a (/ w) a y) b.

(** A straight line in halo mass, anchored at 10^12.5, kept between [lo] and [hi]. *)
Definition line_y (P : string -> R) (name : string) (m : R) : R :=
  P (name ++ "_int")%string + P (name ++ "_slp")%string * (m - 125 / 10).
Definition line_in (P : string -> R) (name : string) (lo hi m : R) : R :=
  kept (P (name ++ "_int")%string) lo hi (line_y P name m).

(** Mean unbounded parameters of the main sequence and of the quenched galaxies. *)
Definition mean_ms (P : string -> R) (m : R) : list R :=
  [ bent P "mean_ulgm_mseq" m; bent P "mean_ulgy_mseq" m;
    line_in P "mean_ul_mseq" (-3) 5 m; line_in P "mean_uh_mseq" (-5) 3 m ].
Definition mean_q (P : string -> R) (m tp : R) : list R :=
  [ bent P "mean_ulgm_qseq" m; bent P "mean_ulgy_qseq" m;
    line_in P "mean_ul_qseq" (-3) 5 m; line_in P "mean_uh_qseq" (-5) 3 m;
    bent P "mean_uqt" m
      + step tp (P "delta_uqt_x0"%string) (P "delta_uqt_k"%string) (P "delta_uqt_ylo"%string) (P "delta_uqt_yhi"%string)
      + P "delta_uqt_slope"%string * (m - 125 / 10);
    line_in P "mean_uqs" (-5) 2 m; line_in P "mean_udrop" (-3) 2 m; line_in P "mean_urej" (-10) 2 m ].

(** Scatters *)
Definition std_ms (seq : string) (P : string -> R) (m : R) : list R :=
  [ line_in P ("std_ulgm_" ++ seq) (1 / 100) 1 m; line_in P ("std_ulgy_" ++ seq) (1 / 100) 1 m;
    line_in P ("std_ul_" ++ seq) (1 / 100) 3 m; line_in P ("std_uh_" ++ seq) (1 / 100) 3 m ].
Definition std_q (P : string -> R) (m : R) : list R :=
  [ line_in P "std_uqt" (1 / 100) (1 / 2) m; line_in P "std_uqs" (1 / 100) 1 m;
    line_in P "std_udrop" (1 / 100) 2 m; line_in P "std_urej" (1 / 100) 2 m ].
(** The covariance with scatters [s] and no correlations *)
Definition uncorrelated (s : list R) : list (list xr) :=
  map (fun i => map (fun j => Fin (if Nat.eqb i j then nth i s 0 * nth i s 0 else 0)) (List.seq 0 (List.length s)))
      (List.seq 0 (List.length s)).

(** Quenched fraction of the kind of halo [c] ("cen" or "sat") before the satellite boost:
    a step in halo mass whose position and floor are steps in the peak time. *)
Definition frac_floor (c : string) (P : string -> R) (tp : R) : R :=
  let par s := P ("frac_quench_" ++ c ++ "_" ++ s)%string in
  step tp (par "x0_tpeak"%string) (par "k_tpeak"%string) (par "ylo_ylotpeak"%string) (par "ylo_yhitpeak"%string).
Definition frac (c : string) (P : string -> R) (m tp : R) : R :=
  let par s := P ("frac_quench_" ++ c ++ "_" ++ s)%string in
  step m (step tp (par "x0_tpeak"%string) (par "k_tpeak"%string) (par "x0_ylotpeak"%string) (par "x0_yhitpeak"%string))
       (par "k"%string) (frac_floor c P tp) (par "yhi"%string).

(** Fraction of the unquenched satellites that have quenched [gy] Gyr after infall: a step
    in time, with a delay set by the host mass and a height set by the mass ratio [mu] and
    the host mass. *)
Definition infall_quenched (P : string -> R) (mu mh gy : R) : R :=
  let height :=
    step mh (P "qp_lgmh_crit"%string) 5
      (step mu (P "qphi_lgmu_crit"%string) 2 (P "lgmu_lo_mh_lo"%string) (P "lgmu_hi_mh_lo"%string))
      (step mu (P "qphi_lgmu_crit"%string) 2 (P "lgmu_lo_mh_hi"%string) (P "lgmu_hi_mh_hi"%string)) in
  step gy (step mh (P "td_lgmhc"%string) 5 (P "td_mlo"%string) (P "td_mhi"%string)) 5 0 height.
Definition frac_sat (P : string -> R) (m tp mu mh gy : R) : R :=
  1 - (1 - frac "sat" P m tp) * (1 - infall_quenched P mu mh gy).

(** The quenched fraction a halo is given *)
Definition frac_of (upid : Z) (P : string -> R) (m tp mu mh gy : R) : R :=
  if Z.eq_dec upid (-1) then frac "cen" P m tp else frac_sat P m tp mu mh gy.

(** The published parameter tables, by the behaviour of their central quenched fraction. *)
Definition tables_rising : list (list (string * QArith_base.Q)) := [
  params_diffstarfits_mgash_smdpl_dr1_nomerging; params_diffstarfits_mgash_smdpl_dr1;
  params_diffstarpopfits_mgash_smdpl_dr1_nomerging; params_diffstarpopfits_mgash_smdpl_dr1;
  params_diffstarpopfits_mgash_tng; params_diffstarpopfits_mgash_galacticus_in_situ;
  params_diffstarpopfits_mgash_galacticus_in_plus_ex_situ ].
Definition tables_falling : list (list (string * QArith_base.Q)) := [
  params_diffstarfits_mgash_tng; params_diffstarfits_mgash_galacticus_in_situ;
  params_diffstarfits_mgash_galacticus_in_plus_ex_situ ].
