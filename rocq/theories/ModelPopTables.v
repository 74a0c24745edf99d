(** Tables of numbers copied from the source (written by a script that parses the literal
    dictionaries; every decimal is the exact rational).
    Paths are relative to /repo/diffstar/diffstarpop/kernels. *)
From Coq Require Import QArith List String.
Import ListNotations.
Open Scope Q_scope.

(** sfh_pdf_mgash.py:26-63 *)
Definition SFH_PDF_QUENCH_MU_PDICT : list (string * (Q)) := [
  ("mean_ulgm_mseq_xtp", (129 # 10));
  ("mean_ulgm_mseq_ytp", (6263 # 500));
  ("mean_ulgm_mseq_lo", (149 # 200));
  ("mean_ulgm_mseq_hi", (-61 # 1000));
  ("mean_ulgy_mseq_xtp", (2377 # 200));
  ("mean_ulgy_mseq_ytp", (-1317 # 125));
  ("mean_ulgy_mseq_lo", (411 # 250));
  ("mean_ulgy_mseq_hi", (461 # 1000));
  ("mean_ul_mseq_int", (-1403 # 500));
  ("mean_ul_mseq_slp", (-321 # 1000));
  ("mean_uh_mseq_int", (-999 # 200));
  ("mean_uh_mseq_slp", (1479 # 1000));
  ("mean_ulgm_qseq_xtp", (13349 # 1000));
  ("mean_ulgm_qseq_ytp", (306 # 25));
  ("mean_ulgm_qseq_lo", (69 # 200));
  ("mean_ulgm_qseq_hi", (-61 # 500));
  ("mean_ulgy_qseq_xtp", (5969 # 500));
  ("mean_ulgy_qseq_ytp", (-1237 # 125));
  ("mean_ulgy_qseq_lo", (461 # 500));
  ("mean_ulgy_qseq_hi", (9 # 20));
  ("mean_ul_qseq_int", (-597 # 1000));
  ("mean_ul_qseq_slp", (51 # 200));
  ("mean_uh_qseq_int", (-36 # 25));
  ("mean_uh_qseq_slp", (-799 # 1000));
  ("mean_uqt_xtp", (2261 # 200));
  ("mean_uqt_ytp", (1181 # 1000));
  ("mean_uqt_lo", (-1 # 1000));
  ("mean_uqt_hi", (-89 # 200));
  ("mean_uqs_int", (133 # 200));
  ("mean_uqs_slp", (73 # 1000));
  ("mean_udrop_int", (-2997 # 1000));
  ("mean_udrop_slp", (24 # 25));
  ("mean_urej_int", (-1167 # 250));
  ("mean_urej_slp", (2971 # 1000)) ]%string.

(** sfh_pdf_mgash.py:101-120 *)
Definition SFH_PDF_QUENCH_COV_MS_BLOCK_PDICT : list (string * (Q)) := [
  ("std_ulgm_mseq_int", (63 # 1000));
  ("std_ulgm_mseq_slp", (-29 # 500));
  ("std_ulgy_mseq_int", (57 # 1000));
  ("std_ulgy_mseq_slp", (123 # 500));
  ("std_ul_mseq_int", (871 # 1000));
  ("std_ul_mseq_slp", (-999 # 1000));
  ("std_uh_mseq_int", (11 # 1000));
  ("std_uh_mseq_slp", (7 # 500));
  ("std_ulgm_qseq_int", (11 # 25));
  ("std_ulgm_qseq_slp", (-309 # 1000));
  ("std_ulgy_qseq_int", (9 # 200));
  ("std_ulgy_qseq_slp", (119 # 1000));
  ("std_ul_qseq_int", (381 # 500));
  ("std_ul_qseq_slp", (159 # 250));
  ("std_uh_qseq_int", (11 # 1000));
  ("std_uh_qseq_slp", (1 # 1000)) ]%string.

(** sfh_pdf_mgash.py:140-151 *)
Definition SFH_PDF_QUENCH_COV_Q_BLOCK_PDICT : list (string * (Q)) := [
  ("std_uqt_int", (27 # 500));
  ("std_uqt_slp", (21 # 1000));
  ("std_uqs_int", (77 # 1000));
  ("std_uqs_slp", (37 # 500));
  ("std_udrop_int", (36 # 125));
  ("std_udrop_slp", (-999 # 1000));
  ("std_urej_int", (193 # 200));
  ("std_urej_slp", (-499 # 500)) ]%string.

(** sfh_pdf_mgash.py:163-182 *)
Definition SFH_PDF_FRAC_QUENCH_PDICT : list (string * (Q)) := [
  ("frac_quench_cen_x0_tpeak", (9731 # 1000));
  ("frac_quench_cen_k_tpeak", (9989 # 1000));
  ("frac_quench_cen_x0_ylotpeak", (6999 # 500));
  ("frac_quench_cen_x0_yhitpeak", (6827 # 500));
  ("frac_quench_cen_ylo_ylotpeak", (999 # 1000));
  ("frac_quench_cen_ylo_yhitpeak", (151 # 500));
  ("frac_quench_cen_k", (2169 # 1000));
  ("frac_quench_cen_yhi", (999 # 1000));
  ("frac_quench_sat_x0_tpeak", (1183 # 125));
  ("frac_quench_sat_k_tpeak", (587 # 1000));
  ("frac_quench_sat_x0_ylotpeak", (11097 # 1000));
  ("frac_quench_sat_x0_yhitpeak", (6993 # 500));
  ("frac_quench_sat_ylo_ylotpeak", (501 # 1000));
  ("frac_quench_sat_ylo_yhitpeak", (1 # 1000));
  ("frac_quench_sat_k", (999 # 200));
  ("frac_quench_sat_yhi", (999 # 1000)) ]%string.

(** sfh_pdf_mgash.py:223-231 *)
Definition DELTA_UQT_PDICT : list (string * (Q)) := [
  ("delta_uqt_x0", (1001 # 1000));
  ("delta_uqt_k", (289 # 500));
  ("delta_uqt_ylo", (-569 # 1000));
  ("delta_uqt_yhi", (309 # 1000));
  ("delta_uqt_slope", (49 # 500)) ]%string.

(** sfh_pdf_mgash.py:64-99 *)
Definition SFH_PDF_QUENCH_MU_BOUNDS_PDICT : list (string * (Q * Q)) := [
  ("mean_ulgm_mseq_xtp", ((11 # 1), (14 # 1)));
  ("mean_ulgm_mseq_ytp", ((11 # 1), (14 # 1)));
  ("mean_ulgm_mseq_lo", ((-1 # 1), (5 # 1)));
  ("mean_ulgm_mseq_hi", ((-5 # 1), (1 # 1)));
  ("mean_ulgy_mseq_xtp", ((11 # 1), (14 # 1)));
  ("mean_ulgy_mseq_ytp", ((-13 # 1), (-8 # 1)));
  ("mean_ulgy_mseq_lo", ((-1 # 1), (5 # 1)));
  ("mean_ulgy_mseq_hi", ((-5 # 1), (1 # 1)));
  ("mean_ul_mseq_int", ((-3 # 1), (5 # 1)));
  ("mean_ul_mseq_slp", ((-20 # 1), (20 # 1)));
  ("mean_uh_mseq_int", ((-5 # 1), (3 # 1)));
  ("mean_uh_mseq_slp", ((-20 # 1), (20 # 1)));
  ("mean_ulgm_qseq_xtp", ((11 # 1), (14 # 1)));
  ("mean_ulgm_qseq_ytp", ((11 # 1), (14 # 1)));
  ("mean_ulgm_qseq_lo", ((-1 # 1), (5 # 1)));
  ("mean_ulgm_qseq_hi", ((-5 # 1), (1 # 1)));
  ("mean_ulgy_qseq_xtp", ((11 # 1), (14 # 1)));
  ("mean_ulgy_qseq_ytp", ((-13 # 1), (-8 # 1)));
  ("mean_ulgy_qseq_lo", ((-1 # 1), (5 # 1)));
  ("mean_ulgy_qseq_hi", ((-5 # 1), (1 # 1)));
  ("mean_ul_qseq_int", ((-3 # 1), (5 # 1)));
  ("mean_ul_qseq_slp", ((-20 # 1), (20 # 1)));
  ("mean_uh_qseq_int", ((-5 # 1), (3 # 1)));
  ("mean_uh_qseq_slp", ((-20 # 1), (20 # 1)));
  ("mean_uqt_xtp", ((11 # 1), (14 # 1)));
  ("mean_uqt_ytp", ((0 # 1), (2 # 1)));
  ("mean_uqt_lo", ((-1 # 1), (0 # 1)));
  ("mean_uqt_hi", ((-1 # 1), (0 # 1)));
  ("mean_uqs_int", ((-5 # 1), (2 # 1)));
  ("mean_uqs_slp", ((-20 # 1), (20 # 1)));
  ("mean_udrop_int", ((-3 # 1), (2 # 1)));
  ("mean_udrop_slp", ((-20 # 1), (20 # 1)));
  ("mean_urej_int", ((-10 # 1), (2 # 1)));
  ("mean_urej_slp", ((-20 # 1), (20 # 1))) ]%string.

(** sfh_pdf_mgash.py:121-138 *)
Definition SFH_PDF_QUENCH_COV_MS_BLOCK_BOUNDS_PDICT : list (string * (Q * Q)) := [
  ("std_ulgm_mseq_int", ((1 # 100), (1 # 1)));
  ("std_ulgm_mseq_slp", ((-1 # 1), (1 # 1)));
  ("std_ulgy_mseq_int", ((1 # 100), (1 # 1)));
  ("std_ulgy_mseq_slp", ((-1 # 1), (1 # 1)));
  ("std_ul_mseq_int", ((1 # 100), (3 # 1)));
  ("std_ul_mseq_slp", ((-1 # 1), (1 # 1)));
  ("std_uh_mseq_int", ((1 # 100), (3 # 1)));
  ("std_uh_mseq_slp", ((-1 # 1), (1 # 1)));
  ("std_ulgm_qseq_int", ((1 # 100), (1 # 1)));
  ("std_ulgm_qseq_slp", ((-1 # 1), (1 # 1)));
  ("std_ulgy_qseq_int", ((1 # 100), (1 # 1)));
  ("std_ulgy_qseq_slp", ((-1 # 1), (1 # 1)));
  ("std_ul_qseq_int", ((1 # 100), (3 # 1)));
  ("std_ul_qseq_slp", ((-1 # 1), (1 # 1)));
  ("std_uh_qseq_int", ((1 # 100), (3 # 1)));
  ("std_uh_qseq_slp", ((-1 # 1), (1 # 1))) ]%string.

(** sfh_pdf_mgash.py:152-161 *)
Definition SFH_PDF_QUENCH_COV_Q_BLOCK_BOUNDS_PDICT : list (string * (Q * Q)) := [
  ("std_uqt_int", ((1 # 100), (1 # 2)));
  ("std_uqt_slp", ((-1 # 1), (1 # 1)));
  ("std_uqs_int", ((1 # 100), (1 # 1)));
  ("std_uqs_slp", ((-1 # 1), (1 # 1)));
  ("std_udrop_int", ((1 # 100), (2 # 1)));
  ("std_udrop_slp", ((-1 # 1), (1 # 1)));
  ("std_urej_int", ((1 # 100), (2 # 1)));
  ("std_urej_slp", ((-1 # 1), (1 # 1))) ]%string.

(** sfh_pdf_mgash.py:183-200 *)
Definition SFH_PDF_FRAC_QUENCH_BOUNDS_PDICT : list (string * (Q * Q)) := [
  ("frac_quench_cen_x0_tpeak", ((1 # 1), (14 # 1)));
  ("frac_quench_cen_k_tpeak", ((1 # 100), (10 # 1)));
  ("frac_quench_cen_x0_ylotpeak", ((11 # 1), (14 # 1)));
  ("frac_quench_cen_x0_yhitpeak", ((11 # 1), (14 # 1)));
  ("frac_quench_cen_ylo_ylotpeak", ((0 # 1), (1 # 1)));
  ("frac_quench_cen_ylo_yhitpeak", ((0 # 1), (1 # 1)));
  ("frac_quench_cen_k", ((1 # 100), (5 # 1)));
  ("frac_quench_cen_yhi", ((0 # 1), (1 # 1)));
  ("frac_quench_sat_x0_tpeak", ((1 # 1), (14 # 1)));
  ("frac_quench_sat_k_tpeak", ((1 # 100), (10 # 1)));
  ("frac_quench_sat_x0_ylotpeak", ((11 # 1), (14 # 1)));
  ("frac_quench_sat_x0_yhitpeak", ((11 # 1), (14 # 1)));
  ("frac_quench_sat_ylo_ylotpeak", ((0 # 1), (1 # 1)));
  ("frac_quench_sat_ylo_yhitpeak", ((0 # 1), (1 # 1)));
  ("frac_quench_sat_k", ((1 # 100), (5 # 1)));
  ("frac_quench_sat_yhi", ((0 # 1), (1 # 1))) ]%string.

(** sfh_pdf_mgash.py:232-238 *)
Definition DELTA_UQT_BOUNDS_PDICT : list (string * (Q * Q)) := [
  ("delta_uqt_x0", ((1 # 1), (14 # 1)));
  ("delta_uqt_k", ((1 # 100), (5 # 1)));
  ("delta_uqt_ylo", ((-1 # 1), (1 # 1)));
  ("delta_uqt_yhi", ((-1 # 1), (1 # 1)));
  ("delta_uqt_slope", ((-1 # 10), (1 # 10))) ]%string.

(** sfh_pdf_mgash.py:201-210 *)
Definition BOUNDING_MEAN_VALS_PDICT : list (string * (Q * Q)) := [
  ("mean_ulgm", ((11 # 1), (13 # 1)));
  ("mean_ulgy", ((-13 # 1), (-7 # 1)));
  ("mean_ul", ((-3 # 1), (5 # 1)));
  ("mean_uh", ((-5 # 1), (3 # 1)));
  ("mean_uqt", ((0 # 1), (2 # 1)));
  ("mean_uqs", ((-5 # 1), (2 # 1)));
  ("mean_udrop", ((-3 # 1), (2 # 1)));
  ("mean_urej", ((-10 # 1), (2 # 1))) ]%string.

(** sfh_pdf_mgash.py:212-221 *)
Definition BOUNDING_STD_VALS_PDICT : list (string * (Q * Q)) := [
  ("std_ulgm", ((1 # 100), (1 # 1)));
  ("std_ulgy", ((1 # 100), (1 # 1)));
  ("std_ul", ((1 # 100), (3 # 1)));
  ("std_uh", ((1 # 100), (3 # 1)));
  ("std_uqt", ((1 # 100), (1 # 2)));
  ("std_uqs", ((1 # 100), (1 # 1)));
  ("std_udrop", ((1 # 100), (2 # 1)));
  ("std_urej", ((1 # 100), (2 # 1))) ]%string.

(** satquenchpop_model.py:20-30 *)
Definition DEFAULT_SATQUENCHPOP_PDICT : list (string * (Q)) := [
  ("qp_lgmh_crit", (13 # 1));
  ("td_lgmhc", (13 # 1));
  ("td_mlo", (2 # 1));
  ("td_mhi", (-1 # 2));
  ("qphi_lgmu_crit", (-3 # 2));
  ("lgmu_lo_mh_lo", (1 # 10));
  ("lgmu_hi_mh_lo", (1 # 2));
  ("lgmu_lo_mh_hi", (1 # 2));
  ("lgmu_hi_mh_hi", (9 # 10)) ]%string.

(** satquenchpop_model.py:39-49 *)
Definition SATQUENCHPOP_PBOUNDS_PDICT : list (string * (Q * Q)) := [
  ("qp_lgmh_crit", ((11 # 1), (15 # 1)));
  ("td_lgmhc", ((11 # 1), (15 # 1)));
  ("td_mlo", ((-5 # 1), (10 # 1)));
  ("td_mhi", ((-5 # 1), (10 # 1)));
  ("qphi_lgmu_crit", ((-4 # 1), (-1 # 10)));
  ("lgmu_lo_mh_lo", ((0 # 1), (1 # 1)));
  ("lgmu_hi_mh_lo", ((0 # 1), (1 # 1)));
  ("lgmu_lo_mh_hi", ((0 # 1), (1 # 1)));
  ("lgmu_hi_mh_hi", ((0 # 1), (1 # 1))) ]%string.

(** dict.update: existing keys keep their place, new keys are appended. *)
Fixpoint dict_set {A} (d : list (string * A)) (k : string) (v : A) : list (string * A) :=
  match d with
  | [] => [(k, v)]
  | (k', v') :: rest => if String.eqb k k' then (k, v) :: rest else (k', v') :: dict_set rest k v
  end.
Definition dict_update {A} (d e : list (string * A)) : list (string * A) :=
  fold_left (fun acc kv => dict_set acc (fst kv) (snd kv)) e d.

(** sfh_pdf_mgash.py:240-244 *)
Definition SFH_PDF_QUENCH_PDICT : list (string * Q) :=
  dict_update (dict_update (dict_update (dict_update SFH_PDF_FRAC_QUENCH_PDICT
    SFH_PDF_QUENCH_MU_PDICT) SFH_PDF_QUENCH_COV_MS_BLOCK_PDICT)
    SFH_PDF_QUENCH_COV_Q_BLOCK_PDICT) DELTA_UQT_PDICT.
(** sfh_pdf_mgash.py:246-250 *)
Definition SFH_PDF_QUENCH_BOUNDS_PDICT : list (string * (Q * Q)) :=
  dict_update (dict_update (dict_update (dict_update SFH_PDF_FRAC_QUENCH_BOUNDS_PDICT
    SFH_PDF_QUENCH_MU_BOUNDS_PDICT) SFH_PDF_QUENCH_COV_MS_BLOCK_BOUNDS_PDICT)
    SFH_PDF_QUENCH_COV_Q_BLOCK_BOUNDS_PDICT) DELTA_UQT_BOUNDS_PDICT.
(** sfh_pdf_mgash.py:252-253 *)
Definition BOUNDING_VALS_PDICT : list (string * (Q * Q)) :=
  dict_update BOUNDING_MEAN_VALS_PDICT BOUNDING_STD_VALS_PDICT.

(** params/params_diffstarfits_mgash_galacticus_in_plus_ex_situ.py:10-47 *)
Definition params_diffstarfits_mgash_galacticus_in_plus_ex_situ_SFH_PDF_QUENCH_MU_PDICT : list (string * (Q)) := [
  ("mean_ulgm_mseq_xtp", (12029 # 1000));
  ("mean_ulgm_mseq_ytp", (113 # 10));
  ("mean_ulgm_mseq_lo", (703 # 250));
  ("mean_ulgm_mseq_hi", (2 # 5));
  ("mean_ulgy_mseq_xtp", (1543 # 125));
  ("mean_ulgy_mseq_ytp", (-1162 # 125));
  ("mean_ulgy_mseq_lo", (451 # 500));
  ("mean_ulgy_mseq_hi", (303 # 1000));
  ("mean_ul_mseq_int", (-639 # 1000));
  ("mean_ul_mseq_slp", (247 # 250));
  ("mean_uh_mseq_int", (-391 # 1000));
  ("mean_uh_mseq_slp", (161 # 1000));
  ("mean_ulgm_qseq_xtp", (6539 # 500));
  ("mean_ulgm_qseq_ytp", (11903 # 1000));
  ("mean_ulgm_qseq_lo", (397 # 500));
  ("mean_ulgm_qseq_hi", (23 # 100));
  ("mean_ulgy_qseq_xtp", (1514 # 125));
  ("mean_ulgy_qseq_ytp", (-9421 # 1000));
  ("mean_ulgy_qseq_lo", (29 # 40));
  ("mean_ulgy_qseq_hi", (89 # 250));
  ("mean_ul_qseq_int", (-357 # 500));
  ("mean_ul_qseq_slp", (77 # 125));
  ("mean_uh_qseq_int", (-291 # 500));
  ("mean_uh_qseq_slp", (-23 # 200));
  ("mean_uqt_xtp", (6461 # 500));
  ("mean_uqt_ytp", (1047 # 1000));
  ("mean_uqt_lo", (-1 # 10));
  ("mean_uqt_hi", (-1 # 10));
  ("mean_uqs_int", (-149 # 500));
  ("mean_uqs_slp", (-411 # 1000));
  ("mean_udrop_int", (-1953 # 1000));
  ("mean_udrop_slp", (293 # 500));
  ("mean_urej_int", (-853 # 1000));
  ("mean_urej_slp", (329 # 1000)) ]%string.

(** params/params_diffstarfits_mgash_galacticus_in_plus_ex_situ.py:49-68 *)
Definition params_diffstarfits_mgash_galacticus_in_plus_ex_situ_SFH_PDF_QUENCH_COV_MS_BLOCK_PDICT : list (string * (Q)) := [
  ("std_ulgm_mseq_int", (69 # 125));
  ("std_ulgm_mseq_slp", (-433 # 1000));
  ("std_ulgy_mseq_int", (149 # 500));
  ("std_ulgy_mseq_slp", (23 # 500));
  ("std_ul_mseq_int", (2469 # 1000));
  ("std_ul_mseq_slp", (677 # 1000));
  ("std_uh_mseq_int", (141 # 200));
  ("std_uh_mseq_slp", (-287 # 1000));
  ("std_ulgm_qseq_int", (123 # 250));
  ("std_ulgm_qseq_slp", (-293 # 1000));
  ("std_ulgy_qseq_int", (33 # 125));
  ("std_ulgy_qseq_slp", (63 # 1000));
  ("std_ul_qseq_int", (2263 # 1000));
  ("std_ul_qseq_slp", (-33 # 200));
  ("std_uh_qseq_int", (66 # 125));
  ("std_uh_qseq_slp", (-67 # 1000)) ]%string.

(** params/params_diffstarfits_mgash_galacticus_in_plus_ex_situ.py:70-81 *)
Definition params_diffstarfits_mgash_galacticus_in_plus_ex_situ_SFH_PDF_QUENCH_COV_Q_BLOCK_PDICT : list (string * (Q)) := [
  ("std_uqt_int", (3 # 40));
  ("std_uqt_slp", (-1 # 125));
  ("std_uqs_int", (9 # 10));
  ("std_uqs_slp", (9 # 10));
  ("std_udrop_int", (3 # 5));
  ("std_udrop_slp", (1 # 50));
  ("std_urej_int", (979 # 1000));
  ("std_urej_slp", (-41 # 200)) ]%string.

(** params/params_diffstarfits_mgash_galacticus_in_plus_ex_situ.py:83-102 *)
Definition params_diffstarfits_mgash_galacticus_in_plus_ex_situ_SFH_PDF_FRAC_QUENCH_PDICT : list (string * (Q)) := [
  ("frac_quench_cen_x0_tpeak", (7 # 1));
  ("frac_quench_cen_k_tpeak", (2 # 1));
  ("frac_quench_cen_x0_ylotpeak", (47 # 4));
  ("frac_quench_cen_x0_yhitpeak", (2593 # 200));
  ("frac_quench_cen_ylo_ylotpeak", (99 # 100));
  ("frac_quench_cen_ylo_yhitpeak", (5 # 8));
  ("frac_quench_cen_k", (481 # 125));
  ("frac_quench_cen_yhi", (971 # 1000));
  ("frac_quench_sat_x0_tpeak", (7 # 1));
  ("frac_quench_sat_k_tpeak", (2 # 1));
  ("frac_quench_sat_x0_ylotpeak", (47 # 4));
  ("frac_quench_sat_x0_yhitpeak", (2593 # 200));
  ("frac_quench_sat_ylo_ylotpeak", (99 # 100));
  ("frac_quench_sat_ylo_yhitpeak", (5 # 8));
  ("frac_quench_sat_k", (481 # 125));
  ("frac_quench_sat_yhi", (971 # 1000)) ]%string.

(** params/params_diffstarfits_mgash_galacticus_in_plus_ex_situ.py:103-111 *)
Definition params_diffstarfits_mgash_galacticus_in_plus_ex_situ_DELTA_UQT_PDICT : list (string * (Q)) := [
  ("delta_uqt_x0", (1001 # 1000));
  ("delta_uqt_k", (357 # 500));
  ("delta_uqt_ylo", (-611 # 1000));
  ("delta_uqt_yhi", (1 # 500));
  ("delta_uqt_slope", (-3 # 125)) ]%string.

(** params/params_diffstarfits_mgash_galacticus_in_plus_ex_situ.py:112-116 *)
Definition params_diffstarfits_mgash_galacticus_in_plus_ex_situ : list (string * Q) := (dict_update (dict_update (dict_update (dict_update params_diffstarfits_mgash_galacticus_in_plus_ex_situ_SFH_PDF_FRAC_QUENCH_PDICT params_diffstarfits_mgash_galacticus_in_plus_ex_situ_SFH_PDF_QUENCH_MU_PDICT) params_diffstarfits_mgash_galacticus_in_plus_ex_situ_SFH_PDF_QUENCH_COV_MS_BLOCK_PDICT) params_diffstarfits_mgash_galacticus_in_plus_ex_situ_SFH_PDF_QUENCH_COV_Q_BLOCK_PDICT) params_diffstarfits_mgash_galacticus_in_plus_ex_situ_DELTA_UQT_PDICT).

(** params/params_diffstarfits_mgash_galacticus_in_situ.py:10-47 *)
Definition params_diffstarfits_mgash_galacticus_in_situ_SFH_PDF_QUENCH_MU_PDICT : list (string * (Q)) := [
  ("mean_ulgm_mseq_xtp", (13189 # 1000));
  ("mean_ulgm_mseq_ytp", (12079 # 1000));
  ("mean_ulgm_mseq_lo", (783 # 1000));
  ("mean_ulgm_mseq_hi", (-1 # 1000));
  ("mean_ulgy_mseq_xtp", (2399 # 200));
  ("mean_ulgy_mseq_ytp", (-9781 # 1000));
  ("mean_ulgy_mseq_lo", (927 # 1000));
  ("mean_ulgy_mseq_hi", (91 # 1000));
  ("mean_ul_mseq_int", (-143 # 200));
  ("mean_ul_mseq_slp", (1717 # 1000));
  ("mean_uh_mseq_int", (-253 # 1000));
  ("mean_uh_mseq_slp", (91 # 250));
  ("mean_ulgm_qseq_xtp", (13473 # 1000));
  ("mean_ulgm_qseq_ytp", (12089 # 1000));
  ("mean_ulgm_qseq_lo", (101 # 250));
  ("mean_ulgm_qseq_hi", (-57 # 250));
  ("mean_ulgy_qseq_xtp", (12303 # 1000));
  ("mean_ulgy_qseq_ytp", (-1201 # 125));
  ("mean_ulgy_qseq_lo", (223 # 500));
  ("mean_ulgy_qseq_hi", (17 # 1000));
  ("mean_ul_qseq_int", (-97 # 250));
  ("mean_ul_qseq_slp", (477 # 500));
  ("mean_uh_qseq_int", (-153 # 1000));
  ("mean_uh_qseq_slp", (71 # 250));
  ("mean_uqt_xtp", (6373 # 500));
  ("mean_uqt_ytp", (207 # 200));
  ("mean_uqt_lo", (-1 # 10));
  ("mean_uqt_hi", (-3 # 20));
  ("mean_uqs_int", (57 # 1000));
  ("mean_uqs_slp", (-49 # 250));
  ("mean_udrop_int", (-1917 # 1000));
  ("mean_udrop_slp", (171 # 250));
  ("mean_urej_int", (-749 # 1000));
  ("mean_urej_slp", (59 # 125)) ]%string.

(** params/params_diffstarfits_mgash_galacticus_in_situ.py:49-68 *)
Definition params_diffstarfits_mgash_galacticus_in_situ_SFH_PDF_QUENCH_COV_MS_BLOCK_PDICT : list (string * (Q)) := [
  ("std_ulgm_mseq_int", (527 # 1000));
  ("std_ulgm_mseq_slp", (-31 # 125));
  ("std_ulgy_mseq_int", (247 # 1000));
  ("std_ulgy_mseq_slp", (-31 # 1000));
  ("std_ul_mseq_int", (539 # 250));
  ("std_ul_mseq_slp", (13 # 50));
  ("std_uh_mseq_int", (139 # 125));
  ("std_uh_mseq_slp", (-113 # 1000));
  ("std_ulgm_qseq_int", (217 # 500));
  ("std_ulgm_qseq_slp", (-97 # 1000));
  ("std_ulgy_qseq_int", (229 # 1000));
  ("std_ulgy_qseq_slp", (-9 # 500));
  ("std_ul_qseq_int", (2179 # 1000));
  ("std_ul_qseq_slp", (-31 # 250));
  ("std_uh_qseq_int", (77 # 100));
  ("std_uh_qseq_slp", (-177 # 1000)) ]%string.

(** params/params_diffstarfits_mgash_galacticus_in_situ.py:70-81 *)
Definition params_diffstarfits_mgash_galacticus_in_situ_SFH_PDF_QUENCH_COV_Q_BLOCK_PDICT : list (string * (Q)) := [
  ("std_uqt_int", (11 # 100));
  ("std_uqt_slp", (4 # 125));
  ("std_uqs_int", (9 # 10));
  ("std_uqs_slp", (3 # 25));
  ("std_udrop_int", (639 # 1000));
  ("std_udrop_slp", (53 # 1000));
  ("std_urej_int", (559 # 500));
  ("std_urej_slp", (-11 # 250)) ]%string.

(** params/params_diffstarfits_mgash_galacticus_in_situ.py:83-102 *)
Definition params_diffstarfits_mgash_galacticus_in_situ_SFH_PDF_FRAC_QUENCH_PDICT : list (string * (Q)) := [
  ("frac_quench_cen_x0_tpeak", (7 # 1));
  ("frac_quench_cen_k_tpeak", (2 # 1));
  ("frac_quench_cen_x0_ylotpeak", (2923 # 250));
  ("frac_quench_cen_x0_yhitpeak", (12963 # 1000));
  ("frac_quench_cen_ylo_ylotpeak", (99 # 100));
  ("frac_quench_cen_ylo_yhitpeak", (21 # 40));
  ("frac_quench_cen_k", (481 # 125));
  ("frac_quench_cen_yhi", (971 # 1000));
  ("frac_quench_sat_x0_tpeak", (7 # 1));
  ("frac_quench_sat_k_tpeak", (2 # 1));
  ("frac_quench_sat_x0_ylotpeak", (2923 # 250));
  ("frac_quench_sat_x0_yhitpeak", (12963 # 1000));
  ("frac_quench_sat_ylo_ylotpeak", (99 # 100));
  ("frac_quench_sat_ylo_yhitpeak", (21 # 40));
  ("frac_quench_sat_k", (481 # 125));
  ("frac_quench_sat_yhi", (971 # 1000)) ]%string.

(** params/params_diffstarfits_mgash_galacticus_in_situ.py:103-111 *)
Definition params_diffstarfits_mgash_galacticus_in_situ_DELTA_UQT_PDICT : list (string * (Q)) := [
  ("delta_uqt_x0", (1659 # 1000));
  ("delta_uqt_k", (939 # 1000));
  ("delta_uqt_ylo", (-233 # 500));
  ("delta_uqt_yhi", (0 # 1));
  ("delta_uqt_slope", (-11 # 500)) ]%string.

(** params/params_diffstarfits_mgash_galacticus_in_situ.py:112-116 *)
Definition params_diffstarfits_mgash_galacticus_in_situ : list (string * Q) := (dict_update (dict_update (dict_update (dict_update params_diffstarfits_mgash_galacticus_in_situ_SFH_PDF_FRAC_QUENCH_PDICT params_diffstarfits_mgash_galacticus_in_situ_SFH_PDF_QUENCH_MU_PDICT) params_diffstarfits_mgash_galacticus_in_situ_SFH_PDF_QUENCH_COV_MS_BLOCK_PDICT) params_diffstarfits_mgash_galacticus_in_situ_SFH_PDF_QUENCH_COV_Q_BLOCK_PDICT) params_diffstarfits_mgash_galacticus_in_situ_DELTA_UQT_PDICT).

(** params/params_diffstarfits_mgash_smdpl_dr1.py:10-47 *)
Definition params_diffstarfits_mgash_smdpl_dr1_SFH_PDF_QUENCH_MU_PDICT : list (string * (Q)) := [
  ("mean_ulgm_mseq_xtp", (12097 # 1000));
  ("mean_ulgm_mseq_ytp", (6041 # 500));
  ("mean_ulgm_mseq_lo", (203 # 250));
  ("mean_ulgm_mseq_hi", (37 # 200));
  ("mean_ulgy_mseq_xtp", (12131 # 1000));
  ("mean_ulgy_mseq_ytp", (-5047 # 500));
  ("mean_ulgy_mseq_lo", (929 # 1000));
  ("mean_ulgy_mseq_hi", (2 # 5));
  ("mean_ul_mseq_int", (-363 # 200));
  ("mean_ul_mseq_slp", (1089 # 1000));
  ("mean_uh_mseq_int", (41 # 50));
  ("mean_uh_mseq_slp", (-229 # 500));
  ("mean_ulgm_qseq_xtp", (1521 # 125));
  ("mean_ulgm_qseq_ytp", (12153 # 1000));
  ("mean_ulgm_qseq_lo", (441 # 500));
  ("mean_ulgm_qseq_hi", (1 # 25));
  ("mean_ulgy_qseq_xtp", (12803 # 1000));
  ("mean_ulgy_qseq_ytp", (-4797 # 500));
  ("mean_ulgy_qseq_lo", (357 # 500));
  ("mean_ulgy_qseq_hi", (2 # 5));
  ("mean_ul_qseq_int", (-27 # 10));
  ("mean_ul_qseq_slp", (-11 # 50));
  ("mean_uh_qseq_int", (191 # 100));
  ("mean_uh_qseq_slp", (207 # 200));
  ("mean_uqt_xtp", (2401 # 200));
  ("mean_uqt_ytp", (259 # 250));
  ("mean_uqt_lo", (-19 # 100));
  ("mean_uqt_hi", (-1 # 10));
  ("mean_uqs_int", (-23 # 100));
  ("mean_uqs_slp", (13 # 125));
  ("mean_udrop_int", (-907 # 500));
  ("mean_udrop_slp", (27 # 500));
  ("mean_urej_int", (-739 # 1000));
  ("mean_urej_slp", (-261 # 1000)) ]%string.

(** params/params_diffstarfits_mgash_smdpl_dr1.py:49-68 *)
Definition params_diffstarfits_mgash_smdpl_dr1_SFH_PDF_QUENCH_COV_MS_BLOCK_PDICT : list (string * (Q)) := [
  ("std_ulgm_mseq_int", (127 # 500));
  ("std_ulgm_mseq_slp", (153 # 1000));
  ("std_ulgy_mseq_int", (273 # 1000));
  ("std_ulgy_mseq_slp", (27 # 1000));
  ("std_ul_mseq_int", (1941 # 1000));
  ("std_ul_mseq_slp", (129 # 250));
  ("std_uh_mseq_int", (729 # 500));
  ("std_uh_mseq_slp", (1 # 50));
  ("std_ulgm_qseq_int", (97 # 500));
  ("std_ulgm_qseq_slp", (12 # 125));
  ("std_ulgy_qseq_int", (291 # 1000));
  ("std_ulgy_qseq_slp", (-223 # 1000));
  ("std_ul_qseq_int", (2091 # 1000));
  ("std_ul_qseq_slp", (-183 # 1000));
  ("std_uh_qseq_int", (1017 # 1000));
  ("std_uh_qseq_slp", (33 # 500)) ]%string.

(** params/params_diffstarfits_mgash_smdpl_dr1.py:70-81 *)
Definition params_diffstarfits_mgash_smdpl_dr1_SFH_PDF_QUENCH_COV_Q_BLOCK_PDICT : list (string * (Q)) := [
  ("std_uqt_int", (79 # 1000));
  ("std_uqt_slp", (1 # 1000));
  ("std_uqs_int", (123 # 200));
  ("std_uqs_slp", (217 # 1000));
  ("std_udrop_int", (399 # 500));
  ("std_udrop_slp", (-31 # 250));
  ("std_urej_int", (146 # 125));
  ("std_urej_slp", (-1 # 40)) ]%string.

(** params/params_diffstarfits_mgash_smdpl_dr1.py:83-102 *)
Definition params_diffstarfits_mgash_smdpl_dr1_SFH_PDF_FRAC_QUENCH_PDICT : list (string * (Q)) := [
  ("frac_quench_cen_x0_tpeak", (7 # 1));
  ("frac_quench_cen_k_tpeak", (2 # 1));
  ("frac_quench_cen_x0_ylotpeak", (282 # 25));
  ("frac_quench_cen_x0_yhitpeak", (5829 # 500));
  ("frac_quench_cen_ylo_ylotpeak", (1 # 100));
  ("frac_quench_cen_ylo_yhitpeak", (1 # 25));
  ("frac_quench_cen_k", (481 # 125));
  ("frac_quench_cen_yhi", (971 # 1000));
  ("frac_quench_sat_x0_tpeak", (7 # 1));
  ("frac_quench_sat_k_tpeak", (2 # 1));
  ("frac_quench_sat_x0_ylotpeak", (282 # 25));
  ("frac_quench_sat_x0_yhitpeak", (5829 # 500));
  ("frac_quench_sat_ylo_ylotpeak", (1 # 100));
  ("frac_quench_sat_ylo_yhitpeak", (1 # 25));
  ("frac_quench_sat_k", (481 # 125));
  ("frac_quench_sat_yhi", (971 # 1000)) ]%string.

(** params/params_diffstarfits_mgash_smdpl_dr1.py:103-111 *)
Definition params_diffstarfits_mgash_smdpl_dr1_DELTA_UQT_PDICT : list (string * (Q)) := [
  ("delta_uqt_x0", (163 # 50));
  ("delta_uqt_k", (67 # 125));
  ("delta_uqt_ylo", (-93 # 250));
  ("delta_uqt_yhi", (3 # 200));
  ("delta_uqt_slope", (-13 # 200)) ]%string.

(** params/params_diffstarfits_mgash_smdpl_dr1.py:112-116 *)
Definition params_diffstarfits_mgash_smdpl_dr1 : list (string * Q) := (dict_update (dict_update (dict_update (dict_update params_diffstarfits_mgash_smdpl_dr1_SFH_PDF_FRAC_QUENCH_PDICT params_diffstarfits_mgash_smdpl_dr1_SFH_PDF_QUENCH_MU_PDICT) params_diffstarfits_mgash_smdpl_dr1_SFH_PDF_QUENCH_COV_MS_BLOCK_PDICT) params_diffstarfits_mgash_smdpl_dr1_SFH_PDF_QUENCH_COV_Q_BLOCK_PDICT) params_diffstarfits_mgash_smdpl_dr1_DELTA_UQT_PDICT).

(** params/params_diffstarfits_mgash_smdpl_dr1_nomerging.py:10-47 *)
Definition params_diffstarfits_mgash_smdpl_dr1_nomerging_SFH_PDF_QUENCH_MU_PDICT : list (string * (Q)) := [
  ("mean_ulgm_mseq_xtp", (12133 # 1000));
  ("mean_ulgm_mseq_ytp", (12097 # 1000));
  ("mean_ulgm_mseq_lo", (793 # 1000));
  ("mean_ulgm_mseq_hi", (13 # 125));
  ("mean_ulgy_mseq_xtp", (2617 # 200));
  ("mean_ulgy_mseq_ytp", (-4859 # 500));
  ("mean_ulgy_mseq_lo", (319 # 500));
  ("mean_ulgy_mseq_hi", (18 # 125));
  ("mean_ul_mseq_int", (-201 # 250));
  ("mean_ul_mseq_slp", (743 # 1000));
  ("mean_uh_mseq_int", (-188 # 125));
  ("mean_uh_mseq_slp", (-1147 # 500));
  ("mean_ulgm_qseq_xtp", (1533 # 125));
  ("mean_ulgm_qseq_ytp", (1529 # 125));
  ("mean_ulgm_qseq_lo", (102 # 125));
  ("mean_ulgm_qseq_hi", (3 # 40));
  ("mean_ulgy_qseq_xtp", (12567 # 1000));
  ("mean_ulgy_qseq_ytp", (-246 # 25));
  ("mean_ulgy_qseq_lo", (579 # 1000));
  ("mean_ulgy_qseq_hi", (329 # 1000));
  ("mean_ul_qseq_int", (-847 # 1000));
  ("mean_ul_qseq_slp", (753 # 1000));
  ("mean_uh_qseq_int", (571 # 500));
  ("mean_uh_qseq_slp", (581 # 1000));
  ("mean_uqt_xtp", (6431 # 500));
  ("mean_uqt_ytp", (451 # 500));
  ("mean_uqt_lo", (-31 # 250));
  ("mean_uqt_hi", (-267 # 1000));
  ("mean_uqs_int", (-109 # 1000));
  ("mean_uqs_slp", (391 # 1000));
  ("mean_udrop_int", (-107 # 50));
  ("mean_udrop_slp", (229 # 1000));
  ("mean_urej_int", (-1217 # 1000));
  ("mean_urej_slp", (-3 # 125)) ]%string.

(** params/params_diffstarfits_mgash_smdpl_dr1_nomerging.py:49-68 *)
Definition params_diffstarfits_mgash_smdpl_dr1_nomerging_SFH_PDF_QUENCH_COV_MS_BLOCK_PDICT : list (string * (Q)) := [
  ("std_ulgm_mseq_int", (36 # 125));
  ("std_ulgm_mseq_slp", (29 # 200));
  ("std_ulgy_mseq_int", (289 # 1000));
  ("std_ulgy_mseq_slp", (17 # 500));
  ("std_ul_mseq_int", (321 # 250));
  ("std_ul_mseq_slp", (83 # 200));
  ("std_uh_mseq_int", (2477 # 1000));
  ("std_uh_mseq_slp", (-9 # 10));
  ("std_ulgm_qseq_int", (119 # 500));
  ("std_ulgm_qseq_slp", (1 # 8));
  ("std_ulgy_qseq_int", (257 # 1000));
  ("std_ulgy_qseq_slp", (-11 # 50));
  ("std_ul_qseq_int", (1661 # 1000));
  ("std_ul_qseq_slp", (-91 # 200));
  ("std_uh_qseq_int", (371 # 250));
  ("std_uh_qseq_slp", (109 # 500)) ]%string.

(** params/params_diffstarfits_mgash_smdpl_dr1_nomerging.py:70-81 *)
Definition params_diffstarfits_mgash_smdpl_dr1_nomerging_SFH_PDF_QUENCH_COV_Q_BLOCK_PDICT : list (string * (Q)) := [
  ("std_uqt_int", (121 # 1000));
  ("std_uqt_slp", (53 # 1000));
  ("std_uqs_int", (113 # 200));
  ("std_uqs_slp", (-27 # 1000));
  ("std_udrop_int", (149 # 200));
  ("std_udrop_slp", (21 # 125));
  ("std_urej_int", (1359 # 1000));
  ("std_urej_slp", (33 # 500)) ]%string.

(** params/params_diffstarfits_mgash_smdpl_dr1_nomerging.py:83-102 *)
Definition params_diffstarfits_mgash_smdpl_dr1_nomerging_SFH_PDF_FRAC_QUENCH_PDICT : list (string * (Q)) := [
  ("frac_quench_cen_x0_tpeak", (7 # 1));
  ("frac_quench_cen_k_tpeak", (2 # 1));
  ("frac_quench_cen_x0_ylotpeak", (11349 # 1000));
  ("frac_quench_cen_x0_yhitpeak", (5931 # 500));
  ("frac_quench_cen_ylo_ylotpeak", (19 # 500));
  ("frac_quench_cen_ylo_yhitpeak", (1 # 100));
  ("frac_quench_cen_k", (481 # 125));
  ("frac_quench_cen_yhi", (971 # 1000));
  ("frac_quench_sat_x0_tpeak", (7 # 1));
  ("frac_quench_sat_k_tpeak", (2 # 1));
  ("frac_quench_sat_x0_ylotpeak", (11349 # 1000));
  ("frac_quench_sat_x0_yhitpeak", (5931 # 500));
  ("frac_quench_sat_ylo_ylotpeak", (19 # 500));
  ("frac_quench_sat_ylo_yhitpeak", (1 # 100));
  ("frac_quench_sat_k", (481 # 125));
  ("frac_quench_sat_yhi", (971 # 1000)) ]%string.

(** params/params_diffstarfits_mgash_smdpl_dr1_nomerging.py:103-111 *)
Definition params_diffstarfits_mgash_smdpl_dr1_nomerging_DELTA_UQT_PDICT : list (string * (Q)) := [
  ("delta_uqt_x0", (387 # 250));
  ("delta_uqt_k", (493 # 1000));
  ("delta_uqt_ylo", (-247 # 500));
  ("delta_uqt_yhi", (23 # 1000));
  ("delta_uqt_slope", (-49 # 1000)) ]%string.

(** params/params_diffstarfits_mgash_smdpl_dr1_nomerging.py:112-116 *)
Definition params_diffstarfits_mgash_smdpl_dr1_nomerging : list (string * Q) := (dict_update (dict_update (dict_update (dict_update params_diffstarfits_mgash_smdpl_dr1_nomerging_SFH_PDF_FRAC_QUENCH_PDICT params_diffstarfits_mgash_smdpl_dr1_nomerging_SFH_PDF_QUENCH_MU_PDICT) params_diffstarfits_mgash_smdpl_dr1_nomerging_SFH_PDF_QUENCH_COV_MS_BLOCK_PDICT) params_diffstarfits_mgash_smdpl_dr1_nomerging_SFH_PDF_QUENCH_COV_Q_BLOCK_PDICT) params_diffstarfits_mgash_smdpl_dr1_nomerging_DELTA_UQT_PDICT).

(** params/params_diffstarfits_mgash_tng.py:10-47 *)
Definition params_diffstarfits_mgash_tng_SFH_PDF_QUENCH_MU_PDICT : list (string * (Q)) := [
  ("mean_ulgm_mseq_xtp", (5869 # 500));
  ("mean_ulgm_mseq_ytp", (1153 # 100));
  ("mean_ulgm_mseq_lo", (143 # 125));
  ("mean_ulgm_mseq_hi", (321 # 1000));
  ("mean_ulgy_mseq_xtp", (137 # 10));
  ("mean_ulgy_mseq_ytp", (-189 # 20));
  ("mean_ulgy_mseq_lo", (257 # 500));
  ("mean_ulgy_mseq_hi", (-689 # 1000));
  ("mean_ul_mseq_int", (-413 # 1000));
  ("mean_ul_mseq_slp", (109 # 125));
  ("mean_uh_mseq_int", (-1221 # 1000));
  ("mean_uh_mseq_slp", (-443 # 1000));
  ("mean_ulgm_qseq_xtp", (113 # 10));
  ("mean_ulgm_qseq_ytp", (5681 # 500));
  ("mean_ulgm_qseq_lo", (301 # 200));
  ("mean_ulgm_qseq_hi", (17 # 50));
  ("mean_ulgy_qseq_xtp", (2467 # 200));
  ("mean_ulgy_qseq_ytp", (-9903 # 1000));
  ("mean_ulgy_qseq_lo", (533 # 1000));
  ("mean_ulgy_qseq_hi", (2 # 5));
  ("mean_ul_qseq_int", (-629 # 1000));
  ("mean_ul_qseq_slp", (1597 # 1000));
  ("mean_uh_qseq_int", (-877 # 1000));
  ("mean_uh_qseq_slp", (-203 # 200));
  ("mean_uqt_xtp", (12141 # 1000));
  ("mean_uqt_ytp", (207 # 200));
  ("mean_uqt_lo", (-1 # 10));
  ("mean_uqt_hi", (-1 # 10));
  ("mean_uqs_int", (17 # 125));
  ("mean_uqs_slp", (-1 # 125));
  ("mean_udrop_int", (-2077 # 1000));
  ("mean_udrop_slp", (489 # 1000));
  ("mean_urej_int", (-253 # 250));
  ("mean_urej_slp", (21 # 50)) ]%string.

(** params/params_diffstarfits_mgash_tng.py:49-68 *)
Definition params_diffstarfits_mgash_tng_SFH_PDF_QUENCH_COV_MS_BLOCK_PDICT : list (string * (Q)) := [
  ("std_ulgm_mseq_int", (383 # 1000));
  ("std_ulgm_mseq_slp", (53 # 1000));
  ("std_ulgy_mseq_int", (69 # 250));
  ("std_ulgy_mseq_slp", (-1 # 200));
  ("std_ul_mseq_int", (1677 # 1000));
  ("std_ul_mseq_slp", (17 # 1000));
  ("std_uh_mseq_int", (1673 # 1000));
  ("std_uh_mseq_slp", (-49 # 250));
  ("std_ulgm_qseq_int", (189 # 500));
  ("std_ulgm_qseq_slp", (-91 # 1000));
  ("std_ulgy_qseq_int", (281 # 1000));
  ("std_ulgy_qseq_slp", (-3 # 125));
  ("std_ul_qseq_int", (229 # 125));
  ("std_ul_qseq_slp", (-537 # 1000));
  ("std_uh_qseq_int", (181 # 125));
  ("std_uh_qseq_slp", (-51 # 500)) ]%string.

(** params/params_diffstarfits_mgash_tng.py:70-81 *)
Definition params_diffstarfits_mgash_tng_SFH_PDF_QUENCH_COV_Q_BLOCK_PDICT : list (string * (Q)) := [
  ("std_uqt_int", (129 # 1000));
  ("std_uqt_slp", (69 # 1000));
  ("std_uqs_int", (14 # 25));
  ("std_uqs_slp", (7 # 40));
  ("std_udrop_int", (153 # 200));
  ("std_udrop_slp", (9 # 500));
  ("std_urej_int", (611 # 500));
  ("std_urej_slp", (-59 # 500)) ]%string.

(** params/params_diffstarfits_mgash_tng.py:83-102 *)
Definition params_diffstarfits_mgash_tng_SFH_PDF_FRAC_QUENCH_PDICT : list (string * (Q)) := [
  ("frac_quench_cen_x0_tpeak", (7 # 1));
  ("frac_quench_cen_k_tpeak", (2 # 1));
  ("frac_quench_cen_x0_ylotpeak", (111 # 10));
  ("frac_quench_cen_x0_yhitpeak", (6457 # 500));
  ("frac_quench_cen_ylo_ylotpeak", (99 # 100));
  ("frac_quench_cen_ylo_yhitpeak", (37 # 200));
  ("frac_quench_cen_k", (481 # 125));
  ("frac_quench_cen_yhi", (971 # 1000));
  ("frac_quench_sat_x0_tpeak", (7 # 1));
  ("frac_quench_sat_k_tpeak", (2 # 1));
  ("frac_quench_sat_x0_ylotpeak", (111 # 10));
  ("frac_quench_sat_x0_yhitpeak", (6457 # 500));
  ("frac_quench_sat_ylo_ylotpeak", (99 # 100));
  ("frac_quench_sat_ylo_yhitpeak", (37 # 200));
  ("frac_quench_sat_k", (481 # 125));
  ("frac_quench_sat_yhi", (971 # 1000)) ]%string.

(** params/params_diffstarfits_mgash_tng.py:103-111 *)
Definition params_diffstarfits_mgash_tng_DELTA_UQT_PDICT : list (string * (Q)) := [
  ("delta_uqt_x0", (841 # 250));
  ("delta_uqt_k", (2491 # 500));
  ("delta_uqt_ylo", (-59 # 200));
  ("delta_uqt_yhi", (13 # 500));
  ("delta_uqt_slope", (-3 # 1000)) ]%string.

(** params/params_diffstarfits_mgash_tng.py:112-116 *)
Definition params_diffstarfits_mgash_tng : list (string * Q) := (dict_update (dict_update (dict_update (dict_update params_diffstarfits_mgash_tng_SFH_PDF_FRAC_QUENCH_PDICT params_diffstarfits_mgash_tng_SFH_PDF_QUENCH_MU_PDICT) params_diffstarfits_mgash_tng_SFH_PDF_QUENCH_COV_MS_BLOCK_PDICT) params_diffstarfits_mgash_tng_SFH_PDF_QUENCH_COV_Q_BLOCK_PDICT) params_diffstarfits_mgash_tng_DELTA_UQT_PDICT).

(** params/params_diffstarpopfits_mgash_galacticus_in_plus_ex_situ.py:10-47 *)
Definition params_diffstarpopfits_mgash_galacticus_in_plus_ex_situ_SFH_PDF_QUENCH_MU_PDICT : list (string * (Q)) := [
  ("mean_ulgm_mseq_xtp", (5993 # 500));
  ("mean_ulgm_mseq_ytp", (11189 # 1000));
  ("mean_ulgm_mseq_lo", (37 # 100));
  ("mean_ulgm_mseq_hi", (147 # 1000));
  ("mean_ulgy_mseq_xtp", (12677 # 1000));
  ("mean_ulgy_mseq_ytp", (-2309 # 250));
  ("mean_ulgy_mseq_lo", (467 # 500));
  ("mean_ulgy_mseq_hi", (-21 # 8));
  ("mean_ul_mseq_int", (-2997 # 1000));
  ("mean_ul_mseq_slp", (1 # 1000));
  ("mean_uh_mseq_int", (-149 # 250));
  ("mean_uh_mseq_slp", (177 # 250));
  ("mean_ulgm_qseq_xtp", (2621 # 200));
  ("mean_ulgm_qseq_ytp", (11937 # 1000));
  ("mean_ulgm_qseq_lo", (63 # 125));
  ("mean_ulgm_qseq_hi", (77 # 125));
  ("mean_ulgy_qseq_xtp", (11979 # 1000));
  ("mean_ulgy_qseq_ytp", (-1179 # 125));
  ("mean_ulgy_qseq_lo", (199 # 200));
  ("mean_ulgy_qseq_hi", (31 # 100));
  ("mean_ul_qseq_int", (-2997 # 1000));
  ("mean_ul_qseq_slp", (-1731 # 1000));
  ("mean_uh_qseq_int", (-567 # 500));
  ("mean_uh_qseq_slp", (-1 # 2));
  ("mean_uqt_xtp", (62 # 5));
  ("mean_uqt_ytp", (138 # 125));
  ("mean_uqt_lo", (-53 # 1000));
  ("mean_uqt_hi", (-209 # 1000));
  ("mean_uqs_int", (419 # 250));
  ("mean_uqs_slp", (509 # 1000));
  ("mean_udrop_int", (-2189 # 1000));
  ("mean_udrop_slp", (133 # 125));
  ("mean_urej_int", (-3147 # 1000));
  ("mean_urej_slp", (101 # 500)) ]%string.

(** params/params_diffstarpopfits_mgash_galacticus_in_plus_ex_situ.py:49-68 *)
Definition params_diffstarpopfits_mgash_galacticus_in_plus_ex_situ_SFH_PDF_QUENCH_COV_MS_BLOCK_PDICT : list (string * (Q)) := [
  ("std_ulgm_mseq_int", (11 # 1000));
  ("std_ulgm_mseq_slp", (-81 # 1000));
  ("std_ulgy_mseq_int", (11 # 1000));
  ("std_ulgy_mseq_slp", (117 # 500));
  ("std_ul_mseq_int", (13 # 1000));
  ("std_ul_mseq_slp", (3 # 500));
  ("std_uh_mseq_int", (3 # 250));
  ("std_uh_mseq_slp", (1 # 200));
  ("std_ulgm_qseq_int", (37 # 1000));
  ("std_ulgm_qseq_slp", (3 # 100));
  ("std_ulgy_qseq_int", (1 # 40));
  ("std_ulgy_qseq_slp", (73 # 500));
  ("std_ul_qseq_int", (11 # 1000));
  ("std_ul_qseq_slp", (-999 # 1000));
  ("std_uh_qseq_int", (301 # 1000));
  ("std_uh_qseq_slp", (-83 # 1000)) ]%string.

(** params/params_diffstarpopfits_mgash_galacticus_in_plus_ex_situ.py:70-81 *)
Definition params_diffstarpopfits_mgash_galacticus_in_plus_ex_situ_SFH_PDF_QUENCH_COV_Q_BLOCK_PDICT : list (string * (Q)) := [
  ("std_uqt_int", (57 # 500));
  ("std_uqt_slp", (57 # 1000));
  ("std_uqs_int", (999 # 1000));
  ("std_uqs_slp", (93 # 100));
  ("std_udrop_int", (64 # 125));
  ("std_udrop_slp", (7 # 25));
  ("std_urej_int", (1 # 40));
  ("std_urej_slp", (1 # 125)) ]%string.

(** params/params_diffstarpopfits_mgash_galacticus_in_plus_ex_situ.py:83-102 *)
Definition params_diffstarpopfits_mgash_galacticus_in_plus_ex_situ_SFH_PDF_FRAC_QUENCH_PDICT : list (string * (Q)) := [
  ("frac_quench_cen_x0_tpeak", (259 # 40));
  ("frac_quench_cen_k_tpeak", (2287 # 1000));
  ("frac_quench_cen_x0_ylotpeak", (5871 # 500));
  ("frac_quench_cen_x0_yhitpeak", (2521 # 200));
  ("frac_quench_cen_ylo_ylotpeak", (99 # 100));
  ("frac_quench_cen_ylo_yhitpeak", (7 # 1000));
  ("frac_quench_cen_k", (999 # 200));
  ("frac_quench_cen_yhi", (997 # 1000));
  ("frac_quench_sat_x0_tpeak", (7617 # 1000));
  ("frac_quench_sat_k_tpeak", (4999 # 500));
  ("frac_quench_sat_x0_ylotpeak", (6997 # 500));
  ("frac_quench_sat_x0_yhitpeak", (12583 # 1000));
  ("frac_quench_sat_ylo_ylotpeak", (999 # 1000));
  ("frac_quench_sat_ylo_yhitpeak", (133 # 200));
  ("frac_quench_sat_k", (999 # 200));
  ("frac_quench_sat_yhi", (999 # 1000)) ]%string.

(** params/params_diffstarpopfits_mgash_galacticus_in_plus_ex_situ.py:104-112 *)
Definition params_diffstarpopfits_mgash_galacticus_in_plus_ex_situ_DELTA_UQT_PDICT : list (string * (Q)) := [
  ("delta_uqt_x0", (2423 # 1000));
  ("delta_uqt_k", (57 # 200));
  ("delta_uqt_ylo", (-379 # 500));
  ("delta_uqt_yhi", (227 # 1000));
  ("delta_uqt_slope", (49 # 1000)) ]%string.

(** params/params_diffstarpopfits_mgash_galacticus_in_plus_ex_situ.py:113-118 *)
Definition params_diffstarpopfits_mgash_galacticus_in_plus_ex_situ : list (string * Q) := (dict_update (dict_update (dict_update (dict_update params_diffstarpopfits_mgash_galacticus_in_plus_ex_situ_SFH_PDF_FRAC_QUENCH_PDICT params_diffstarpopfits_mgash_galacticus_in_plus_ex_situ_SFH_PDF_QUENCH_MU_PDICT) params_diffstarpopfits_mgash_galacticus_in_plus_ex_situ_SFH_PDF_QUENCH_COV_MS_BLOCK_PDICT) params_diffstarpopfits_mgash_galacticus_in_plus_ex_situ_SFH_PDF_QUENCH_COV_Q_BLOCK_PDICT) params_diffstarpopfits_mgash_galacticus_in_plus_ex_situ_DELTA_UQT_PDICT).

(** params/params_diffstarpopfits_mgash_galacticus_in_situ.py:10-47 *)
Definition params_diffstarpopfits_mgash_galacticus_in_situ_SFH_PDF_QUENCH_MU_PDICT : list (string * (Q)) := [
  ("mean_ulgm_mseq_xtp", (12077 # 1000));
  ("mean_ulgm_mseq_ytp", (5599 # 500));
  ("mean_ulgm_mseq_lo", (81 # 250));
  ("mean_ulgm_mseq_hi", (-153 # 250));
  ("mean_ulgy_mseq_xtp", (3177 # 250));
  ("mean_ulgy_mseq_ytp", (-9579 # 1000));
  ("mean_ulgy_mseq_lo", (753 # 1000));
  ("mean_ulgy_mseq_hi", (-1679 # 500));
  ("mean_ul_mseq_int", (-2739 # 1000));
  ("mean_ul_mseq_slp", (8577 # 1000));
  ("mean_uh_mseq_int", (41 # 250));
  ("mean_uh_mseq_slp", (251 # 200));
  ("mean_ulgm_qseq_xtp", (541 # 40));
  ("mean_ulgm_qseq_ytp", (121 # 10));
  ("mean_ulgm_qseq_lo", (21 # 50));
  ("mean_ulgm_qseq_hi", (423 # 1000));
  ("mean_ulgy_qseq_xtp", (6083 # 500));
  ("mean_ulgy_qseq_ytp", (-9571 # 1000));
  ("mean_ulgy_qseq_lo", (351 # 500));
  ("mean_ulgy_qseq_hi", (1 # 200));
  ("mean_ul_qseq_int", (-12 # 5));
  ("mean_ul_qseq_slp", (121 # 125));
  ("mean_uh_qseq_int", (-183 # 200));
  ("mean_uh_qseq_slp", (-459 # 1000));
  ("mean_uqt_xtp", (2511 # 200));
  ("mean_uqt_ytp", (207 # 200));
  ("mean_uqt_lo", (-31 # 1000));
  ("mean_uqt_hi", (-589 # 1000));
  ("mean_uqs_int", (1451 # 1000));
  ("mean_uqs_slp", (307 # 1000));
  ("mean_udrop_int", (-2247 # 1000));
  ("mean_udrop_slp", (743 # 500));
  ("mean_urej_int", (-71 # 50));
  ("mean_urej_slp", (811 # 500)) ]%string.

(** params/params_diffstarpopfits_mgash_galacticus_in_situ.py:49-68 *)
Definition params_diffstarpopfits_mgash_galacticus_in_situ_SFH_PDF_QUENCH_COV_MS_BLOCK_PDICT : list (string * (Q)) := [
  ("std_ulgm_mseq_int", (11 # 1000));
  ("std_ulgm_mseq_slp", (11 # 1000));
  ("std_ulgy_mseq_int", (11 # 1000));
  ("std_ulgy_mseq_slp", (9 # 1000));
  ("std_ul_mseq_int", (69 # 40));
  ("std_ul_mseq_slp", (-999 # 1000));
  ("std_uh_mseq_int", (11 # 1000));
  ("std_uh_mseq_slp", (-981 # 1000));
  ("std_ulgm_qseq_int", (19 # 200));
  ("std_ulgm_qseq_slp", (1 # 250));
  ("std_ulgy_qseq_int", (11 # 1000));
  ("std_ulgy_qseq_slp", (-61 # 500));
  ("std_ul_qseq_int", (278 # 125));
  ("std_ul_qseq_slp", (-103 # 250));
  ("std_uh_qseq_int", (149 # 1000));
  ("std_uh_qseq_slp", (-249 # 250)) ]%string.

(** params/params_diffstarpopfits_mgash_galacticus_in_situ.py:70-81 *)
Definition params_diffstarpopfits_mgash_galacticus_in_situ_SFH_PDF_QUENCH_COV_Q_BLOCK_PDICT : list (string * (Q)) := [
  ("std_uqt_int", (77 # 1000));
  ("std_uqt_slp", (9 # 200));
  ("std_uqs_int", (857 # 1000));
  ("std_uqs_slp", (999 # 1000));
  ("std_udrop_int", (51 # 100));
  ("std_udrop_slp", (167 # 500));
  ("std_urej_int", (1 # 50));
  ("std_urej_slp", (1 # 100)) ]%string.

(** params/params_diffstarpopfits_mgash_galacticus_in_situ.py:83-102 *)
Definition params_diffstarpopfits_mgash_galacticus_in_situ_SFH_PDF_FRAC_QUENCH_PDICT : list (string * (Q)) := [
  ("frac_quench_cen_x0_tpeak", (259 # 40));
  ("frac_quench_cen_k_tpeak", (2293 # 1000));
  ("frac_quench_cen_x0_ylotpeak", (467 # 40));
  ("frac_quench_cen_x0_yhitpeak", (3121 # 250));
  ("frac_quench_cen_ylo_ylotpeak", (99 # 100));
  ("frac_quench_cen_ylo_yhitpeak", (1 # 1000));
  ("frac_quench_cen_k", (999 # 200));
  ("frac_quench_cen_yhi", (199 # 200));
  ("frac_quench_sat_x0_tpeak", (1078 # 125));
  ("frac_quench_sat_k_tpeak", (1107 # 500));
  ("frac_quench_sat_x0_ylotpeak", (12859 # 1000));
  ("frac_quench_sat_x0_yhitpeak", (12191 # 1000));
  ("frac_quench_sat_ylo_ylotpeak", (999 # 1000));
  ("frac_quench_sat_ylo_yhitpeak", (563 # 1000));
  ("frac_quench_sat_k", (999 # 200));
  ("frac_quench_sat_yhi", (999 # 1000)) ]%string.

(** params/params_diffstarpopfits_mgash_galacticus_in_situ.py:104-112 *)
Definition params_diffstarpopfits_mgash_galacticus_in_situ_DELTA_UQT_PDICT : list (string * (Q)) := [
  ("delta_uqt_x0", (1273 # 1000));
  ("delta_uqt_k", (203 # 1000));
  ("delta_uqt_ylo", (-983 # 1000));
  ("delta_uqt_yhi", (48 # 125));
  ("delta_uqt_slope", (1 # 40)) ]%string.

(** params/params_diffstarpopfits_mgash_galacticus_in_situ.py:113-118 *)
Definition params_diffstarpopfits_mgash_galacticus_in_situ : list (string * Q) := (dict_update (dict_update (dict_update (dict_update params_diffstarpopfits_mgash_galacticus_in_situ_SFH_PDF_FRAC_QUENCH_PDICT params_diffstarpopfits_mgash_galacticus_in_situ_SFH_PDF_QUENCH_MU_PDICT) params_diffstarpopfits_mgash_galacticus_in_situ_SFH_PDF_QUENCH_COV_MS_BLOCK_PDICT) params_diffstarpopfits_mgash_galacticus_in_situ_SFH_PDF_QUENCH_COV_Q_BLOCK_PDICT) params_diffstarpopfits_mgash_galacticus_in_situ_DELTA_UQT_PDICT).

(** params/params_diffstarpopfits_mgash_smdpl_dr1.py:10-47 *)
Definition params_diffstarpopfits_mgash_smdpl_dr1_SFH_PDF_QUENCH_MU_PDICT : list (string * (Q)) := [
  ("mean_ulgm_mseq_xtp", (6421 # 500));
  ("mean_ulgm_mseq_ytp", (12447 # 1000));
  ("mean_ulgm_mseq_lo", (203 # 250));
  ("mean_ulgm_mseq_hi", (57 # 200));
  ("mean_ulgy_mseq_xtp", (5837 # 500));
  ("mean_ulgy_mseq_ytp", (-1326 # 125));
  ("mean_ulgy_mseq_lo", (379 # 200));
  ("mean_ulgy_mseq_hi", (781 # 1000));
  ("mean_ul_mseq_int", (-2997 # 1000));
  ("mean_ul_mseq_slp", (1 # 1000));
  ("mean_uh_mseq_int", (-999 # 200));
  ("mean_uh_mseq_slp", (-141 # 50));
  ("mean_ulgm_qseq_xtp", (11011 # 1000));
  ("mean_ulgm_qseq_ytp", (6071 # 500));
  ("mean_ulgm_qseq_lo", (999 # 200));
  ("mean_ulgm_qseq_hi", (1 # 100));
  ("mean_ulgy_qseq_xtp", (3209 # 250));
  ("mean_ulgy_qseq_ytp", (-969 # 100));
  ("mean_ulgy_qseq_lo", (301 # 500));
  ("mean_ulgy_qseq_hi", (421 # 500));
  ("mean_ul_qseq_int", (-2997 # 1000));
  ("mean_ul_qseq_slp", (1 # 1000));
  ("mean_uh_qseq_int", (-2241 # 1000));
  ("mean_uh_qseq_slp", (303 # 500));
  ("mean_uqt_xtp", (13533 # 1000));
  ("mean_uqt_ytp", (1127 # 1000));
  ("mean_uqt_lo", (-11 # 1000));
  ("mean_uqt_hi", (-119 # 500));
  ("mean_uqs_int", (257 # 250));
  ("mean_uqs_slp", (533 # 250));
  ("mean_udrop_int", (-2177 # 1000));
  ("mean_udrop_slp", (77 # 250));
  ("mean_urej_int", (-1129 # 250));
  ("mean_urej_slp", (-23 # 10)) ]%string.

(** params/params_diffstarpopfits_mgash_smdpl_dr1.py:49-68 *)
Definition params_diffstarpopfits_mgash_smdpl_dr1_SFH_PDF_QUENCH_COV_MS_BLOCK_PDICT : list (string * (Q)) := [
  ("std_ulgm_mseq_int", (37 # 500));
  ("std_ulgm_mseq_slp", (-53 # 500));
  ("std_ulgy_mseq_int", (11 # 1000));
  ("std_ulgy_mseq_slp", (1 # 1000));
  ("std_ul_mseq_int", (7 # 500));
  ("std_ul_mseq_slp", (9 # 1000));
  ("std_uh_mseq_int", (11 # 1000));
  ("std_uh_mseq_slp", (-999 # 1000));
  ("std_ulgm_qseq_int", (243 # 1000));
  ("std_ulgm_qseq_slp", (-81 # 500));
  ("std_ulgy_qseq_int", (91 # 1000));
  ("std_ulgy_qseq_slp", (-229 # 1000));
  ("std_ul_qseq_int", (13 # 1000));
  ("std_ul_qseq_slp", (7 # 1000));
  ("std_uh_qseq_int", (351 # 500));
  ("std_uh_qseq_slp", (-137 # 500)) ]%string.

(** params/params_diffstarpopfits_mgash_smdpl_dr1.py:70-81 *)
Definition params_diffstarpopfits_mgash_smdpl_dr1_SFH_PDF_QUENCH_COV_Q_BLOCK_PDICT : list (string * (Q)) := [
  ("std_uqt_int", (29 # 1000));
  ("std_uqt_slp", (41 # 1000));
  ("std_uqs_int", (11 # 1000));
  ("std_uqs_slp", (1 # 1000));
  ("std_udrop_int", (599 # 1000));
  ("std_udrop_slp", (-217 # 250));
  ("std_urej_int", (487 # 500));
  ("std_urej_slp", (-1 # 20)) ]%string.

(** params/params_diffstarpopfits_mgash_smdpl_dr1.py:83-102 *)
Definition params_diffstarpopfits_mgash_smdpl_dr1_SFH_PDF_FRAC_QUENCH_PDICT : list (string * (Q)) := [
  ("frac_quench_cen_x0_tpeak", (11207 # 1000));
  ("frac_quench_cen_k_tpeak", (4999 # 500));
  ("frac_quench_cen_x0_ylotpeak", (11001 # 1000));
  ("frac_quench_cen_x0_yhitpeak", (6303 # 500));
  ("frac_quench_cen_ylo_ylotpeak", (999 # 1000));
  ("frac_quench_cen_ylo_yhitpeak", (1 # 1000));
  ("frac_quench_cen_k", (977 # 500));
  ("frac_quench_cen_yhi", (999 # 1000));
  ("frac_quench_sat_x0_tpeak", (2343 # 250));
  ("frac_quench_sat_k_tpeak", (1999 # 200));
  ("frac_quench_sat_x0_ylotpeak", (1181 # 100));
  ("frac_quench_sat_x0_yhitpeak", (11547 # 1000));
  ("frac_quench_sat_ylo_ylotpeak", (131 # 250));
  ("frac_quench_sat_ylo_yhitpeak", (1 # 1000));
  ("frac_quench_sat_k", (999 # 200));
  ("frac_quench_sat_yhi", (797 # 1000)) ]%string.

(** params/params_diffstarpopfits_mgash_smdpl_dr1.py:104-112 *)
Definition params_diffstarpopfits_mgash_smdpl_dr1_DELTA_UQT_PDICT : list (string * (Q)) := [
  ("delta_uqt_x0", (2173 # 1000));
  ("delta_uqt_k", (11 # 100));
  ("delta_uqt_ylo", (-713 # 1000));
  ("delta_uqt_yhi", (217 # 1000));
  ("delta_uqt_slope", (-23 # 1000)) ]%string.

(** params/params_diffstarpopfits_mgash_smdpl_dr1.py:113-118 *)
Definition params_diffstarpopfits_mgash_smdpl_dr1 : list (string * Q) := (dict_update (dict_update (dict_update (dict_update params_diffstarpopfits_mgash_smdpl_dr1_SFH_PDF_FRAC_QUENCH_PDICT params_diffstarpopfits_mgash_smdpl_dr1_SFH_PDF_QUENCH_MU_PDICT) params_diffstarpopfits_mgash_smdpl_dr1_SFH_PDF_QUENCH_COV_MS_BLOCK_PDICT) params_diffstarpopfits_mgash_smdpl_dr1_SFH_PDF_QUENCH_COV_Q_BLOCK_PDICT) params_diffstarpopfits_mgash_smdpl_dr1_DELTA_UQT_PDICT).

(** params/params_diffstarpopfits_mgash_smdpl_dr1_nomerging.py:10-47 *)
Definition params_diffstarpopfits_mgash_smdpl_dr1_nomerging_SFH_PDF_QUENCH_MU_PDICT : list (string * (Q)) := [
  ("mean_ulgm_mseq_xtp", (129 # 10));
  ("mean_ulgm_mseq_ytp", (6263 # 500));
  ("mean_ulgm_mseq_lo", (149 # 200));
  ("mean_ulgm_mseq_hi", (-61 # 1000));
  ("mean_ulgy_mseq_xtp", (2377 # 200));
  ("mean_ulgy_mseq_ytp", (-1317 # 125));
  ("mean_ulgy_mseq_lo", (411 # 250));
  ("mean_ulgy_mseq_hi", (461 # 1000));
  ("mean_ul_mseq_int", (-1403 # 500));
  ("mean_ul_mseq_slp", (-321 # 1000));
  ("mean_uh_mseq_int", (-999 # 200));
  ("mean_uh_mseq_slp", (1479 # 1000));
  ("mean_ulgm_qseq_xtp", (13349 # 1000));
  ("mean_ulgm_qseq_ytp", (306 # 25));
  ("mean_ulgm_qseq_lo", (69 # 200));
  ("mean_ulgm_qseq_hi", (-61 # 500));
  ("mean_ulgy_qseq_xtp", (5969 # 500));
  ("mean_ulgy_qseq_ytp", (-1237 # 125));
  ("mean_ulgy_qseq_lo", (461 # 500));
  ("mean_ulgy_qseq_hi", (9 # 20));
  ("mean_ul_qseq_int", (-597 # 1000));
  ("mean_ul_qseq_slp", (51 # 200));
  ("mean_uh_qseq_int", (-36 # 25));
  ("mean_uh_qseq_slp", (-799 # 1000));
  ("mean_uqt_xtp", (2261 # 200));
  ("mean_uqt_ytp", (1181 # 1000));
  ("mean_uqt_lo", (-1 # 1000));
  ("mean_uqt_hi", (-89 # 200));
  ("mean_uqs_int", (133 # 200));
  ("mean_uqs_slp", (73 # 1000));
  ("mean_udrop_int", (-2997 # 1000));
  ("mean_udrop_slp", (24 # 25));
  ("mean_urej_int", (-1167 # 250));
  ("mean_urej_slp", (2971 # 1000)) ]%string.

(** params/params_diffstarpopfits_mgash_smdpl_dr1_nomerging.py:49-68 *)
Definition params_diffstarpopfits_mgash_smdpl_dr1_nomerging_SFH_PDF_QUENCH_COV_MS_BLOCK_PDICT : list (string * (Q)) := [
  ("std_ulgm_mseq_int", (63 # 1000));
  ("std_ulgm_mseq_slp", (-29 # 500));
  ("std_ulgy_mseq_int", (57 # 1000));
  ("std_ulgy_mseq_slp", (123 # 500));
  ("std_ul_mseq_int", (871 # 1000));
  ("std_ul_mseq_slp", (-999 # 1000));
  ("std_uh_mseq_int", (11 # 1000));
  ("std_uh_mseq_slp", (7 # 500));
  ("std_ulgm_qseq_int", (11 # 25));
  ("std_ulgm_qseq_slp", (-309 # 1000));
  ("std_ulgy_qseq_int", (9 # 200));
  ("std_ulgy_qseq_slp", (119 # 1000));
  ("std_ul_qseq_int", (381 # 500));
  ("std_ul_qseq_slp", (159 # 250));
  ("std_uh_qseq_int", (11 # 1000));
  ("std_uh_qseq_slp", (1 # 1000)) ]%string.

(** params/params_diffstarpopfits_mgash_smdpl_dr1_nomerging.py:70-81 *)
Definition params_diffstarpopfits_mgash_smdpl_dr1_nomerging_SFH_PDF_QUENCH_COV_Q_BLOCK_PDICT : list (string * (Q)) := [
  ("std_uqt_int", (27 # 500));
  ("std_uqt_slp", (21 # 1000));
  ("std_uqs_int", (77 # 1000));
  ("std_uqs_slp", (37 # 500));
  ("std_udrop_int", (36 # 125));
  ("std_udrop_slp", (-999 # 1000));
  ("std_urej_int", (193 # 200));
  ("std_urej_slp", (-499 # 500)) ]%string.

(** params/params_diffstarpopfits_mgash_smdpl_dr1_nomerging.py:83-102 *)
Definition params_diffstarpopfits_mgash_smdpl_dr1_nomerging_SFH_PDF_FRAC_QUENCH_PDICT : list (string * (Q)) := [
  ("frac_quench_cen_x0_tpeak", (9731 # 1000));
  ("frac_quench_cen_k_tpeak", (9989 # 1000));
  ("frac_quench_cen_x0_ylotpeak", (6999 # 500));
  ("frac_quench_cen_x0_yhitpeak", (6827 # 500));
  ("frac_quench_cen_ylo_ylotpeak", (999 # 1000));
  ("frac_quench_cen_ylo_yhitpeak", (151 # 500));
  ("frac_quench_cen_k", (2169 # 1000));
  ("frac_quench_cen_yhi", (999 # 1000));
  ("frac_quench_sat_x0_tpeak", (1183 # 125));
  ("frac_quench_sat_k_tpeak", (587 # 1000));
  ("frac_quench_sat_x0_ylotpeak", (11097 # 1000));
  ("frac_quench_sat_x0_yhitpeak", (6993 # 500));
  ("frac_quench_sat_ylo_ylotpeak", (501 # 1000));
  ("frac_quench_sat_ylo_yhitpeak", (1 # 1000));
  ("frac_quench_sat_k", (999 # 200));
  ("frac_quench_sat_yhi", (999 # 1000)) ]%string.

(** params/params_diffstarpopfits_mgash_smdpl_dr1_nomerging.py:104-112 *)
Definition params_diffstarpopfits_mgash_smdpl_dr1_nomerging_DELTA_UQT_PDICT : list (string * (Q)) := [
  ("delta_uqt_x0", (1001 # 1000));
  ("delta_uqt_k", (289 # 500));
  ("delta_uqt_ylo", (-569 # 1000));
  ("delta_uqt_yhi", (309 # 1000));
  ("delta_uqt_slope", (49 # 500)) ]%string.

(** params/params_diffstarpopfits_mgash_smdpl_dr1_nomerging.py:113-118 *)
Definition params_diffstarpopfits_mgash_smdpl_dr1_nomerging : list (string * Q) := (dict_update (dict_update (dict_update (dict_update params_diffstarpopfits_mgash_smdpl_dr1_nomerging_SFH_PDF_FRAC_QUENCH_PDICT params_diffstarpopfits_mgash_smdpl_dr1_nomerging_SFH_PDF_QUENCH_MU_PDICT) params_diffstarpopfits_mgash_smdpl_dr1_nomerging_SFH_PDF_QUENCH_COV_MS_BLOCK_PDICT) params_diffstarpopfits_mgash_smdpl_dr1_nomerging_SFH_PDF_QUENCH_COV_Q_BLOCK_PDICT) params_diffstarpopfits_mgash_smdpl_dr1_nomerging_DELTA_UQT_PDICT).

(** params/params_diffstarpopfits_mgash_tng.py:7-44 *)
Definition params_diffstarpopfits_mgash_tng_SFH_PDF_QUENCH_MU_PDICT : list (string * (Q)) := [
  ("mean_ulgm_mseq_xtp", (12449 # 1000));
  ("mean_ulgm_mseq_ytp", (11897 # 1000));
  ("mean_ulgm_mseq_lo", (124 # 125));
  ("mean_ulgm_mseq_hi", (39 # 1000));
  ("mean_ulgy_mseq_xtp", (13459 # 1000));
  ("mean_ulgy_mseq_ytp", (-8471 # 1000));
  ("mean_ulgy_mseq_lo", (1249 # 1000));
  ("mean_ulgy_mseq_hi", (93 # 200));
  ("mean_ul_mseq_int", (-357 # 500));
  ("mean_ul_mseq_slp", (327 # 100));
  ("mean_uh_mseq_int", (-511 # 125));
  ("mean_uh_mseq_slp", (-4347 # 1000));
  ("mean_ulgm_qseq_xtp", (11073 # 1000));
  ("mean_ulgm_qseq_ytp", (5501 # 500));
  ("mean_ulgm_qseq_lo", (727 # 200));
  ("mean_ulgm_qseq_hi", (551 # 1000));
  ("mean_ulgy_qseq_xtp", (12971 # 1000));
  ("mean_ulgy_qseq_ytp", (-1192 # 125));
  ("mean_ulgy_qseq_lo", (319 # 500));
  ("mean_ulgy_qseq_hi", (133 # 500));
  ("mean_ul_qseq_int", (-2147 # 1000));
  ("mean_ul_qseq_slp", (-1249 # 1000));
  ("mean_uh_qseq_int", (-174 # 125));
  ("mean_uh_qseq_slp", (-79 # 100));
  ("mean_uqt_xtp", (12107 # 1000));
  ("mean_uqt_ytp", (271 # 250));
  ("mean_uqt_lo", (-57 # 1000));
  ("mean_uqt_hi", (-519 # 1000));
  ("mean_uqs_int", (-19 # 1000));
  ("mean_uqs_slp", (-231 # 1000));
  ("mean_udrop_int", (-2999 # 1000));
  ("mean_udrop_slp", (2113 # 1000));
  ("mean_urej_int", (-873 # 100));
  ("mean_urej_slp", (-7 # 25)) ]%string.

(** params/params_diffstarpopfits_mgash_tng.py:46-65 *)
Definition params_diffstarpopfits_mgash_tng_SFH_PDF_QUENCH_COV_MS_BLOCK_PDICT : list (string * (Q)) := [
  ("std_ulgm_mseq_int", (11 # 1000));
  ("std_ulgm_mseq_slp", (49 # 1000));
  ("std_ulgy_mseq_int", (11 # 1000));
  ("std_ulgy_mseq_slp", (-123 # 1000));
  ("std_ul_mseq_int", (96 # 125));
  ("std_ul_mseq_slp", (997 # 1000));
  ("std_uh_mseq_int", (457 # 1000));
  ("std_uh_mseq_slp", (-999 # 1000));
  ("std_ulgm_qseq_int", (27 # 250));
  ("std_ulgm_qseq_slp", (-149 # 1000));
  ("std_ulgy_qseq_int", (71 # 1000));
  ("std_ulgy_qseq_slp", (-77 # 1000));
  ("std_ul_qseq_int", (49 # 125));
  ("std_ul_qseq_slp", (-681 # 1000));
  ("std_uh_qseq_int", (13 # 1000));
  ("std_uh_qseq_slp", (54 # 125)) ]%string.

(** params/params_diffstarpopfits_mgash_tng.py:67-78 *)
Definition params_diffstarpopfits_mgash_tng_SFH_PDF_QUENCH_COV_Q_BLOCK_PDICT : list (string * (Q)) := [
  ("std_uqt_int", (7 # 250));
  ("std_uqt_slp", (-13 # 1000));
  ("std_uqs_int", (3 # 40));
  ("std_uqs_slp", (-19 # 500));
  ("std_udrop_int", (463 # 1000));
  ("std_udrop_slp", (-103 # 125));
  ("std_urej_int", (131 # 1000));
  ("std_urej_slp", (13 # 1000)) ]%string.

(** params/params_diffstarpopfits_mgash_tng.py:80-99 *)
Definition params_diffstarpopfits_mgash_tng_SFH_PDF_FRAC_QUENCH_PDICT : list (string * (Q)) := [
  ("frac_quench_cen_x0_tpeak", (327 # 25));
  ("frac_quench_cen_k_tpeak", (1242 # 125));
  ("frac_quench_cen_x0_ylotpeak", (6033 # 500));
  ("frac_quench_cen_x0_yhitpeak", (12401 # 1000));
  ("frac_quench_cen_ylo_ylotpeak", (999 # 1000));
  ("frac_quench_cen_ylo_yhitpeak", (1 # 1000));
  ("frac_quench_cen_k", (4999 # 1000));
  ("frac_quench_cen_yhi", (999 # 1000));
  ("frac_quench_sat_x0_tpeak", (2347 # 250));
  ("frac_quench_sat_k_tpeak", (1231 # 125));
  ("frac_quench_sat_x0_ylotpeak", (521 # 40));
  ("frac_quench_sat_x0_yhitpeak", (12397 # 1000));
  ("frac_quench_sat_ylo_ylotpeak", (999 # 1000));
  ("frac_quench_sat_ylo_yhitpeak", (1 # 1000));
  ("frac_quench_sat_k", (4999 # 1000));
  ("frac_quench_sat_yhi", (106 # 125)) ]%string.

(** params/params_diffstarpopfits_mgash_tng.py:101-109 *)
Definition params_diffstarpopfits_mgash_tng_DELTA_UQT_PDICT : list (string * (Q)) := [
  ("delta_uqt_x0", (4191 # 1000));
  ("delta_uqt_k", (577 # 1000));
  ("delta_uqt_ylo", (-62 # 125));
  ("delta_uqt_yhi", (47 # 500));
  ("delta_uqt_slope", (-6 # 125)) ]%string.

(** params/params_diffstarpopfits_mgash_tng.py:110-115 *)
Definition params_diffstarpopfits_mgash_tng : list (string * Q) := (dict_update (dict_update (dict_update (dict_update params_diffstarpopfits_mgash_tng_SFH_PDF_FRAC_QUENCH_PDICT params_diffstarpopfits_mgash_tng_SFH_PDF_QUENCH_MU_PDICT) params_diffstarpopfits_mgash_tng_SFH_PDF_QUENCH_COV_MS_BLOCK_PDICT) params_diffstarpopfits_mgash_tng_SFH_PDF_QUENCH_COV_Q_BLOCK_PDICT) params_diffstarpopfits_mgash_tng_DELTA_UQT_PDICT).
