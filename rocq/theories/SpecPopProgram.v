(** Vocabulary for the population-fit program. *)
From Coq Require Import Reals List ZArith QArith_base String Ascii.
From Verif Require Import XReal ModelUtils ModelSfh ModelPop ModelPopTables ModelHist ModelLoad ModelIO SpecLoad ModelTargets ModelPopFit ModelSmhmFit ModelPopProgram SpecCore SpecHist SpecPop SpecTargets SpecMeasure SpecPopFit SpecLossChain.
Import List ListNotations.
Open Scope R_scope.

(** The part of a path after its first underscore is [name]. *)
Definition asked (path name : string) : Prop :=
  exists w, ~ In "_"%char (list_ascii_of_string w) /\ path = (w ++ "_" ++ name)%string.
Definition named_path (path : string) : Prop := exists s, path = ("diffstarfits" ++ s)%string.
(** The published fits: name and parameters. *)
Definition published : list (string * list (string * QArith_base.Q)) :=
  [("galacticus_in_plus_ex_situ", params_diffstarfits_mgash_galacticus_in_plus_ex_situ); ("galacticus_in_situ", params_diffstarfits_mgash_galacticus_in_situ);
   ("smdpl_dr1", params_diffstarfits_mgash_smdpl_dr1); ("smdpl_dr1_nomerging", params_diffstarfits_mgash_smdpl_dr1_nomerging);
   ("tng", params_diffstarfits_mgash_tng)]%string.

(** The 88 values of an assignment, in order. *)
Definition flat (P : string -> R) : list xr := map (fun n => Fin (P n)) pop_names.

(** Some simulated log mass lies within three mean bin widths of the bins. *)
Definition reaches (E X : list R) : Prop :=
  exists x, In x X /\ hd 0 E - 3 * mean_bin E < x < last E 0 + 3 * mean_bin E.

(** The halo of galaxy [g] has a present mass, a peak time and a history up to each of the
    times [T] picked by [ids]. *)
Definition has_history (kern : MahParams xr -> xr -> xr -> xr) (lgt0 : R) (hm : nat -> MahParams xr) (T : list R) (ids : list nat) (g : nat) : Prop :=
  (exists m, kern (hm g) (Fin (Rpower 10 lgt0)) (Fin lgt0) = Fin m) /\ (exists tp, t_peak (hm g) = Fin tp) /\
  forall t, In t ids -> 1 / 10 < nth t T 0 /\ exists hh, halo_history kern (hm g) (Fin lgt0) hh (obs_times (nth t T 0)).

(** The cells of target time and halo mass with at least 50 sampled galaxies. *)
Definition fit_cells (k : nat) (M : nat -> list R) (E : list R) (ids : list nat) (Gs : list (list nat)) : list (nat * nat) :=
  filter (fun c => Nat.leb 50 (kept k M E ids Gs (fst c) (snd c))) (list_prod (seq 0 (List.length ids)) (seq 0 (List.length E - 1))).
