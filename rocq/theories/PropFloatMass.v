(** Properties of single-precision masses: C111. *)
From Coq Require Import Reals Lra Lia List Bool String QArith ZArith.
From Flocq Require Import Core.Core IEEE754.BinarySingleNaN.
From Verif Require Import ModelFloat ModelFloatMass SpecFloat32 SpecFloatMass FloatMassProofs FloatMassTop.
Import ListNotations.
Open Scope R_scope.

(** C111: masses are finite, never negative, never decrease and are accurate. *)
Theorem C111_masses_single : forall fused ts ss, mass_input ts ss ->
  exists ms, cumulative_mstar_formed32 fused ts ss = Some ms /\ List.length ms = List.length ts /\
    forall k, (k < List.length ts)%nat ->
      is_finite (nth k ms B754_nan) = true /\ 0 <= B2R (nth k ms B754_nan) /\
      ((S k < List.length ts)%nat -> B2R (nth k ms B754_nan) <= B2R (nth (S k) ms B754_nan)) /\
      0 <= exact_mass ts ss k /\
      Rabs (B2R (nth k ms B754_nan) - exact_mass ts ss k) <= INR (k + 8) / 2 ^ 23 * exact_mass ts ss k + / 2 ^ 70.
Proof. exact mass32. Qed.
Print Assumptions C111_masses_single.

(** C111: they need not grow while stars form. *)
Theorem C111_grows_refuted : forall fused, exists ts ss ms, mass_input ts ss /\ List.length ts = 3%nat /\
  (forall i, (i < 3)%nat -> point (1 / 1000) ts i < point (1 / 1000) ts (S i)) /\
  0 < B2R (nth 2 ss B754_nan) /\
  cumulative_mstar_formed32 fused ts ss = Some ms /\
  exact_mass ts ss 1 < exact_mass ts ss 2 /\ nth 2 ms B754_nan = nth 1 ms B754_nan.
Proof. exact stagnates. Qed.
Print Assumptions C111_grows_refuted.

Example C111_hyp : mass_input [lit32 10; lit32 11; lit32 (89 # 8)] [lit32 20; lit32 0; lit32 (1 # 131072)].
Proof. exact stag_input. Qed.
