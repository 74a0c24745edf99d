(** Vocabulary for the properties of the population fit. *)
From Coq Require Import Reals List Bool ZArith String.
From Verif Require Import XReal ModelUtils ModelKernels ModelSfh ModelPop ModelHist ModelTargets ModelPopFit
  SpecCore SpecHist SpecTargets.
Import List ListNotations.
Local Notation length := List.length (only parsing).
Open Scope R_scope.

(** All halos, central halos or satellites. *)
Inductive kind := All | Cen | Sat.
Definition of_kind (k : kind) (upid : Z) : bool :=
  match k with All => true | Cen => Z.eqb upid (-1) | Sat => negb (Z.eqb upid (-1)) end.

(** Sampled halos of a kind, at target time [i], in mass bin [j]. *)
Definition sampled (k : kind) (h : Haloes) (i j : nat) : list nat :=
  those (length (h_tobs_id h))
    (fun n => Nat.eqb (nth n (h_tobs_id h) 0%nat) i && Nat.eqb (nth n (h_logmh_id h) 0%nat) j &&
              of_kind k (nth n (h_upid h) 0%Z)).

(** Files of [nz] times, [nm] halo-mass bins, [nms] stellar-mass bins and [nsf] sSFR bins;
    [c3], [cc], [cs]: smoothed counts of all galaxies in stellar mass, of centrals and of
    satellites in stellar mass and sSFR; [n1], [n2]: numbers of centrals and satellites. *)
Record files_are (f : PopFiles) (nz nm nms nsf : nat) (c3 : nat -> nat -> nat -> R)
    (cc cs : nat -> nat -> nat -> nat -> R) (n1 n2 : nat -> nat -> R) : Prop := {
  fa_age : length (f_age (pf_f f)) = nz;
  fa_mh : length (pf_logmh_bins f) = S nm;
  fa_ms : length (pf_mstar_bins f) = S nms;
  fa_sf : length (pf_ssfr_bins f) = S nsf;
  fa_c3 : f_mstar_wcounts (pf_f f) = tbl3 nz nm nms c3;
  fa_cc : f_cent (pf_f f) = tbl4 nz nm nms nsf cc;
  fa_cs : f_sat (pf_f f) = tbl4 nz nm nms nsf cs;
  fa_n1 : f_counts_cen (pf_f f) = tbl nz nm n1;
  fa_n2 : f_counts_sat (pf_f f) = tbl nz nm n2;
  fa_bin : length (h_logmh_id (f_haloes (pf_f f))) = length (h_tobs_id (f_haloes (pf_f f)));
  fa_upid : length (h_upid (f_haloes (pf_f f))) = length (h_tobs_id (f_haloes (pf_f f)));
  fa_mah : length (h_mah (f_haloes (pf_f f))) = length (h_tobs_id (f_haloes (pf_f f)));
  fa_five : Forall (fun r => length r = 5%nat) (h_mah (f_haloes (pf_f f))) }.

(** numpy's choice: as many members as asked for, all different without replacement. *)
Definition draws_ok (choice : nat -> nat -> list nat -> nat -> bool -> list nat) : Prop :=
  forall i j a n r, NoDup a -> a <> [] -> (r = false -> (n <= length a)%nat) ->
    length (choice i j a n r) = n /\ incl (choice i j a n r) a /\ (r = false -> NoDup (choice i j a n r)).

(** Cells with at least 50 sampled halos of the kind, in order of time then mass. *)
Definition usable (k : kind) (h : Haloes) (nz nm : nat) : list (nat * nat) :=
  filter (fun c => Nat.leb 50 (length (sampled k h (fst c) (snd c)))) (list_prod (seq 0 nz) (seq 0 nm)).

(** Halo [n]'s mass history parameters. *)
Definition halo_mah (h : Haloes) (n : nat) : MahParams xr :=
  let p k := nth k (nth n (h_mah h) []) NaN in mkMah (p 0%nat) (p 1%nat) (p 2%nat) (p 3%nat) (p 4%nat).

(** diffmah computes the history of a halo time by time. *)
Definition timewise (mah_singlehalo : MahParams xr -> list xr -> xr -> list xr * list xr)
    (log_mah_kern : MahParams xr -> xr -> xr -> xr) : Prop :=
  forall p ts lgt0, snd (mah_singlehalo p ts lgt0) = map (fun t => log_mah_kern p t lgt0) ts.

(** A simulated population made of the halos [P] of a sample. *)
Record drawn {key} (log_mah_kern : MahParams xr -> xr -> xr -> xr) (h : Haloes) (lgt0 : R)
    (z : ZPop key) (P : list nat) : Prop := {
  dr_mah : forall q, (q < length P)%nat -> gal_mah (z_mah key z) q = halo_mah h (nth q P 0%nat);
  dr_cols : cols_len_mah (length P) (z_mah key z);
  dr_logmp0 : z_logmp0 key z = map (fun n => log_mah_kern (halo_mah h n) (Fin (Rpower 10 lgt0)) (Fin lgt0)) P;
  dr_upid : z_upid key z = map (fun n => nth n (h_upid h) 0%Z) P;
  dr_mu : z_lgmu_infall key z = repeat (Fin (-1)) (length P);
  dr_host : z_logmhost_infall key z = repeat (Fin 13) (length P);
  dr_gyr : z_gyr_since_infall key z = repeat (Fin (-99)) (length P) }.

(** Stellar-mass counts that are the target for each kind. *)
Definition mass_counts (k : kind) (nsf : nat) (c3 : nat -> nat -> nat -> R) (cc cs : nat -> nat -> nat -> nat -> R)
  (i j b : nat) : R :=
  match k with All => c3 i j b | Cen => Rsum (map (cc i j b) (seq 0 nsf)) | Sat => Rsum (map (cs i j b) (seq 0 nsf)) end.

Section Data.
Variable key : Type.
Variable split : key -> nat -> list key.
Variable mah_singlehalo : MahParams xr -> list xr -> xr -> list xr * list xr.
Variable choice : nat -> nat -> list nat -> nat -> bool -> list nat.
Definition mstar_data (k : kind) : PopFiles -> nat -> xr -> xr -> key -> option (MstarLossData key) :=
  match k with
  | All => get_loss_data_pdfs_mstar key split mah_singlehalo choice
  | Cen => get_loss_data_pdfs_mstar_cen key split mah_singlehalo choice
  | Sat => get_loss_data_pdfs_mstar_sat key split mah_singlehalo choice
  end.
(** sSFR data: of centrals, or of satellites. *)
Definition ssfr_data (sat : bool) : PopFiles -> nat -> xr -> xr -> key -> option (SsfrLossData key) :=
  if sat then get_loss_data_pdfs_ssfr_satellite key split mah_singlehalo choice
  else get_loss_data_pdfs_ssfr_central key split mah_singlehalo choice.
End Data.

(** Sum of the first [n] values. *)
Definition total (n : nat) (c : nat -> R) : R := Rsum (map c (seq 0 n)).

(** Share of a cell in a table of counts, where negative counts are nothing; an empty table
    has no shares. *)
Definition share (nms nsf : nat) (c : nat -> nat -> R) (a b : nat) : R :=
  let s := total nms (fun a => total nsf (fun b => Rmax (c a b) 0)) in
  if Req_EM_T s 0 then 0 else Rmax (c a b) 0 / s.
(** Weight of a halo-mass bin by its number of galaxies. *)
Definition bin_weight (nm : nat) (n : nat -> R) (j : nat) : R := n j / total nm n.
(** Average of distributions over the halo-mass bins [js]. *)
Definition blend (js : list nat) (w : nat -> R) (p : nat -> nat -> nat -> R) (a b : nat) : R :=
  Rsum (map (fun j => w j * p j a b) js).
(** The mass bins used at time [i]. *)
Definition used_bins (k : kind) (h : Haloes) (nm i : nat) : list nat :=
  those nm (fun j => Nat.leb 50 (length (sampled k h i j))).
(** The five stellar-mass bins whose sSFR distributions are fitted. *)
Definition fitted_bins : list nat := [8; 10; 13; 16; 19]%nat.

(** Parameters of the dependence on infall. *)
Definition infall_names : list string := ["qp_lgmh_crit"; "td_lgmhc"; "td_mlo"; "td_mhi"; "qphi_lgmu_crit";
  "lgmu_lo_mh_lo"; "lgmu_hi_mh_lo"; "lgmu_lo_mh_hi"; "lgmu_hi_mh_hi"]%string.

(** What is read back for a saved value: a list of differently shaped arrays comes back as
    it was, one of equally shaped arrays as a single stacked array. *)
Inductive read_back {arr num} (shape : arr -> list nat) (stack : list arr -> arr) : value arr num -> value arr num -> Prop :=
| rb_arr a : read_back shape stack (VArr _ _ a) (VArr _ _ a)
| rb_num x : read_back shape stack (VNum _ _ x) (VNum _ _ x)
| rb_list l a b : In a l -> In b l -> shape a <> shape b -> read_back shape stack (VSeq _ _ l) (VSeq _ _ l)
| rb_stack l : (forall a b, In a l -> In b l -> shape a = shape b) -> read_back shape stack (VSeq _ _ l) (VArr _ _ (stack l)).
