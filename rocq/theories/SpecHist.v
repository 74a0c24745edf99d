(** Vocabulary for the histogram and loss properties. *)
From Coq Require Import Reals List ZArith.
From Coquelicot Require Import Coquelicot.
From Verif Require Import XReal ModelUtils ModelKernels ModelSfh ModelPop ModelHist SpecCore.
Import List ListNotations.
Open Scope R_scope.

(** Part of a galaxy smoothed with a triweight of centre [x] and width [s] that lies
    between [lo] and [hi]. *)
Definition tw_mass (x s lo hi : R) : R := RInt (fun t => tw_pdf ((t - x) / s) / s) lo hi.

(** The same in several dimensions, for a box. *)
Fixpoint cell_mass (x s lo hi : list R) : R :=
  match x, s, lo, hi with
  | a :: x', b :: s', c :: lo', d :: hi' => tw_mass a b c d * cell_mass x' s' lo' hi'
  | _, _, _, _ => 1
  end.

Definition Rsum (l : list R) : R := fold_right Rplus 0 l.

(** [X] holds points and [S] positive widths, in [d] dimensions. *)
Definition points (d : nat) (X S : list (list R)) : Prop :=
  Forall2 (fun x s => length x = d /\ length s = d /\ Forall (fun w => 0 < w) s) X S.

(** Contiguous bins of a list of edges, and all boxes of a grid given by its edges in
    each dimension. *)
Definition bins_of (E : list R) : list (R * R) := combine (removelast E) (tl E).
Fixpoint grid (Es : list (list R)) : list (list (R * R)) :=
  match Es with
  | [] => [[]]
  | E :: Es' => flat_map (fun b => map (cons b) (grid Es')) (bins_of E)
  end.
Definition lows (g : list (list (R * R))) : list (list R) := map (map fst) g.
Definition highs (g : list (list (R * R))) : list (list R) := map (map snd) g.

(** The grid reaches 3 widths to either side of the point in every dimension. *)
Definition covers (Es : list (list R)) (x s : list R) : Prop :=
  forall k, (k < length Es)%nat ->
    hd 0 (nth k Es []) <= nth k x 0 - 3 * nth k s 0 /\
    nth k x 0 + 3 * nth k s 0 <= last (nth k Es []) 0.

(** Sum over the galaxies of weight times mass inside a 1-D bin. *)
Definition wmass (X S Y : list R) (lo hi : R) : R :=
  Rsum (map (fun i => tw_mass (nth i X 0) (nth i S 0) lo hi * nth i Y 0) (seq 0 (length X))).

(** The 20 times at which a galaxy observed at cosmic time [tobs] is simulated: equally
    spaced in log time from 0.1 Gyr to [tobs]. *)
Definition obs_times (tobs : R) : list R :=
  map (fun i => exp (((-1) + INR i / 19 * (ln tobs / ln 10 + 1)) * ln 10)) (seq 0 20).

(** A probability distribution. *)
Definition is_pdf (h : list R) : Prop := Forall (fun x => 0 <= x) h /\ Rsum h = 1.

(** A well-formed set of [n] simulated galaxies at one redshift: finite inputs of equal
    length, observed after 0.1 Gyr, halo masses defined at the simulated times. *)
Definition sim_ok {key} (log_mah_kern : MahParams xr -> xr -> xr -> xr) (lgt0 : xr) (n : nat)
    (tobs : R) (z : ZPop key) : Prop :=
  exists m tp mu mh gy : list R,
    z_logmp0 key z = map Fin m /\ t_peak (z_mah key z) = map Fin tp /\
    z_lgmu_infall key z = map Fin mu /\ z_logmhost_infall key z = map Fin mh /\
    z_gyr_since_infall key z = map Fin gy /\ z_tobs key z = Fin tobs /\ 1 / 10 < tobs /\
    length m = n /\ length tp = n /\ length mu = n /\ length mh = n /\ length gy = n /\
    length (z_upid key z) = n /\ cols_len_mah n (z_mah key z) /\
    forall i, (i < n)%nat -> exists h, halo_history log_mah_kern (gal_mah (z_mah key z) i) lgt0 h (obs_times tobs).

(** Mean bin width of increasing edges. *)
Definition mean_bin (E : list R) : R := (last E 0 - hd 0 E) / INR (length E - 1).

(** The support of a triweight of width [s] at [x] meets the open interval (lo, hi). *)
Definition overlaps (x s lo hi : R) : Prop := lo < x + 3 * s /\ x - 3 * s < hi.

(** Boxes with two dimensions and positive area, as lists of lower and upper corners. *)
Definition cells (LO HI : list (list R)) : Prop :=
  Forall2 (fun lo hi => length lo = 2%nat /\ length hi = 2%nat /\ Forall2 Rlt lo hi) LO HI.

(** Some galaxy of log masses [X] and log sSFRs [Y] overlaps some cell, smoothed with the
    mean bin widths. *)
Definition in_range (E1 E2 : list R) (LO HI : list (list R)) (X Y : list R) : Prop :=
  exists i k, (i < length X)%nat /\ (k < length LO)%nat /\
      overlaps (nth i X 0) (mean_bin E1) (nth 0 (nth k LO []) 0) (nth 0 (nth k HI []) 0) /\
      overlaps (nth i Y 0) (mean_bin E2) (nth 1 (nth k LO []) 0) (nth 1 (nth k HI []) 0).

(** [s] and [M]: final star formation rate and stellar mass of a simulated history. *)
Definition obs_row (tobs : R) (row : list xr) (s M : R) : Prop :=
  last_ row = Fin s /\ 0 < s /\
  exists mass, cumulative_mstar_formed (map Fin (obs_times tobs)) row = Some mass /\ last_ mass = Fin M /\ 0 < M.

Definition clipped_ssfr (S M : list R) : list R := map2 (fun s m => Rmax (ln s / ln 10 - ln m / ln 10) (-12)) S M.

(** The sample seen by the histograms: every galaxy counts once as a main-sequence galaxy
    with weight 1 - quiescent fraction and once as a quenched one with weight the
    quiescent fraction; log masses [X], clipped log sSFRs [Y], weights [W]. *)
Definition sample (key : Type) split uniform mvn lmk (p : nt xr) (z : ZPop key) (lgt0 : xr) (fb tobs : R)
    (n : nat) (X Y W : list R) : Prop :=
  exists res Sms Sq Mms Mq f,
    mc_diffstar_sfh_galpop key split uniform mvn lmk p (z_mah key z) (z_logmp0 key z) (z_upid key z) (z_lgmu_infall key z)
      (z_logmhost_infall key z) (z_gyr_since_infall key z) (z_key key z) (map Fin (obs_times tobs)) lgt0 (Fin fb) = Some res /\
    length (sfh_ms res) = n /\ length (sfh_q res) = n /\
    length Sms = n /\ length Sq = n /\ length Mms = n /\ length Mq = n /\ length f = n /\
    frac_q res = map Fin f /\ Forall (fun x => 0 < x < 1) f /\
    (forall i, (i < n)%nat -> obs_row tobs (nth i (sfh_ms res) []) (nth i Sms 0) (nth i Mms 0) /\
                              obs_row tobs (nth i (sfh_q res) []) (nth i Sq 0) (nth i Mq 0)) /\
    X = map (fun m => ln m / ln 10) (Mms ++ Mq) /\ Y = clipped_ssfr (Sms ++ Sq) (Mms ++ Mq) /\
    W = map (fun x => 1 - x) f ++ f.

(** All redshifts have well-formed simulated galaxies. *)
Definition zs_ok (key : Type) lmk lgt0 (zs : list (ZPop key)) : Prop :=
  Forall (fun z => exists n tobs, sim_ok lmk lgt0 n tobs z) zs.
