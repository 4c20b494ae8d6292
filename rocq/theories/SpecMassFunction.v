(* Specification of mass functions: stars counted in mass bins, straight lines and power laws. *)
From Verif Require Import Base ModelCluster ModelRecipes ModelEnergy ModelStars ModelSubset ModelMassFunction.
From Verif Require Import SpecRecipes SpecStars SpecSubset SpecProfiles.
Set Implicit Arguments.

(* star i is picked: in the mask given, and satisfies all limits where it is stored *)
Definition picked (q : selection) (indx : option (list bool)) (s : system) (i : nat) : Prop :=
  in_mask indx i /\ satisfies q s i.
(* there are two picked stars of different mass *)
Definition mass_spread (P : nat -> Prop) (val : nat -> R) (n : nat) : Prop :=
  exists i j, (i < n)%nat /\ (j < n)%nat /\ P i /\ P j /\ val i <> val j.

(* the stars l counted in at most nb consecutive bins from the smallest to the largest value: mean value, number and
   density of each bin; every star counts 1/corr in the density *)
Definition histogram_of (val corr : nat -> R) (l : list nat) (nb : nat) (mean : list R) (hist : list nat) (dens : list num) : Prop :=
  exists lo hi, adjacent lo hi /\ spans (map val l) lo hi /\ (length lo <= nb)%nat /\
    length mean = length lo /\ length hist = length lo /\ length dens = length lo /\
    forall k, (k < length lo)%nat -> nth k lo 0 < nth k hi 0 /\ nth k lo 0 <= nth k mean 0 <= nth k hi 0 /\
      exists lk, NoDup lk /\ (forall i, In i lk <-> In i l /\ in_bin lo hi k (val i)) /\
        nth k hist 0%nat = length lk /\
        nth k dens None = Some (sumR (map (fun i => 1 / corr i) lk) / (nth k hi 0 - nth k lo 0)).

(* sum of squared distances of the points from the line y = a x + b *)
Definition misfit (x y : list R) (a b : R) : R := sumR (map (fun p => (snd p - (a * fst p + b)) ^ 2) (combine x y)).
(* no line is closer to the points *)
Definition best_line (x y : list R) (a b : R) : Prop := forall a' b', misfit x y a b <= misfit x y a' b'.
(* f is the best line, with the standard errors of its slope and intercept: the variance of the points about the line, with
   two degrees of freedom used, over the spread of the abscissae *)
Definition least_squares (x y : list R) (f : line_fit) : Prop :=
  let n := INR (length x) in let spread := n * sumR (map (fun a => a ^ 2) x) - sumR x ^ 2 in
  best_line x y (t_slope f) (t_icpt f) /\ 0 <= t_eslope f /\ 0 <= t_eicpt f /\
  t_eslope f ^ 2 * ((n - 2) * spread) = n * misfit x y (t_slope f) (t_icpt f) /\
  t_eicpt f ^ 2 * ((n - 2) * spread) = sumR (map (fun a => a ^ 2) x) * misfit x y (t_slope f) (t_icpt f).
(* the points lie on y = C x^alpha *)
Definition on_power_law (C alpha : R) (x y : list R) : Prop :=
  length x = length y /\ forall k, (k < length x)%nat -> nth k y 0 = C * Rpower (nth k x 0) alpha.

(* fit is the straight line through the logarithms of the densities: a fitted line is the best one with its errors, and densities that lie
   on a power law give its exponent, with no error *)
Definition fits_power_law (mean : list R) (dens : list num) (fit : option line_fit) : Prop :=
  (forall f, fit = Some f -> exists d, dens = map (@Some R) d /\ all_positive mean /\ all_positive d /\
     least_squares (map log10 mean) (map log10 d) f) /\
  (forall C alpha d, dens = map (@Some R) d -> 0 < C -> all_positive mean -> on_power_law C alpha mean d ->
     (3 <= length mean)%nat -> ~ constant mean -> fit = Some (mkFit alpha (log10 C) 0 0)).
(* corrections: none, or one non-zero number per star *)
Definition correction (mcorr : option (list R)) (i : nat) : R := match mcorr with None => 1 | Some l => nth i l 0 end.
Definition corrections_fit (mcorr : option (list R)) (n : nat) : Prop :=
  match mcorr with None => True | Some l => length l = n /\ forall a, In a l -> a <> 0 end.

(* the stars l in at most nb consecutive bins of val from the smallest to the largest value: mean value and dispersion of
   the speeds in each bin; rows beyond the last bin have none *)
Definition dispersions_of (val speed : nat -> R) (l : list nat) (nb : nat) (mean : list R) (sig : list num) : Prop :=
  exists lo hi, adjacent lo hi /\ spans (map val l) lo hi /\ (length lo <= nb)%nat /\ length mean = length lo /\ length sig = nb /\
    (forall k, (k < length lo)%nat -> nth k lo 0 < nth k hi 0 /\ nth k lo 0 <= nth k mean 0 <= nth k hi 0 /\
      exists lk, NoDup lk /\ lk <> [] /\ (forall i, In i lk <-> In i l /\ in_bin lo hi k (val i)) /\
        nth k sig None = Some (deviation (map speed lk))) /\
    (forall k, (length lo <= k)%nat -> nth k sig None = None).

(* stellar type 0 or 1, where types are known *)
Definition main_sequence (s : system) (i : nat) : Prop :=
  e_kw (g_sse (y_k s)) = [] \/ 0 <= nth i (e_kw (g_sse (y_k s))) 0 <= 1.
(* a fitted slope enters a profile if it is above -100, otherwise 0 does; no fit: no number *)
Definition slope_kept (fit : option line_fit) (a : num) : Prop :=
  match fit with
  | Some f => (-100 < t_slope f -> a = Some (t_slope f)) /\ (t_slope f <= -100 -> a = Some 0)
  | None => a = None
  end.
(* the slope of the mass function of the stars l; 0 when there are fewer than nmass of them *)
Definition mass_slope (val corr : nat -> R) (l : list nat) (nmass : nat) (a : num) : Prop :=
  ((length l < nmass)%nat -> a = Some 0) /\
  ((nmass <= length l)%nat -> exists mean hist dens fit,
     histogram_of val corr l nmass mean hist dens /\ fits_power_law mean dens fit /\ slope_kept fit a).
(* the slope of the dispersion against mass of the stars l; 0 when there are fewer than 2 nmass of them *)
Definition eta_slope (val speed : nat -> R) (l : list nat) (nmass : nat) (a : num) : Prop :=
  ((length l < 2 * nmass)%nat -> a = Some 0) /\
  ((2 * nmass <= length l)%nat -> exists mean sig fit,
     dispersions_of val speed l nmass mean sig /\ ((length mean < nmass)%nat -> fit = None) /\
     (length mean = nmass -> fits_power_law mean sig fit) /\ slope_kept fit a).
(* no k of the stars for which P holds have all the same value *)
Definition mixed (P : nat -> Prop) (val : nat -> R) (n k : nat) : Prop :=
  forall l, NoDup l -> (forall i, In i l -> (i < n)%nat /\ P i) -> (k <= length l)%nat ->
    exists i j, In i l /\ In j l /\ val i <> val j.

(* distance from the cluster in three dimensions *)
Definition radius3 (s : system) (i : nat) : R := seen_distance false (y_k (own_system s)) i.
(* within the limits of q on speed, mass and stellar type, measured from the cluster *)
Definition limited (q : selection) (s : system) (i : nat) : Prop :=
  within (l_vmin q) (l_vmax q) (seen_speed (l_projected q) (y_k (own_system s)) i) /\
  within (l_mmin q) (l_mmax q) (row_mass (y_k s) i) /\
  (e_kw (g_sse (y_k s)) = [] \/ l_kwmin q <= nth i (e_kw (g_sse (y_k s))) 0 <= l_kwmax q).
(* and between two radii, both included *)
Definition in_shell (q : selection) (s : system) (a b : R) (i : nat) : Prop := a <= radius_of q s i <= b /\ limited q s i.

(* the rows returned by dx_function: the bins that hold a value, in order, with mean, number and density *)
Definition filled_bins (x lo hi : list R) (l : list dx_row) : Prop :=
  exists ks, NoDup ks /\ (forall k, In k ks <-> exists v, In v x /\ in_bin lo hi k v) /\ length l = length ks /\
    forall j, (j < length ks)%nat -> let k := nth j ks 0%nat in let w := nth j l (mkRow 0 0 None) in
      nth k lo 0 <= w_x w <= nth k hi 0 /\ nth k lo 0 < nth k hi 0 /\ counts (in_bin lo hi k) x (w_n w) /\
      w_d w = Some (INR (w_n w) / (nth k hi 0 - nth k lo 0)).

(* g is the straight line through the slopes against ln(r/h); with up to three rows the marker -100 *)
Definition gradient_of (h : R) (mid : list R) (prof : list num) (g : option line_fit) : Prop :=
  ((length mid <= 3)%nat -> g = Some (mkFit (-100) 0 0 0)) /\
  ((3 < length mid)%nat -> forall f, g = Some f -> exists p, prof = map (@Some R) p /\
     least_squares (map (fun x => ln (x / h)) mid) p f).

(* the rows for bins the caller gave: the bins that hold a value, in order, with the caller's mid, number and density *)
Definition users_bins (x lo mid hi : list R) (l : list dx_row) : Prop :=
  exists ks, NoDup ks /\ (forall k, In k ks <-> exists v, In v x /\ in_bin lo hi k v) /\ length l = length ks /\
    forall j, (j < length ks)%nat -> let k := nth j ks 0%nat in let w := nth j l (mkRow 0 0 None) in
      w_x w = nth k mid 0 /\ counts (in_bin lo hi k) x (w_n w) /\ w_d w = Some (INR (w_n w) / (nth k hi 0 - nth k lo 0)).
