(* Specification of the limiting radius, the core radius, the virial radius by critical density and the kinematic
   concentration: pc and Msun, distances from the cluster, independent of frames and units. *)
From Verif Require Import Base ModelCluster ModelOps ModelEnergy ModelRecipes ModelStars ModelSubset ModelMassFunction.
From Verif Require Import SpecUnits SpecFrame SpecConv SpecOrder SpecRecipes SpecEnergy SpecStars SpecSubset SpecLagrange SpecProfiles SpecDynamics SpecCentre SpecMassFunction.
Set Implicit Arguments.

(* ------------------------------------------------------------ density profile *)
(* the stars counted: all, or, when stellar types are known, those of types 0 to 15 *)
Definition ordinary (k : catalog) (i : nat) : bool :=
  match e_kw (g_sse k) with [] => true | l => Rleb 0 (nth i l 0) && Rleb (nth i l 0) 15 end.
Definition ordinary_stars (s : system) : list nat := filter (ordinary (y_k s)) (stars (g_c (y_k s))).
(* volume of a shell, area of a ring *)
Definition shell (projected : bool) (lo hi : R) : R := if projected then PI * (hi ^ 2 - lo ^ 2) else 4 / 3 * PI * (hi ^ 3 - lo ^ 3).
(* edges and mean radii (pc) of the equal-number bins of those stars' distances, and the densities (Msun/pc^3, or Msun/pc^2 in
   projection); d and m are the distances and the masses of the stars *)
Definition density_table_of (projected : bool) (s : system) (d m : nat -> R) (nrad : nat) (lo mid hi rho : list R) : Prop :=
  (exists b, nbinmaker (map d (ordinary_stars s)) nrad = Ok b /\ lo = b_lo b /\ mid = b_mid b /\ hi = b_hi b) /\
  adjacent lo hi /\ (length lo <= nrad)%nat /\ length mid = length lo /\ length rho = length lo /\
  forall k, (k < length lo)%nat ->
    0 <= nth k lo 0 < nth k hi 0 /\ nth k lo 0 <= nth k mid 0 <= nth k hi 0 /\ ((S k < length lo)%nat -> nth k mid 0 < nth (S k) mid 0) /\
    exists l, members (nstars (g_c (y_k s))) (fun i => ordinary (y_k s) i = true /\ in_bin lo hi k (d i)) l /\
      nth k rho 0 * shell projected (nth k lo 0) (nth k hi 0) = sumR (map m l).
Definition density_table (G : galpy) (projected : bool) (nrad : nat) (s : system) (lo mid hi rho : list R) : Prop :=
  density_table_of projected s (pc_distance G projected (g_c (y_k s))) (sun_mass G (g_c (y_k s))) nrad lo mid hi rho.
(* there are two such stars at different distances *)
Definition spread (G : galpy) (projected : bool) (s : system) : Prop :=
  exists i j, In i (ordinary_stars s) /\ In j (ordinary_stars s) /\
    pc_distance G projected (g_c (y_k s)) i <> pc_distance G projected (g_c (y_k s)) j.

(* x is where the straight line through (r1, p1) and (r2, p2) has the value d, and lies between them *)
Definition on_chord (r1 p1 r2 p2 d x : R) : Prop :=
  (x - r1) * (p1 - p2) = (p1 - d) * (r2 - r1) /\ Rmin r1 r2 <= x <= Rmax r1 r2.

(* ------------------------------------------------------------ limiting radius *)
(* density of the galaxy at a place (kpc), in Msun/pc^3; the potential's density is given in units in which ro and vo are 1 *)
Definition galaxy_density (G : galpy) (dens : R -> R -> R) (s : scales) (place : R * R) : R :=
  dens (fst place / ro s) (snd place / ro s) * mass_in_msol G (ro s) (vo s) / (1000 * ro s) ^ 3.
(* where a profile falls to the value d: the last radius if it never gets there, 0 if it starts below, otherwise on the chord
   from the last entry not below d to the first entry below *)
Definition falls_to (mid rho : list R) (d x : R) : Prop :=
  (d < last rho 0 -> x = last mid 0) /\
  (last rho 0 <= d -> nth 0 rho 0 < d -> x = 0) /\
  (last rho 0 <= d -> d <= nth 0 rho 0 -> exists k, (S k < length rho)%nat /\ (forall j, (j <= k)%nat -> d <= nth j rho 0) /\
     nth (S k) rho 0 < d /\ on_chord (nth k mid 0) (nth k rho 0) (nth (S k) mid 0) (nth (S k) rho 0) d x).

(* ------------------------------------------------------------ core radius *)
(* star i relative to the centre of the cluster, in pc and km/s; the table of all stars, masses in Msun; the table as seen
   (in projection, without depth) *)
Definition relative6 (a b : six R) : six R :=
  mk6 (sx a - sx b) (sy a - sy b) (sz a - sz b) (svx a - svx b) (svy a - svy b) (svz a - svz b).
Definition central_star (G : galpy) (c : cluster) (i : nat) : six R :=
  let a := star_row c i in let g := p_g (c_ph c) in let o := p_c (c_ph c) in
  view6 (sizes G c) match c_origin c with
  | Some Ocentre => a
  | Some Ocluster => relative6 a o
  | _ => relative6 (relative6 a g) o
  end.
Definition depthless (r : R * six R) : R * six R :=
  (fst r, mk6 (sx (snd r)) (sy (snd r)) 0 (svx (snd r)) (svy (snd r)) (svz (snd r))).
Definition central_table (G : galpy) (projected : bool) (c : cluster) : list (R * six R) :=
  map (fun i => let r := (sun_mass G c i, central_star G c i) in if projected then depthless r else r) (stars c).
Definition central_distance (G : galpy) (projected : bool) (c : cluster) (i : nat) : R := radius6 projected (central_star G c i).
(* mass of the k nearest stars except the farthest, over the cube (in projection the square) of its distance *)
Definition crowding (projected : bool) (t : list (R * six R)) (k i : nat) (rho : R) : Prop :=
  exists N j, nearest_stars t k i N j /\ let d := row_distance (row_at t i) (row_at t j) in
    0 < d /\ rho * (if projected then d ^ 2 else d ^ 3) = sumR (map (fun a => fst (row_at t a)) N) - fst (row_at t j).
(* the core radius of Casertano and Hut: root mean square distance from the centre, weighted by squared densities *)
Definition rms_distance (w d : list R) (x : R) : Prop :=
  0 < sumR (map (fun a => a ^ 2) w) /\ 0 <= x /\
  x ^ 2 * sumR (map (fun a => a ^ 2) w) = sumR (map (fun z => fst z ^ 2 * snd z ^ 2) (combine w d)).
(* the same table around the centre *)
Definition central_densities (G : galpy) (projected : bool) (nrad : nat) (s : system) (lo mid hi rho : list R) : Prop :=
  density_table_of projected s (central_distance G projected (g_c (y_k s))) (sun_mass G (g_c (y_k s))) nrad lo mid hi rho.
Definition central_spread (G : galpy) (projected : bool) (s : system) : Prop :=
  exists i j, In i (ordinary_stars s) /\ In j (ordinary_stars s) /\
    central_distance G projected (g_c (y_k s)) i <> central_distance G projected (g_c (y_k s)) j.
(* x is on the chord from the last entry not below d to the first entry below *)
Definition drops_to (mid rho : list R) (d x : R) : Prop :=
  exists k j, (k < length rho)%nat /\ d <= nth k rho 0 /\ (forall i, (k < i < length rho)%nat -> nth i rho 0 < d) /\
    (j < length rho)%nat /\ nth j rho 0 < d /\ (forall i, (i < j)%nat -> d <= nth i rho 0) /\
    on_chord (nth k mid 0) (nth k rho 0) (nth j mid 0) (nth j rho 0) d x.

(* ------------------------------------------------------------ core relaxation time *)
(* of N stars of total mass M (Msun), core radius rc and half-mass radius rh (pc), in Myr *)
Definition core_relaxation (gamma N M rc rh : R) : R :=
  39 / 100 / ln (gamma * N) * sqrt (rc ^ 3 / (G_pc * M)) * N * sqrt (rc * rh) / (rc + rh) * crossing_Myr.
(* x (pc) is the core radius from densities of k neighbours *)
Definition casertano_radius (G : galpy) (projected : bool) (k : nat) (c : cluster) (x : R) : Prop :=
  exists w, length w = nstars c /\
    (forall i, (i < nstars c)%nat -> crowding projected (central_table G projected c) k i (nth i w 0)) /\
    rms_distance w (map (central_distance G projected c) (stars c)) x.
(* it is undefined: a star and its k - 1 nearest neighbours are at one place, or every density is zero *)
Definition no_core (G : galpy) (projected : bool) (k : nat) (c : cluster) : Prop :=
  (exists i N j, (i < nstars c)%nat /\ nearest_stars (central_table G projected c) k i N j /\
     row_distance (row_at (central_table G projected c) i) (row_at (central_table G projected c) j) = 0) \/
  (forall i, (i < nstars c)%nat -> crowding projected (central_table G projected c) k i 0).

(* ------------------------------------------------------------ virial radius by critical density *)
(* mean densities inside the stars taken in some order, d their distances and m their masses *)
Definition mean_densities (d m : nat -> R) (order : list nat) (P : list R) : Prop :=
  length P = length order /\
  forall k, (k < length order)%nat -> nth k P 0 * (4 / 3 * PI * d (nth k order 0%nat) ^ 3) = sumR (map m (firstn (S k) order)).
(* (x, y) with y = d lies on the straight line through (r1, p1) and (r2, p2) *)
Definition on_line (r1 p1 r2 p2 d x : R) : Prop := (x - r1) * (p1 - p2) = (p1 - d) * (r2 - r1).
(* x is the radius the densities P at the radii r suggest for the density rho: that of the entry nearest in density, at the
   ends; in between, the point of density rho on the line to its neighbour on the other side of rho *)
Definition crosses (r P : list R) (rho x : R) : Prop :=
  let n := length P in
  exists k, (k < n)%nat /\ (forall j, (j < n)%nat -> Rabs (nth k P 0 - rho) <= Rabs (nth j P 0 - rho)) /\
    ((k = 0%nat \/ k = (n - 1)%nat \/ nth k P 0 = rho) /\ x = nth k r 0 \/
     (0 < k < n - 1)%nat /\ nth k P 0 < rho /\ on_line (nth (k - 1) r 0) (nth (k - 1) P 0) (nth k r 0) (nth k P 0) rho x \/
     (0 < k < n - 1)%nat /\ rho < nth k P 0 /\ on_line (nth k r 0) (nth k P 0) (nth (k + 1) r 0) (nth (k + 1) P 0) rho x).
(* when the densities fall outwards, x lies between two neighbouring entries and the densities there enclose rho, unless the
   entry nearest in density is the first or the last *)
Definition crosses_falling (r P : list R) (rho x : R) : Prop :=
  (exists k, (S k < length P)%nat /\ nth (S k) P 0 <= rho <= nth k P 0 /\
     on_chord (nth k r 0) (nth k P 0) (nth (S k) r 0) (nth (S k) P 0) rho x) \/
  (exists k, (k = 0%nat \/ k = (length P - 1)%nat) /\ x = nth k r 0 /\
     forall j, (j < length P)%nat -> Rabs (nth k P 0 - rho) <= Rabs (nth j P 0 - rho)).

(* ------------------------------------------------------------ equipartition mass and kinematic concentration *)
(* f is the fit to the dispersions in at most nmass mass bins of the stars l; the fitting routine gets the smallest and the
   largest mass of all n stars as bounds; the marker -1000 with fewer than 2 nmass stars.  val: masses, speed: speeds. *)
Definition equipartition (fit : R -> R -> list R -> list R -> result line_fit) (val speed : nat -> R) (n : nat) (l : list nat)
    (nmass : nat) (f : line_fit) : Prop :=
  ((length l < 2 * nmass)%nat -> f = mkFit (-1000) (-1000) (-1000) (-1000)) /\
  ((2 * nmass <= length l)%nat -> exists lo hi mean sig, least (map val (seq 0 n)) lo /\ greatest (map val (seq 0 n)) hi /\
     dispersions_of val speed l nmass mean (map (@Some R) sig) /\ fit lo hi mean sig = Ok f).
(* there is no fit: bins have merged, or the fitting routine raised *)
Definition unfitted (fit : R -> R -> list R -> list R -> result line_fit) (val speed : nat -> R) (n : nat) (l : list nat) (nmass : nat) : Prop :=
  (2 * nmass <= length l)%nat /\ exists lo hi mean sig, least (map val (seq 0 n)) lo /\ greatest (map val (seq 0 n)) hi /\
    dispersions_of val speed l nmass mean sig /\
    ((length mean < nmass)%nat \/ exists k, sig = map (@Some R) k /\ fit lo hi mean k = Raise).
(* what the mask given by the caller holds afterwards: exactly the stars picked *)
Definition mask_after (q : selection) (indx : option (list bool)) (s : system) (n : nat) (caller : option (list bool)) : Prop :=
  match indx with
  | None => caller = None
  | Some _ => exists m, caller = Some m /\ length m = n /\ forall i, (i < n)%nat -> nth i m false = true <-> picked q indx s i
  end.
(* the same limits with other limits on the radius, or none *)
Definition within_radii (lo hi : option R) (q : selection) : selection :=
  mkSel lo hi (l_mmin q) (l_mmax q) (l_vmin q) (l_vmax q) (l_emin q) (l_emax q) (l_kwmin q) (l_kwmax q) (l_npop q) (l_projected q).
(* quotient of two numbers, none if the divisor is zero *)
Definition quotient (a b : R) (x : num) : Prop := (b <> 0 -> x = Some (a / b)) /\ (b = 0 -> x = None).
