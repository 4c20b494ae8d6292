(* Specification of radial profiles: which stars count, where they are, independent of bins, masks and frames. *)
From Verif Require Import Base ModelCluster ModelOps ModelEnergy ModelRecipes ModelStars ModelSubset ModelProfiles.
From Verif Require Import SpecUnits SpecFrame SpecOrder SpecRecipes SpecEnergy SpecStars SpecSubset SpecLagrange.
Set Implicit Arguments.

(* position and velocity of star i relative to the cluster: minus orbit and centre offset when the stored origin is the
   galaxy, as stored otherwise *)
Definition own_star (c : cluster) (i : nat) : six R :=
  let s := p_s (c_ph c) in let g := p_g (c_ph c) in let o := p_c (c_ph c) in
  let sub (f : forall A, six A -> A) := nth i (f _ s) 0 - match c_origin c with Some Ogalaxy => f _ g + f _ o | _ => 0 end in
  mk6 (sub (@sx)) (sub (@sy)) (sub (@sz)) (sub (@svx)) (sub (@svy)) (sub (@svz)).

(* the same stars with those coordinates *)
Definition own_system (s : system) : system :=
  let k := y_k s in let c := g_c k in
  let col (f : six R -> R) := map (fun i => f (own_star c i)) (seq 0 (length (p_m (c_ph c)))) in
  mkSys (set_cluster k (set_stars c (mk6 (col (@sx R)) (col (@sy R)) (col (@sz R)) (col (@svx R)) (col (@svy R)) (col (@svz R))) (c_origin c)))
        (y_kin s) (y_pot s) (y_etot s).

(* star i is asked for: it is in the mask given and satisfies all limits, measured from the cluster *)
Definition asked (q : selection) (indx : option (list bool)) (s : system) (i : nat) : Prop :=
  in_mask indx i /\ satisfies q (own_system s) i.
(* its distance from the cluster, in projection if asked *)
Definition radius_of (q : selection) (s : system) (i : nat) : R := seen_distance (l_projected q) (y_k (own_system s)) i.

(* l lists the stars for which P holds, each once *)
Definition members (n : nat) (P : nat -> Prop) (l : list nat) : Prop :=
  NoDup l /\ forall i, In i l <-> (i < n)%nat /\ P i.

(* consecutive bins from the smallest to the largest radius of the stars asked for *)
Definition covers (q : selection) (indx : option (list bool)) (s : system) (n : nat) (lo hi : list R) : Prop :=
  adjacent lo hi /\ exists l, members n (asked q indx s) l /\ spans (map (radius_of q s) l) lo hi.

(* the stars of row k: asked for, and in bin k; for a cumulative profile, in one of the bins up to k *)
Definition in_row_of (cumulative : bool) (q : selection) (indx : option (list bool)) (s : system) (lo hi : list R) (k i : nat) : Prop :=
  asked q indx s i /\
  if cumulative then exists j, (j <= k)%nat /\ in_bin lo hi j (radius_of q s i) else in_bin lo hi k (radius_of q s i).

(* there are stars to profile, and their radii are not all equal *)
Definition profilable (q : selection) (indx : option (list bool)) (s : system) (n : nat) : Prop :=
  exists i j, (i < n)%nat /\ (j < n)%nat /\ asked q indx s i /\ asked q indx s j /\ radius_of q s i <> radius_of q s j.

(* the cluster object after the call is as before *)
Definition system_restored (s s' : system) : Prop :=
  restored (g_c (y_k s)) (g_c (y_k s')) /\ y_k s' = set_cluster (y_k s) (g_c (y_k s')) /\
  y_kin s' = y_kin s /\ y_pot s' = y_pot s /\ y_etot s' = y_etot s.

(* velocity components of a star *)
Definition radius6 (projected : bool) (p : six R) : R :=
  if projected then sqrt (sx p ^ 2 + sy p ^ 2) else sqrt (sx p ^ 2 + sy p ^ 2 + sz p ^ 2).
Definition radial_velocity (projected : bool) (p : six R) : R :=
  (sx p * svx p + sy p * svy p + (if projected then 0 else sz p * svz p)) / radius6 projected p.
Definition azimuthal_velocity (p : six R) : R := (sx p * svy p - sy p * svx p) / radius6 true p.
Definition polar_velocity (p : six R) : R :=
  (sz p * (sx p * svx p + sy p * svy p) - radius6 true p * radius6 true p * svz p) / (radius6 false p * radius6 true p).
Definition speed6 (projected : bool) (p : six R) : R :=
  if projected then sqrt (svx p ^ 2 + svy p ^ 2) else sqrt (svx p ^ 2 + svy p ^ 2 + svz p ^ 2).

(* the radii returned: the bins' radii, or these divided by the scale h *)
Definition scaled (normalize : bool) (h : option R) (mid r : list R) : Prop :=
  if normalize then exists a, h = Some a /\ r = map (fun x => x / a) mid else r = mid.

(* what must be non-zero for the component to be defined *)
Definition resolved (coord : option vcoord) (projected : bool) (p : six R) : Prop :=
  match coord with
  | Some Cr => radius6 projected p <> 0
  | Some Cphi | Some Ctheta => radius6 true p <> 0
  | _ => True
  end.
Definition component (coord : option vcoord) (projected : bool) (p : six R) : R :=
  match coord with
  | None | Some Cspeed => speed6 projected p
  | Some Cr => radial_velocity projected p
  | Some Cphi => azimuthal_velocity p
  | Some Ctheta => polar_velocity p
  | Some Cx => svx p | Some Cy => svy p | Some Cz => svz p
  end.
(* the combinations of routine, component and projection that the routines support *)
Definition supported (w : statistic) (coord : option vcoord) (projected : bool) : Prop :=
  match coord with
  | Some Ctheta => projected = false
  | Some Cz => projected = true \/ w = Dispersion
  | Some Cx | Some Cy => w <> MeanSquare
  | _ => True
  end.
(* mean, standard deviation, mean square of a sample *)
Definition statistic_of (w : statistic) (l : list R) : R :=
  match w with Dispersion => deviation l | Mean => average l | MeanSquare => average (map (fun x => x ^ 2) l) end.

(* velocity anisotropy of a sample of stars *)
Definition anisotropy (projected : bool) (l : list (six R)) : R :=
  let sr := deviation (map (radial_velocity projected) l) in
  let sp := deviation (map azimuthal_velocity l) in
  let st := deviation (map polar_velocity l) in
  if projected then sp / sr - 1 else 1 - (st ^ 2 + sp ^ 2) / (2 * sr ^ 2).

(* (r, v) is a point of the circular velocity curve: a star sits at distance r; v is the circular speed of the mass M
   inside r, counting all the stars strictly closer and none farther; when no two stars are at the same distance, M is the
   mass of the stars up to and including r *)
Definition rotation_point (grav : R) (d m : list R) (r v : R) : Prop :=
  In r d /\ exists M, v = sqrt (grav * M / r) /\ weight_inside d m r <= M <= weight_within d m r /\
    (NoDup d -> M = weight_within d m r).

(* what a profile is asked of: a cluster object of n stars with up-to-date radii, energies if the selection needs them, a
   mask of the right length *)
Definition profile_input (G : galpy) (q : selection) (indx : option (list bool)) (s : system) (n : nat) : Prop :=
  (exists u o, ready G (g_c (y_k s)) u o) /\ analyze true true (g_c (y_k s)) = g_c (y_k s) /\ measured s n /\
  energies_known q s n /\ mask_fits indx n.
(* and, where radial orders and half-mass radii matter: orders that really sort, masses that are not all zero *)
Definition weighed (G : galpy) (projected : bool) (c : cluster) : Prop :=
  positive_scales G (c_sc c) /\ well_sorted projected c /\ nonneg (p_m (c_ph c)) /\ 0 < sumR (p_m (c_ph c)).
