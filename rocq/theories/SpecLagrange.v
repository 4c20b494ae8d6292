(* Specification of Lagrange radii: distances measured from the cluster's own centre, independent of how the routine
   sorts, shifts or rescales. *)
From Verif Require Import Base ModelCluster ModelOps SpecUnits SpecFrame SpecOrder SpecRecipes SpecEnergy.

(* what to subtract from stored coordinates to measure from the cluster: nothing when the stored origin is the cluster
   or its centre, orbit + centre offset when the stored origin is the galaxy *)
Definition own_centre (c : cluster) : R * R * R :=
  let g := p_g (c_ph c) in let o := p_c (c_ph c) in
  match c_origin c with
  | Some Ogalaxy => (sx g + sx o, sy g + sy o, sz g + sz o)
  | _ => (0, 0, 0)
  end.
Definition own_distance (projected : bool) (c : cluster) (k : nat) : R :=
  let s := p_s (c_ph c) in let '(x, y, z) := own_centre c in
  sqrt ((nth k (sx s) 0 - x) ^ 2 + (nth k (sy s) 0 - y) ^ 2 + (if projected then 0 else (nth k (sz s) 0 - z) ^ 2)).
Definition own_distances (projected : bool) (c : cluster) : list R :=
  map (own_distance projected c) (seq 0 (nstars c)).

(* a cluster whose derived quantities are up to date and whose recorded radial order (and, for projected use, projected
   order) really sorts the stars *)
Definition well_sorted (projected : bool) (c : cluster) : Prop :=
  analyze true true c = c /\
  (exists o, d_rorder (c_der c) = Some o /\ sorted_order o (distances c)) /\
  (projected = true -> exists o, d_rproorder (c_der c) = Some o /\ sorted_order o (distances_2d c)).

(* rn is the table of n Lagrange radii: entry i (from 0) is the radius of fraction (i+1)/n, the last one reaches every star *)
Definition lagrange_table (n : nat) (r m rn : list R) : Prop :=
  length rn = n /\
  (forall i, (i + 1 < n)%nat -> is_fraction_radius (INR (i + 1) / INR n) r m (nth i rn 0)) /\
  greatest r (nth (n - 1) rn 0) /\
  (forall i j, (i <= j < n)%nat -> nth i rn 0 <= nth j rn 0).
