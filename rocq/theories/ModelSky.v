(* Orbits kept in the cluster, which to_radec and from_radec (ModelOps) use instead of the cluster's own data. Models the methods of
   cluster.py:840-1002 (add_orbit with initialize), 3310-3366, 3574-3625 for units other than radec. *)
From Verif Require Import Base ModelCluster ModelOps ModelConv ModelStars ModelLoad ModelTail ModelOrbit.
Set Implicit Arguments.

(* o.x(), ..., o.vz() without a time, also of an integrated Orbit: its initial point, kpc and km/s *)
Definition initial (o : orbit) : six R := physical o (ob_at o).
Definition keep_orbit (o : orbit) (c : cluster) : cluster :=
  let k := c_sky c in set_sky c (mkSk (k_s k) (k_gc k) (k_c k) (Some (initial o)) (k_orbits k) (k_xcn k)).
Definition keep_orbits (os : list orbit) (c : cluster) : cluster :=
  let k := c_sky c in set_sky c (mkSk (k_s k) (k_gc k) (k_c k) (k_orbit k) (Some (map initial os)) (k_xcn k)).

Section WithGalpy.
Variable G : galpy.
(* cluster.py:3310-3338 *)
Definition initialize_orbit_method (from_centre : bool) (r v : option R) (c : cluster) : orbit * cluster :=
  let '(o, c') := initialize_orbit G from_centre r v c in (o, keep_orbit o c').
(* cluster.py:3340-3366 *)
Definition initialize_orbits_method (r v : option R) (c : cluster) : list orbit * cluster :=
  let '(os, c') := initialize_orbits G r v c in (os, keep_orbits os c').
(* cluster.py:3574-3625 without skypath and plot *)
Definition orbital_path_method (ev : evolution) (tfinal : option R) (nt : nat) (from_centre initialize : bool) (r v : option R) (c : cluster)
    : result (path * cluster) :=
  bind (orbital_path G ev tfinal nt from_centre r v c) (fun q =>
  let '(pth, o, c') := q in Ok (pth, if initialize then keep_orbit o c' else c')).
(* cluster.py:839-1002 with initialize=True *)
Definition add_orbit_initialize (p : six R) (ounits : option usys) (tphys : option R) (from_centre : bool) (c : cluster) : cluster :=
  let c1 := add_orbit G p ounits tphys c in
  match c_origin c1 with
  | Some Ogalaxy | Some Osky => snd (initialize_orbit_method from_centre (Some (ro (c_sc c))) (Some (vo (c_sc c))) c1)
  | o => to_origin G (oreq_of o) true (snd (initialize_orbit_method from_centre (Some (ro (c_sc c))) (Some (vo (c_sc c))) (to_galaxy G true c1)))
  end.
End WithGalpy.
