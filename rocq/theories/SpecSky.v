(* Specification of sky coordinates: (ra, dec, distance, proper motions, radial velocity) are sx sy sz svx svy svz; degrees, kpc, mas/yr, km/s.
   The astrometric transformation of a galactocentric point (kpc, km/s) and its inverse are the parameters to_radec6, of_radec6. *)
From Verif Require Import Base ModelCluster ModelOps SpecUnits SpecFrame SpecEnergy SpecProfiles SpecDynamics SpecTail SpecOrbit.
Set Implicit Arguments.

(* no orbit has been kept in the cluster *)
Definition no_orbits (c : cluster) : Prop := k_orbit (c_sky c) = None /\ k_orbits (c_sky c) = None.
(* s seen from o on the sky: the difference in right ascension is shortened by the cosine of o's declination *)
Definition beside_sky (s o : six R) : six R :=
  mk6 ((sx s - sx o) * cos (sy o * (PI / 180))) (sy s - sy o) (sz s - sz o) (svx s - svx o) (svy s - svy o) (svz s - svz o).
(* the coordinates stored for a star on the sky, the cluster being on the sky at g and its centre at m, for a stored origin *)
Definition on_sky (o : osys) (s g m : six R) : six R :=
  match o with Ocluster => beside_sky s g | Ocentre => beside_sky s m | _ => s end.
(* the origin of the cluster once on the sky *)
Definition sky_origin (o : osys) : osys := match o with Ogalaxy => Osky | o => o end.
(* c' is c in kpc and km/s relative to the galaxy, apart from the centre *)
Definition galactic_copy (G : galpy) (c c' : cluster) : Prop :=
  ready G c' Ukpckms Ogalaxy /\ SpecFrame.aligned c' /\ nstars c' = nstars c /\ c_id c' = c_id c /\ c_sc c' = c_sc c /\
  p_t (galactic_view G c') = p_t (galactic_view G c) /\ p_m (galactic_view G c') = p_m (galactic_view G c) /\
  p_s (galactic_view G c') = p_s (galactic_view G c) /\ p_g (galactic_view G c') = p_g (galactic_view G c).
