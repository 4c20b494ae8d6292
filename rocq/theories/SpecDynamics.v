(* Specification of the tidal radius, relaxation times, N-body scales and rotation, in pc, Msun, km/s, Myr, independent of the
   frames the routines work in. *)
From Verif Require Import Base ModelCluster ModelOps ModelEnergy.
From Verif Require Import SpecUnits SpecFrame SpecConv SpecRecipes SpecEnergy SpecLagrange SpecProfiles.
Set Implicit Arguments.

(* sizes of the units the cluster is stored in *)
Definition sizes (G : galpy) (c : cluster) : usize :=
  match c_units c with Some u => unit_size G (c_sc c) u | None => mkSize 1 1 1 1 end.
(* distance from the cluster in pc, speed relative to it in km/s, mass in Msun of star i *)
Definition pc_distance (G : galpy) (projected : bool) (c : cluster) (i : nat) : R := own_distance projected c i * in_pc (sizes G c).
Definition kms_speed (G : galpy) (projected : bool) (c : cluster) (i : nat) : R := speed6 projected (own_star c i) * in_kms (sizes G c).
Definition sun_mass (G : galpy) (c : cluster) (i : nat) : R := mass c i * in_Msun (sizes G c).
Definition stars (c : cluster) : list nat := seq 0 (nstars c).
Definition total_mass (G : galpy) (c : cluster) : R := sumR (map (sun_mass G c) (stars c)).

(* ------------------------------------------------------------ tidal radius *)
Definition in_selection (indx : option (list bool)) (i : nat) : bool := match indx with Some m => nth i m false | None => true end.
(* mass, in Msun, of the selected stars, and of those closer to the cluster than d (pc) *)
Definition selected_mass (G : galpy) (c : cluster) (indx : option (list bool)) : R :=
  sumR (map (sun_mass G c) (filter (in_selection indx) (stars c))).
Definition mass_closer (G : galpy) (c : cluster) (indx : option (list bool)) (d : R) : R :=
  sumR (map (sun_mass G c) (filter (fun i => in_selection indx i && Rltb (pc_distance G false c i) d) (stars c))).
(* where the cluster is in its galaxy: cylindrical radius and height in kpc, of the orbit (from_centre: of the centre) *)
Definition place_kpc (G : galpy) (c : cluster) (rgc zgc : option R) (from_centre : bool) : R * R :=
  let k := in_pc (sizes G c) / 1000 in let g := p_g (c_ph c) in let o := p_c (c_ph c) in
  let at_ (a b : R) := (a + if from_centre then b else 0) * k in
  (match rgc with Some a => a | None => sqrt (at_ (sx g) (sx o) ^ 2 + at_ (sy g) (sy o) ^ 2) end,
   match zgc with Some a => a | None => at_ (sz g) (sz o) end).
(* the tidal radius, in pc, of a mass in Msun at that place; the potential is described by rtide in units in which ro and vo
   are 1 *)
Definition tide_pc (G : galpy) (rtide : R -> R -> R -> R) (s : scales) (place : R * R) (M : R) : R :=
  rtide (fst place / ro s) (snd place / ro s) (M / mass_in_msol G (ro s) (vo s)) * (1000 * ro s).
(* more mass, larger tidal radius; no mass, no tidal radius *)
Definition tidal_law (rtide : R -> R -> R -> R) : Prop :=
  forall a z, rtide a z 0 = 0 /\ forall M M', 0 <= M <= M' -> rtide a z M <= rtide a z M'.

(* ------------------------------------------------------------ relaxation *)
(* 1 pc / (1 km/s) in Myr, with a parsec of 3.086e13 km and a year of 365 days *)
Definition crossing_Myr : R := (3086 * 10 ^ 10) / (365 * 86400 * 10 ^ 6).
(* Spitzer's half-mass relaxation time of N stars of total mass M within the half-mass radius h *)
Definition spitzer_half_mass (gamma N M h : R) : R :=
  138 / 1000 * N * sqrt (h ^ 3 / (G_pc * M)) / ln (gamma * N) * crossing_Myr.
(* relaxation time at density rho (stars per pc^3) of stars of mean mass mbar and mean square speed v2, N stars in all *)
Definition spitzer_local (gamma N mbar rho v2 : R) : R :=
  sqrt v2 ^ 3 / (154 / 10 * G_pc ^ 2 * mbar ^ 2 * rho * ln (gamma * N)) * crossing_Myr.

(* ------------------------------------------------------------ N-body scales *)
(* the stars as point masses, pc and Msun *)
Definition sun_bodies (G : galpy) (projected : bool) (c : cluster) : list star4 :=
  map (dilate (in_pc (sizes G c)) (in_Msun (sizes G c))) (bodies_seen projected c).
Definition close_to (eps a b : R) : Prop := Rabs (a - b) <= eps * Rabs b.

(* ------------------------------------------------------------ rotation *)
(* angular momentum per mass about the z axis, of a star *)
Definition spin (p : six R) : R := sx p * svy p - sy p * svx p.
Definition star_row (c : cluster) (i : nat) : six R := map6 (fun l => nth i l 0) (p_s (c_ph c)).
Definition same_place (p q : six R) : Prop := sx q = sx p /\ sy q = sy p /\ sz q = sz p.
(* the horizontal velocity component along the line from the z axis, times the distance from it *)
Definition outward (p : six R) : R := sx p * svx p + sy p * svy p.
(* the velocity reflected in the plane through the z axis and the star *)
Definition counter_turned (p q : six R) : Prop :=
  same_place p q /\ svz q = svz p /\ svx q ^ 2 + svy q ^ 2 = svx p ^ 2 + svy p ^ 2 /\ outward q = outward p /\ spin q = - spin p.

(* scales of mass (Msun), length (pc), speed (km/s) and time (Myr) in which the gravitational constant is one and which go
   together, to one part in a thousand *)
Definition nbody_scales (z r v t : R) : Prop :=
  0 < z /\ 0 < r /\ 0 < v /\ 0 < t /\ close_to (1 / 1000) (v ^ 2 * r) (G_pc * z) /\ close_to (1 / 1000) (t * (v * kms_in_pcmyr)) r.
(* the virial radius of point masses: M^2 / (2 sum m_i m_j / r_ij) *)
Definition virial_pc (l : list star4) (ps : list (nat * nat)) : R := sumR (map fm l) ^ 2 / (2 * inverse_distance l ps).
(* one star under rotation with fraction qrot, d its random number: left alone if d >= qrot; otherwise it ends up turning
   forward, by reflection if need be *)
Definition rotated (qrot d : R) (p q : six R) : Prop :=
  (qrot <= d -> q = p) /\ (d < qrot -> spin q = Rabs (spin p) /\ (q = p \/ counter_turned p q)).
