(* Specification of orbits; the evolution of a point in the potential is a parameter. *)
From Verif Require Import Base ModelCluster ModelOps ModelEnergy.
From Verif Require Import SpecUnits SpecFrame SpecConv SpecEnergy SpecProfiles SpecDynamics SpecTail.
Set Implicit Arguments.

(* ev t0 t p is where the point p of time t0 is at time t; a lawful evolution is a flow *)
Definition lawful (ev : R -> R -> six R -> six R) : Prop :=
  (forall t p, ev t t p = p) /\ forall t0 t1 t2 p, ev t1 t2 (ev t0 t1 p) = ev t0 t2 p.
(* a phase-space point in units of 1 kpc and 1 km/s, given in units in which ro kpc and vo km/s are 1, and back *)
Definition in_kpc (ro vo : R) (p : six R) : six R := mk6 (sx p * ro) (sy p * ro) (sz p * ro) (svx p * vo) (svy p * vo) (svz p * vo).
Definition natural (ro vo : R) (p : six R) : six R := mk6 (sx p / ro) (sy p / ro) (sz p / ro) (svx p / vo) (svy p / vo) (svz p / vo).
(* the cluster's own orbit, or its centre, in kpc and km/s *)
Definition orbit_kpc (G : galpy) (c : cluster) (from_centre : bool) : six R :=
  let v := galactic_view G c in
  let p := if from_centre then plus6 (p_g v) (p_c v) else p_g v in mk6 (sx p / 1000) (sy p / 1000) (sz p / 1000) (svx p) (svy p) (svz p).
(* q, in units of size z, is the point p given in kpc and km/s: positions, velocities *)
Definition place_is (z : usize) (q p : six R) : Prop :=
  sx q * in_pc z = 1000 * sx p /\ sy q * in_pc z = 1000 * sy p /\ sz q * in_pc z = 1000 * sz p.
Definition motion_is (z : usize) (q p : six R) : Prop :=
  svx q * in_kms z = svx p /\ svy q * in_kms z = svy p /\ svz q * in_kms z = svz p.
(* a duration in the units of the cluster, or the default in Gyr, in units of size galpy *)
Definition duration (G : galpy) (c : cluster) (u : usys) (default_Gyr : R) (t : option R) : R :=
  match t with Some t => t * in_Myr (unit_size G (c_sc c) u) | None => 1000 * default_Gyr end / in_Myr (unit_size G (c_sc c) Ugalpy).
(* a duration read as Gyr whatever the units of the cluster are *)
Definition gyr (tfinal : option R) : R := match tfinal with Some t => t | None => 1 / 10 end.
(* n equally spaced times from a to b *)
Definition spaced (a b : R) (n j : nat) : R := a + INR j * ((b - a) / INR (n - 1)).
(* pth samples the orbit of the cluster (or its centre) in the evolution ev from T Gyr ago to T Gyr ahead at nt times; Gyr, kpc, km/s *)
Definition own_path (G : galpy) (ev : R -> R -> six R -> six R) (c : cluster) (from_centre : bool) (T : R) (nt : nat) (pth : list (R * six R)) : Prop :=
  let r := ro (c_sc c) in let v := vo (c_sc c) in let g := in_Myr (unit_size G (c_sc c) Ugalpy) / 1000 in
  length pth = nt /\ forall j, (j < nt)%nat -> let t := spaced (- T) T nt j in
    nth j pth (0, zero6) = (t, in_kpc r v (ev 0 (t / g) (natural r v (orbit_kpc G c from_centre)))).
(* star i relative to the cluster's orbit, galactic axes, pc and km/s *)
Definition beside (G : galpy) (c : cluster) (i : nat) : vec * vec :=
  let v := galactic_view G c in (minus3 (place (row (p_s v) i)) (place (p_g v)), minus3 (motion (row (p_s v) i)) (motion (p_g v))).
(* star i as stored, relative to the origin of the cluster, kpc and km/s *)
Definition stored_kpc (G : galpy) (c : cluster) (u : usys) (i : nat) : six R :=
  let z := unit_size G (c_sc c) u in let p := row (p_s (c_ph c)) i in
  mk6 (sx p * in_pc z / 1000) (sy p * in_pc z / 1000) (sz p * in_pc z / 1000) (svx p * in_kms z) (svy p * in_kms z) (svz p * in_kms z).
(* ------------------------------------------------------------ tail paths *)
(* v lies between upper edges k-1 and k; the first cell has no lower and the last no upper limit *)
Definition cell (hi : list R) (k : nat) (v : R) : Prop :=
  (k < length hi)%nat /\ (k = 0%nat \/ nth (k - 1) hi 0 <= v) /\ (v < nth k hi 0 \/ S k = length hi).
(* a distance in units of size y is at most d, in units of size z; nan never is *)
Definition near (y z : usize) (dmax : option R) (x : num) : Prop :=
  match dmax, x with None, _ => True | Some _, None => False | Some d, Some a => Rabs a * in_pc y <= d * in_pc z end.
Definition mean6 (l : list (six R)) : six R :=
  let m (f : six R -> R) := sumR (map f l) / INR (length l) in mk6 (m (@sx R)) (m (@sy R)) (m (@sz R)) (m (@svx R)) (m (@svy R)) (m (@svz R)).
(* out has one point for every bin j that has members among the n stars, in order: the time mid j and the mean position of the members,
   and their mean velocity if vel *)
Definition tail_points (n : nat) (member : nat -> nat -> Prop) (mid : list R) (pos : nat -> six R) (z : usize) (vel : Prop) (out : list (R * six R)) : Prop :=
  exists js, (forall a b, (a < b)%nat -> (b < length js)%nat -> (nth a js 0 < nth b js 0)%nat) /\
    (forall j, In j js <-> (j < length mid)%nat /\ exists i, (i < n)%nat /\ member j i) /\ length out = length js /\
    forall k, (k < length js)%nat -> let j := nth k js 0%nat in
      exists sel rest, Permutation (seq 0 n) (sel ++ rest) /\ Forall (member j) sel /\ Forall (fun i => ~ member j i) rest /\
        fst (nth k out (0, zero6)) * in_Myr z = 1000 * nth j mid 0 /\
        place_is z (snd (nth k out (0, zero6))) (mean6 (map pos sel)) /\ (vel -> motion_is z (snd (nth k out (0, zero6))) (mean6 (map pos sel))).
