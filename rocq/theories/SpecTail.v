(* Specification of the tidal-tail frame, of matching stars to a path and of orbits; independent of the way the code computes them. *)
From Verif Require Import Base ModelCluster ModelOps ModelEnergy.
From Verif Require Import SpecUnits SpecFrame SpecEnergy SpecProfiles SpecDynamics.
Set Implicit Arguments.

(* ------------------------------------------------------------ vectors and rotations *)
Definition vec := (R * R * R)%type.
Definition dot3 (a b : vec) : R := let '(x, y, z) := a in let '(u, v, w) := b in x * u + y * v + z * w.
(* signed volume of the parallelepiped: positive for a right-handed triple *)
Definition volume (a b c : vec) : R :=
  let '(x, y, z) := a in let '(u, v, w) := b in let '(p, q, r) := c in
  x * (v * r - w * q) - y * (u * r - w * p) + z * (u * q - v * p).
Definition len3 (a : vec) : R := sqrt (dot3 a a).
Definition minus3 (a b : vec) : vec := let '(x, y, z) := a in let '(u, v, w) := b in (x - u, y - v, z - w).
Definition place (p : six R) : vec := (sx p, sy p, sz p).
Definition motion (p : six R) : vec := (svx p, svy p, svz p).
(* a rotation keeps lengths, angles and handedness; a mirror image reverses handedness *)
Definition is_rotation (f : vec -> vec) : Prop :=
  (forall a b, dot3 (f a) (f b) = dot3 a b) /\ (forall a b c, volume (f a) (f b) (f c) = volume a b c).
Definition is_mirror (f : vec -> vec) : Prop :=
  (forall a b, dot3 (f a) (f b) = dot3 a b) /\ (forall a b c, volume (f a) (f b) (f c) = - volume a b c).
(* star i of six arrays *)
Definition row (s : six (list R)) (i : nat) : six R := map6 (fun l => nth i l 0) s.
(* the arrays s are the stars of the cluster, seen from the cluster, under f *)
Definition seen_under (f : vec -> vec) (c : cluster) (s : six (list R)) : Prop :=
  forall i, (i < nstars c)%nat ->
    place (row s i) = f (place (own_star c i)) /\ motion (row s i) = f (motion (own_star c i)).

(* ------------------------------------------------------------ paths *)
(* star i relative to the galactic centre, kpc and km/s *)
Definition star_kpc (G : galpy) (c : cluster) (i : nat) : six R :=
  let p := row (p_s (galactic_view G c)) i in mk6 (sx p / 1000) (sy p / 1000) (sz p / 1000) (svx p) (svy p) (svz p).
(* distance, in the x,y plane if projected *)
Definition gap (projected : bool) (p q : six R) : R :=
  sqrt ((sx p - sx q) ^ 2 + (sy p - sy q) ^ 2 + if projected then 0 else (sz p - sz q) ^ 2).
(* k is the first point of the path that no other point is closer than *)
Definition nearest (projected : bool) (pts : list (six R)) (s : six R) (k : nat) : Prop :=
  (k < length pts)%nat /\ (forall j, (j < length pts)%nat -> gap projected (nth k pts zero6) s <= gap projected (nth j pts zero6) s) /\
  (forall j, (j < k)%nat -> gap projected (nth k pts zero6) s < gap projected (nth j pts zero6) s).
(* p is the progenitor's point: the first whose time is closest to zero *)
Definition now (ts : list R) (p : nat) : Prop :=
  (p < length ts)%nat /\ (forall j, (j < length ts)%nat -> Rabs (nth p ts 0) <= Rabs (nth j ts 0)) /\
  (forall j, (j < p)%nat -> Rabs (nth p ts 0) < Rabs (nth j ts 0)).
(* the star is on the side of the plane of motion at p opposite to the angular momentum *)
Definition below_orbit (p s : six R) : Prop := volume (minus3 (place s) (place p)) (place p) (motion p) < 0.
(* d is the distance of s to the straight line through p and q, q different from p *)
Definition line_point (p q : six R) (t : R) : six R :=
  mk6 (sx p + t * (sx q - sx p)) (sy p + t * (sy q - sy p)) (sz p + t * (sz q - sz p)) 0 0 0.
Definition line_distance (projected : bool) (p q s : six R) (d : R) : Prop :=
  (exists t, gap projected (line_point p q t) s = d) /\ (forall t, d <= gap projected (line_point p q t) s).
(* the segment of the path at point k: to the next point, or for the last point from the previous one *)
Definition segment (pts : list (six R)) (k : nat) : nat * nat :=
  if Nat.ltb (S k) (length pts) then (k, S k) else (k - 1, k)%nat.
(* length of the path between points i and j, i <= j *)
Definition arc (projected : bool) (pts : list (six R)) (i j : nat) : R :=
  sumR (map (fun k => gap projected (nth k pts zero6) (nth (S k) pts zero6)) (seq i (j - i))).
(* the path runs along one straight line without turning back *)
Definition straight (pts : list (six R)) : Prop :=
  exists (base u : vec) (s : nat -> R), (forall j k, (j <= k)%nat -> (k < length pts)%nat -> s j <= s k) /\
    forall k, (k < length pts)%nat -> let '(a, b, c) := base in let '(x, y, z) := u in
      place (nth k pts zero6) = (a + s k * x, b + s k * y, c + s k * z).
(* j is the first point of the path whose y is closest to y *)
Definition level (pts : list (six R)) (y : R) (j : nat) : Prop :=
  (j < length pts)%nat /\ (forall k, (k < length pts)%nat -> Rabs (sy (nth j pts zero6) - y) <= Rabs (sy (nth k pts zero6) - y)) /\
  (forall k, (k < j)%nat -> Rabs (sy (nth j pts zero6) - y) < Rabs (sy (nth k pts zero6) - y)).
(* the sign g of the distance of star s matched to point k *)
Definition side (b : bool) (pts : list (six R)) (k : nat) (s : six R) (g : R) : Prop :=
  if b then exists j, level pts (sy s) j /\ (sy (nth j pts zero6) < sy s -> g = -1) /\ (sy (nth j pts zero6) = sy s -> g = 0) /\ (sy s < sy (nth j pts zero6) -> g = 1)
  else (below_orbit (nth k pts zero6) s -> g = -1) /\ (~ below_orbit (nth k pts zero6) s -> g = 1).
(* what is reported for a star at s (kpc): the time of the nearest point, its progress D along the path relative to that of point p, and the
   distance to that point or, if tp, to the line through the segment there; z the units of the results *)
Definition star_match (b tp : bool) (z : usize) (ts : list R) (pts : list (six R)) (D : nat -> R) (p : nat) (s : six R) (out : R * R * num) : Prop :=
  exists k g, nearest b pts s k /\ side b pts k s g /\
    fst (fst out) * in_Myr z = 1000 * nth k ts 0 /\ snd (fst out) * in_pc z = 1000 * (D k - D p) /\
    (tp = false -> exists x, snd out = Some x /\ x * in_pc z = 1000 * (g * gap b (nth k pts zero6) s)) /\
    (tp = true -> let e := gap b (nth (fst (segment pts k)) pts zero6) (nth (snd (segment pts k)) pts zero6) in
       (e <> 0 -> gap b (nth k pts zero6) s <> 0 -> exists x d, snd out = Some x /\ x * in_pc z = 1000 * (g * d) /\ 0 <= d /\
           line_distance b (nth (fst (segment pts k)) pts zero6) (nth (snd (segment pts k)) pts zero6) s d) /\
       (e = 0 \/ gap b (nth k pts zero6) s = 0 -> snd out = None)).
