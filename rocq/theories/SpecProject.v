(* Specification of projections on the sky: a direction is a unit vector; the plane that touches the sphere at (a0, d0) is spanned by the vectors pointing east and
   north there.  Angles in radians. *)
From Verif Require Import Base ModelCluster ModelProject SpecSky.

Definition vec := (R * R * R)%type.
Definition dot (u v : vec) : R := let '(a, b, c) := u in let '(x, y, z) := v in a * x + b * y + c * z.
Definition direction (ra dec : R) : vec := (cos dec * cos ra, cos dec * sin ra, sin dec).
Definition east (ra : R) : vec := (- sin ra, cos ra, 0).
Definition north (ra dec : R) : vec := (- (sin dec * cos ra), - (sin dec * sin ra), cos dec).
Definition rads (degrees : R) : R := degrees * (PI / 180).
Definition degs (radians : R) : R := radians * (180 / PI).
Definition toward (p : six R) : vec := direction (rads (sx p)) (rads (sy p)).
Definition east_of (p : six R) : vec := east (rads (sx p)).
Definition north_of (p : six R) : vec := north (rads (sx p)) (rads (sy p)).

(* how stars are centred on the sky: by differences, by projection of positions alone, or by projection of positions and motions *)
Inductive style := Plain | Positions | Full.
(* the documented strings; anything else counts as none *)
Definition style_of (m : option centring) : style :=
  match m with Some Orthographic => Full | Some VandeVen => Positions | _ => Plain end.
(* place of the direction of s on the plane touching the sphere at p, degrees *)
Definition place_x (s p : six R) : R := degs (dot (toward s) (east_of p)).
Definition place_y (s p : six R) : R := degs (dot (toward s) (north_of p)).
(* motion of the place on that plane: the east and north unit vectors at the star, times the proper motions, projected *)
Definition motion_x (s p : six R) : R := svx s * dot (east_of s) (east_of p) + svy s * dot (north_of s) (east_of p).
Definition motion_y (s p : six R) : R := svx s * dot (east_of s) (north_of p) + svy s * dot (north_of s) (north_of p).
(* s seen from p, where g is the position and motion of the cluster *)
Definition seen_from (w : style) (s p g : six R) : six R :=
  match w with
  | Plain => beside_sky s p
  | Positions => mk6 (place_x s p) (place_y s p) (sz s - sz p) (svx s - svx p) (svy s - svy p) (svz s - svz p)
  | Full => mk6 (place_x s p) (place_y s p) (sz s - sz p) (motion_x s p - svx g) (motion_y s p - svy g) (svz s - svz p)
  end.
(* s as stored for an origin, the cluster being at g and its centre at m *)
Definition on_sky_by (w : style) (o : osys) (s g m : six R) : six R :=
  match o with Ocluster => seen_from w s g g | Ocentre => seen_from w s m g | _ => s end.

(* what is known after a history of requests: origin, style of the coordinates, style kept for later requests *)
Record seen (M : Type) := mkSeen { se_origin : osys; se_used : option M; se_kept : option M }.
Arguments se_origin {M}. Arguments se_used {M}. Arguments se_kept {M}.
Definition newest {M : Type} (q m : option M) : option M := match q with None => m | Some a => Some a end.
(* a method named is kept; it is used when the origin changes *)
Definition follow {M : Type} (e : seen M) (r : target * option M) : seen M :=
  let '(t, q) := r in
  match t, se_origin e with
  | To_sky, _ => mkSeen M Osky None (se_kept e)
  | To_cluster, Ocluster => mkSeen M Ocluster (se_used e) (newest q (se_kept e))
  | To_centre, Ocentre => mkSeen M Ocentre (se_used e) (newest q (se_kept e))
  | To_cluster, _ => mkSeen M Ocluster (newest q (se_kept e)) (newest q (se_kept e))
  | To_centre, _ => mkSeen M Ocentre (newest q (se_kept e)) (newest q (se_kept e))
  end.
(* after to_radec from a linear frame: without an origin at the cluster the method named is forgotten *)
Definition first_seen {M : Type} (q m : option M) (o : osys) : seen M :=
  match o with
  | Ocluster => mkSeen M Ocluster (newest q m) (newest q m)
  | Ocentre => mkSeen M Ocentre (newest q m) (newest q m)
  | _ => mkSeen M Osky None m
  end.
