(* Tidal-tail frame and matching of stars to a path.  Models clustertools/tidaltail/tails.py:33-89 and
   clustertools/analysis/orbits.py:769-1013 (skypath=False, without plotting). *)
From Verif Require Import Base ModelCluster ModelOps ModelConv ModelEnergy ModelRecipes ModelCoords ModelLagrange ModelProfiles.
Set Implicit Arguments.

(* ------------------------------------------------------------ galpy's rotation matrix *)
(* np.array([a, b, c]) *)
Record vec3 := mk3 { v1 : R; v2 : R; v3 : R }.
Record mat3 := mkM { m00 : R; m01 : R; m02 : R; m10 : R; m11 : R; m12 : R; m20 : R; m21 : R; m22 : R }.
(* np.cross *)
Definition np_cross (a b : vec3) : vec3 :=
  mk3 (v2 a * v3 b - v3 a * v2 b) (v3 a * v1 b - v1 a * v3 b) (v1 a * v2 b - v2 a * v1 b).
Definition np_norm (a : vec3) : R := sqrt (v1 a ^ 2 + v2 a ^ 2 + v3 a ^ 2).
Definition np_over (a : vec3) (k : R) : vec3 := mk3 (v1 a / k) (v2 a / k) (v3 a / k).
(* galpy.util._rotate_to_arbitrary_vector(v, a, inv=False, _dontcutsmall=False), called at tails.py:62-64.  galpy is not in the
   sandbox: the formula is the published one (version 1.x).  None: v = 0, every entry is nan. *)
Definition rotate_to (v a : vec3) : option mat3 :=
  if Reqb (np_norm v) 0 then None else
  let n := np_over v (np_norm v) in
  let q := np_cross n a in
  let e := np_over q (np_norm q) in                                (* nan if v and a are parallel: overwritten below *)
  let co := v1 n * v1 a + v2 n * v2 a + v3 n * v3 a in
  let si := sqrt (1 - co ^ 2) in
  let out d x ei ek := co * d - si * x + (1 - co) * (ei * ek) in     (* cos I - sin K + (1 - cos) e e^T *)
  if Rltb (Rabs (co - 1)) (1 / 10 ^ 10) then Some (mkM 1 0 0 0 1 0 0 0 1)
  else if Rltb (Rabs (co + 1)) (1 / 10 ^ 10) then Some (mkM (-1) 0 0 0 (-1) 0 0 0 (-1))
  else Some (mkM (out 1 0 (v1 e) (v1 e)) (out 0 (- v3 e) (v1 e) (v2 e)) (out 0 (v2 e) (v1 e) (v3 e))
                 (out 0 (v3 e) (v2 e) (v1 e)) (out 1 0 (v2 e) (v2 e)) (out 0 (- v1 e) (v2 e) (v3 e))
                 (out 0 (- v2 e) (v3 e) (v1 e)) (out 0 (v1 e) (v3 e) (v2 e)) (out 1 0 (v3 e) (v3 e))).

Section WithGalpy.
Variable G : galpy.

(* tails.py:66-83 for one star: the transpose of rot is applied *)
Definition tail_row (m : mat3) (p : six R) : six R :=
  let f a b c := (a * m00 m + b * m10 m + c * m20 m, a * m01 m + b * m11 m + c * m21 m, a * m02 m + b * m12 m + c * m22 m) in
  let '(x, y, z) := f (sx p) (sy p) (sz p) in let '(u, v, w) := f (svx p) (svy p) (svz p) in mk6 x y z u v w.
(* tails.py:33-89; None: all values are nan *)
Definition to_tail (c : cluster) : option (six (list R)) * cluster :=
  let c1 := if off_centre c then to_centre false c else c in
  let g := p_g (c_ph c1) in
  (option_map (fun m => unstack6 (map (tail_row m) (rows6 (p_s (c_ph c1))))) (rotate_to (mk3 (svx g) (svy g) (svz g)) (mk3 1 0 0)),
   return_cluster G (save_cluster c) c1).

(* ------------------------------------------------------------ matching stars to a path *)
(* a path: times and phase-space points, the rows of the seven arrays (t, x, y, z, vx, vy, vz); arrays of different lengths are
   not modelled *)
Definition path := list (R * six R).
(* np.argmin: the first position of the least entry *)
Definition argmin (l : list R) : nat := match amin l with Some m => index_of m l | None => 0%nat end.
(* orbits.py:874-887: dr of one star and one point *)
Definition sep (projected : bool) (p s : six R) : R :=
  let dx := sx p - sx s in let dy := sy p - sy s in let dz := sz p - sz s in
  if projected then sqrt (dx ^ 2 + dy ^ 2) else sqrt (dx ^ 2 + dy ^ 2 + dz ^ 2).
(* orbits.py:893-895 *)
Definition diffs (l : list R) : list R := zip_with (fun a b => b - a) l (tl l).
(* orbits.py:897-903 *)
Definition progress (l : list R) : list R := 0 :: cumsum (map Rabs (diffs l)).
(* orbits.py:905-908 *)
Definition dprogr (projected : bool) (pts : list (six R)) : list R :=
  let dx := progress (map (@sx R) pts) in let dy := progress (map (@sy R) pts) in let dz := progress (map (@sz R) pts) in
  if projected then norm2 dx dy else norm3 dx dy dz.
(* orbits.py:914-916: the last difference is repeated; None is the IndexError on a path of one point *)
Definition forward (l : list R) : option (list R) :=
  match rev (diffs l) with [] => None | a :: _ => Some (diffs l ++ [a]) end.
(* orbits.py:940-967 for one star; s is the vector from the star to the nearest point, o the forward difference there.  None: nan,
   when a magnitude is zero *)
Definition to_line (projected : bool) (o s : vec3) : num :=
  let mag a := if projected then sqrt (v1 a ^ 2 + v2 a ^ 2) else sqrt (v1 a ^ 2 + v2 a ^ 2 + v3 a ^ 2) in
  let dot := if projected then v1 o * v1 s + v2 o * v2 s else v1 o * v1 s + v2 o * v2 s + v3 o * v3 s in
  if Reqb (mag o * mag s) 0 then None else Some (mag s * sin (acos (dot / (mag o * mag s)))).
(* np.sign *)
Definition sign (a : R) : R := if Rltb a 0 then -1 else if Rltb 0 a then 1 else 0.
(* orbits.py:969-988: the factor dpath is multiplied by *)
Definition path_sign (projected : bool) (pts : list (six R)) (k : nat) (s : six R) : R :=
  if projected then
    let dy := map (fun p => sy p - sy s) pts in sign (nth (argmin (map Rabs dy)) dy 0)
  else
    let p := nth k pts zero6 in
    let l := np_cross (mk3 (sx p) (sy p) (sz p)) (mk3 (svx p) (svy p) (svz p)) in
    let ldot := (sx s - sx p) * v1 l + (sy s - sy p) * v2 l + (sz s - sz p) * v3 l in
    if Rltb ldot 0 then -1 else 1.
(* orbits.py:872-988 for one star, path and star in kpc: index of the nearest point and signed dpath (None: nan) *)
Definition match_star (projected to_path : bool) (pts : list (six R)) (fw : list R * list R * list R) (s : six R) : nat * num :=
  let dr := map (fun p => sep projected p s) pts in
  let k := argmin dr in
  let p := nth k pts zero6 in
  let d := if to_path
           then let '(a, b, c) := fw in
                to_line projected (mk3 (nth k a 0) (nth k b 0) (nth k c 0)) (mk3 (sx p - sx s) (sy p - sy s) (sz p - sz s))
           else Some (nth k dr 0) in
  (k, option_map (fun x => x * path_sign projected pts k s) d).

(* orbits.py:852-853 *)
Definition match_frame (c : cluster) : cluster := to_kpckms G (to_galaxy G false c).
(* orbits.py:872-1013: tstar, dprog, dpath of every star and the cluster afterwards; c0 is the cluster at entry, c1 the one worked with.
   An empty path raises (argmin); do_full always raises: np.dot is given arrays of shapes (n, d) and (n, d*n), d = 2 or 3. *)
Definition match_core (pth : path) (to_path do_full projected : bool) (c0 c1 : cluster) : result (list (R * R * num) * cluster) :=
  match pth with
  | [] => Raise
  | _ =>
    let ts := map fst pth in let pts := map snd pth in
    let pindx := argmin (map Rabs ts) in
    let fw := match forward (map (@sx R) pts), forward (map (@sy R) pts), forward (map (@sz R) pts) with
              | Some a, Some b, Some d => Some (a, b, d) | _, _, _ => None end in
    let go f :=
      let c' := return_cluster G (save_cluster c0) c1 in
      let dp := dprogr projected pts in
      Ok (map (fun s => let '(k, d) := match_star projected to_path pts f s in
                 (convert_time G (nth k ts 0) Ukpckms c', convert_length (nth k dp 0 - nth pindx dp 0) Ukpckms c',
                  option_map (fun x => convert_length x Ukpckms c') d)) (rows6 (p_s (c_ph c1))), c') in
    if to_path then
      if do_full then Raise else match fw with None => Raise | Some f => go f end
    else go ([], [], [])
  end.
(* orbits.py:769-1013 with a path given (869-870) *)
Definition orbital_path_match (pth : path) (to_path do_full projected : bool) (c : cluster) : result (list (R * R * num) * cluster) :=
  match_core pth to_path do_full projected c (match_frame c).
End WithGalpy.
