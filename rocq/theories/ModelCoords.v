(* Coordinate transformations.  Models clustertools/util/coordinates.py:32-225. *)
From Verif Require Import Base ModelCluster ModelOps ModelConv ModelEnergy.
Set Implicit Arguments.

(* r, phi, theta, vr, vphi, vtheta; theta and what is computed from it may be nan (z/r with r == 0) *)
Record spherical := mkSph { h_r : R; h_phi : R; h_theta : num; h_vr : num; h_vphi : R; h_vtheta : num }.

(* coordinates.py:67-105 *)
Definition cart_to_sphere (p : six R) : spherical :=
  let r := sqrt (sx p ^ 2 + sy p ^ 2 + sz p ^ 2) in
  let phi := atan2 (sy p) (sx p) in
  let theta := if Reqb r 0 then None else Some (acos (sz p / r)) in
  let v (f : R -> R) : num := option_map f theta in
  mkSph r phi theta
    (v (fun th => svx p * (cos phi * sin th) + svy p * (sin phi * sin th) + svz p * cos th))
    (svx p * (-1 * sin phi) + svy p * cos phi + svz p * 0)
    (v (fun th => svx p * (cos phi * cos th) + svy p * (sin phi * cos th) + svz p * (-1 * sin th))).

(* coordinates.py:107-145 *)
Definition sphere_to_cart (r phi th vr vphi vth : R) : six R :=
  mk6 (r * cos phi * sin th) (r * sin phi * sin th) (r * cos th)
      (vr * (cos phi * sin th) + vth * (cos phi * cos th) + vphi * (-1 * sin phi))
      (vr * (sin phi * sin th) + vth * (sin phi * cos th) + vphi * cos phi)
      (vr * cos th + vth * (-1 * sin th) + vphi * 0).

(* galpy.util.coords.rect_to_cyl, rect_to_cyl_vec, cyl_to_rect, cyl_to_rect_vec: galpy's formulas, transcribed *)
Definition rect_to_cyl (x y z : R) : R * R * R := (sqrt (x ^ 2 + y ^ 2), atan2 y x, z).
Definition rect_to_cyl_vec (vx vy vz x y z : R) : R * R * R :=
  let '(_, phi, _) := rect_to_cyl x y z in (vx * cos phi + vy * sin phi, - vx * sin phi + vy * cos phi, vz).
Definition cyl_to_rect (r phi z : R) : R * R * R := (r * cos phi, r * sin phi, z).
Definition cyl_to_rect_vec (vr vt vz phi : R) : R * R * R := (vr * cos phi - vt * sin phi, vr * sin phi + vt * cos phi, vz).

(* coordinates.py:180-201: R, phi, z, vR, vT, vz *)
Definition cart_to_cyl (p : six R) : six R :=
  let '(r, th, z) := rect_to_cyl (sx p) (sy p) (sz p) in
  let '(vr, vt, vz) := rect_to_cyl_vec (svx p) (svy p) (svz p) (sx p) (sy p) (sz p) in mk6 r th z vr vt vz.
(* coordinates.py:203-225 *)
Definition cyl_to_cart (q : six R) : six R :=
  let '(x, y, z) := cyl_to_rect (sx q) (sy q) (sz q) in
  let '(vx, vy, vz) := cyl_to_rect_vec (svx q) (svy q) (svz q) (sy q) in mk6 x y z vx vy vz.

(* the rows of six arrays of one length *)
Definition rows6 (s : six (list R)) : list (six R) := map (fun i => map6 (fun l => nth i l 0) s) (seq 0 (length (sx s))).

Section WithGalpy.
Variable G : galpy.
(* coordinates.py:54-61, 169-176: for origin sky the names ro and vo are not defined, which raises NameError *)
Definition with_cartesian {A} (f : six R -> A) (c : cluster) : result (list A * cluster) :=
  match c_origin c with
  | Some Osky => Raise
  | _ =>
    let c1 := match c_units c with Some Uamuse => to_pckms G c | _ => c end in
    Ok (map f (rows6 (p_s (c_ph c1))), return_cluster G (save_cluster c) c1)
  end.
(* coordinates.py:32-64 *)
Definition sphere_coords := with_cartesian cart_to_sphere.
(* coordinates.py:147-178 *)
Definition cyl_coords := with_cartesian cart_to_cyl.
End WithGalpy.
