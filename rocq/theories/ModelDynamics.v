(* Tidal radius, relaxation times, N-body scales, rotation.  Models clustertools/analysis/functions.py:456-591 and
   2303-2488 (without plotting), clustertools/cluster/operations.py:1374-1448 and 1492-1532, cluster.py:2011-2071. *)
From Verif Require Import Base ModelCluster ModelOps ModelConv ModelEnergy ModelRecipes ModelCoords ModelLagrange.
Set Implicit Arguments.

(* ------------------------------------------------------------ tidal radius *)
(* functions.py:2400-2419: tide is rtide(pot, R, z, M=..., use_physical=False) as a function of the mass (galpy units); r, m
   are cluster.r, cluster.m.  Returns rt and the mask, which `indx *= cluster.r < rt` overwrites in place. *)
Fixpoint tide_loop (tide : R -> R) (converge : R) (r m : list R) (n : nat) (indx : list bool) (rt : R) : R * list bool :=
  match n with
  | O => (rt, indx)
  | S n' =>
    let indx' := zip_with andb indx (map (fun a => Rltb a rt) r) in           (* 2403 *)
    let rtnew := tide (sumR (select indx' m)) in                              (* 2404-2406 *)
    if Reqb rtnew 0 then (0, indx')                                           (* 2408-2411 *)
    else if Rleb converge (rtnew / rt) then (rt, indx')                       (* 2416-2417 *)
    else tide_loop tide converge r m n' indx' rtnew
  end.

Section WithGalpy.
Variable G : galpy.

(* functions.py:2368-2376 *)
Definition tidal_frame (c : cluster) : cluster :=
  let c0 := match c_units c with Some Uamuse => to_pckms G c | _ => c end in
  to_galpy G (if off_centre c then to_centre false c0 else c0).

(* functions.py:2378-2392 (galpy units): cylindrical radius and height at which the tide is evaluated; rgc, zgc in kpc *)
Definition tidal_place (rgc zgc : option R) (from_centre : bool) (c : cluster) : R * R :=
  let g := p_g (c_ph c) in let o := p_c (c_ph c) in
  (match rgc with
   | Some a => a / ro (c_sc c)
   | None => if from_centre then sqrt ((sx g + sx o) ^ 2 + (sy g + sy o) ^ 2) else sqrt (sx g ^ 2 + sy g ^ 2)
   end,
   match zgc with
   | Some a => a / ro (c_sc c)
   | None => if from_centre then sz g + sz o else sz g
   end).

(* functions.py:2303-2488.  rtide is galpy.potential.rtide(pot, R, z, M=M, use_physical=False) for the potential given, a
   parameter; a nan it may return for potentials without a tide is not modelled.  Returns the radius in the cluster's
   units, the cluster and the caller's mask afterwards (None: no mask given). *)
Definition rtidal (rtide : R -> R -> R -> R) (n : nat) (converge : R) (indx : option (list bool)) (rgc zgc : option R)
    (from_centre : bool) (c : cluster) : R * cluster * option (list bool) :=
  let c1 := tidal_frame c in
  let '(a, z) := tidal_place rgc zgc from_centre c1 in
  let m := p_m (c_ph c1) in
  let msk := match indx with Some i => i | None => map (fun _ => true) m end in
  let '(rt, msk') := tide_loop (rtide a z) converge (d_r (c_der c1)) m n msk (rtide a z (sumR (select msk m))) in
  let c' := return_cluster G (save_cluster c) c1 in
  (convert_length rt Ugalpy c', c', match indx with Some _ => Some msk' | None => None end).

(* ------------------------------------------------------------ relaxation times *)
(* functions.py:488-493, 560-565 *)
Definition relax_frame (c : cluster) : cluster :=
  to_pckms G (if off_centre c then to_centre true c else sortstars true c).

(* functions.py:523, 581: 3.086e13 / (3600.0 * 24.0 * 365.0 * 1000000.0) *)
Definition pckms_in_Myr : R := 30860000000000 / (3600 * 24 * 365 * 1000000).

(* functions.py:531-591.  Line 579: mass**0.5 is sqrt mass and rm**1.5 is rm*sqrt rm.  A division by zero gives inf or nan:
   None.  rm is None when the half-mass radius is unknown, which raises.  cluster.ntot is the number of stars. *)
Definition half_mass_relaxation_time (coulomb : R) (projected : bool) (c : cluster) : result (num * cluster) :=
  let c1 := relax_frame c in
  let grav := get_grav c1 in
  let mass := sumR (p_m (c_ph c1)) in
  let ntot := INR (length (p_m (c_ph c1))) in
  let mbar := mass / ntot in
  let lnlambda := ln (coulomb * ntot) in
  match (if projected then d_rmpro (c_der c1) else d_rm (c_der c1)) with
  | None => Raise
  | Some rm =>
    let den := mbar * sqrt grav * lnlambda in
    let trh := 138 / 1000 * sqrt mass * (rm * sqrt rm) / den * pckms_in_Myr in
    let c' := return_cluster G (save_cluster c) c1 in
    Ok (if Reqb ntot 0 then None else if Reqb den 0 then None else Some (convert_time G trh Upckms c'), c')
  end.

(* functions.py:456-529: with rad given, the name vel is never bound (UnboundLocalError).  v2**(3./2.) is v2*sqrt v2.  `method`
   is not used. *)
Definition relaxation_time (rad : option R) (coulomb : R) (projected : bool) (c : cluster) : result (num * cluster) :=
  let c1 := relax_frame c in
  let grav := get_grav c1 in
  match rad with
  | Some _ => Raise
  | None =>
    match (if projected then d_rmpro (c_der c1) else d_rm (c_der c1)) with
    | None => Raise
    | Some rad =>
      let vel := if projected then d_vpro (c_der c1) else d_v (c_der c1) in
      let rindx := map (fun a => Rleb a rad) (if projected then d_rpro (c_der c1) else d_r (c_der c1)) in
      let ntot := INR (count rindx) in
      let mbar := np_mean (select rindx (p_m (c_ph c1))) in
      let vol := 4 * PI * rad ^ 3 / 3 in
      let rho := ntot / vol in
      let v2 := np_mean (map (fun v => v ^ 2) vel) in
      let lnlambda := ln (coulomb * INR (length (p_m (c_ph c1)))) in
      let den := 154 / 10 * grav ^ 2 * mbar ^ 2 * rho * lnlambda in
      let t := v2 * sqrt v2 / den * pckms_in_Myr in
      let c' := return_cluster G (save_cluster c) c1 in
      Ok (if Reqb vol 0 then None else if Reqb den 0 then None else Some (convert_time G t Upckms c'), c')
    end
  end.

(* ------------------------------------------------------------ N-body scales *)
(* operations.py:1411-1414 *)
Definition scale_frame (c : cluster) : cluster :=
  to_pckms G (if off_centre c then to_centre true c else c).

(* operations.py:1374-1448: zmbar, rbar, vbar, tbar.  repeated: one of the keywords method, full, H, Om, overdens, nrad, plot
   was given; line 1432 passes it twice, which raises TypeError.  4.0*None/3.0 raises when the half-mass radius is unknown.
   method='inverse_distance', full=True are the defaults of lines 1424-1425. *)
Definition reset_nbody_scale (mass radii rvirial projected repeated : bool) (c : cluster)
    : result ((R * R * R * R) * cluster) :=
  let c1 := scale_frame c in
  let z := if mass then sumR (p_m (c_ph c1)) else zmbar (c_sc c1) in
  let rb : result (R * cluster) :=
    if radii then
      if rvirial then if repeated then Raise else Ok (virial_radius G projected true c1)
      else match d_rm (c_der c1) with Some rm => Ok (4 * rm / 3, c1) | None => Raise end
    else Ok (rbar (c_sc c1), c1) in
  match rb with
  | Raise => Raise
  | Ok (rb, c2) =>
    let vb := 6557 / 100000 * sqrt (z / rb) in
    let tb := rb / (1023 / 1000 * vb) in
    Ok ((z, rb, vb, tb), return_cluster G (save_cluster c) c2)
  end.

(* cluster.py:2011-2049: only these four of the scales are assigned *)
Definition set_scales (s : scales) (q : R * R * R * R) : scales :=
  let '(z, r, v, t) := q in mkSc z r v t (rbar_su s) (rbar_au s) (tbar_days s) (ro s) (vo s).
Definition reset_nbody_scale_method (mass radii rvirial projected repeated : bool) (c : cluster) : result cluster :=
  match reset_nbody_scale mass radii rvirial projected repeated c with
  | Ok (q, c') => Ok (set_sc c' (set_scales (c_sc c') q))
  | Raise => Raise
  end.

(* ------------------------------------------------------------ rotation *)
(* operations.py:1516-1528 for one star: d is its number from np.random.rand *)
Definition rotate_star (qrot d : R) (p : six R) : six R :=
  let '(r, theta, z) := rect_to_cyl (sx p) (sy p) (sz p) in
  let '(vr, vtheta, vz) := rect_to_cyl_vec (svx p) (svy p) (svz p) (sx p) (sy p) (sz p) in
  let vt := if Rltb vtheta 0 && Rltb d qrot then sqrt (vtheta * vtheta) else vtheta in
  let '(x, y, z') := cyl_to_rect r theta z in
  let '(vx, vy, vz') := cyl_to_rect_vec vr vt vz theta in
  mk6 x y z' vx vy vz'.

(* operations.py:1492-1532: the values returned are those of the frame of line 1514, the cluster is restored first.  AMUSE
   quantities, on which galpy's coordinate functions fail, are not modelled. *)
Definition add_rotation (qrot : R) (draws : list R) (c : cluster) : six (list R) * cluster :=
  let c1 := if off_centre c then to_centre true c else c in
  (unstack6 (zip_with (rotate_star qrot) draws (rows6 (p_s (c_ph c1)))), return_cluster G (save_cluster c) c1).
(* cluster.py:2051-2071 *)
Definition add_rotation_method (qrot : R) (draws : list R) (c : cluster) : cluster :=
  let '(s, c') := add_rotation qrot draws c in set_stars c' s (c_origin c').
End WithGalpy.
