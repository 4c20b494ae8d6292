(* Positions and paths on the sky.  Models clustertools/util/coordinates.py:227-288, the option radec of clustertools/util/output.py:25-165 and the
   option skypath of clustertools/analysis/orbits.py:600-1013 and clustertools/tidaltail/tails.py:91-260 (without plotting; zo and solarmotion of the
   cluster, which ModelCluster does not hold, are parameters). *)
From Coq Require Import String Ascii.
From Verif Require Import Base ModelCluster ModelOps ModelConv ModelEnergy ModelRecipes ModelCoords ModelLagrange ModelProfiles ModelStars ModelLoad ModelOutput ModelTail ModelOrbit ModelSky.
Set Implicit Arguments.
Open Scope string_scope. Open Scope list_scope. Open Scope R_scope.

(* what an Orbit is told of the Sun: ro, vo, zo and solarmotion *)
Record sun := mkSun { su_ro : R; su_vo : R; su_zo : R; su_motion : R * R * R }.
(* galpy's astrometry: where a galactocentric point (kpc, km/s) is seen from the Sun, (ra, dec, dist, pmra, pmdec, vlos), and back; parameters *)
Record astrometry := mkAst { seen : sun -> six R -> six R; unseen : sun -> six R -> six R }.

(* keyword arguments of a call are names of the function's parameters, or the call raises TypeError *)
Definition accepts (params keywords : list string) : bool := forallb (fun k => existsb (String.eqb k) params) keywords.

Section WithGalpy.
Variable G : galpy.
(* cluster.py:1664: the parameters of the method to_radec, and a call of it with keyword arguments (all left at their defaults here) *)
Definition to_radec_params : list string := ["sortstars"; "centre_method"; "analyze"].
Definition call_to_radec (keywords : list string) (c : cluster) : result cluster :=
  if accepts to_radec_params keywords then Ok (to_radec G true c) else Raise.
(* coordinates.py:227-253 *)
Definition sky_coords (c : cluster) : result (six (list R) * cluster) :=
  bind (call_to_radec ["ro"; "vo"; "solarmotion"] c) (fun c1 =>                          (* 247 *)
  Ok (p_s (c_ph c1), return_cluster G (save_cluster c) c1)).
(* output.py:25-165 with radec=True *)
Definition snapout_radec (energies : option (list R * list R * list R)) (k : catalog) : result (list (list R) * catalog) :=
  bind (sky_coords (g_c k)) (fun q =>                                                    (* 56 *)
  let k1 := set_cluster k (snd q) in bind (snapout energies (Some (fst q)) k1) (fun rows => Ok (rows, k1))).

Variable A : astrometry.
(* coordinates.py:255-288: the sky coordinates of one point; zo is not passed on to Orbit, which takes its own default *)
Definition cart_to_sky (zo_default r v : R) (m : R * R * R) (p : six R) : six R :=
  let q := cart_to_cyl p in
  seen A (mkSun r v zo_default m) (initial (orbit_cyl (sx q / r) (svx q / v) (svy q / v) (sz q / r) (svz q / v) (sy q) r v)).
(* constants.py:10: U, V, W of the Sun *)
Definition solar_motion : R * R * R := (- (111 / 10), 1224 / 100, 725 / 100).

(* the Sun of a cluster: _ro, _vo, _zo, _solarmotion *)
Variables (zo : R) (motion : R * R * R).
Definition sun_of (r v : option R) (c : cluster) : sun := mkSun (opt r (ro (c_sc c))) (opt v (vo (c_sc c))) zo motion.
(* orbits.py:713-725; AMUSE times are represented by their value in Myr *)
Definition sky_time (r v : R) (c : cluster) (t : R) : R :=
  let g := time_in_Gyr G r v in
  match c_units c with
  | Some Upckms | Some Upcmyr | Some Uamuse => t * g * 1000
  | Some Unbody => t * g * 1000 / tbar (c_sc c)
  | Some Ukpckms | Some Uradec | Some Ukpcgyr | Some UWD => t * g
  | _ => t
  end.
(* orbits.py:74-89 for clusters in radec, else 90-118: ra_gc, dec_gc, ... of the cluster, from_centre is not used *)
Definition orbit_of (from_centre : bool) (r v : option R) (c : cluster) : orbit * cluster :=
  match c_units c with
  | Some Uradec =>
    let p := unseen A (sun_of r v c) (k_gc (c_sky c)) in
    (mkOrb (over6 (opt r (ro (c_sc c))) (opt v (vo (c_sc c))) p) (opt r (ro (c_sc c))) (opt v (vo (c_sc c))), c)
  | _ => initialize_orbit G from_centre r v c
  end.
(* orbits.py:600-738 with skypath=True.  Raise: nt = 0 *)
Definition sky_path (ev : evolution) (tfinal : option R) (nt : nat) (from_centre : bool) (r v : option R) (c : cluster) : result (path * cluster) :=
  let ro_ := opt r (ro (c_sc c)) in let vo_ := opt v (vo (c_sc c)) in
  let tf := galpy_time G (1 / 10) ro_ vo_ tfinal c in
  let '(o, c') := orbit_of from_centre (Some ro_) (Some vo_) c in
  let ts := linspace 0 (-1 * tf) nt in
  match nt with
  | O => Raise
  | _ =>
    let p := at_time ev o ts (last ts 0) in
    let q := cart_to_cyl p in
    let o2 := orbit_cyl (sx q / ro_) (svx q / vo_) (svy q / vo_) (sz q / ro_) (svz q / vo_) (sy q) ro_ vo_ in
    let ts2 := linspace (-1 * tf) tf nt in
    Ok (map (fun t => (sky_time ro_ vo_ c' t, seen A (sun_of r v c) (at_time ev o2 ts2 t))) ts2, c')
  end.
(* orbits.py:769-1013 with skypath=True: the stars are put on the sky (849), projected is True (850) *)
Definition sky_match (pth : path) (to_path do_full : bool) (c : cluster) : result (list (R * R * num) * cluster) :=
  match_core G pth to_path do_full true c (to_radec G true c).
Definition sky_match_own (ev : evolution) (tfinal : option R) (nt : nat) (from_centre to_path do_full : bool) (r v : option R) (c : cluster)
    : result (list (R * R * num) * cluster) :=
  bind (sky_path ev tfinal nt from_centre (Some (opt r (ro (c_sc c)))) (Some (opt v (vo (c_sc c)))) (to_radec G true c)) (fun q =>
  match_core G (fst q) to_path do_full true c (snd q)).
(* tails.py:91-260 with skypath=True: the points are put on the sky with the default ro, vo and solarmotion of cart_to_sky (231) *)
Definition sky_tail (ev : evolution) (tfinal : option R) (no nt ntail : nat) (dmax : option R) (bt : pathbin) (zo_default : R)
    (from_centre to_path do_full : bool) (r v : option R) (c : cluster) : result (path * cluster) :=
  let c1 := match_frame G c in
  let dmax1 := match dmax, c_units c with Some d, Some u => Some (convert_length d u c1) | _, _ => dmax end in
  bind (sky_path ev tfinal no from_centre r v c1) (fun q =>
  let '(pth, c2) := q in
  bind (tail_bins bt (map fst pth) nt ntail) (fun bn =>
  bind (sky_match pth to_path do_full c2) (fun w =>
  let '(stars, c3) := w in
  let ts := map (fun a => fst (fst a)) stars in
  let sel := match dmax1 with
             | None => map (fun _ => true) stars
             | Some d => map (fun a : R * R * num => match snd a with None => false | Some x => Rleb (Rabs x) d end) stars end in
  let bi := bin_index ts (b_lo bn) (b_hi bn) in
  if existsb (fun i => Z.ltb i 0) (select sel bi) then Raise
  else
    let pts := concat (map (fun j => tail_point (rows6 (p_s (c_ph c3))) sel bi (nth j (b_mid bn) 0) j) (seq 0 (length (b_mid bn)))) in
    let c' := return_cluster G (save_cluster c) c3 in
    Ok (map (fun a => (convert_time G (fst a) Ukpckms c', cart_to_sky zo_default solar_ro solar_vo solar_motion (snd a))) pts, c')))).
End WithGalpy.
