(* Orbits: initialise, integrate, interpolate, orbital path, tail path.  Models clustertools/analysis/orbits.py:41-118, 193-257, 259-323,
   325-410, 412-597, 600-767 (units other than radec, skypath=False, no plotting), clustertools/tidaltail/tails.py:91-260 (same) and
   cluster.py:3407-3420, 3501-3532. *)
From Verif Require Import Base ModelCluster ModelOps ModelConv ModelEnergy ModelRecipes ModelCoords ModelLagrange ModelProfiles ModelStars ModelLoad ModelTail.
Set Implicit Arguments.

(* galpy.orbit.Orbit: position and velocity in units in which its own ro (kpc) and vo (km/s) are 1 *)
Record orbit := mkOrb { ob_at : six R; ob_ro : R; ob_vo : R }.
(* Orbit([R, vR, vT, z, vz, phi], ro=, vo=); o.x(), o.y(), ... without integration *)
Definition orbit_cyl (R vR vT z vz phi ro vo : Rdefinitions.R) : orbit := mkOrb (cyl_to_cart (mk6 R phi z vR vT vz)) ro vo.
(* o.x(), ..., o.vz() in kpc and km/s *)
Definition physical (o : orbit) (p : six R) : six R :=
  mk6 (sx p * ob_ro o) (sy p * ob_ro o) (sz p * ob_ro o) (svx p * ob_vo o) (svy p * ob_vo o) (svz p * ob_vo o).
Definition over6 (ro vo : R) (p : six R) : six R :=
  mk6 (sx p / ro) (sy p / ro) (sz p / ro) (svx p / vo) (svy p / vo) (svz p / vo).
(* o.integrate(ts, pot): ev t0 t p is where the point p at time t0 is at time t, both in galpy units; a parameter that stands for
   galpy's integration in the potential given, taken as exact *)
Definition evolution := R -> R -> six R -> six R.
(* the position at time t of the orbit integrated over ts: the initial point is the one at ts[0] *)
Definition at_time (ev : evolution) (o : orbit) (ts : list R) (t : R) : six R := physical o (ev (hd 0 ts) t (ob_at o)).

Section WithGalpy.
Variable G : galpy.

(* orbits.py:69-70, 663-664 and so on: the keyword or the value of the cluster *)
Definition opt {A} (x : option A) (d : A) : A := match x with Some a => a | None => d end.
(* orbits.py:41-118: the orbit and the cluster afterwards *)
Definition initialize_orbit (from_centre : bool) (r v : option R) (c : cluster) : orbit * cluster :=
  let c1 := to_galpy G c in
  let p := if from_centre then plus6 (p_g (c_ph c1)) (p_c (c_ph c1)) else p_g (c_ph c1) in
  let q := cart_to_cyl p in
  (orbit_cyl (sx q) (svx q) (svy q) (sz q) (svz q) (sy q) (opt r (ro (c_sc c))) (opt v (vo (c_sc c))), return_cluster G (save_cluster c) c1).
(* orbits.py:121-190 *)
Definition initialize_orbits (r v : option R) (c : cluster) : list orbit * cluster :=
  let c1 := to_galpy G c in
  (map (fun p => let q := cart_to_cyl p in
          orbit_cyl (sx q) (svx q) (svy q) (sz q) (svz q) (sy q) (opt r (ro (c_sc c))) (opt v (vo (c_sc c)))) (rows6 (p_s (c_ph c1))),
   return_cluster G (save_cluster c) c1).
(* orbits.py:240-249, 303-312, 668-677; t0 is the default in Gyr (12 or 0.1).  AMUSE times are represented by their value in Myr. *)
Definition galpy_time (t0 ro vo : R) (tfinal : option R) (c : cluster) : R :=
  let g := time_in_Gyr G ro vo in
  match tfinal with
  | None => t0 / g
  | Some t => match c_units c with
              | Some Upckms | Some Upcmyr | Some Uamuse => t / (1000 * g)
              | Some Ukpckms | Some Uradec | Some Ukpcgyr | Some UWD => t / g
              | Some Unbody => t * (tbar (c_sc c) / 1000 / g)
              | _ => t
              end
  end.
Definition convert6 (p : six R) (u : usys) (c : cluster) : six R :=
  mk6 (convert_length (sx p) u c) (convert_length (sy p) u c) (convert_length (sz p) u c)
      (convert_velocity (svx p) u c) (convert_velocity (svy p) u c) (convert_velocity (svz p) u c).

(* orbits.py:193-257, 325-410: where the cluster is at tfinal.  Raise: ts[-1] of nt = 0 times; value_in of None (AMUSE) *)
Definition interpolate_orbit (ev : evolution) (tfinal : option R) (nt : nat) (from_centre : bool) (r v : option R) (c : cluster)
    : result (six R * cluster) :=
  let go c0 :=
    let '(o, c1) := initialize_orbit from_centre r v c0 in
    let ts := linspace 0 (galpy_time 12 (opt r (ro (c_sc c))) (opt v (vo (c_sc c))) tfinal c1) nt in
    match nt with
    | O => Raise
    | _ => let p := at_time ev o ts (last ts 0) in
           let c' := return_cluster G (save_cluster c) c1 in Ok (convert6 p Ukpckms c', c')
    end in
  match c_units c with
  | Some Uamuse => match tfinal with None => Raise | Some _ => go (to_pckms G c) end
  | _ => go c
  end.
(* cluster.py:3407-3420 *)
Definition interpolate_orbit_method (ev : evolution) (tfinal : option R) (nt : nat) (from_centre : bool) (r v : option R) (c : cluster)
    : result cluster :=
  bind (interpolate_orbit ev tfinal nt from_centre r v c) (fun q =>
  let c1 := snd q in
  Ok (to_origin G (oreq_of (c_origin c1)) true (add_orbit G (fst q) None None (to_cluster true c1)))).

(* orbits.py:259-323, 412-496: where the stars are at tfinal *)
Definition interpolate_orbits (ev : evolution) (tfinal : option R) (nt : nat) (r v : option R) (c : cluster)
    : result (six (list R) * cluster) :=
  let go c0 :=
    let ts := linspace 0 (galpy_time 12 (opt r (ro (c_sc c))) (opt v (vo (c_sc c))) tfinal c0) nt in
    let '(os, c1) := initialize_orbits r v c0 in
    match nt with
    | O => Raise
    | _ => let c' := return_cluster G (save_cluster c) c1 in
           Ok (unstack6 (map (fun o => convert6 (at_time ev o ts (last ts 0)) Ukpckms c') os), c')
    end in
  match c_units c with
  | Some Uamuse => match tfinal with None => Raise | Some _ => go (to_pckms G c) end
  | _ => go c
  end.
(* cluster.py:3501-3532 (units other than radec); analyze is not called *)
Definition interpolate_orbits_method (ev : evolution) (tfinal : option R) (nt : nat) (r v : option R) (c : cluster) : result cluster :=
  bind (interpolate_orbits ev tfinal nt r v c) (fun q =>
  let c1 := set_stars (snd q) (fst q) (c_origin (snd q)) in
  match c_origin c1 with
  | Some Ocentre | Some Ocluster => Ok c1
  | _ => bind (interpolate_orbit ev tfinal nt false r v c1) (fun w => Ok (add_orbit G (fst w) None None (snd w)))
  end).
(* orbits.py:499-549: interpolate_orbit has no parameter plot; 551-597: cluster_pot is not defined; cluster.py:3463, 3572: self is
   passed twice.  All four raise. *)
Definition orbit_interpolate (ev : evolution) (tfinal : option R) (nt : nat) (r v : option R) (c : cluster) : result (six R * cluster) := Raise.
Definition orbits_interpolate (ev : evolution) (tfinal : option R) (nt : nat) (r v : option R) (c : cluster) : result (six (list R) * cluster) := Raise.
Definition orbit_interpolate_method (ev : evolution) (tfinal : option R) (nt : nat) (from_centre : bool) (r v : option R) (c : cluster) : result cluster := Raise.
Definition orbits_interpolate_method (ev : evolution) (tfinal : option R) (nt : nat) (r v : option R) (c : cluster) : result cluster := Raise.

(* orbits.py:600-767: the path, the orbit integrated over it, and the cluster afterwards.  Raise: nt = 0 *)
Definition orbital_path (ev : evolution) (tfinal : option R) (nt : nat) (from_centre : bool) (r v : option R) (c : cluster)
    : result (path * orbit * cluster) :=
  let ro_ := opt r (ro (c_sc c)) in let vo_ := opt v (vo (c_sc c)) in
  let tf := galpy_time (1 / 10) ro_ vo_ tfinal c in
  let '(o, c') := initialize_orbit from_centre (Some ro_) (Some vo_) c in
  let ts := linspace 0 (-1 * tf) nt in
  match nt with
  | O => Raise
  | _ =>
    let p := at_time ev o ts (last ts 0) in                                            (* 686-689 *)
    let q := cart_to_cyl p in
    let o2 := orbit_cyl (sx q / ro_) (svx q / vo_) (svy q / vo_) (sz q / ro_) (svz q / vo_) (sy q) ro_ vo_ in
    let ts2 := linspace (-1 * tf) tf nt in
    Ok (map (fun t => (convert_time G t Ugalpy c', convert6 (at_time ev o2 ts2 t) Ukpckms c')) ts2, o2, c')
  end.

(* orbits.py:769-1013 without a path (855-868): the path of the cluster's own orbit.  The cluster is in kpc and km/s by then, so tfinal
   is read as Gyr *)
Definition orbital_path_match_own (ev : evolution) (tfinal : option R) (nt : nat) (from_centre to_path do_full projected : bool) (r v : option R)
    (c : cluster) : result (list (R * R * num) * cluster) :=
  let ro_ := opt r (ro (c_sc c)) in let vo_ := opt v (vo (c_sc c)) in
  bind (orbital_path ev tfinal nt from_centre (Some ro_) (Some vo_) (match_frame G c)) (fun q =>
  let '(pth, _, c2) := q in match_core G pth to_path do_full projected c c2).

(* ------------------------------------------------------------ tail path *)
Inductive pathbin := Fix | Num.
(* tails.py:188-197 *)
Definition tail_bins (bt : pathbin) (top : list R) (nt ntail : nat) : result bins :=
  match bt with
  | Fix => if Nat.ltb nt ntail then roaming_binmaker top nt ntail Linear else binmaker top nt Linear
  | Num => if Nat.ltb nt ntail then Ok (roaming_nbinmaker top nt ntail) else nbinmaker top nt
  end.
(* tails.py:204-227: one bin; sel is dindx, bi the bin of every star, rows the stars *)
Definition tail_point (rows : list (six R)) (sel : list bool) (bi : list Z) (mid : R) (b : nat) : list (R * six R) :=
  let mine := map snd (filter (fun q => Z.eqb (fst q) (Z.of_nat b)) (combine (select sel bi) (select sel rows))) in
  match mine with
  | [] => []                                                                          (* keep = counts > 0 *)
  | _ => let n := INR (length mine) in let m (f : six R -> R) := sumR (map f mine) / n in
         [(mid, mk6 (m (@sx R)) (m (@sy R)) (m (@sz R)) (m (@svx R)) (m (@svy R)) (m (@svz R)))]
  end.
(* tails.py:91-260; the cluster is put in the galactic frame, kpc and km/s, so tfinal is read there as Gyr (160-183) *)
Definition tail_path (ev : evolution) (tfinal : option R) (no nt ntail : nat) (dmax : option R) (bt : pathbin)
    (from_centre to_path do_full projected : bool) (r v : option R) (c : cluster) : result (path * cluster) :=
  let c1 := match_frame G c in
  let dmax1 := match dmax, c_units c with
               | Some d, Some u => Some (convert_length d u c1) | _, _ => dmax end in
  bind (orbital_path ev tfinal no from_centre r v c1) (fun q =>
  let '(pth, _, c2) := q in
  bind (tail_bins bt (map fst pth) nt ntail) (fun bn =>
  bind (orbital_path_match G pth to_path do_full projected c2) (fun w =>
  let '(stars, c3) := w in
  let ts := map (fun a => fst (fst a)) stars in
  let sel := match dmax1 with
             | None => map (fun _ => true) stars
             | Some d => map (fun a : R * R * num => match snd a with None => false | Some x => Rleb (Rabs x) d end) stars end in
  let bi := bin_index ts (b_lo bn) (b_hi bn) in
  if existsb (fun i => Z.ltb i 0) (select sel bi) then Raise                          (* np.bincount *)
  else
    let pts := concat (map (fun j => tail_point (rows6 (p_s (c_ph c3))) sel bi (nth j (b_mid bn) 0) j) (seq 0 (length (b_mid bn)))) in
    let c' := return_cluster G (save_cluster c) c3 in
    Ok (map (fun a => (convert_time G (fst a) Ukpckms c', convert6 (snd a) Ukpckms c')) pts, c')))).
(* tails.py:263-352 *)
Definition tail_path_match (ev : evolution) (tfinal : option R) (no nt ntail : nat) (pth : option path) (dmax : option R) (bt : pathbin)
    (from_centre to_path do_full projected : bool) (r v : option R) (c : cluster) : result (list (R * R * num) * cluster) :=
  match pth with
  | Some p => orbital_path_match G p to_path do_full projected c
  | None => bind (tail_path ev tfinal no nt ntail dmax bt from_centre false false false r v c) (fun q =>
            orbital_path_match G (fst q) to_path do_full projected (snd q))
  end.
End WithGalpy.
