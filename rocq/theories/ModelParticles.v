(* Clusters from galpy Orbits and from AMUSE particles. *)
From Verif Require Import Base ModelCluster ModelOps ModelStars ModelOutput ModelLoad.
Open Scope R_scope.

(* a galpy Orbit of n objects: for each its position and velocity in the natural units of galpy *)
Definition orbits := list (six R).
(* galpy: Orbit.x(ro=ro,vo=vo), ... in kpc and km/s *)
Definition in_kpc (ro vo : R) (l : orbits) : six (list R) :=
  mk6 (map (fun p => sx p * ro) l) (map (fun p => sy p * ro) l) (map (fun p => sz p * ro) l)
      (map (fun p => svx p * vo) l) (map (fun p => svy p * vo) l) (map (fun p => svz p * vo) l).
Definition six_arrays (s : six (list R)) : six (arg R) := map6 (fun l => Array l) s.
(* galpydf.py:62: np.linspace(1, n, n, dtype="int") *)
Definition from_one (n : nat) : list Z := map Z.of_nat (seq 1 n).
(* galpydf.py:63-68; a number that is not a float is expanded by add_stars, with the same result *)
Definition orbit_masses (n : nat) (m : option (arg R)) : list R :=
  match m with None => repeat 1 n | Some (Scalar a) => repeat a n | Some (Array l) => l end.

Section WithGalpy.
Variable G : galpy.
(* galpydf.py:57-60 *)
Definition mass_scale (u : option usys) (ro vo : R) : R :=
  match u with Some Ugalpy => mass_in_msol G ro vo | _ => 1 end.
(* galpydf.py:75-95.  `advance` at 79 and 95 is not a name of the function: NameError whenever an orbit file is given *)
Definition centre_orbits (o : load_opts) (ofile : option text) (c : cluster) : result cluster :=
  match l_origin o with
  | Some Ogalaxy =>
    bind (match ofile with None => find_centre_default G c | Some _ => Raise end) (fun c1 =>
    if l_analyze o
    then bind (find_centre_default G (to_cluster false c1)) (fun c2 => Ok (to_galaxy G true (to_centre (l_sort o) c2)))
    else Ok c1)
  | Some Ocluster | Some Ocentre =>
    bind (find_centre_default G c) (fun c1 =>
    let c2 := if l_analyze o then analyze (l_sort o) (l_proj o) c1 else c1 in
    match ofile with None => Ok c2 | Some _ => Raise end)
  | _ => Ok c
  end.
(* galpydf.py:13-97, load.py:276-278.  ro and vo are parameters here and so not among the keywords of StarCluster: the cluster
   has the default scales, whatever they are *)
Definition get_orbits (o : load_opts) (ro vo : R) (l : orbits) (m : option (arg R)) (ofile : option text) : result loaded :=
  let n := length l in
  let mo := mass_scale (l_units o) ro vo in
  bind (add_stars 0 (mkArgs (six_arrays (in_kpc ro vo l)) (Some (Array (map (fun a => a / mo) (orbit_masses n m))))
                            (Some (Array (from_one n))) None None)
          false true (l_proj o) (init_catalog (init_cluster 0 (l_units o) (l_origin o) solar_ro solar_vo))) (fun k =>
  bind (centre_orbits o ofile (g_c k)) (fun c =>
  Ok (mkLoaded (set_cluster k c) (l_set o) (l_units o) (l_origin o) ofile))).

(* AMUSE particles: position (pc) and velocity (km/s), mass (Msun) and key.  kms: the pc/Myr, and kpc/Gyr, AMUSE has in a km/s *)
Record particle := mkPtc { pt_s : six R; pt_m : R; pt_key : Z }.
Definition col (f : six R -> R) (k : R) (l : list particle) : list R := map (fun p => f (pt_s p) * k) l.
Definition six_cols (kx kv : R) (l : list particle) : six (list R) :=
  mk6 (col (@sx R) kx l) (col (@sy R) kx l) (col (@sz R) kx l) (col (@svx R) kv l) (col (@svy R) kv l) (col (@svz R) kv l).
(* util/units.py:582-616 _convert_amuse; in any other units no array is assigned and the return raises.  cluster.units is not
   None here (amuse.py:64). *)
Definition convert_amuse (kms : R) (u : usys) (l : list particle) : result (six (list R)) :=
  match u with
  | Upckms => Ok (six_cols 1 1 l)
  | Ukpckms => Ok (six_cols (1 / 1000) 1 l)
  | Ukpcgyr => Ok (six_cols (1 / 1000) kms l)
  | Upcmyr => Ok (six_cols 1 kms l)
  | _ => Raise
  end.
(* amuse.py:70-94.  `advance` is not a name of the function here either *)
Definition centre_amuse (o : load_opts) (ofile : option text) (c : cluster) : result cluster :=
  match l_origin o with
  | Some Ogalaxy =>
    bind (match ofile with None => find_centre_default G c | Some _ => Raise end) (fun c1 =>
    if l_analyze o then
      match c_origin c1 with
      | Some _ => bind (find_centre_default G (to_cluster false c1)) (fun c2 =>
                  Ok (to_origin G (Oreq Ogalaxy) true (to_centre (l_sort o) c2)))
      | None => bind (find_centre_default G c1) (fun c2 => Ok (analyze (l_sort o) (l_proj o) c2))
      end
    else Ok c1)
  | Some Ocluster | Some Ocentre =>
    bind (find_centre_default G c) (fun c1 =>
    let c2 := if l_analyze o then analyze (l_sort o) (l_proj o) c1 else c1 in
    match ofile with None => Ok c2 | Some _ => Raise end)
  | _ => Ok c
  end.
(* amuse.py:26-96, load.py:240-247, with units given and not 'amuse'; with units None or 'amuse' (65) the stars keep the
   quantities of AMUSE, not modelled *)
Definition get_particles (kms : R) (o : load_opts) (u : usys) (l : list particle) (ofile : option text) : result loaded :=
  bind (convert_amuse kms u l) (fun s =>
  bind (add_stars 0 (mkArgs (six_arrays s) (Some (Array (map pt_m l))) (Some (Array (map pt_key l))) None None)
          true true (l_proj o) (init_catalog (init_cluster 0 (Some u) (l_origin o) (l_ro o) (l_vo o)))) (fun k =>
  bind (centre_amuse o ofile (g_c k)) (fun c =>
  Ok (mkLoaded (set_cluster k c) (l_set o) (Some u) (l_origin o) ofile)))).
End WithGalpy.
