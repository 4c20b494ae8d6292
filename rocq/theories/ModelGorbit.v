(* A galpy orbit handed to load_cluster and advance_cluster. *)
From Coq Require Import String Ascii.
From Verif Require Import Base ModelCluster ModelOps ModelStars ModelLoad ModelOutput.
Open Scope string_scope. Open Scope list_scope. Open Scope R_scope.

(* A galpy Orbit with physical output on: at galpy time t, position in kpc and velocity in km/s (orbit.x(t) ... orbit.vz(t)).
   The time is in galpy units of the solar values of ro and vo.  galpy itself is not modelled. *)
Definition gorbit := R -> six R.

Section WithGalpy.
Variable G : galpy.
(* load.py:293-334: cluster.orbit = orbit, then add_orbit in the units of the cluster.  In kpckms the name t has no value
   (line 306): UnboundLocalError.  Units without a branch get no galactocentric position. *)
Definition place_orbit (orb : gorbit) (c : cluster) : result cluster :=
  let s := c_sc c in
  let gyr := time_in_Gyr G solar_ro solar_vo in
  match c_units c with
  | Some Upckms => let p := orb ((p_t (c_ph c) / 1000) / gyr) in
      Ok (add_orbit G (mk6 (sx p * 1000) (sy p * 1000) (sz p * 1000) (svx p) (svy p) (svz p)) None None c)
  | Some Ukpckms => Raise
  | Some Unbody => let p := orb ((p_t (c_ph c) * tbar s / 1000) / gyr) in
      Ok (add_orbit G (mk6 (sx p * 1000 / rbar s) (sy p * 1000 / rbar s) (sz p * 1000 / rbar s)
                           (svx p / vbar s) (svy p / vbar s) (svz p / vbar s)) None None c)
  | Some Ugalpy => let p := orb (p_t (c_ph c)) in
      Ok (add_orbit G (mk6 (sx p / 8) (sy p / 8) (sz p / 8) (svx p / 220) (svy p / 220) (svz p / 220)) None None c)
  | _ => Ok c
  end.
(* load.py:336-344 *)
Definition load_orbit (orb : gorbit) (c : cluster) : result cluster :=
  bind (place_orbit orb c) (fun c1 =>
  let sv := save_cluster c1 in
  match c_origin c1 with
  | Some _ => bind (find_centre_default G (to_cluster false c1)) (fun c2 => Ok (return_cluster G sv c2))
  | None => find_centre_default G c1
  end).
(* load.py:625-645 *)
Definition advance_orbit (orb : gorbit) (c : cluster) : result cluster :=
  let gyr := time_in_Gyr G solar_ro solar_vo in
  match c_units c with
  | Some Upckms | Some Ukpckms => Ok (add_orbit G (orb ((p_t (c_ph c) / 1000) / gyr)) None None c)
  | Some Unbody => Ok (add_orbit G (orb ((p_t (c_ph c) * tbar (c_sc c) / 1000) / gyr)) None None c)
  | Some Ugalpy => Ok (add_orbit G (orb (p_t (c_ph c))) None None c)
  | _ => Raise                                    (* t has no value: UnboundLocalError *)
  end.

Definition with_cluster (v : loaded) (c : cluster) : loaded :=
  mkLoaded (set_cluster (v_cat v) c) (v_set v) (v_units v) (v_origin v) (v_orbit v).
(* load.py:249-344: load_cluster("snapshot", ..., orbit=orb) *)
Definition load_snapshot_with (rd : reader) (d : disk) (o : load_opts) (filename : option string) (ofile : option text) (orb : gorbit)
    : result loaded :=
  bind (load_snapshot G rd d o filename ofile) (fun v =>
  bind (load_orbit orb (g_c (v_cat v))) (fun c => Ok (with_cluster v c))).
(* load.py:561-575, 588-647: advance_cluster(cluster, orbit=orb) for a cluster of ctype "snapshot"; the orbit also goes to the
   restart of line 609, which is not modelled: a snapshot file is assumed to exist (advance_snapshot_with raises otherwise) *)
Definition advance_snapshot_with (rd : reader) (d : disk) (a : adv_opts) (proj : bool) (orb : gorbit) (v : loaded) : result loaded :=
  bind (advance_snapshot G rd d a proj v) (fun v1 =>
  if Nat.eqb (g_ntot (v_cat v1)) 0 then Raise
  else bind (advance_orbit orb (g_c (v_cat v1))) (fun c => Ok (with_cluster v1 c))).
End WithGalpy.
