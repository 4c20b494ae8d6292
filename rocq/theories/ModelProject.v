(* Centring on the sky by projection.  Models the centre_method argument and attribute: clustertools/cluster/operations.py:436-532, 922-1187, 1234-1316
   and cluster/cluster.py:184 (the attribute, None at first), 1664-1686, 1812-1960. *)
From Verif Require Import Base ModelCluster ModelOps.

(* the strings tested at operations.py:956, 959, 1056, 1059; any other string behaves as None *)
Inductive centring := Orthographic | VandeVen | Unknown.
(* a StarCluster with its attribute centre_method *)
Record mcluster := mkM { mc_method : option centring; mc_c : cluster }.
(* `if centre_method is not None: cluster.centre_method = centre_method` (947-948, 1047-1048) *)
Definition remember (q m : option centring) : option centring := match q with Some a => Some a | None => m end.

(* operations.py:1115-1122 and 1165-1174, for one star at (ra, dec) and a centre at (ra0, dec0), in radians; the result is in degrees *)
Definition project_x (ra dec ra0 dec0 : R) : R := (cos dec * sin (ra - ra0)) * (180 / PI).
Definition project_y (ra dec ra0 dec0 : R) : R := (sin dec * cos dec0 - cos dec * sin dec0 * cos (ra - ra0)) * (180 / PI).

(* operations.py:1091-1142; a: x, ..., vz of the stars; pmdec: the kept array (1129); o: the centre used, g: the cluster *)
Definition orthographic (a : six (list R)) (pmdec : list R) (o g : six R) : six (list R) :=
  let ra0 := radians (sx o) in let dec0 := radians (sy o) in
  let ras := map radians (sx a) in let decs := map radians (sy a) in
  let sky := combine ras decs in
  mk6 (map (fun '(ra, dec) => project_x ra dec ra0 dec0) sky) (map (fun '(ra, dec) => project_y ra dec ra0 dec0) sky) (vsub (sz a) (sz o))
      (vsub (zip_with (fun '(ra, dec) '(pr, pd) => pr * cos (ra - ra0) - pd * sin dec * sin (ra - ra0)) sky (combine (svx a) (svy a))) (svx g))
      (vsub (zip_with (fun '(ra, dec) '(pr, pd) => pr * sin dec0 * sin (ra - ra0) + pd * (cos dec * cos dec0 + sin dec * sin dec0 * cos (ra - ra0)))
              sky (combine (svx a) pmdec)) (svy g))
      (vsub (svz a) (svz o)).
(* operations.py:1144-1187 *)
Definition vandeven (a : six (list R)) (o : six R) : six (list R) :=
  let ra0 := radians (sx o) in let dec0 := radians (sy o) in
  let sky := combine (map radians (sx a)) (map radians (sy a)) in
  mk6 (map (fun '(ra, dec) => project_x ra dec ra0 dec0) sky) (map (fun '(ra, dec) => project_y ra dec ra0 dec0) sky) (vsub (sz a) (sz o))
      (vsub (svx a) (svx o)) (vsub (svy a) (svy o)) (vsub (svz a) (svz o)).
(* operations.py:956-969, 1056-1069 *)
Definition centred (m : option centring) (c : cluster) (o : six R) : six (list R) :=
  match m with
  | Some Orthographic => orthographic (p_s (c_ph c)) (svy (k_s (c_sky c))) o (p_g (c_ph c))
  | Some VandeVen => vandeven (p_s (c_ph c)) o
  | _ => sky_offset (p_s (c_ph c)) o
  end.

(* operations.py:1013-1089 *)
Definition to_cluster_m (q : option centring) (sort : bool) (k : mcluster) : mcluster :=
  let c := mc_c k in let m := remember q (mc_method k) in
  match c_origin c, c_units c with
  | None, _ => k
  | Some Ocluster, _ => mkM m c
  | Some o, Some Uradec =>
      let c1 := match o with Osky => c | _ => to_sky_radec c end in
      mkM m (analyze sort true (set_stars c1 (centred m c1 (p_g (c_ph c1))) (Some Ocluster)))
  | _, _ => mkM m (to_cluster sort c)
  end.
(* operations.py:922-985; without sky coordinates it passes the method on to to_cluster (974), which only remembers it *)
Definition to_centre_m (q : option centring) (sort : bool) (k : mcluster) : mcluster :=
  let c := mc_c k in let m := remember q (mc_method k) in
  match c_origin c, c_units c with
  | None, _ => k
  | Some Ocentre, _ => mkM m c
  | Some o, Some Uradec =>
      let c1 := match o with Osky => c | _ => to_sky_radec c end in
      mkM m (analyze sort true (set_stars c1 (centred m c1 (p_c (c_ph c1))) (Some Ocentre)))
  | _, _ => mkM m (to_centre sort c)
  end.

Inductive target := To_cluster | To_centre | To_sky.
Section WithGalpy.
Variable G : galpy.
(* operations.py:468-525: the cluster on the sky *)
Definition lay_on_sky (c : cluster) : cluster :=
  let c1 := to_galaxy G true (to_kpckms0 G c) in
  let k := c_sky c1 in let p := c_ph c1 in
  let orb := match k_orbit k with Some o => o | None => init_orbit c1 end in
  let orbs := match k_orbits k with Some os => os | None => init_orbits c1 end in
  let oc := plus6 (p_g p) (p_c p) in
  let s' := unstack6 (map (to_radec6 G) orbs) in
  let g' := to_radec6 G orb in let cc' := to_radec6 G oc in
  set_sky (set_stars (set_ph c1 (mkP (p_t p) (p_m p) s' cc' g') (Some Uradec)) s' (Some Osky)) (mkSk s' g' cc' (Some orb) (Some orbs) (k_xcn k)).
Definition analyze_m (sort : bool) (k : mcluster) : mcluster := mkM (mc_method k) (analyze sort true (mc_c k)).
(* operations.py:436-532 *)
Definition to_radec_m (q : option centring) (sort : bool) (k : mcluster) : mcluster :=
  let c := mc_c k in
  match c_units c with
  | None | Some Uradec => k
  | Some _ =>
    let k3 := mkM (mc_method k) (lay_on_sky c) in
    analyze_m sort match c_origin c with
                   | Some Ocluster => to_cluster_m q true k3
                   | Some Ocentre => to_centre_m q true k3
                   | _ => k3
                   end
  end.
(* operations.py:1234-1275: in sky coordinates the argument is not used *)
Definition to_sky_m (q : option centring) (sort : bool) (k : mcluster) : mcluster :=
  let c := mc_c k in
  match c_origin c with
  | None => k
  | Some _ =>
    match c_units c with
    | Some Uradec => mkM (mc_method k) (to_sky G sort c)
    | _ => analyze_m sort (to_radec_m q sort (mkM (mc_method k) (to_galaxy G true c)))
    end
  end.
(* operations.py:1277-1316 *)
Definition to_origin_m (r : oreq) (q : option centring) (sort : bool) (k : mcluster) : mcluster :=
  match c_origin (mc_c k) with
  | None => k
  | Some _ =>
    analyze_m sort match r with
                   | Oreq Ocentre => to_centre_m q sort k
                   | Oreq Ocluster => to_cluster_m q sort k
                   | Oreq Ogalaxy => mkM (mc_method k) (to_galaxy G sort (mc_c k))
                   | Oreq Osky => to_sky_m q sort k
                   | Oradec => to_radec_m q sort k
                   | Oother => k
                   end
  end.
(* a call of to_cluster, to_centre or to_sky, directly or through to_origin (cluster.py:1812-1960); it may name a method *)
Definition ask (t : target) (via : bool) (q : option centring) (sort : bool) (k : mcluster) : mcluster :=
  if via then to_origin_m (Oreq match t with To_cluster => Ocluster | To_centre => Ocentre | To_sky => Osky end) q sort k
  else match t with To_cluster => to_cluster_m q sort k | To_centre => to_centre_m q sort k | To_sky => to_sky_m q sort k end.
(* a history of such calls *)
Definition asks (rs : list (target * bool * option centring * bool)) (k : mcluster) : mcluster :=
  fold_left (fun k r => let '(t, via, q, sort) := r in ask t via q sort k) rs k.
End WithGalpy.
