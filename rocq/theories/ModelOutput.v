(* Output files.  Models clustertools/util/output.py.  A file is the list of rows of numbers handed to np.savetxt; text
   is obtained by printing every number (numbers are real: printing is exact, except that fmt '%f %i ...' of sseout is not
   modelled).  The name of the file is a parameter of the caller (fortout: cluster.wdir+filename, line 256). *)
From Coq Require Import String Ascii.
From Verif Require Import Base ModelCluster ModelOps ModelConv ModelEnergy ModelDynamics ModelStars ModelLoad.
Set Implicit Arguments.
Open Scope string_scope. Open Scope list_scope. Open Scope R_scope.

(* np.column_stack of one-dimensional arrays: they must all have the same length *)
Definition column_stack (cols : list (list R)) : result (list (list R)) :=
  let n := length (hd [] cols) in
  if forallb (fun l => Nat.eqb (length l) n) cols
  then Ok (map (fun i => map (fun l => nth i l 0) cols) (seq 0 n))
  else Raise.
(* np.savetxt: one line for each row *)
Definition savetxt (show : R -> string) (rows : list (list R)) : text := map (map show) rows.

Definition seven (c : cluster) : list (list R) :=
  let p := c_ph c in let s := p_s p in [p_m p; sx s; sy s; sz s; svx s; svy s; svz s].
Definition six_columns (s : six (list R)) : list (list R) := [sx s; sy s; sz s; svx s; svy s; svz s].
(* output.py:25-165.  energies: kin, pot, etot of the stars; radec: the sky coordinates sky_coords(cluster) (line 56) *)
Definition snapout (energies : option (list R * list R * list R)) (radec : option (six (list R))) (k : catalog)
    : result (list (list R)) :=
  let base := seven (g_c k) ++ [map IZR (c_id (g_c k))] in
  let kw := [e_kw (g_sse k)] in
  let en := match energies with Some (a, b, e) => [a; b; e] | None => [] end in
  match radec with
  | Some s => column_stack (base ++ kw ++ en ++ six_columns s)                        (* 54-106 *)
  | None => match energies with
            | Some _ => column_stack (base ++ kw ++ en)                                 (* 109-128 *)
            | None => if Nat.eqb (length (e_kw (g_sse k))) (g_ntot k)                   (* 131 *)
                      then column_stack (base ++ kw) else column_stack base
            end
  end.

(* m0, kw, m, ep, ospin: output.py:196-202, 276-282 *)
Definition sse_columns (k : catalog) (c : cluster) : list (list R) :=
  let e := g_sse k in [g_m0 k; e_kw e; p_m (c_ph c); e_ep e; e_ospin e].

Section WithGalpy.
Variable G : galpy.
(* output.py:167-206 *)
Definition sseout (k : catalog) : result (list (list R) * catalog) :=
  let c := g_c k in
  let c1 := to_pckms G c in
  bind (column_stack (sse_columns k c1)) (fun rows =>
  Ok (rows, set_cluster k (return_cluster G (save_cluster c) c1))).
(* output.py:208-288.  reset: reset_nbody with reset_nbody_mass and reset_nbody_radii; rvirial is True by default
   (cluster.py:2011) and projected is the attribute of the cluster *)
Definition fortout (reset : option (bool * bool)) (sse proj : bool) (k : catalog) : result (list (list R) * option (list (list R)) * catalog) :=
  let c := g_c k in
  let c1 := to_centre false c in
  bind (match reset with Some (mass, radii) => reset_nbody_scale_method G mass radii true proj false c1 | None => Ok c1 end) (fun c2 =>
  let c3 := to_nbody G c2 in
  bind (column_stack (seven c3)) (fun rows =>
  let c4 := to_pckms G c3 in
  bind (if sse then bind (column_stack (sse_columns k c4)) (fun q => Ok (Some q)) else Ok None) (fun q =>
  Ok (rows, q, set_cluster k (return_cluster G (save_cluster c) c4))))).
(* constants.py:10-12 *)
Definition solar_ro : R := 8275 / 1000.
Definition solar_vo : R := solar_ro * (3039 / 100) - 1224 / 100.
(* output.py:320-321 *)
Definition gyr_vcon : R := 220 / velocity_in_kpcGyr G solar_vo solar_ro.
Definition gyr_mcon : R := 2222884543021174 / 10000000000.
(* the softening: one number for all stars, or one for each; units of the cluster when epsunits is None *)
Inductive softening := Soft (e : R) | Softs (l : list R).
Definition gyr_eps (e : softening) (u : option usys) (c : cluster) : list R :=
  let f x := match u with Some u => convert_length x u c | None => x end in
  match e with Soft x => repeat (f x) (length (p_m (c_ph c))) | Softs l => map f l end.
(* output.py:291-376; the arguments ro and vo are not used *)
Definition gyrout (eps : option (softening * option usys)) (k : catalog) : result (list (list R) * catalog) :=
  let c := g_c k in
  let c1 := to_kpckms G (to_galaxy G false c) in
  let p := c_ph c1 in let s := p_s p in
  let base := [vdiv (p_m p) gyr_mcon; sx s; sy s; sz s; vdiv (svx s) gyr_vcon; vdiv (svy s) gyr_vcon; vdiv (svz s) gyr_vcon] in
  bind (column_stack (match eps with
                      | None => base
                      | Some (e, u) => base ++ [gyr_eps e (match u with Some u => Some u | None => c_units c end) c1]
                      end)) (fun rows =>
  Ok (rows, set_cluster k (return_cluster G (save_cluster c) c1))).
End WithGalpy.
