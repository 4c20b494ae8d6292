(* sub_cluster with the reset options.  Models clustertools/cluster/cluster.py:4040-4229 (sub_cluster from the new cluster
   on), completing ModelSubset.sub_cluster, which has them all False. *)
From Verif Require Import Base ModelCluster ModelOps ModelConv ModelEnergy ModelRecipes ModelStars ModelSubset ModelCentre ModelDynamics.
Set Implicit Arguments.

(* cluster.py:3968-3976.  z_repeated: one of the keywords method, full, H, Om, overdens, nrad, plot is among **kwargs *)
Record reset := mkReset { z_centre : bool; z_nbody : bool; z_mass : bool; z_radii : bool; z_rvirial : bool; z_projected : bool;
                          z_repeated : bool }.
Definition no_reset : reset := mkReset false false false false false false false.

(* cluster.py:4040-4152: the new StarCluster before its orbit and centre are set *)
Definition build_stars (sort : bool) (msk : list bool) (s : system) : result system :=
  let k := y_k s in let c := g_c k in let sc := c_sc c in let xc := p_c (c_ph c) in
  bind (selected_args msk k) (fun a =>
  bind (add_stars 0 a sort true true (init_catalog (init_cluster (p_t (c_ph c)) (c_units c) (c_origin c) (ro sc) (vo sc)))) (fun k1 =>
  bind (if Nat.eqb (length (sx (k_s (c_sky c)))) (length (sx (p_s (c_ph c))))
        then bind (masked6 msk (k_s (c_sky c))) (fun r => Ok (with_stars_sky k1 r)) else Ok k1) (fun k2 =>
  let k3 := add_nbody6 (rbar sc) (sx xc) (sy xc) (sz xc) (zmbar sc) (vbar sc) (tbar sc) (Z.to_nat (g_ns k)) (c_nb c) k2 in
  bind (copy_sse msk k k3) (fun k4 =>
  bind (copy_bse msk k k4) (fun k5 =>
  bind (if Nat.ltb 0 (length (y_etot s))
        then bind (masked msk (y_kin s)) (fun kin => bind (masked msk (y_pot s)) (fun pot =>
             let e := add_energies kin pot in Ok (e_kin e, e_pot e, e_etot e)))
        else Ok ([], [], [])) (fun r => let '(kin, pot, etot) := r in
  Ok (mkSys k5 kin pot etot))))))).

(* cluster.py:2119-2127 defaults of find_centre; lines 4178 and 4180 give the same start *)
Definition first_guess : centre_args := mkCA zero6 None 100 (1 / 10) None 100 Mharfst 6.

Section WithGalpy.
Variable G : galpy.

(* cluster.py:4167-4207.  The default find_centre uses the density and never loops on; a nan centre does not occur with the
   default method (simplification: Raise). *)
Definition place_centre (again : bool) (from c : cluster) : result cluster :=
  let c1 := store_orbit (p_g (c_ph from)) c in
  if again then
    match method_find_centre G 0 1 true true first_guess c1 with
    | Done (Ok (Some (_, c2))) => Ok c2
    | _ => Raise
    end
  else Ok (copy_centre from c1).

(* cluster.py:4209-4216.  The keyword radius= is not a parameter of reset_nbody_scale (2011): it ends in **kwargs, which is
   passed to a virial radius that ignores it, and radii keeps its default True. *)
Definition rescale_nbody (z : reset) (c : cluster) : result cluster :=
  let c1 := analyze true true (to_pckms G c) in
  if z_nbody z then reset_nbody_scale_method G true true (z_rvirial z) (z_projected z) (z_repeated z) c1
  else if z_mass z || z_radii z then reset_nbody_scale_method G (z_mass z) true (z_rvirial z) (z_projected z) (z_repeated z) c1
  else Ok c.

(* cluster.py:4221-4224 *)
Definition back_to_units (sort : bool) (from c : cluster) : cluster :=
  let c1 := if ousys_eq_dec (c_units c) (c_units from) then c else to_units G (ureq_of (c_units from)) c in
  let c2 := if oosys_eq_dec (c_origin c1) (c_origin from) then c1 else to_origin G (oreq_of (c_origin from)) false c1 in
  analyze sort true c2.

(* cluster.py:3953-4229: the new cluster, the parent afterwards, the caller's mask afterwards *)
Definition sub_cluster_reset (z : reset) (q : selection) (indx : option (list bool)) (sort : bool) (s : system)
    : result (system * system * option (list bool)) :=
  let c := g_c (y_k s) in
  let parent := mkSys (set_cluster (y_k s) (return_cluster G (save_cluster c) c)) (y_kin s) (y_pot s) (y_etot s) in
  bind (get_subset q indx s) (fun r => let '(answer, caller) := r in
  let none := nothing_selected (p_t (c_ph c)) in
  match answer with
  | Some msk =>
    if Nat.ltb 0 (count msk) then
      bind (build_stars sort msk s) (fun b =>
      bind (place_centre (z_centre z) c (g_c (y_k b))) (fun c1 =>
      bind (rescale_nbody z c1) (fun c2 =>
      let c3 := if Nat.ltb 0 (g_ntot (y_k b)) then back_to_units sort c c2 else c2 in
      Ok (mkSys (set_cluster (y_k b) c3) (y_kin b) (y_pot b) (y_etot b), parent, caller))))
    else Ok (none, parent, caller)
  | None => Ok (none, parent, caller)
  end).
End WithGalpy.
