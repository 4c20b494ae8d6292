(* Proofs: paths on the sky, part 5: clusters on the sky. *)
From Verif Require Import Base ModelCluster ModelOps ModelConv ModelEnergy ModelRecipes ModelCoords ModelLagrange ModelProfiles ModelStars ModelLoad ModelOutput ModelTail ModelOrbit ModelSky ModelSkyPath.
From Verif Require Import SpecUnits SpecFrame SpecConv SpecOrder SpecRecipes SpecEnergy SpecLagrange SpecProfiles SpecDynamics SpecTail SpecOrbit SpecSky SpecSkyPath.
From Verif Require Import ProofsUnits ProofsFrame ProofsRecipes2 ProofsEnergy ProofsEnergy2 ProofsConv ProofsSees ProofsRecipes ProofsCoords ProofsDynamics ProofsDynamics2 ProofsDynamics6 ProofsTail ProofsTail2 ProofsTail3 ProofsTail4 ProofsTail5 ProofsOrbit ProofsOrbit2 ProofsOrbit3 ProofsOrbit4 ProofsOrbit5 ProofsSky ProofsSky2 ProofsSkyPath ProofsSkyPath2 ProofsSkyPath3 ProofsSkyPath4.
Set Implicit Arguments. Unset Strict Implicit.

Section WithGalpy.
Variable G : galpy.
Variable A : astrometry.
Variables (zo : R) (motion : R * R * R).
(* the path of a cluster on the sky: from_centre makes no difference *)
Lemma sky_path_radec ev tfinal nt fc fc' r v c1 : c_units c1 = Some Uradec ->
  sky_path G A zo motion ev tfinal nt fc r v c1 = sky_path G A zo motion ev tfinal nt fc' r v c1.
Proof. move=> U. by rewrite /sky_path /orbit_of U. Qed.
Theorem radec_path_ok ev tfinal nt fc sort c u o r v : lawful ev -> ready G c u o -> no_orbits c -> (2 <= nt)%nat ->
  opt r (ro (c_sc c)) = ro (c_sc c) -> opt v (vo (c_sc c)) = vo (c_sc c) ->
  unseen A (sun_of zo motion None None c) (to_radec6 G (orbit_kpc G c false)) = orbit_kpc G c false ->
  exists own, own_path G ev c false (gyr tfinal) nt own /\
    sky_path G A zo motion ev tfinal nt fc r v (to_radec G sort c) = Ok (sky_image (seen A (sun_of zo motion None None c)) own, to_radec G sort c).
Proof.
  move=> HE HR [F1 F2] NT Er Ev HU. have [U [_ [SC [_ [SK _]]]]] := radec_form sort HR. have [HS _] := HR. have OB := fresh_orbit HR F1.
  move: (to_radec G sort c) U SC SK => c1 U SC SK. rewrite (sky_path_radec ev tfinal nt fc false r v U).
  apply (@gyr_image G A zo motion ev tfinal nt false c c1 c1 r v Uradec HE NT SC SC HS Er Ev U U (or_intror eq_refl)).
  rewrite /orbit_of U. rewrite SC. cbn [opt]. have -> : k_gc (c_sky c1) = to_radec6 G (orbit_kpc G c false) by rewrite SK /kept; cbn [k_gc]; rewrite OB.
  have -> : sun_of zo motion (Some (ro (c_sc c))) (Some (vo (c_sc c))) c1 = sun_of zo motion None None c by []. rewrite HU. reflexivity.
Qed.
Theorem sky_own_ok ev tfinal nt fc tp c u o : lawful ev -> ready G c u o -> o <> Ocentre -> SpecFrame.aligned c -> no_orbits c -> (2 <= nt)%nat ->
  unseen A (sun_of zo motion None None c) (to_radec6 G (orbit_kpc G c false)) = orbit_kpc G c false ->
  let z := unit_size G (c_sc c) u in
  exists own out p D c', own_path G ev c false (gyr tfinal) nt own /\ let pth := sky_image (seen A (sun_of zo motion None None c)) own in
    sky_match_own G A zo motion ev tfinal nt fc tp false None None c = Ok (out, c') /\ now (map fst pth) p /\
    (forall j k, (j <= k)%nat -> (k < nt)%nat -> 0 <= D k - D j <= arc true (map snd pth) j k) /\ length out = nstars c /\
    (forall i, (i < nstars c)%nat -> star_match true tp z (map fst pth) (map snd pth) D p
       (on_sky o (to_radec6 G (star_kpc G c i)) (to_radec6 G (orbit_kpc G c false)) (to_radec6 G (orbit_kpc G c true))) (nth i out (0, 0, None))) /\
    ready G c' u o /\ c_sc c' = c_sc c /\ c_id c' = c_id c /\ p_t (c_ph c') = p_t (c_ph c) /\ p_m (c_ph c') = p_m (c_ph c) /\ p_s (c_ph c') = p_s (c_ph c) /\ p_g (c_ph c') = p_g (c_ph c).
Proof.
  move=> HE HR HO HL HN NT HU z.
  have [own [OW E1]] := @radec_path_ok ev tfinal nt fc true c u o (Some (ro (c_sc c))) (Some (vo (c_sc c))) HE HR HN NT eq_refl eq_refl HU.
  set pth := sky_image (seen A (sun_of zo motion None None c)) own in E1.
  have LP : length pth = nt by rewrite /pth /sky_image map_length; case: OW. have NP : pth <> [] by move=> E; rewrite E /= in LP; lia.
  have [out [p [D [M1 [M2 [M3 M4]]]]]] := @sky_match_ok G pth tp c u o HR HO HL HN NP ltac:(move=> _; lia).
  rewrite LP in M3.
  exists own, out, p, D. eexists. split; [exact OW|]. rewrite -/pth. cbn zeta. split; [|split; [exact M2|split; [exact M3|exact M4]]].
  rewrite /sky_match_own. cbn [opt]. rewrite E1. cbn [bind fst snd]. exact M1.
Qed.
Lemma sky_match_own_fc ev tfinal nt fc fc' tp df r v c u o : ready G c u o ->
  sky_match_own G A zo motion ev tfinal nt fc tp df r v c = sky_match_own G A zo motion ev tfinal nt fc' tp df r v c.
Proof. move=> HR. have [U _] := radec_form true HR. rewrite /sky_match_own. by rewrite (sky_path_radec _ _ _ fc fc' _ _ U). Qed.
End WithGalpy.
