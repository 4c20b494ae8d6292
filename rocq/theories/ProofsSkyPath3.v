(* Proofs: paths on the sky, part 3: matching stars. *)
From Verif Require Import Base ModelCluster ModelOps ModelConv ModelEnergy ModelRecipes ModelCoords ModelLagrange ModelProfiles ModelStars ModelLoad ModelTail ModelOrbit ModelSky ModelSkyPath.
From Verif Require Import SpecUnits SpecFrame SpecConv SpecOrder SpecRecipes SpecEnergy SpecLagrange SpecProfiles SpecDynamics SpecTail SpecOrbit SpecSky SpecSkyPath.
From Verif Require Import ProofsUnits ProofsFrame ProofsRecipes2 ProofsEnergy ProofsEnergy2 ProofsConv ProofsSees ProofsRecipes ProofsCoords ProofsDynamics ProofsDynamics2 ProofsDynamics6 ProofsTail ProofsTail2 ProofsTail3 ProofsTail4 ProofsTail5 ProofsOrbit ProofsOrbit2 ProofsOrbit3 ProofsOrbit4 ProofsOrbit5 ProofsSky ProofsSky2 ProofsSkyPath ProofsSkyPath2.
Set Implicit Arguments. Unset Strict Implicit.

Section WithGalpy.
Variable G : galpy.
Lemma galpy_sky c u o : ready G c u o -> c_sky (to_galpy G c) = c_sky c.
Proof.
  move=> HR. have [HS [Hu [Hl [Ho Hf]]]] := HR.
  have E : to_units G (Ureq Ugalpy) c = to_galpy G c by rewrite /to_units Hu. have Lg : linear Ugalpy by [].
  have [_ [_ [_ [_ [K _]]]]] := to_units_view HR Lg. by rewrite E in K.
Qed.
Lemma frame_sky c u o : ready G c u o -> c_sky (match_frame G c) = c_sky c.
Proof.
  move=> HR. have [HS [Hu [Hl [Ho Hf]]]] := HR.
  have E1 := @to_galaxy_flat G false c u o Hu Hl Ho Hf. have [_ [U1 [_ [_ [_ [_ [_ [K1 _]]]]]]]] := skel_eq_fields E1.
  have R1 := ready_galaxy false HR. have [_ [Hu1 _]] := R1.
  have E : to_units G (Ureq Ukpckms) (to_galaxy G false c) = to_kpckms G (to_galaxy G false c) by rewrite /to_units Hu1.
  have Lk : linear Ukpckms by []. have [_ [_ [_ [_ [K _]]]]] := to_units_view R1 Lk. rewrite /match_frame -E K K1. by [].
Qed.
Lemma return_sky c c1 u o u1 o1 : ready G c u o -> ready G c1 u1 o1 -> c_sky (return_cluster G (save_cluster c) c1) = c_sky c1.
Proof.
  move=> [_ [Hu [Hl [Ho Hf]]]] R1. have [ops [F [_ [_ E]]]] := return_is_run R1 Hl Hf (sv := save_cluster c) Hu Ho.
  rewrite E an_sky. have [_ [_ [_ [_ [K _]]]]] := run_view R1 F. exact K.
Qed.
Lemma no_orbits_eq c d : c_sky d = c_sky c -> no_orbits c -> no_orbits d.
Proof. by move=> E; rewrite /no_orbits E. Qed.

Theorem sky_match_ok pth tp c u o : ready G c u o -> o <> Ocentre -> SpecFrame.aligned c -> no_orbits c -> pth <> [] -> (tp = true -> (2 <= length pth)%nat) ->
  let z := unit_size G (c_sc c) u in let ts := map fst pth in let pts := map snd pth in
  let c' := return_cluster G (save_cluster c) (to_radec G true c) in
  exists out p D, sky_match G pth tp false c = Ok (out, c') /\ now ts p /\
    (forall j k, (j <= k)%nat -> (k < length pth)%nat -> 0 <= D k - D j <= arc true pts j k) /\ length out = nstars c /\
    (forall i, (i < nstars c)%nat -> star_match true tp z ts pts D p
       (on_sky o (to_radec6 G (star_kpc G c i)) (to_radec6 G (orbit_kpc G c false)) (to_radec6 G (orbit_kpc G c true))) (nth i out (0, 0, None))) /\
    ready G c' u o /\ c_sc c' = c_sc c /\ c_id c' = c_id c /\ p_t (c_ph c') = p_t (c_ph c) /\ p_m (c_ph c') = p_m (c_ph c) /\ p_s (c_ph c') = p_s (c_ph c) /\ p_g (c_ph c') = p_g (c_ph c).
Proof.
  move=> HR HO HL HN NP HT z ts pts c'. have BK := @sky_return G true c u o HR HO HL HN. have [LN ST] := @sky_rows G true c u o HR HL HN. cbn zeta in BK.
  have [B1 [B2 B3]] := BK.
  have [out [p [D [E1 [E2 [E3 [E4 E5]]]]]]] := @core_gen G pth tp true c (to_radec G true c) u o (nstars c) _ B1 B2 LN ST NP HT.
  exists out, p, D. split; [exact E1|]. split; [exact E2|]. split; [exact E3|]. split; [exact E4|]. split; [exact E5|]. split; [exact B1|]. split; [exact B2|]. exact B3.
Qed.
End WithGalpy.
