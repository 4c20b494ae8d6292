(* Proofs about the sky frame, part 2. *)
From Verif Require Import Base ModelCluster ModelOps ModelConv ModelEnergy ModelRecipes ModelCoords ModelProfiles ModelStars ModelLoad ModelTail ModelOrbit ModelSky.
From Verif Require Import SpecUnits SpecFrame SpecConv SpecEnergy SpecProfiles SpecDynamics SpecRecipes SpecTail SpecOrbit SpecSky.
From Verif Require Import ProofsUnits ProofsFrame ProofsRecipes2 ProofsEnergy ProofsConv ProofsSees ProofsRecipes ProofsCoords ProofsDynamics ProofsDynamics6 ProofsTail4 ProofsTail5 ProofsOrbit ProofsOrbit2 ProofsOrbit3 ProofsSky.
Set Implicit Arguments.
Unset Strict Implicit.

Section WithGalpy.
Variable G : galpy.
Lemma kframe_orbit c u o : ready G c u o -> p_g (c_ph (kframe G c)) = orbit_kpc G c false /\ the_centre G c = orbit_kpc G c true.
Proof.
  move=> HR. have [[V _] [[_ [U1 _]] _]] := kframe_ok HR. rewrite /the_centre /orbit_kpc -V /galactic_view U1. cbn zeta. cbn [p_g p_c].
  have -> : unit_size G (c_sc (kframe G c)) Ukpckms = mkSize 1000 1 1000 1 by [].
  rewrite /view6 /plus6. cbn [in_pc in_kms sx sy sz svx svy svz]. split; [rewrite -[LHS]six_eta|]; f_equal; field.
Qed.
Lemma fresh_orbit c u o : ready G c u o -> k_orbit (c_sky c) = None -> the_orbit G c = orbit_kpc G c false.
Proof. move=> HR F. rewrite /the_orbit F. exact (proj1 (kframe_orbit HR)). Qed.
Lemma fresh_orbits c u o : ready G c u o -> SpecFrame.aligned c -> k_orbits (c_sky c) = None -> the_orbits G c = rows6 (p_s (c_ph (kframe G c))).
Proof. move=> HR HL F. rewrite /the_orbits F. exact (stack_rows (even_kframe HR HL)). Qed.
Lemma fresh_star c u o : ready G c u o -> SpecFrame.aligned c -> k_orbits (c_sky c) = None ->
  length (the_orbits G c) = nstars c /\ forall i, (i < nstars c)%nat -> nth i (the_orbits G c) zero6 = star_kpc G c i.
Proof.
  move=> HR HL F. rewrite (fresh_orbits HR HL F). have [S1 [R1 _]] := kframe_ok HR. have [_ [_ [L N]]] := kpc_rows S1 R1 HL ltac:(by exists u, o). by split.
Qed.
Lemma unstack_len l : let s := unstack6 l in even6 s (length l).
Proof. cbn zeta. rewrite /even6 /unstack6. cbn [sx sy sz svx svy svz]. by rewrite !map_length. Qed.
Lemma row_unstack l i : (i < length l)%nat -> row (unstack6 l) i = nth i l zero6.
Proof. exact: unstack_nth. Qed.
Lemma row_sky c i : (i < length (the_orbits G c))%nat -> row (sky_stars G c) i = to_radec6 G (nth i (the_orbits G c) zero6).
Proof. move=> H. rewrite /sky_stars row_unstack; [by rewrite map_length|]. rewrite (@nth_map' _ _ _ _ i zero6 zero6) //. Qed.
Lemma row_offset s o n i : even6 s n -> (i < n)%nat -> row (sky_offset s o) i = beside_sky (row s i) o.
Proof.
  move=> [A1 [A2 [A3 [A4 [A5 A6]]]]] Hi. rewrite /row /star_row /map6 /sky_offset /beside_sky /vsub. cbn [sx sy sz svx svy svz].
  rewrite !(@nth_map' _ _ _ _ i 0 0) ?A1 ?A2 ?A3 ?A4 ?A5 ?A6 //. f_equal. rewrite /radians. do 2 f_equal. field.
Qed.
Lemma row_pos oo c i : (i < length (the_orbits G c))%nat -> oo <> Osky ->
  row (sky_pos G oo c) i = on_sky oo (to_radec6 G (nth i (the_orbits G c) zero6)) (to_radec6 G (the_orbit G c)) (to_radec6 G (the_centre G c)).
Proof.
  move=> H N. have L := unstack_len (map (to_radec6 G) (the_orbits G c)). cbn zeta in L. rewrite map_length -/(sky_stars G c) in L.
  destruct oo; cbn [sky_pos on_sky]; rewrite ?(row_offset _ L H) row_sky //.
Qed.
(* the round trip *)
Theorem round_trip sort c u o : ready G c u o -> SpecFrame.aligned c -> no_orbits c -> let c' := to_kpckms G (to_radec G sort c) in
  galactic_copy G c c' /\ p_c (c_ph c') = back_centre G c /\ c_sky c' = kept G c.
Proof.
  move=> HR HL [F1 F2]. cbn zeta. have [U0 _] := radec_form sort HR. have [U [O [SC [ID [SK PH]]]]] := back_form sort HR. cbn zeta in U0, U, O, SC, ID, SK, PH.
  rewrite (kpckms_back U0 U). set c' := from_radec G _ in U O SC ID SK PH *.
  have [S1 [R1 _]] := kframe_ok HR. have [V [_ [SC1 [ID1 _]]]] := S1. have EV := even_kframe HR HL. have [_ [U1 [_ [O1 _]]]] := R1. have [HS _] := HR.
  have OS : unstack6 (the_orbits G c) = p_s (c_ph (kframe G c)) by rewrite (fresh_orbits HR HL F2) (unstack_rows EV).
  have OB : the_orbit G c = p_g (c_ph (kframe G c)) by rewrite /the_orbit F1.
  have VV : galactic_view G (analyze true true c') = mkP (p_t (galactic_view G c)) (p_m (galactic_view G c)) (p_s (galactic_view G c))
     (view6 (unit_size G (c_sc c) Ukpckms) (back_centre G c)) (p_g (galactic_view G c)).
  { rewrite -V /galactic_view /origin_shift !an U O U1 O1 PH SC SC1 OS OB. reflexivity. }
  have [_ [LM _]] := kpc_rows S1 R1 HL ltac:(by exists u, o).
  split; [|split; [by rewrite !an PH|by rewrite !an]]. rewrite /galactic_copy VV. cbn [p_t p_m p_s p_g].
  split; [|split; [|split; [|split; [|split; [|by repeat split]]]]].
  - rewrite /ready !an SC U O. split; [exact HS|]. by split; [|split; [|split]].
  - rewrite /SpecFrame.aligned !an PH OS. cbn zeta. cbn [p_s p_m]. rewrite /nstars in LM. rewrite LM. exact EV.
  - rewrite /nstars !an PH. exact LM.
  - by rewrite !an.
  - by rewrite !an.
Qed.
Lemma origin_keeps s c u o o' : ready G c u o -> flat o' -> c_sc (to_origin G (Oreq o') s c) = c_sc c.
Proof.
  move=> [HS [Hu [Hl [Ho Hf]]]] F. have E := to_origin_flat G s Hu Hl Ho Hf F. by have [_ [_ [_ [_ [_ [E6 _]]]]]] := skel_eq_fields E.
Qed.
(* with kept orbits *)
Theorem round_trip_kept sort c u o : ready G c u o -> let c' := to_kpckms G (to_radec G sort c) in
  ready G c' Ukpckms Ogalaxy /\ p_s (c_ph c') = unstack6 (the_orbits G c) /\ p_g (c_ph c') = the_orbit G c /\ length (p_m (c_ph c')) = nstars c /\ c_sky c' = kept G c /\ c_sc c' = c_sc c.
Proof.
  move=> HR. cbn zeta. have [U0 _] := radec_form sort HR. have [U [O [SC [ID [SK PH]]]]] := back_form sort HR. cbn zeta in U0, U, O, SC, ID, SK, PH.
  rewrite (kpckms_back U0 U) !an PH. cbn [p_s p_g p_m]. have [S1 _] := kframe_ok HR. have [V _] := S1. have [HS _] := HR.
  have L : length (p_m (c_ph (kframe G c))) = nstars c. { have E := f_equal (fun p => length (p_m p)) V. rewrite /galactic_view in E. cbn [p_m] in E. rewrite !map_length in E. exact E. }
  split; [rewrite /ready !an SC U O; split; [exact HS|by split; [|split; [|split]]]|]. by repeat split.
Qed.
End WithGalpy.
