(* Proofs about the sky frame. *)
From Verif Require Import Base ModelCluster ModelOps ModelConv ModelEnergy ModelRecipes ModelCoords ModelProfiles ModelTail ModelOrbit ModelSky.
From Verif Require Import SpecUnits SpecFrame SpecConv SpecEnergy SpecProfiles SpecDynamics SpecRecipes SpecTail SpecOrbit SpecSky.
From Verif Require Import ProofsUnits ProofsFrame ProofsRecipes2 ProofsEnergy ProofsConv ProofsSees ProofsRecipes ProofsCoords ProofsDynamics ProofsDynamics6 ProofsTail4 ProofsOrbit ProofsOrbit2 ProofsOrbit3.
Set Implicit Arguments.
Unset Strict Implicit.

Lemma an_units s p c : c_units (analyze s p c) = c_units c. Proof. by have [? _] := skel_eq_fields (skel_analyze s p c). Qed.
Lemma an_origin s p c : c_origin (analyze s p c) = c_origin c. Proof. by have [_ [? _]] := skel_eq_fields (skel_analyze s p c). Qed.
Lemma an_sc s p c : c_sc (analyze s p c) = c_sc c. Proof. by have [_ [_ [_ [_ [_ [? _]]]]]] := skel_eq_fields (skel_analyze s p c). Qed.
Lemma an_sky s p c : c_sky (analyze s p c) = c_sky c. Proof. by have [_ [_ [_ [_ [_ [_ [_ [? _]]]]]]]] := skel_eq_fields (skel_analyze s p c). Qed.
Lemma an_id s p c : c_id (analyze s p c) = c_id c. Proof. by have [_ [_ [_ [_ [_ [_ [_ [_ ?]]]]]]]] := skel_eq_fields (skel_analyze s p c). Qed.
Definition an := (an_units, an_origin, an_sc, an_sky, an_id, c_ph_analyze).

Definition even6 (s : six (list R)) (n : nat) : Prop :=
  length (sx s) = n /\ length (sy s) = n /\ length (sz s) = n /\ length (svx s) = n /\ length (svy s) = n /\ length (svz s) = n.
Lemma stack_rows s n : even6 s n -> stack6 s = rows6 s.
Proof.
  move=> [A1 [A2 [A3 [A4 [A5 A6]]]]]. destruct s as [a b c d e f]. cbn [sx sy sz svx svy svz] in *.
  rewrite /stack6. cbn [sx sy sz svx svy svz].
  have L : length (zip_with (fun '(a0, b0, c0) '(d0, e0, f0) => mk6 a0 b0 c0 d0 e0 f0) (combine (combine a b) c) (combine (combine d e) f)) = n
    by rewrite zip_with_length !combine_length; lia.
  apply (nth_ext _ _ zero6 zero6); [by rewrite L rows_length|]. move=> i Hi. rewrite L in Hi.
  rewrite (@rows_nth _ i n) // (@nth_zip_with _ _ _ _ _ _ i (0, 0, 0) (0, 0, 0)); [rewrite !combine_length; lia..|].
  rewrite !combine_nth; [rewrite ?combine_length; lia..|]. by [].
Qed.
Lemma unstack_rows s n : even6 s n -> unstack6 (rows6 s) = s.
Proof.
  move=> [A1 [A2 [A3 [A4 [A5 A6]]]]]. destruct s as [a b c d e f]. cbn [sx sy sz svx svy svz] in *. rewrite /unstack6 /rows6. cbn [sx]. rewrite A1 !map_map.
  have E : forall l, length l = n -> map (fun i => nth i l 0) (seq 0 n) = l.
  { move=> l L. apply (nth_ext _ _ 0 0); [by rewrite map_length seq_length|]. move=> i. rewrite map_length seq_length => Hi. by rewrite nth_map_seq. }
  by rewrite /map6; cbn [sx sy sz svx svy svz]; rewrite !E.
Qed.

Section WithGalpy.
Variable G : galpy.
Definition kframe (c : cluster) : cluster := to_galaxy G true (to_kpckms G c).
Lemma kframe_ok c u o : ready G c u o -> sees G c (kframe c) /\ ready G (kframe c) Ukpckms Ogalaxy /\ skel (to_galaxy G true (to_kpckms0 G c)) = skel (kframe c).
Proof.
  move=> HR. split; [|split].
  - apply sees_galaxy, sees_kpckms. exact (sees_refl HR).
  - exact (ready_galaxy true (ready_kpckms HR)).
  - have [HS [Hu [Hl [Ho Hf]]]] := HR.
    have E : to_kpckms G c = analyze true true (to_kpckms0 G c) by rewrite /to_kpckms /analyze_if_units Hu.
    have K := to_kpckms0_lin HS Hu Hl. set c0 := to_kpckms0 G c in E K *.
    have U0 : c_units c0 = Some Ukpckms by rewrite K. have O0 : c_origin c0 = Some o by rewrite K.
    have F0 := @to_galaxy_flat G true c0 Ukpckms o U0 ltac:(discriminate) O0 Hf.
    have F1 := @to_galaxy_flat G true (to_kpckms G c) Ukpckms o ltac:(by rewrite E an) ltac:(discriminate) ltac:(by rewrite E an) Hf.
    rewrite F0 /kframe F1 E c_ph_analyze. apply skel_set_stars. by rewrite skel_analyze.
Qed.
Lemma even_kframe c u o : ready G c u o -> SpecFrame.aligned c -> even6 (p_s (c_ph (kframe c))) (nstars c).
Proof.
  move=> HR HL. have [S1 [R1 _]] := kframe_ok HR. have [AL [N _]] := kpc_rows S1 R1 HL ltac:(by exists u, o). move: AL. rewrite /SpecFrame.aligned. cbn zeta. by rewrite -N.
Qed.

(* what the orbits kept or, without any, the cluster says *)
Definition the_orbit (c : cluster) : six R := match k_orbit (c_sky c) with Some o => o | None => p_g (c_ph (kframe c)) end.
Definition the_orbits (c : cluster) : list (six R) := match k_orbits (c_sky c) with Some os => os | None => stack6 (p_s (c_ph (kframe c))) end.
Definition sky_stars (c : cluster) : six (list R) := unstack6 (map (to_radec6 G) (the_orbits c)).
Definition the_centre (c : cluster) : six R := plus6 (p_g (c_ph (kframe c))) (p_c (c_ph (kframe c))).
Definition kept (c : cluster) : skydata :=
  mkSk (sky_stars c) (to_radec6 G (the_orbit c)) (to_radec6 G (the_centre c)) (Some (the_orbit c)) (Some (the_orbits c)) (k_xcn (c_sky c)).
Definition sky_pos (o : osys) (c : cluster) : six (list R) :=
  match o with Ocluster => sky_offset (sky_stars c) (to_radec6 G (the_orbit c)) | Ocentre => sky_offset (sky_stars c) (to_radec6 G (the_centre c)) | _ => sky_stars c end.

Lemma radec_form sort c u o : ready G c u o -> let c' := to_radec G sort c in let p := c_ph (kframe c) in
  c_units c' = Some Uradec /\ c_origin c' = Some (sky_origin o) /\ c_sc c' = c_sc c /\ c_id c' = c_id c /\ c_sky c' = kept c /\
  c_ph c' = mkP (p_t p) (p_m p) (sky_pos o c) (to_radec6 G (the_centre c)) (to_radec6 G (the_orbit c)).
Proof.
  move=> HR. cbn zeta. have [S1 [R1 E]] := kframe_ok HR. have [HS [Hu [Hl [Ho Hf]]]] := HR.
  have [E1 [E2 [_ [_ [E5 [E6 [_ [E8 E9]]]]]]]] := skel_eq_fields E. have [_ [_ [SC [ID [SK _]]]]] := S1.
  have F : to_radec G sort c = analyze sort true (let c1 := to_galaxy G true (to_kpckms0 G c) in
    let c3 := set_sky (set_stars (set_ph c1 (mkP (p_t (c_ph c1)) (p_m (c_ph c1)) (sky_stars c) (to_radec6 G (the_centre c)) (to_radec6 G (the_orbit c))) (Some Uradec))
      (sky_stars c) (Some Osky)) (kept c) in
    match o with Ocluster => to_cluster true c3 | Ocentre => to_centre true c3 | _ => c3 end).
  { rewrite /to_radec Hu. cbn zeta. rewrite E5 E8 SK Ho /init_orbit /init_orbits E5 -/(the_orbit c) -/(the_orbits c) -/(the_centre c) -/(sky_stars c) -/(kept c).
    destruct u; try reflexivity; by case: Hl. }
  rewrite F !an. cbn zeta. set c1 := to_galaxy G true _ in E1 E2 E5 E6 E8 E9 *.
  destruct o; [| | |by case: Hf].
  - rewrite /to_centre. cbn [c_origin set_sky set_stars c_units set_ph]. rewrite !an. cbn [c_origin set_sky set_stars c_units set_ph c_sc c_id c_sky c_ph p_t p_m p_s p_c p_g].
    rewrite E6 E9 SC ID E5. by repeat split.
  - rewrite /to_cluster. cbn [c_origin set_sky set_stars c_units set_ph]. rewrite !an. cbn [c_origin set_sky set_stars c_units set_ph c_sc c_id c_sky c_ph p_t p_m p_s p_c p_g].
    rewrite E6 E9 SC ID E5. by repeat split.
  - cbn [c_origin set_sky set_stars c_units set_ph c_sc c_id c_sky c_ph p_t p_m p_s p_c p_g]. rewrite E6 E9 SC ID E5. by repeat split.
Qed.
(* and back *)
Definition back_centre (c : cluster) : six R :=
  match k_xcn (c_sky c) with
  | Some (a, b, d) => let k := rbar (c_sc c) / 1000 in mk6 (a * k) (b * k) (d * k) 0 0 0
  | None => of_radec6 G (to_radec6 G (the_centre c))
  end.
Lemma back_form sort c u o : ready G c u o -> let c' := from_radec G (to_radec G sort c) in let p := c_ph (kframe c) in
  c_units c' = Some Ukpckms /\ c_origin c' = Some Ogalaxy /\ c_sc c' = c_sc c /\ c_id c' = c_id c /\ c_sky c' = kept c /\
  c_ph c' = mkP (p_t p) (p_m p) (unstack6 (the_orbits c)) (back_centre c) (the_orbit c).
Proof.
  move=> HR. cbn zeta. have [U [O [SC [ID [SK PH]]]]] := radec_form sort HR. set c1 := to_radec G sort c in U O SC ID SK PH *. cbn zeta in U, O, SC, ID, SK, PH.
  set c2 := match c_units c1, c_origin c1 with Some Uradec, Some Osky => c1 | Some Uradec, _ => to_sky_radec c1 | _, _ => c1 end.
  have F : c_units c2 = Some Uradec /\ c_origin c2 = Some Osky /\ c_sc c2 = c_sc c /\ c_id c2 = c_id c /\ c_sky c2 = kept c /\
    p_t (c_ph c2) = p_t (c_ph (kframe c)) /\ p_m (c_ph c2) = p_m (c_ph (kframe c)).
  { rewrite /c2 U O. destruct o; cbn [sky_origin]; try (rewrite /to_sky_radec U O; cbn [sky_origin]; rewrite !an);
      cbn [set_stars c_units c_origin c_sc c_id c_sky c_ph p_t p_m]; rewrite ?O ?U ?SC ?ID ?SK ?PH; by repeat split. }
  move: F => [F1 [F2 [F3 [F4 [F5 [F6 F7]]]]]].
  have E : from_radec G c1 = set_sky (set_stars (set_ph c2 (mkP (p_t (c_ph c2)) (p_m (c_ph c2)) (unstack6 (the_orbits c)) (back_centre c) (the_orbit c)) (Some Ukpckms))
     (unstack6 (the_orbits c)) (Some Ogalaxy)) (kept c).
  { rewrite /from_radec -/c2 F1 F2 F5 F3. cbn [kept k_orbit k_orbits k_xcn k_s k_gc k_c]. reflexivity. }
  rewrite E. cbn [set_sky set_stars set_ph c_units c_origin c_sc c_id c_sky c_ph p_t p_m p_s p_c p_g]. rewrite F3 F4 F6 F7. by repeat split.
Qed.
Lemma kpckms_back c : c_units c = Some Uradec -> c_units (from_radec G c) = Some Ukpckms -> to_kpckms G c = analyze true true (from_radec G c).
Proof. move=> U U2. rewrite /to_kpckms /analyze_if_units /to_kpckms0 U /kpckms_step U2 //. Qed.
(* other unit systems: by way of kpc and km/s *)
Lemma units_back c u : c_units c = Some Uradec -> c_units (from_radec G c) = Some Ukpckms -> linear u ->
  skel (to_units G (Ureq u) c) = skel (to_units G (Ureq u) (from_radec G c)).
Proof.
  move=> U U2 Hl. set d := from_radec G c in U2 *.
  have K : to_kpckms0 G c = d by rewrite /to_kpckms0 U -/d /kpckms_step U2.
  have K2 : to_kpckms0 G d = d by rewrite /to_kpckms0 U2 /kpckms_step U2.
  have P : to_pckms0 G c = pckms_step d by rewrite /to_pckms0 U K.
  have P2 : to_pckms0 G d = pckms_step d by rewrite /to_pckms0 U2.
  rewrite /to_units U U2. destruct u.
  - by rewrite /to_nbody U U2 P P2.
  - by rewrite /to_pckms /analyze_if_units U U2 P P2.
  - by rewrite /to_pcmyr U U2 P P2.
  - by rewrite /to_kpckms /analyze_if_units U U2 K K2.
  - by rewrite /to_kpcgyr U U2 K.
  - by rewrite /to_galpy U U2 K.
  - by rewrite /to_WDunits U U2 K.
  - by rewrite /to_amuse U U2 P P2.
  - by case: Hl.
Qed.
End WithGalpy.
