(* Proofs about projections on the sky. *)
From Verif Require Import Base ModelCluster ModelOps ModelConv ModelEnergy ModelRecipes ModelCoords ModelProfiles ModelTail ModelOrbit ModelSky ModelProject.
From Verif Require Import SpecUnits SpecFrame SpecConv SpecEnergy SpecProfiles SpecDynamics SpecRecipes SpecTail SpecOrbit SpecSky SpecProject.
From Verif Require Import ProofsUnits ProofsFrame ProofsRecipes2 ProofsEnergy ProofsConv ProofsSees ProofsRecipes ProofsCoords ProofsDynamics ProofsDynamics6 ProofsTail4 ProofsOrbit ProofsOrbit2 ProofsOrbit3 ProofsSky ProofsSky2.
Set Implicit Arguments.
Unset Strict Implicit.

(* spherical geometry *)
Lemma deg_nz : 180 / PI <> 0.
Proof. have P := PI_RGT_0. apply Rmult_integral_contrapositive_currified; [lra|]. apply Rinv_neq_0_compat. lra. Qed.
Lemma rad_radians d : radians d = rads d.
Proof. rewrite /radians /rads /Rdiv. ring. Qed.
Lemma place_x_ok s p : project_x (rads (sx s)) (rads (sy s)) (rads (sx p)) (rads (sy p)) = place_x s p.
Proof. rewrite /project_x /place_x /degs /toward /east_of /direction /east /dot sin_minus. ring. Qed.
Lemma place_y_ok s p : project_y (rads (sx s)) (rads (sy s)) (rads (sx p)) (rads (sy p)) = place_y s p.
Proof. rewrite /project_y /place_y /degs /toward /north_of /direction /north /dot cos_minus. ring. Qed.
Lemma motion_x_ok s p : svx s * cos (rads (sx s) - rads (sx p)) - svy s * sin (rads (sy s)) * sin (rads (sx s) - rads (sx p)) = motion_x s p.
Proof. rewrite /motion_x /east_of /north_of /north /east /dot cos_minus sin_minus. ring. Qed.
Lemma motion_y_ok s p : svx s * sin (rads (sy p)) * sin (rads (sx s) - rads (sx p)) + svy s * (cos (rads (sy s)) * cos (rads (sy p)) + sin (rads (sy s)) * sin (rads (sy p)) * cos (rads (sx s) - rads (sx p))) = motion_y s p.
Proof. rewrite /motion_y /east_of /north_of /north /east /dot cos_minus sin_minus. ring. Qed.

(* the stars of a table on the sky *)
Definition laid (m : option centring) (s : six (list R)) (p g : six R) : six (list R) :=
  match m with Some Orthographic => orthographic s (svy s) p g | Some VandeVen => vandeven s p | _ => sky_offset s p end.
Lemma row_laid m s p g n i : even6 s n -> (i < n)%nat -> row (laid m s p g) i = seen_from (style_of m) (row s i) p g.
Proof.
  move=> E Hi. have [A1 [A2 [A3 [A4 [A5 A6]]]]] := E.
  have LS : length (combine (map radians (sx s)) (map radians (sy s))) = n by rewrite combine_length !map_length A1 A2; lia.
  have NS : nth i (combine (map radians (sx s)) (map radians (sy s))) (0, 0) = (rads (nth i (sx s) 0), rads (nth i (sy s) 0)).
  { rewrite combine_nth; [by rewrite !map_length A1 A2|]. rewrite !(@nth_map' _ _ radians _ i 0 0) ?A1 ?A2 // !rad_radians //. }
  have SUB : forall l k, length l = n -> nth i (vsub l k) 0 = nth i l 0 - k by move=> l k L; rewrite /vsub (@nth_map' _ _ _ _ i 0 0) // L.
  have PX : forall f : R * R -> R, nth i (map f (combine (map radians (sx s)) (map radians (sy s)))) 0 = f (rads (nth i (sx s) 0), rads (nth i (sy s) 0))
    by move=> f; rewrite (@nth_map' _ _ f _ i 0 (0, 0)) ?LS // NS.
  have ZX : forall (f : R * R -> R * R -> R) l1 l2, length l1 = n -> length l2 = n ->
     nth i (zip_with f (combine (map radians (sx s)) (map radians (sy s))) (combine l1 l2)) 0 = f (rads (nth i (sx s) 0), rads (nth i (sy s) 0)) (nth i l1 0, nth i l2 0).
  { move=> f l1 l2 L1 L2. rewrite (@nth_zip_with _ _ _ _ _ _ i (0, 0) (0, 0)); [rewrite ?LS ?combine_length ?L1 ?L2; lia..|]. rewrite NS combine_nth //. by rewrite L1 L2. }
  destruct m as [[| |]|]; cbn [laid style_of].
  - rewrite /orthographic /row /map6 /seen_from. cbv zeta. cbn [sx sy sz svx svy svz].
    rewrite !SUB ?zip_with_length ?combine_length ?map_length ?A1 ?A2 ?A4 ?A5 ?Nat.min_id // !PX !ZX // !rad_radians.
    rewrite -place_x_ok -place_y_ok -motion_x_ok -motion_y_ok //.
  - rewrite /vandeven /row /map6 /seen_from. cbv zeta. cbn [sx sy sz svx svy svz].
    rewrite !SUB // !PX !rad_radians. rewrite -place_x_ok -place_y_ok //.
  - exact (row_offset _ E Hi).
  - exact (row_offset _ E Hi).
Qed.

Section WithGalpy.
Variable G : galpy.
Definition sky_by (m : option centring) (o : osys) (c : cluster) : six (list R) :=
  let g := to_radec6 G (the_orbit G c) in
  match o with Ocluster => laid m (sky_stars G c) g g | Ocentre => laid m (sky_stars G c) (to_radec6 G (the_centre G c)) g | _ => sky_stars G c end.
Lemma row_by m oo c i : (i < length (the_orbits G c))%nat ->
  row (sky_by m oo c) i = on_sky_by (style_of m) oo (to_radec6 G (nth i (the_orbits G c) zero6)) (to_radec6 G (the_orbit G c)) (to_radec6 G (the_centre G c)).
Proof.
  move=> H. have L := unstack_len (map (to_radec6 G) (the_orbits G c)). cbn zeta in L. rewrite map_length -/(sky_stars G c) in L.
  destruct oo; rewrite /sky_by; cbv zeta; cbn [on_sky_by]; rewrite ?(row_laid _ _ _ L H) row_sky //.
Qed.

(* the invariant of a cluster laid on the sky *)
Definition shown (c : cluster) (k : mcluster) (e : seen centring) : Prop :=
  let c' := mc_c k in
  c_units c' = Some Uradec /\ c_origin c' = Some (se_origin e) /\ c_id c' = c_id c /\ c_sc c' = c_sc c /\ c_sky c' = kept G c /\ mc_method k = se_kept e /\
  c_ph c' = mkP (p_t (c_ph (kframe G c))) (p_m (c_ph (kframe G c))) (sky_by (se_used e) (se_origin e) c) (to_radec6 G (the_centre G c)) (to_radec6 G (the_orbit G c)).
Lemma shown_analyze c k e sort : shown c k e -> shown c (analyze_m sort k) e.
Proof. rewrite /shown /analyze_m. cbv zeta. cbn [mc_c mc_method]. by rewrite !an. Qed.
Lemma to_sky_shown c c' e m : shown c (mkM m c') e -> shown c (mkM m (match se_origin e with Osky => c' | _ => to_sky_radec c' end)) (mkSeen _ Osky None m).
Proof.
  rewrite /shown. cbv zeta. cbn [mc_c mc_method se_origin se_used se_kept]. move=> [U [O [ID [SC [SK [M PH]]]]]].
  case EO : (se_origin e) O PH => O PH; rewrite /to_sky_radec ?O ?U ?an; cbn [set_stars c_units c_origin c_sc c_id c_sky c_ph p_t p_m p_c p_g]; rewrite ?U ?O ?SC ?ID ?SK ?PH; by repeat split.
Qed.
Lemma centred_laid c c' m m' : shown c (mkM m' c') (mkSeen _ Osky None m') -> forall o, centred m c' o = laid m (sky_stars G c) o (to_radec6 G (the_orbit G c)).
Proof. move=> [_ [_ [_ [_ [SK [_ PH]]]]]] o. cbn [mc_c] in SK, PH. rewrite /centred /laid PH SK. by destruct m as [[| |]|]. Qed.
Lemma place_shown c c1 m (m' : option centring) sort oo : shown c (mkM m' c1) (mkSeen _ Osky None m') -> oo = Ocluster \/ oo = Ocentre ->
  shown c (mkM m (analyze sort true (set_stars c1 (centred m c1 (match oo with Ocluster => p_g (c_ph c1) | _ => p_c (c_ph c1) end)) (Some oo)))) (mkSeen _ oo m m).
Proof.
  move=> H HO. rewrite (centred_laid _ H). move: H. rewrite /shown. cbv zeta. cbn [mc_c mc_method se_origin se_used se_kept]. move=> [U [O [ID [SC [SK [_ PH]]]]]]. rewrite !an.
  case: HO => ->; cbn [set_stars c_units c_origin c_sc c_id c_sky c_ph p_t p_m p_c p_g]; rewrite ?U ?SC ?ID ?SK ?PH; by repeat split.
Qed.
Lemma remember_newest q m : remember q m = newest q m. Proof. by case: q. Qed.
Lemma cluster_shown c k e q sort : shown c k e -> shown c (to_cluster_m q sort k) (follow e (To_cluster, q)).
Proof.
  move=> H. have [U [O [_ [_ [_ [M _]]]]]] := H. destruct k as [m c']. cbn [mc_c mc_method] in *. rewrite /to_cluster_m. cbv zeta. cbn [mc_c mc_method]. rewrite O U remember_newest M.
  have T := @to_sky_shown c c' e m H. destruct e as [oo us ke]. cbn [se_origin se_kept se_used follow] in *. rewrite -M.
  destruct oo; [exact (place_shown (newest q m) sort T (or_introl eq_refl))| |exact (place_shown (newest q m) sort T (or_introl eq_refl))|exact (place_shown (newest q m) sort T (or_introl eq_refl))].
  move: H. rewrite /shown. cbv zeta. cbn [mc_c mc_method se_origin se_used se_kept]. move=> [H1 [H2 [H3 [H4 [H5 [H6 H7]]]]]]. by repeat split.
Qed.
Lemma centre_shown c k e q sort : shown c k e -> shown c (to_centre_m q sort k) (follow e (To_centre, q)).
Proof.
  move=> H. have [U [O [_ [_ [_ [M _]]]]]] := H. destruct k as [m c']. cbn [mc_c mc_method] in *. rewrite /to_centre_m. cbv zeta. cbn [mc_c mc_method]. rewrite O U remember_newest M.
  have T := @to_sky_shown c c' e m H. destruct e as [oo us ke]. cbn [se_origin se_kept se_used follow] in *. rewrite -M.
  destruct oo; [|exact (place_shown (newest q m) sort T (or_intror eq_refl))|exact (place_shown (newest q m) sort T (or_intror eq_refl))|exact (place_shown (newest q m) sort T (or_intror eq_refl))].
  move: H. rewrite /shown. cbv zeta. cbn [mc_c mc_method se_origin se_used se_kept]. move=> [H1 [H2 [H3 [H4 [H5 [H6 H7]]]]]]. by repeat split.
Qed.
Lemma sky_shown c k e q sort : shown c k e -> shown c (to_sky_m G q sort k) (follow e (To_sky, q)).
Proof.
  rewrite /shown. cbv zeta. move=> [U [O [ID [SC [SK [M PH]]]]]]. rewrite /to_sky_m. cbv zeta. rewrite O U. cbn [mc_c mc_method follow se_origin se_used se_kept].
  rewrite /to_sky O U. case EO : (se_origin e) O PH => O PH; rewrite !an; cbn [set_stars c_units c_origin c_sc c_id c_sky c_ph p_t p_m p_c p_g]; rewrite ?U ?O ?SC ?ID ?SK ?PH ?M; by repeat split.
Qed.
Lemma ask_shown c k e t via q sort : shown c k e -> shown c (ask G t via q sort k) (follow e (t, q)).
Proof.
  move=> H. have D : shown c (match t with To_cluster => to_cluster_m q sort k | To_centre => to_centre_m q sort k | To_sky => to_sky_m G q sort k end) (follow e (t, q))
    by destruct t; [exact: cluster_shown|exact: centre_shown|exact: sky_shown].
  rewrite /ask. destruct via; [|exact D]. rewrite /to_origin_m. have [_ [O _]] := H. rewrite O. apply shown_analyze. by destruct t.
Qed.
(* to_radec from a linear frame *)
Lemma lay_shown c u o m : ready G c u o -> shown c (mkM m (lay_on_sky G c)) (mkSeen _ Osky None m).
Proof.
  move=> HR. have [S1 [R1 E]] := kframe_ok HR. have [E1 [E2 [_ [_ [E5 [E6 [_ [E8 E9]]]]]]]] := skel_eq_fields E. have [_ [_ [SC [ID [SK _]]]]] := S1.
  rewrite /shown /lay_on_sky. cbv zeta. cbn [mc_c mc_method se_origin se_used se_kept set_sky set_stars set_ph c_units c_origin c_sc c_id c_sky c_ph p_t p_m p_s p_c p_g].
  rewrite E5 E8 E6 E9 SK SC ID /init_orbit /init_orbits E5 -/(the_orbit G c) -/(the_orbits G c) -/(the_centre G c) -/(sky_stars G c) -/(kept G c). by repeat split.
Qed.
Lemma radec_shown c u o q m sort : ready G c u o -> shown c (to_radec_m G q sort (mkM m c)) (first_seen q m o).
Proof.
  move=> HR. have [_ [Hu [Hl [Ho Hf]]]] := HR. have L := lay_shown m HR.
  have E : to_radec_m G q sort (mkM m c) = analyze_m sort (match o with Ocluster => to_cluster_m q true (mkM m (lay_on_sky G c)) | Ocentre => to_centre_m q true (mkM m (lay_on_sky G c)) | _ => mkM m (lay_on_sky G c) end).
  { rewrite /to_radec_m. cbv zeta. cbn [mc_c mc_method]. rewrite Hu Ho. destruct u; try reflexivity; by case: Hl. }
  rewrite E. apply shown_analyze. destruct o; cbn [first_seen].
  - exact (centre_shown q true L).
  - exact (cluster_shown q true L).
  - exact L.
  - exact L.
Qed.
Lemma asks_shown c rs : forall k e, shown c k e -> shown c (asks G rs k) (fold_left follow (map (fun '(t, _, q, _) => (t, q)) rs) e).
Proof.
  induction rs as [|[[[t via] q] sort] rs IH]; move=> k e H; [exact H|]. cbn [asks fold_left map]. exact (IH _ _ (ask_shown t via q sort H)).
Qed.
(* without methods the operations are those of ModelOps *)
Lemma radec_lay sort c u : c_units c = Some u -> linear u -> to_radec G sort c =
  analyze sort true (match c_origin c with Some Ocluster => to_cluster true (lay_on_sky G c) | Some Ocentre => to_centre true (lay_on_sky G c) | _ => lay_on_sky G c end).
Proof. move=> U L. unfold to_radec, lay_on_sky. rewrite U. cbv zeta. destruct u; try reflexivity. now case: L. Qed.
Lemma plain_cluster sort c : to_cluster_m None sort (mkM None c) = mkM None (to_cluster sort c).
Proof. unfold to_cluster_m, to_cluster. cbn [mc_c mc_method remember]. cbv zeta. destruct (c_origin c) as [[]|]; destruct (c_units c) as [[]|]; reflexivity. Qed.
Lemma plain_centre sort c : to_centre_m None sort (mkM None c) = mkM None (to_centre sort c).
Proof. unfold to_centre_m, to_centre. cbn [mc_c mc_method remember]. cbv zeta. destruct (c_origin c) as [[]|]; destruct (c_units c) as [[]|]; reflexivity. Qed.
Lemma plain_radec sort c : to_radec_m G None sort (mkM None c) = mkM None (to_radec G sort c).
Proof.
  destruct (c_units c) as [u|] eqn:U; [|unfold to_radec_m, to_radec; cbn [mc_c mc_method]; rewrite U; reflexivity].
  destruct (usys_eq_dec u Uradec) as [->|N]; [unfold to_radec_m, to_radec; cbn [mc_c mc_method]; rewrite U; reflexivity|].
  rewrite (radec_lay sort U N). unfold to_radec_m. cbn [mc_c mc_method]. cbv zeta. rewrite U plain_cluster plain_centre. generalize (to_cluster true (lay_on_sky G c)) (to_centre true (lay_on_sky G c)) (lay_on_sky G c).
  intros a b d. unfold analyze_m. destruct u; try (destruct (c_origin c) as [[]|]; reflexivity); now case: N.
Qed.
Lemma plain_sky sort c : to_sky_m G None sort (mkM None c) = mkM None (to_sky G sort c).
Proof.
  unfold to_sky_m, to_sky. cbn [mc_c mc_method]. cbv zeta. rewrite plain_radec. unfold analyze_m. cbn [mc_c mc_method]. destruct (c_origin c) as [o|]; [|reflexivity].
  generalize (to_radec G sort (to_galaxy G true c)). intros d. destruct (c_units c) as [[]|]; try reflexivity; destruct o; reflexivity.
Qed.
Lemma plain_origin r sort c : to_origin_m G r None sort (mkM None c) = mkM None (to_origin G r sort c).
Proof.
  unfold to_origin_m, to_origin. cbn [mc_c mc_method]. destruct (c_origin c) as [o|]; [|reflexivity]. rewrite plain_cluster plain_centre plain_sky plain_radec. unfold analyze_m.
  generalize (to_cluster sort c) (to_centre sort c) (to_sky G sort c) (to_radec G sort c) (to_galaxy G sort c). intros a b d e f. destruct r as [[]| |]; reflexivity.
Qed.
End WithGalpy.
