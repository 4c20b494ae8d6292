(* C81: centring on the sky by projection. *)
From Verif Require Import Base ModelCluster ModelOps ModelConv ModelEnergy ModelRecipes ModelCoords ModelProfiles ModelTail ModelOrbit ModelSky ModelProject.
From Verif Require Import SpecUnits SpecFrame SpecConv SpecEnergy SpecProfiles SpecDynamics SpecRecipes SpecTail SpecOrbit SpecSky SpecProject.
From Verif Require Import ProofsUnits ProofsFrame ProofsOrbit ProofsOrbit3 ProofsSky ProofsSky2 ProofsProject.
From Verif Require Import PropUnits PropTail PropOrbit PropSky.

(* any history of requests on the sky, naming methods or not: what is stored is decided by the origin, and by the last method named when the origin last changed *)
Theorem C81_projection :
  forall (G : galpy) (sort : bool) (q m0 : option centring) (c : cluster) (u : usys) (o : osys) (rs : list (target * bool * option centring * bool)),
    ready G c u o -> SpecFrame.aligned c -> no_orbits c ->
    let k := asks G rs (to_radec_m G q sort (mkM m0 c)) in let c' := mc_c k in
    let e := fold_left follow (map (fun '(t, _, q, _) => (t, q)) rs) (first_seen q m0 o) in
    let g := to_radec6 G (orbit_kpc G c false) in let m := to_radec6 G (orbit_kpc G c true) in
    c_units c' = Some Uradec /\ c_origin c' = Some (se_origin e) /\ mc_method k = se_kept e /\ c_id c' = c_id c /\ p_g (c_ph c') = g /\ p_c (c_ph c') = m /\
    1000 * p_t (c_ph c') = p_t (galactic_view G c) /\ p_m (c_ph c') = p_m (galactic_view G c) /\
    forall i, (i < nstars c)%nat -> row (p_s (c_ph c')) i = on_sky_by (style_of (se_used e)) (se_origin e) (to_radec6 G (star_kpc G c i)) g m.
Proof.
  intros G sort q m0 c u o rs HR HL NO. cbv zeta. destruct NO as [F1 F2].
  pose proof (asks_shown rs (radec_shown q m0 sort HR)) as IN. revert IN.
  generalize (asks G rs (to_radec_m G q sort (mkM m0 c))) (fold_left follow (map (fun '(t, _, q, _) => (t, q)) rs) (first_seen q m0 o)). intros k e [U [O [ID [SC [SK [M PH]]]]]].
  destruct (kframe_ok HR) as [[V _] [[_ [U1 _]] _]]. destruct (fresh_star HR HL F2) as [L N].
  rewrite PH. cbn [p_t p_m p_s p_c p_g]. rewrite (fresh_orbit HR F1). rewrite (proj2 (kframe_orbit HR)).
  split; [exact U|]. split; [exact O|]. split; [exact M|]. split; [exact ID|]. split; [reflexivity|]. split; [reflexivity|].
  split; [rewrite <- V; unfold galactic_view; rewrite U1; cbn [p_t]; unfold unit_size; cbn [in_Myr]; ring|].
  split; [rewrite <- V; unfold galactic_view; rewrite U1; cbn [p_m]; unfold unit_size; cbn [in_Msun]; symmetry; etransitivity; [apply map_ext; intros; apply Rmult_1_r|apply map_id]|].
  intros i Hi. rewrite row_by; [now rewrite L|]. rewrite (N i Hi) (fresh_orbit HR F1) (proj2 (kframe_orbit HR)). reflexivity.
Qed.
Print Assumptions C81_projection.

(* without any method named the operations are those used in all other properties *)
Theorem C81_no_method :
  forall (G : galpy) (sort : bool) (c : cluster),
    to_radec_m G None sort (mkM None c) = mkM None (to_radec G sort c) /\ to_cluster_m None sort (mkM None c) = mkM None (to_cluster sort c) /\
    to_centre_m None sort (mkM None c) = mkM None (to_centre sort c) /\ to_sky_m G None sort (mkM None c) = mkM None (to_sky G sort c) /\
    forall r, to_origin_m G r None sort (mkM None c) = mkM None (to_origin G r sort c).
Proof.
  intros G sort c. split; [apply plain_radec|]. split; [apply plain_cluster|]. split; [apply plain_centre|]. split; [apply plain_sky|]. intros r. apply plain_origin.
Qed.
Print Assumptions C81_no_method.

(* the geometry: the distance from the origin is the sine of the angle between the directions; the origin is the centre itself (or the point opposite); on the near side
   different directions have different places *)
Lemma unit_circle a : sin a ^ 2 + cos a ^ 2 = 1.
Proof. pose proof (sin2_cos2 a) as H. unfold Rsqr in H. lra. Qed.
Theorem C81_geometry :
  forall (s p : six R), let c := dot (toward s) (toward p) in
    place_x s p ^ 2 + place_y s p ^ 2 = degs 1 ^ 2 * (1 - c ^ 2) /\
    (place_x s p = 0 /\ place_y s p = 0 <-> c = 1 \/ c = -1) /\
    (forall s', 0 < c -> 0 < dot (toward s') (toward p) -> place_x s p = place_x s' p -> place_y s p = place_y s' p -> toward s = toward s').
Proof.
  assert (N : 180 / PI <> 0) by exact deg_nz.
  assert (B : forall s p, dot (toward s) (east_of p) ^ 2 + dot (toward s) (north_of p) ^ 2 + dot (toward s) (toward p) ^ 2 = 1).
  { intros s p. unfold dot, toward, east_of, north_of, direction, east, north.
    generalize (unit_circle (rads (sx p))) (unit_circle (rads (sy p))) (unit_circle (rads (sx s))) (unit_circle (rads (sy s))).
    generalize (sin (rads (sx p))) (cos (rads (sx p))) (sin (rads (sy p))) (cos (rads (sy p))) (sin (rads (sx s))) (cos (rads (sx s))) (sin (rads (sy s))) (cos (rads (sy s))).
    intros a b e f g h i j H1 H2 H3 H4.
    replace (((j * h) * - a + (j * g) * b + i * 0) ^ 2 + ((j * h) * - (e * b) + (j * g) * - (e * a) + i * f) ^ 2 + ((j * h) * (f * b) + (j * g) * (f * a) + i * e) ^ 2)
      with (j ^ 2 * ((h * - a + g * b) ^ 2 + (h * b + g * a) ^ 2 * (e ^ 2 + f ^ 2)) + i ^ 2 * (e ^ 2 + f ^ 2)) by ring.
    rewrite H2. replace ((h * - a + g * b) ^ 2 + (h * b + g * a) ^ 2 * 1) with ((a ^ 2 + b ^ 2) * (g ^ 2 + h ^ 2)) by ring. rewrite H1 H3. lra. }
  intros s p c. unfold place_x, place_y, degs. generalize (B s p). fold c. set (X := dot (toward s) (east_of p)). set (Y := dot (toward s) (north_of p)). intros E.
  split; [replace ((X * (180 / PI)) ^ 2 + (Y * (180 / PI)) ^ 2) with ((1 * (180 / PI)) ^ 2 * (X ^ 2 + Y ^ 2)) by ring; f_equal; lra|].
  split.
  { split.
    - intros [H1 H2]. apply Rmult_integral in H1, H2. assert (X0 : X = 0) by (destruct H1; [assumption|contradiction]). assert (Y0 : Y = 0) by (destruct H2; [assumption|contradiction]).
      rewrite X0 Y0 in E. assert (D : (c - 1) * (c + 1) = 0) by lra. apply Rmult_integral in D. destruct D; [left|right]; lra.
    - intros H. assert (C2 : c ^ 2 = 1) by (destruct H as [-> | ->]; lra). assert (X0 : X = 0) by nra. assert (Y0 : Y = 0) by nra. rewrite X0 Y0. split; ring. }
  intros s' P P' H1 H2. apply (Rmult_eq_reg_r _ _ _) in H1; [|exact N]. apply (Rmult_eq_reg_r _ _ _) in H2; [|exact N].
  generalize (B s' p). rewrite <- H1, <- H2. intros E'. assert (C : dot (toward s') (toward p) = c) by (fold X Y in E'; nra).
  (* the three vectors form an orthonormal basis: each component is recovered *)
  assert (Rec : forall v, v = (dot v (east_of p) * - sin (rads (sx p)) + dot v (north_of p) * - (sin (rads (sy p)) * cos (rads (sx p))) + dot v (toward p) * (cos (rads (sy p)) * cos (rads (sx p))),
     dot v (east_of p) * cos (rads (sx p)) + dot v (north_of p) * - (sin (rads (sy p)) * sin (rads (sx p))) + dot v (toward p) * (cos (rads (sy p)) * sin (rads (sx p))),
     dot v (north_of p) * cos (rads (sy p)) + dot v (toward p) * sin (rads (sy p)))).
  { intros [[v1 v2] v3]. unfold dot, toward, east_of, north_of, direction, east, north.
    generalize (unit_circle (rads (sx p))) (unit_circle (rads (sy p))). generalize (sin (rads (sx p))) (cos (rads (sx p))) (sin (rads (sy p))) (cos (rads (sy p))). intros a b e f Q1 Q2.
    assert (A1 : v1 = v1 * a ^ 2 + v1 * b ^ 2 * (e ^ 2 + f ^ 2)) by (rewrite Q2; replace (v1 * a ^ 2 + v1 * b ^ 2 * 1) with (v1 * (a ^ 2 + b ^ 2)) by ring; rewrite Q1; ring).
    assert (A2 : v2 = v2 * b ^ 2 + v2 * a ^ 2 * (e ^ 2 + f ^ 2)) by (rewrite Q2; replace (v2 * b ^ 2 + v2 * a ^ 2 * 1) with (v2 * (a ^ 2 + b ^ 2)) by ring; rewrite Q1; ring).
    assert (A3 : v3 = v3 * (e ^ 2 + f ^ 2)) by (rewrite Q2; ring).
    assert (A4 : e ^ 2 + f ^ 2 - 1 = 0) by lra.
    assert (K : forall z, z * (e ^ 2 + f ^ 2 - 1) = 0) by (intros z; rewrite A4; ring).
    f_equal; [f_equal|].
    - rewrite {1}A1. transitivity (v1 * a ^ 2 + v1 * b ^ 2 * (e ^ 2 + f ^ 2) + v2 * a * b * (e ^ 2 + f ^ 2 - 1)); [rewrite K; ring|ring].
    - rewrite {1}A2. transitivity (v2 * b ^ 2 + v2 * a ^ 2 * (e ^ 2 + f ^ 2) + v1 * a * b * (e ^ 2 + f ^ 2 - 1)); [rewrite K; ring|ring].
    - rewrite {1}A3. ring. }
  rewrite (Rec (toward s)) (Rec (toward s')). rewrite C. fold X Y c. rewrite H1 H2. reflexivity.
Qed.
Print Assumptions C81_geometry.

(* motions: for any motion of the star across the sky with the given proper motions (pmra along the parallel, pmdec along the meridian), the place on the plane moves at
   the rate that is stored, before the motion of the cluster is taken off *)
Theorem C81_motion_is_rate :
  forall (s p : six R) (ra dec : R -> R) (t0 dra : R), ra t0 = rads (sx s) -> dec t0 = rads (sy s) ->
    derivable_pt_lim ra t0 dra -> cos (rads (sy s)) * dra = svx s -> derivable_pt_lim dec t0 (svy s) ->
    derivable_pt_lim (fun t => dot (direction (ra t) (dec t)) (east_of p)) t0 (motion_x s p) /\
    derivable_pt_lim (fun t => dot (direction (ra t) (dec t)) (north_of p)) t0 (motion_y s p).
Proof.
  intros s p ra dec t0 dra R0 D0 DR EX DD.
  assert (S1 : derivable_pt_lim (fun t => sin (ra t)) t0 (cos (ra t0) * dra)) by exact (derivable_pt_lim_comp ra sin t0 _ _ DR (derivable_pt_lim_sin _)).
  assert (C1 : derivable_pt_lim (fun t => cos (ra t)) t0 (- sin (ra t0) * dra)) by exact (derivable_pt_lim_comp ra cos t0 _ _ DR (derivable_pt_lim_cos _)).
  assert (S2 : derivable_pt_lim (fun t => sin (dec t)) t0 (cos (dec t0) * svy s)) by exact (derivable_pt_lim_comp dec sin t0 _ _ DD (derivable_pt_lim_sin _)).
  assert (C2 : derivable_pt_lim (fun t => cos (dec t)) t0 (- sin (dec t0) * svy s)) by exact (derivable_pt_lim_comp dec cos t0 _ _ DD (derivable_pt_lim_cos _)).
  assert (DX := derivable_pt_lim_mult _ _ _ _ _ C2 C1). assert (DY := derivable_pt_lim_mult _ _ _ _ _ C2 S1). rewrite R0 D0 in DX, DY, S2.
  assert (ALL : forall a b c, derivable_pt_lim (fun t => dot (direction (ra t) (dec t)) (a, b, c)) t0
     (a * (- sin (rads (sy s)) * svy s * cos (rads (sx s)) + cos (rads (sy s)) * (- sin (rads (sx s)) * dra)) + b * (- sin (rads (sy s)) * svy s * sin (rads (sx s)) + cos (rads (sy s)) * (cos (rads (sx s)) * dra)) + c * (cos (rads (sy s)) * svy s))).
  { intros a b c. unfold dot, direction.
    assert (X1 := derivable_pt_lim_scal _ a _ _ DX). assert (X2 := derivable_pt_lim_scal _ b _ _ DY). assert (X3 := derivable_pt_lim_scal _ c _ _ S2).
    assert (X := derivable_pt_lim_plus _ _ _ _ _ (derivable_pt_lim_plus _ _ _ _ _ X1 X2) X3).
    intros eps He. destruct (X eps He) as [d Hd]. exists d. intros h H0 H1. specialize (Hd h H0 H1).
    unfold plus_fct, mult_real_fct, mult_fct in Hd. rewrite !R0 !D0 in Hd. rewrite !R0 !D0.
    match type of Hd with Rabs ?A < _ => match goal with |- Rabs ?B < _ => replace B with A; [exact Hd|] end end. field. exact H0. }
  split.
  - unfold east_of, east. match goal with |- derivable_pt_lim _ _ ?v => replace v with (- sin (rads (sx p)) * (- sin (rads (sy s)) * svy s * cos (rads (sx s)) + cos (rads (sy s)) * (- sin (rads (sx s)) * dra)) + cos (rads (sx p)) * (- sin (rads (sy s)) * svy s * sin (rads (sx s)) + cos (rads (sy s)) * (cos (rads (sx s)) * dra)) + 0 * (cos (rads (sy s)) * svy s)) end; [apply ALL|].
    unfold motion_x, east_of, north_of, east, north, dot. rewrite <- EX. ring.
  - unfold north_of, north. match goal with |- derivable_pt_lim _ _ ?v => replace v with (- (sin (rads (sy p)) * cos (rads (sx p))) * (- sin (rads (sy s)) * svy s * cos (rads (sx s)) + cos (rads (sy s)) * (- sin (rads (sx s)) * dra)) + - (sin (rads (sy p)) * sin (rads (sx p))) * (- sin (rads (sy s)) * svy s * sin (rads (sx s)) + cos (rads (sy s)) * (cos (rads (sx s)) * dra)) + cos (rads (sy p)) * (cos (rads (sy s)) * svy s)) end; [apply ALL|].
    unfold motion_y, east_of, north_of, east, north, dot. rewrite <- EX. ring.
Qed.
Print Assumptions C81_motion_is_rate.

(* seen from itself, by any method, the cluster is at the origin and at rest *)
Lemma at_itself p : place_x p p = 0 /\ place_y p p = 0 /\ motion_x p p = svx p /\ motion_y p p = svy p.
Proof.
  unfold place_x, place_y, motion_x, motion_y, degs, toward, east_of, north_of, direction, east, north, dot.
  generalize (unit_circle (rads (sx p))) (unit_circle (rads (sy p))). generalize (sin (rads (sx p))) (cos (rads (sx p))) (sin (rads (sy p))) (cos (rads (sy p))). intros a b e f Q1 Q2.
  split; [ring|]. split.
  { replace (f * b * - (e * b) + f * a * - (e * a) + e * f) with (e * f * (1 - (a ^ 2 + b ^ 2))) by ring. rewrite Q1. ring. }
  split.
  - replace (svx p * (- a * - a + b * b + 0 * 0) + svy p * (- (e * b) * - a + - (e * a) * b + f * 0)) with (svx p * (a ^ 2 + b ^ 2)) by ring. rewrite Q1. ring.
  - replace (svx p * (- a * - (e * b) + b * - (e * a) + 0 * f) + svy p * (- (e * b) * - (e * b) + - (e * a) * - (e * a) + f * f)) with (svy p * (e ^ 2 * (a ^ 2 + b ^ 2) + f ^ 2)) by ring.
    rewrite Q1. replace (e ^ 2 * 1 + f ^ 2) with (e ^ 2 + f ^ 2) by ring. rewrite Q2. ring.
Qed.
Theorem C81_cluster_at_rest : forall (w : style) (g : six R), seen_from w g g g = mk6 0 0 0 0 0 0.
Proof.
  intros w g. destruct (at_itself g) as [P1 [P2 [P3 P4]]]. destruct w; unfold seen_from, beside_sky; rewrite ?P1 ?P2 ?P3 ?P4.
  - f_equal; ring.
  - f_equal; ring.
  - f_equal; ring.
Qed.
Print Assumptions C81_cluster_at_rest.

(* ------------------------------------------------------------------ findings *)
(* to_centre(centre_method='orthographic') takes off the proper motion of the cluster instead of the centre's: a star at the centre that moves with it is not at rest *)
Theorem C81_centre_motion_refuted :
  forall (G : galpy) (sort sort' : bool) (c : cluster) (u : usys) (o : osys) (i : nat), ready G c u o -> SpecFrame.aligned c -> no_orbits c -> o <> Ocentre ->
    let g := to_radec6 G (orbit_kpc G c false) in let m := to_radec6 G (orbit_kpc G c true) in
    (i < nstars c)%nat -> to_radec6 G (star_kpc G c i) = m ->
    let c' := mc_c (to_centre_m (Some Orthographic) sort' (to_radec_m G None sort (mkM None c))) in
    let c'' := mc_c (to_centre_m (Some VandeVen) sort' (to_radec_m G None sort (mkM None c))) in
    row (p_s (c_ph c')) i = mk6 0 0 0 (svx m - svx g) (svy m - svy g) 0 /\ row (p_s (c_ph c'')) i = mk6 0 0 0 0 0 0.
Proof.
  intros G sort sort' c u o i HR HL NO HO g m Hi HS.
  assert (K : forall q, row (p_s (c_ph (mc_c (to_centre_m (Some q) sort' (to_radec_m G None sort (mkM None c)))))) i = on_sky_by (style_of (Some q)) Ocentre m g m).
  { intros q. destruct (C81_projection G sort None None c u o [(To_centre, false, Some q, sort')] HR HL NO) as [_ [_ [_ [_ [_ [_ [_ [_ N]]]]]]]]. cbv zeta in N. specialize (N i Hi). rewrite HS in N.
    fold g m in N. destruct o; [now case HO| | |]; exact N. }
  cbv zeta. rewrite !K. cbn [style_of on_sky_by seen_from]. destruct (at_itself m) as [P1 [P2 [P3 P4]]]. rewrite P1 P2 P3 P4. split; f_equal; ring.
Qed.
Print Assumptions C81_centre_motion_refuted.

(* without a method, right ascensions are subtracted as numbers: a star across the meridian ra = 0 is put almost a full turn away, though it is in the same direction as
   one close by; the projections do not see the difference *)
Theorem C81_wraparound_refuted :
  forall (s p g : six R), let s' := mk6 (sx s + 360) (sy s) (sz s) (svx s) (svy s) (svz s) in
    toward s' = toward s /\ sx (seen_from Plain s' p g) = sx (seen_from Plain s p g) + 360 * cos (rads (sy p)) /\
    seen_from Positions s' p g = seen_from Positions s p g /\ seen_from Full s' p g = seen_from Full s p g.
Proof.
  intros s p g s'.
  assert (RD : rads (sx s') = rads (sx s) + 2 * PI) by (unfold rads, s'; cbn [sx]; field).
  assert (SI : sin (rads (sx s')) = sin (rads (sx s))) by (rewrite RD sin_plus sin_2PI cos_2PI; ring).
  assert (CO : cos (rads (sx s')) = cos (rads (sx s))) by (rewrite RD cos_plus sin_2PI cos_2PI; ring).
  assert (T : toward s' = toward s) by (unfold toward, direction; rewrite SI CO; reflexivity).
  assert (E : east_of s' = east_of s) by (unfold east_of, east; rewrite SI CO; reflexivity).
  assert (N : north_of s' = north_of s) by (unfold north_of, north; rewrite SI CO; reflexivity).
  split; [exact T|]. split; [unfold seen_from, beside_sky, s', rads; cbn [sx sy]; ring|].
  unfold seen_from, place_x, place_y, motion_x, motion_y. rewrite T E N. split; reflexivity.
Qed.
Print Assumptions C81_wraparound_refuted.

(* a method named when the cluster is already there is kept but not applied; one named on the way to the sky from the galaxy is not even kept *)
Theorem C81_method_not_applied_refuted :
  forall (G : galpy) (sort sort' : bool) (q : centring) (c : cluster) (u : usys), ready G c u Ocluster ->
    let k := to_radec_m G None sort (mkM None c) in
    to_cluster_m (Some q) sort' k = mkM (Some q) (mc_c k).
Proof.
  intros G sort sort' q c u HR k. destruct (radec_shown (G := G) None None sort HR) as [U [O _]]. fold k in U, O. cbn [first_seen se_origin] in O.
  unfold to_cluster_m. cbv zeta. rewrite O. reflexivity.
Qed.
Print Assumptions C81_method_not_applied_refuted.
Theorem C81_method_forgotten_refuted :
  forall (G : galpy) (sort sort' : bool) (q : centring) (c : cluster) (u : usys), ready G c u Ogalaxy -> SpecFrame.aligned c -> no_orbits c ->
    let k := to_cluster_m None sort' (to_radec_m G (Some q) sort (mkM None c)) in let g := to_radec6 G (orbit_kpc G c false) in
    mc_method k = None /\ forall i, (i < nstars c)%nat -> row (p_s (c_ph (mc_c k))) i = beside_sky (to_radec6 G (star_kpc G c i)) g.
Proof.
  intros G sort sort' q c u HR HL NO. cbv zeta.
  destruct (C81_projection G sort (Some q) None c u Ogalaxy [(To_cluster, false, None, sort')] HR HL NO) as [_ [_ [M [_ [_ [_ [_ [_ N]]]]]]]]. cbv zeta in M, N. split; [exact M|exact N].
Qed.
Print Assumptions C81_method_forgotten_refuted.

(* ------------------------------------------------------------------ the hypotheses are met *)
Example C81_hypotheses_met : forall o, flat o -> let c := ride o (mk6 8000 0 100 3 4 0) in
  ready demo_galpy c Upckms o /\ SpecFrame.aligned c /\ no_orbits c /\ nstars c = 5%nat /\ orbit_kpc demo_galpy c false = mk6 8 0 (1 / 10) 3 4 0.
Proof. intros o F c. destruct (@C11_hypotheses_met o F) as [H1 [H2 [H3 [_ [H5 [H6 _]]]]]]. split; [exact H1|]. split; [exact H2|]. split; [exact H3|]. split; [exact H5|exact H6]. Qed.
(* a centre away from the cluster's orbit, carried by the first star *)
Definition carried_raw : cluster :=
  mkC (Some Upckms) (Some Ocluster) (Some (Bu Upckms)) 0
      (mkP 0 [1; 2] (mk6 [3; 0] [0; 2] [0; 0] [1; 0] [0; 2] [0; 0]) (mk6 3 0 0 1 0 0) (mk6 8000 0 100 3 4 0))
      (mkSc 1 1 1 1 1 1 1 8 220) (mkB [] [] [] []) (mkSk nil6 zero6 zero6 None None None) empty_derived [1; 2]%Z.
Definition carried : cluster := analyze true true carried_raw.
Example C81_carried : ready demo_galpy carried Upckms Ocluster /\ SpecFrame.aligned carried /\ no_orbits carried /\ nstars carried = 2%nat /\
  to_radec6 demo_galpy (star_kpc demo_galpy carried 0) = to_radec6 demo_galpy (orbit_kpc demo_galpy carried true) /\
  svx (to_radec6 demo_galpy (orbit_kpc demo_galpy carried true)) - svx (to_radec6 demo_galpy (orbit_kpc demo_galpy carried false)) = 1.
Proof.
  assert (PH : c_ph carried = c_ph carried_raw) by apply c_ph_analyze.
  destruct (skel_eq_fields (skel_analyze true true carried_raw)) as [U [O [_ [_ [_ [SC [_ [SK _]]]]]]]]. fold carried in U, O, SC, SK.
  split.
  { apply ProofsEnergy2.analyzed_ready. unfold ready, good_scales. cbn [c_sc c_units c_origin carried_raw]. split; [cbn; repeat split; lra|]. split; [reflexivity|]. split; [discriminate|]. split; [reflexivity|discriminate]. }
  split; [unfold SpecFrame.aligned; rewrite PH; cbn; now repeat split|]. split; [unfold no_orbits; rewrite SK; now split|]. split; [unfold nstars; now rewrite PH|].
  cbn [to_radec6 demo_galpy]. unfold star_kpc, orbit_kpc, galactic_view, origin_shift. rewrite U O SC PH. cbn [carried_raw c_units c_origin c_sc c_ph p_s p_c p_g]. unfold unit_size, row, map6, view6.
  cbn [in_pc in_kms in_Myr in_Msun sx sy sz svx svy svz map nth plus6]. unfold plus6. cbn [p_s p_c p_g sx sy sz svx svy svz]. split; [f_equal; lra|lra].
Qed.
(* a quarter of a turn east of the centre on the equator: one radian to the east, moving away from the viewer *)
Example C81_quarter_turn : seen_from Full (mk6 90 0 5 7 3 1) (mk6 0 0 4 2 1 0) (mk6 0 0 4 2 1 0) = mk6 (180 / PI) 0 1 (-2) 2 1.
Proof.
  assert (H : rads 90 = PI / 2) by (unfold rads; field). assert (Z : rads 0 = 0) by (unfold rads; ring).
  unfold seen_from, place_x, place_y, motion_x, motion_y, degs, toward, east_of, north_of, direction, east, north, dot. cbn [sx sy sz svx svy svz].
  rewrite H Z sin_0 cos_0 sin_PI2 cos_PI2. f_equal; lra || (field; apply PI_neq0) || ring.
Qed.
(* a motion across the sky as the rate theorem asks for *)
Example C81_motion_met : forall (s : six R), cos (rads (sy s)) <> 0 ->
  exists ra dec dra, ra 0 = rads (sx s) /\ dec 0 = rads (sy s) /\ derivable_pt_lim ra 0 dra /\ cos (rads (sy s)) * dra = svx s /\ derivable_pt_lim dec 0 (svy s).
Proof.
  intros s N. assert (L : forall a b, derivable_pt_lim (fun t => a + b * t) 0 b).
  { intros a b eps He. exists (mkposreal 1 Rlt_0_1). intros h H0 _. replace ((a + b * (0 + h) - (a + b * 0)) / h - b) with 0 by (field; exact H0). rewrite Rabs_R0. exact He. }
  exists (fun t => rads (sx s) + svx s / cos (rads (sy s)) * t), (fun t => rads (sy s) + svy s * t), (svx s / cos (rads (sy s))).
  split; [ring|]. split; [ring|]. split; [apply L|]. split; [field; exact N|apply L].
Qed.
