(* C31: spherical and cylindrical coordinates. *)
From Verif Require Import Base ModelCluster ModelOps ModelConv ModelEnergy ModelCoords.
From Verif Require Import SpecFrame ProofsFrame ProofsSees ProofsCoords PropUnits PropFrame.

(* distance from the origin and from the z axis, written out *)
Definition spherical_radius (p : six R) : R := sqrt (sx p ^ 2 + sy p ^ 2 + sz p ^ 2).
Definition axis_distance (p : six R) : R := sqrt (sx p ^ 2 + sy p ^ 2).

(* C31: for a star not at the origin, cart_to_sphere gives its distance, angles in the usual ranges, the components of
   its velocity along the radial, azimuthal and polar directions, keeps the speed, and sphere_to_cart inverts it. *)
Theorem C31_sphere_round_trip :
  forall p : six R, spherical_radius p <> 0 ->
    exists th vr vth, let h := cart_to_sphere p in
      h_theta h = Some th /\ h_vr h = Some vr /\ h_vtheta h = Some vth /\
      sphere_to_cart (h_r h) (h_phi h) th vr (h_vphi h) vth = p /\
      h_r h = spherical_radius p /\ - PI < h_phi h <= PI /\ 0 <= th <= PI /\
      spherical_radius p * vr = sx p * svx p + sy p * svy p + sz p * svz p /\
      axis_distance p * h_vphi h = sx p * svy p - sy p * svx p /\
      spherical_radius p * (axis_distance p * vth) =
        sz p * (sx p * svx p + sy p * svy p) - axis_distance p * axis_distance p * svz p /\
      vr ^ 2 + h_vphi h ^ 2 + vth ^ 2 = svx p ^ 2 + svy p ^ 2 + svz p ^ 2.
Proof. exact sphere_round_trip. Qed.
Print Assumptions C31_sphere_round_trip.

(* C31: and the other way round, off the poles. *)
Theorem C31_sphere_inverse :
  forall r phi th vr vphi vth : R, 0 < r -> - PI < phi <= PI -> 0 < th < PI ->
    cart_to_sphere (sphere_to_cart r phi th vr vphi vth) = mkSph r phi (Some th) (Some vr) vphi (Some vth).
Proof. exact sphere_inverse. Qed.
Print Assumptions C31_sphere_inverse.

(* C31: cylindrical coordinates, for every star. *)
Theorem C31_cyl_round_trip :
  forall p : six R, let q := cart_to_cyl p in
    cyl_to_cart q = p /\ sx q = axis_distance p /\ - PI < sy q <= PI /\ sz q = sz p /\
    axis_distance p * svx q = sx p * svx p + sy p * svy p /\ axis_distance p * svy q = sx p * svy p - sy p * svx p /\
    svz q = svz p /\ svx q ^ 2 + svy q ^ 2 + svz q ^ 2 = svx p ^ 2 + svy p ^ 2 + svz p ^ 2.
Proof. exact cyl_round_trip. Qed.
Print Assumptions C31_cyl_round_trip.
Theorem C31_cyl_inverse :
  forall q : six R, 0 < sx q -> - PI < sy q <= PI -> cart_to_cyl (cyl_to_cart q) = q.
Proof. exact cyl_inverse. Qed.
Print Assumptions C31_cyl_inverse.

(* C31: the coordinates returned for a cluster are those of its stars, in order, and the cluster is given back. *)
Lemma with_cartesian_ok {A} G (f : six R -> A) c u o : ready G c u o -> u <> Uamuse -> analyze true true c = c ->
  exists l c', with_cartesian G f c = Ok (l, c') /\ length l = length (sx (p_s (c_ph c))) /\
    (forall i d, (i < length (sx (p_s (c_ph c))))%nat -> nth i l d = f (map6 (fun l => nth i l 0) (p_s (c_ph c)))) /\
    c_ph c' = c_ph c /\ c_units c' = c_units c /\ c_origin c' = c_origin c /\ c_der c' = c_der c.
Proof.
  intros R NA AN. pose proof R as [HS [Hu [Hl [Ho Hf]]]].
  assert (E : with_cartesian G f c = Ok (map f (rows6 (p_s (c_ph c))), return_cluster G (save_cluster c) c)).
  { unfold with_cartesian. rewrite Ho Hu. destruct o; try (now case: Hf); destruct u; try (now case: Hl); try reflexivity; now case: NA. }
  rewrite E. do 2 eexists. split; [reflexivity|]. split; [unfold rows6; now rewrite !map_length seq_length|]. split.
  - intros i d Hi. unfold rows6. rewrite map_map. rewrite (nth_indep _ d (f (map6 (fun l => nth 0 l 0) (p_s (c_ph c))))).
    { now rewrite map_length seq_length. }
    rewrite (map_nth (fun i => f (map6 (fun l => nth i l 0) (p_s (c_ph c)))) _ 0%nat). now rewrite seq_nth.
  - destruct (@bracket_sees G c c u o R (sees_refl R) AN) as [A1 [A2 [A3 [A4 _]]]]. now repeat split.
Qed.
Theorem C31_cluster_coordinates :
  forall (G : galpy) (c : cluster) (u : usys) (o : osys), ready G c u o -> u <> Uamuse -> analyze true true c = c ->
    (exists l c', sphere_coords G c = Ok (l, c') /\ length l = length (sx (p_s (c_ph c))) /\
      (forall i d, (i < length (sx (p_s (c_ph c))))%nat -> nth i l d = cart_to_sphere (map6 (fun l => nth i l 0) (p_s (c_ph c)))) /\
      c_ph c' = c_ph c /\ c_units c' = c_units c /\ c_origin c' = c_origin c /\ c_der c' = c_der c) /\
    (exists l c', cyl_coords G c = Ok (l, c') /\ length l = length (sx (p_s (c_ph c))) /\
      (forall i d, (i < length (sx (p_s (c_ph c))))%nat -> nth i l d = cart_to_cyl (map6 (fun l => nth i l 0) (p_s (c_ph c)))) /\
      c_ph c' = c_ph c /\ c_units c' = c_units c /\ c_origin c' = c_origin c /\ c_der c' = c_der c).
Proof. intros G c u o R NA AN. split; exact (with_cartesian_ok G _ c u o R NA AN). Qed.
Print Assumptions C31_cluster_coordinates.

(* C31 finding: a star exactly at the origin has no polar angle (0/0), and its radial and polar velocities are lost. *)
Theorem C31_star_at_origin_nan_refuted :
  forall p : six R, sx p = 0 -> sy p = 0 -> sz p = 0 ->
    h_theta (cart_to_sphere p) = None /\ h_vr (cart_to_sphere p) = None /\ h_vtheta (cart_to_sphere p) = None.
Proof.
  intros p X Y Z. unfold cart_to_sphere. rewrite X Y Z. replace (0 ^ 2 + 0 ^ 2 + 0 ^ 2) with 0 by ring. rewrite sqrt_0.
  replace (Reqb 0 0) with true by (symmetry; now apply/Reqb_spec). now repeat split.
Qed.
Print Assumptions C31_star_at_origin_nan_refuted.

(* C31 finding: both methods raise for a cluster in sky coordinates. *)
Theorem C31_sky_raises_refuted :
  forall (G : galpy) (c : cluster), c_origin c = Some Osky -> sphere_coords G c = Raise /\ cyl_coords G c = Raise.
Proof. intros G c H. unfold sphere_coords, cyl_coords, with_cartesian. now rewrite H. Qed.
Print Assumptions C31_sky_raises_refuted.

Example C31_hypotheses_met :
  spherical_radius (mk6 1 2 2 0 1 0) <> 0 /\ 0 < sx (mk6 1 0 0 0 0 0) /\ - PI < 0 <= PI /\
  ready demo_galpy (analyze true true demo_cluster) Unbody Ocluster /\ Unbody <> Uamuse /\
  analyze true true (analyze true true demo_cluster) = analyze true true demo_cluster.
Proof.
  destruct demo_analyzed as [D1 D2]. pose proof PI_RGT_0.
  split; [|repeat split; cbn; try lra; try discriminate; try apply D1; exact D2].
  unfold spherical_radius; cbn [sx sy sz]. replace (1 ^ 2 + 2 ^ 2 + 2 ^ 2) with (3 * 3) by ring. rewrite sqrt_square; lra.
Qed.
