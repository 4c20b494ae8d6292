(* C95, C96: positions and paths on the sky. *)
From Coq Require Import String Ascii.
From Verif Require Import Base ModelCluster ModelOps ModelConv ModelEnergy ModelRecipes ModelCoords ModelStars ModelSubset ModelLagrange ModelProfiles ModelDynamics ModelLoad ModelOutput ModelTail ModelOrbit ModelSky ModelSkyPath.
From Verif Require Import SpecUnits SpecFrame SpecConv SpecRecipes SpecEnergy SpecLagrange SpecProfiles SpecDynamics SpecTail SpecOrbit SpecSky SpecSkyPath.
From Verif Require Import ProofsUnits ProofsFrame ProofsConv ProofsSees ProofsStars ProofsRecipes ProofsRecipes2 ProofsTail ProofsTail2 ProofsTail3 ProofsTail4 ProofsTail5.
From Verif Require Import ProofsOrbit ProofsOrbit2 ProofsOrbit3 ProofsOrbit4 ProofsOrbit5 ProofsSky ProofsSky2 ProofsSkyPath ProofsSkyPath2 ProofsSkyPath3 ProofsSkyPath4 ProofsSkyPath5.
From Verif Require Import PropUnits PropEnergy PropProfiles PropDynamics PropTail PropOrbit.
Open Scope string_scope. Open Scope list_scope. Open Scope R_scope.

(* C95: cart_to_sky.  A point given in galactocentric Cartesian coordinates (kpc, km/s) is put where it is seen from the Sun of the arguments;
   the height of the Sun is galpy's default zd, as zo is not passed on. *)
Theorem C95_cart_to_sky :
  forall (A : astrometry) (zd r v : R) (m : R * R * R) (p : six R), r <> 0 -> v <> 0 -> cart_to_sky A zd r v m p = seen A (mkSun r v zd m) p.
Proof. intros A zd r v m p NR NV. exact (cart_to_sky_ok A zd m p NR NV). Qed.
Print Assumptions C95_cart_to_sky.
(* finding: sky_coords raises for every cluster, as it calls the method to_radec with keyword arguments that the method does not have *)
Theorem C95_sky_coords_refuted : forall (G : galpy) (c : cluster), sky_coords G c = Raise.
Proof. reflexivity. Qed.
Print Assumptions C95_sky_coords_refuted.
(* and so does snapout with radec=True, whatever is asked for *)
Theorem C95_snapout_refuted : forall (G : galpy) (energies : option (list R * list R * list R)) (k : catalog), snapout_radec G energies k = Raise.
Proof. reflexivity. Qed.
Print Assumptions C95_snapout_refuted.
(* it is the keywords alone: the method called without them works *)
Theorem C95_plain_call : forall (G : galpy) (c : cluster), call_to_radec G [] c = Ok (to_radec G true c).
Proof. reflexivity. Qed.
Print Assumptions C95_plain_call.

(* C96: orbital_path with skypath.  The points of the cluster's own orbit, at times in the units of the cluster, each where it is seen from the
   Sun of the cluster. *)
Theorem C96_sky_path :
  forall (G : galpy) (A : astrometry) (zo : R) (m : R * R * R) (ev : evolution) (tfinal : option R) (nt : nat) (from_centre : bool) (c : cluster) (u : usys) (o : osys),
    lawful ev -> ready G c u o -> analyze true true c = c -> (2 <= nt)%nat ->
    let z := unit_size G (c_sc c) u in let r := ro (c_sc c) in let v := vo (c_sc c) in let T := duration G c u (1 / 10) tfinal in
    exists pth c', sky_path G A zo m ev tfinal nt from_centre None None c = Ok (pth, c') /\ restored c c' /\ List.length pth = nt /\
      forall j, (j < nt)%nat ->
        let t := spaced (- T) T nt j in let p := in_kpc r v (ev 0 t (natural r v (orbit_kpc G c from_centre))) in let q := nth j pth (0, zero6) in
        fst q * in_Myr z = t * in_Myr (unit_size G (c_sc c) Ugalpy) /\ snd q = seen A (mkSun r v zo m) p.
Proof.
  intros G A zo m ev tfinal nt fc c u o HE HR HA NT z r v T.
  destruct (@sky_path_ok G A zo m ev tfinal nt fc c u o HE HR NT) as [pth [E1 [E2 E3]]].
  exists pth. eexists. split; [exact E1|]. split; [exact (bracket_sees HR (proj1 (ready_galpy HR)) HA)|]. split; [exact E2|].
  intros j Hj t p q. exact (E3 j Hj).
Qed.
Print Assumptions C96_sky_path.
(* a cluster that is itself on the sky: the orbit is found back from the cluster's own place on the sky, tfinal and the times are in Gyr *)
Theorem C96_radec_path :
  forall (G : galpy) (A : astrometry) (zo : R) (m : R * R * R) (ev : evolution) (tfinal : option R) (nt : nat) (from_centre sort : bool) (c : cluster) (u : usys) (o : osys),
    lawful ev -> ready G c u o -> no_orbits c -> (2 <= nt)%nat ->
    let S := mkSun (ro (c_sc c)) (vo (c_sc c)) zo m in
    unseen A S (to_radec6 G (orbit_kpc G c false)) = orbit_kpc G c false ->
    exists own, own_path G ev c false (gyr tfinal) nt own /\
      sky_path G A zo m ev tfinal nt from_centre None None (to_radec G sort c) = Ok (sky_image (seen A S) own, to_radec G sort c).
Proof.
  intros G A zo m ev tfinal nt fc sort c u o HE HR HN NT S HU.
  destruct (@radec_path_ok G A zo m ev tfinal nt fc sort c u o None None HE HR HN NT eq_refl eq_refl HU) as [own E].
  exists own. exact E.
Qed.
Print Assumptions C96_radec_path.
(* finding: from_centre makes no difference for it *)
Theorem C96_from_centre_refuted :
  forall (G : galpy) (A : astrometry) (zo : R) (m : R * R * R) (ev : evolution) (tfinal : option R) (nt : nat) (r v : option R) (c : cluster),
    c_units c = Some Uradec -> sky_path G A zo m ev tfinal nt true r v c = sky_path G A zo m ev tfinal nt false r v c.
Proof. intros G A zo m ev tfinal nt r v c U. exact (sky_path_radec G A zo m ev tfinal nt true false r v U). Qed.
Print Assumptions C96_from_centre_refuted.

(* orbital_path_match with skypath and a path on the sky, for a cluster whose origin is the galaxy: every star is matched, in right ascension and
   declination taken as plane coordinates, to the nearest point of the path from where it is seen; the cluster has the units, origin, masses, coordinates and
   orbit it had. *)
Theorem C96_match_partial :
  forall (G : galpy) (pth : path) (to_path : bool) (c : cluster) (u : usys),
    ready G c u Ogalaxy -> SpecFrame.aligned c -> no_orbits c -> pth <> [] -> (to_path = true -> (2 <= List.length pth)%nat) ->
    let z := unit_size G (c_sc c) u in let ts := map fst pth in let pts := map snd pth in
    exists out p D c', sky_match G pth to_path false c = Ok (out, c') /\ now ts p /\
      (forall j k, (j <= k)%nat -> (k < List.length pth)%nat -> 0 <= D k - D j <= arc true pts j k) /\ List.length out = nstars c /\
      (forall i, (i < nstars c)%nat -> star_match true to_path z ts pts D p (to_radec6 G (star_kpc G c i)) (nth i out (0, 0, None))) /\
      ready G c' u Ogalaxy /\ c_sc c' = c_sc c /\ c_id c' = c_id c /\ p_t (c_ph c') = p_t (c_ph c) /\ p_m (c_ph c') = p_m (c_ph c) /\
      p_s (c_ph c') = p_s (c_ph c) /\ p_g (c_ph c') = p_g (c_ph c).
Proof.
  intros G pth tp c u HR HL HN NP HT z ts pts.
  destruct (@sky_match_ok G pth tp c u Ogalaxy HR ltac:(discriminate) HL HN NP HT) as [out [p [D [E1 [E2 [E3 [E4 [E5 E6]]]]]]]].
  exists out, p, D. eexists. split; [exact E1|]. split; [exact E2|]. split; [exact E3|]. split; [exact E4|]. split; [exact E5|exact E6].
Qed.
Print Assumptions C96_match_partial.
(* without a path: the path is the cluster's own orbit as seen, from -tfinal to tfinal Gyr *)
Theorem C96_own_match_partial :
  forall (G : galpy) (A : astrometry) (zo : R) (m : R * R * R) (ev : evolution) (tfinal : option R) (nt : nat) (to_path : bool) (c : cluster) (u : usys),
    lawful ev -> ready G c u Ogalaxy -> SpecFrame.aligned c -> no_orbits c -> (2 <= nt)%nat ->
    let S := mkSun (ro (c_sc c)) (vo (c_sc c)) zo m in let z := unit_size G (c_sc c) u in
    unseen A S (to_radec6 G (orbit_kpc G c false)) = orbit_kpc G c false ->
    exists own out p D c', own_path G ev c false (gyr tfinal) nt own /\ let pth := sky_image (seen A S) own in
      sky_match_own G A zo m ev tfinal nt false to_path false None None c = Ok (out, c') /\ now (map fst pth) p /\
      (forall j k, (j <= k)%nat -> (k < nt)%nat -> 0 <= D k - D j <= arc true (map snd pth) j k) /\ List.length out = nstars c /\
      (forall i, (i < nstars c)%nat -> star_match true to_path z (map fst pth) (map snd pth) D p (to_radec6 G (star_kpc G c i)) (nth i out (0, 0, None))) /\
      ready G c' u Ogalaxy /\ c_sc c' = c_sc c /\ c_id c' = c_id c /\ p_t (c_ph c') = p_t (c_ph c) /\ p_m (c_ph c') = p_m (c_ph c) /\
      p_s (c_ph c') = p_s (c_ph c) /\ p_g (c_ph c') = p_g (c_ph c).
Proof.
  intros G A zo m ev tfinal nt tp c u HE HR HL HN NT S z HU.
  exact (@sky_own_ok G A zo m ev tfinal nt false tp c u Ogalaxy HE HR ltac:(discriminate) HL HN NT HU).
Qed.
Print Assumptions C96_own_match_partial.
(* finding: from_centre makes no difference there *)
Theorem C96_own_match_centre_refuted :
  forall (G : galpy) (A : astrometry) (zo : R) (m : R * R * R) (ev : evolution) (tfinal : option R) (nt : nat) (to_path do_full : bool) (r v : option R)
    (c : cluster) (u : usys) (o : osys), ready G c u o ->
    sky_match_own G A zo m ev tfinal nt true to_path do_full r v c = sky_match_own G A zo m ev tfinal nt false to_path do_full r v c.
Proof. intros G A zo m ev tfinal nt tp df r v c u o HR. exact (sky_match_own_fc A zo m ev tfinal nt true false tp df r v HR). Qed.
Print Assumptions C96_own_match_centre_refuted.
(* finding: the origin of the cluster is not set to the sky.  With the origin at the cluster it is the star's displacement from the cluster that is compared
   with the places of the path *)
Theorem C96_origin_refuted :
  forall (G : galpy) (pth : path) (c : cluster) (u : usys),
    ready G c u Ocluster -> SpecFrame.aligned c -> no_orbits c -> pth <> [] ->
    exists out c', sky_match G pth false false c = Ok (out, c') /\
      forall i, (i < nstars c)%nat -> exists k, nearest true (map snd pth) (beside_sky (to_radec6 G (star_kpc G c i)) (to_radec6 G (orbit_kpc G c false))) k /\
        fst (fst (nth i out (0, 0, None))) * in_Myr (unit_size G (c_sc c) u) = 1000 * nth k (map fst pth) 0.
Proof.
  intros G pth c u HR HL HN NP.
  destruct (@sky_match_ok G pth false c u Ocluster HR ltac:(discriminate) HL HN NP ltac:(discriminate)) as [out [p [D [E1 [_ [_ [_ [E5 _]]]]]]]].
  exists out. eexists. split; [exact E1|]. intros i Hi. destruct (E5 i Hi) as [k [g [K1 [_ [K2 _]]]]]. exists k. split; [exact K1|exact K2].
Qed.
Print Assumptions C96_origin_refuted.
(* so a star seen exactly at the first point of the path is matched to another point, if its displacement from the cluster is nearer to that *)
Theorem C96_origin_wrong_refuted :
  forall (G : galpy) (t0 t1 : R) (p q : six R) (c : cluster) (u : usys) (i : nat),
    ready G c u Ocluster -> SpecFrame.aligned c -> no_orbits c -> (i < nstars c)%nat ->
    let s := to_radec6 G (star_kpc G c i) in let g := to_radec6 G (orbit_kpc G c false) in
    gap true p s = 0 -> gap true q (beside_sky s g) < gap true p (beside_sky s g) ->
    exists out c', sky_match G [(t0, p); (t1, q)] false false c = Ok (out, c') /\
      fst (fst (nth i out (0, 0, None))) * in_Myr (unit_size G (c_sc c) u) = 1000 * t1.
Proof.
  intros G t0 t1 p q c u i HR HL HN Hi s g _ HG.
  destruct (@C96_origin_refuted G [(t0, p); (t1, q)] c u HR HL HN ltac:(discriminate)) as [out [c' [E1 E2]]].
  exists out, c'. split; [exact E1|]. destruct (E2 i Hi) as [k [[K1 [K2 _]] K3]]. fold s g in K2. cbn [map List.length] in K1, K2.
  destruct k as [|[|k]]; [|exact K3|lia]. exfalso. specialize (K2 1%nat ltac:(lia)). cbn [nth snd] in K2. lra.
Qed.
Print Assumptions C96_origin_wrong_refuted.
(* finding: angles are converted from kpc to the units of length of the cluster.  In pc and km/s the distance to the path comes out as 1000 times the
   number of degrees *)
Theorem C96_units_refuted :
  forall (G : galpy) (pth : path) (c : cluster), ready G c Upckms Ogalaxy -> SpecFrame.aligned c -> no_orbits c -> pth <> [] ->
    exists out c', sky_match G pth false false c = Ok (out, c') /\
      forall i, (i < nstars c)%nat -> let s := to_radec6 G (star_kpc G c i) in exists k g x, nearest true (map snd pth) s k /\ (g = 1 \/ g = 0 \/ g = -1) /\
        snd (nth i out (0, 0, None)) = Some x /\ x = 1000 * (g * sqrt ((sx (nth k (map snd pth) zero6) - sx s) ^ 2 + (sy (nth k (map snd pth) zero6) - sy s) ^ 2)).
Proof.
  intros G pth c HR HL HN NP.
  destruct (@sky_match_ok G pth false c Upckms Ogalaxy HR ltac:(discriminate) HL HN NP ltac:(discriminate)) as [out [p [D [E1 [_ [_ [_ [E5 _]]]]]]]].
  exists out. eexists. split; [exact E1|]. intros i Hi s. destruct (E5 i Hi) as [k [g [K1 [KS [_ [_ [K2 _]]]]]]]. cbn [on_sky] in K1, K2. fold s in K1, K2.
  destruct (K2 eq_refl) as [x [X1 X2]]. exists k, g, x. split; [exact K1|]. split; [|split; [exact X1|]].
  - destruct KS as [j [_ [Q1 [Q2 Q3]]]]. cbn [on_sky] in Q1, Q2, Q3. fold s in Q1, Q2, Q3. destruct (Rtotal_order (sy (nth j (map snd pth) zero6)) (sy s)) as [Q|[Q|Q]]; auto.
  - replace (in_pc (unit_size G (c_sc c) Upckms)) with 1 in X2 by reflexivity. unfold gap in X2. rewrite Rplus_0_r in X2. lra.
Qed.
Print Assumptions C96_units_refuted.
(* finding: right ascension does not wrap.  A star at 359 degrees is matched to the point of the path at 300 degrees although that at 1 degree is nearer on
   the sky *)
Theorem C96_wrap_refuted :
  forall (G : galpy) (t0 t1 : R) (p q : six R) (c : cluster) (u : usys) (i : nat),
    ready G c u Ogalaxy -> SpecFrame.aligned c -> no_orbits c -> (i < nstars c)%nat ->
    let s := to_radec6 G (star_kpc G c i) in sx s = 359 -> sy s = 0 -> sx p = 1 -> sy p = 0 -> sx q = 300 -> sy q = 0 ->
    farther_on_sky q p s /\
    exists out c', sky_match G [(t0, p); (t1, q)] false false c = Ok (out, c') /\
      fst (fst (nth i out (0, 0, None))) * in_Myr (unit_size G (c_sc c) u) = 1000 * t1.
Proof.
  intros G t0 t1 p q c u i HR HL HN Hi s S1 S2 P1 P2 Q1 Q2. split.
  - unfold farther_on_sky, sky_cosine. rewrite S1 S2 P1 P2 Q1 Q2. rewrite !Rmult_0_l sin_0 cos_0. pose proof PI_RGT_0 as PP.
    replace ((1 - 359) * (PI / 180)) with (- (2 * PI - 2 * (PI / 180))) by field. rewrite cos_neg.
    replace (2 * PI - 2 * (PI / 180)) with (- (2 * (PI / 180)) + 2 * INR 1 * PI) by (cbn [INR]; ring). rewrite cos_period cos_neg.
    replace ((300 - 359) * (PI / 180)) with (- (59 * (PI / 180))) by ring. rewrite cos_neg.
    assert (cos (59 * (PI / 180)) < cos (2 * (PI / 180))) by (apply cos_decreasing_1; lra). lra.
  - destruct (@sky_match_ok G [(t0, p); (t1, q)] false c u Ogalaxy HR ltac:(discriminate) HL HN ltac:(discriminate) ltac:(discriminate)) as [out [d [D [E1 [_ [_ [_ [E5 _]]]]]]]].
    exists out. eexists. split; [exact E1|]. destruct (E5 i Hi) as [k [g [[K1 [K2 _]] [_ [K3 _]]]]]. cbn [on_sky] in K2. fold s in K2. cbn [map List.length] in K1, K2.
    destruct k as [|[|k]]; [|exact K3|lia]. exfalso. specialize (K2 1%nat ltac:(lia)). cbn [nth snd] in K2. unfold gap in K2. rewrite S1 S2 P1 P2 Q1 Q2 in K2.
    apply (Rle_not_lt _ _ K2). apply sqrt_lt_1; lra.
Qed.
Print Assumptions C96_wrap_refuted.

(* tail_path with skypath and without roaming bins: the stars are matched on the sky to the cluster's own orbit as seen (ms), the times of the orbit are
   cut into bins as in C73_tail_path, and the points returned are, bin by bin, the mean position of the stars in the bin in space, put on the sky - as seen
   from the default Sun.  dmax, in the units of length of the cluster, bounds an angle. *)
Theorem C96_tail_partial :
  forall (G : galpy) (A : astrometry) (zo : R) (m : R * R * R) (ev : evolution) (tfinal : option R) (no nt ntail : nat) (dmax : option R) (bt : pathbin) (zd : R)
    (from_centre to_path : bool) (c : cluster) (u : usys) (o : osys),
    lawful ev -> ready G c u o -> SpecFrame.aligned c -> no_orbits c -> (2 <= no)%nat -> (0 < nt)%nat -> (ntail <= nt)%nat -> gyr tfinal <> 0 ->
    let z := unit_size G (c_sc c) u in let zk := unit_size G (c_sc c) Ukpckms in
    exists own lo hi mid ms p D out c', own_path G ev c from_centre (gyr tfinal) no own /\
      let pth := sky_image (seen A (mkSun (ro (c_sc c)) (vo (c_sc c)) zo m)) own in
      sky_tail G A zo m ev tfinal no nt ntail dmax bt zd from_centre to_path false None None c = Ok (out, c') /\ ready G c' u o /\ c_sc c' = c_sc c /\
      adjacent lo hi /\ spans (map fst pth) lo hi /\
      (bt = Fix -> List.length lo = nt /\ (forall j k, (j < nt)%nat -> (k < nt)%nat -> nth j hi 0 - nth j lo 0 = nth k hi 0 - nth k lo 0) /\
                   forall k, (k < nt)%nat -> nth k mid 0 = (nth k lo 0 + nth k hi 0) / 2) /\
      (bt = Num -> (List.length lo <= nt)%nat /\ forall k, (k < List.length lo)%nat -> nth k lo 0 <= nth k mid 0 <= nth k hi 0) /\
      List.length mid = List.length lo /\ List.length ms = nstars c /\
      (forall i, (i < nstars c)%nat -> star_match true to_path zk (map fst pth) (map snd pth) D p (to_radec6 G (star_kpc G c i)) (nth i ms (0, 0, None)) /\
         exists! k, in_bin lo hi k (fst (fst (nth i ms (0, 0, None))))) /\
      sky_points (nstars c) (fun j i => in_bin lo hi j (fst (fst (nth i ms (0, 0, None)))) /\ near zk z dmax (snd (nth i ms (0, 0, None))))
        mid (star_kpc G c) z (seen A (mkSun solar_ro solar_vo zd (- (111 / 10), 1224 / 100, 725 / 100))) out.
Proof.
  intros G A zo m ev tfinal no nt ntail dmax bt zd fc tp c u o HE HR HL HN NO NT NL NG z zk.
  destruct (@sky_tail_ok G A zo m ev tfinal no nt ntail dmax bt zd fc tp c u o HE HR HL HN NO) as [own [OW H]]. cbn zeta in H.
  change (sun_of zo m None None c) with (mkSun (ro (c_sc c)) (vo (c_sc c)) zo m) in H. set (pth := sky_image _ own) in H.
  pose proof (own_const NO NG OW) as NC. pose proof (own_times OW) as [LT _].
  assert (ET : map fst pth = map fst own) by (unfold pth, sky_image; rewrite map_map; reflexivity).
  rewrite <- ET in NC, LT.
  assert (NE : map fst pth <> []) by (intros E; rewrite E in LT; cbn in LT; lia).
  assert (exists bn, tail_bins bt (map fst pth) nt ntail = Ok bn /\ adjacent (b_lo bn) (b_hi bn) /\ spans (map fst pth) (b_lo bn) (b_hi bn) /\ List.length (b_mid bn) = List.length (b_hi bn) /\
     (bt = Fix -> List.length (b_lo bn) = nt /\ (forall j k, (j < nt)%nat -> (k < nt)%nat -> nth j (b_hi bn) 0 - nth j (b_lo bn) 0 = nth k (b_hi bn) 0 - nth k (b_lo bn) 0) /\
                   forall k, (k < nt)%nat -> nth k (b_mid bn) 0 = (nth k (b_lo bn) 0 + nth k (b_hi bn) 0) / 2) /\
      (bt = Num -> (List.length (b_lo bn) <= nt)%nat /\ forall k, (k < List.length (b_lo bn))%nat -> nth k (b_lo bn) 0 <= nth k (b_mid bn) 0 <= nth k (b_hi bn) 0)) as [bn [B1 [B2 [B3 [B4 [B5 B6]]]]]].
  { unfold tail_bins. destruct (Nat.ltb_spec nt ntail); [lia|]. destruct bt.
    - destruct (@binmaker_partition (map fst pth) nt Linear NE NT ltac:(discriminate)) as [bn [P1 [P2 [P3 [P4 [P5 [P6 [P7 [P8 P9]]]]]]]]].
      exists bn. split; [exact P1|]. split; [exact P3|]. split; [exact P4|]. split; [exact (binmaker_mid P1)|]. split; [|discriminate]. intros _. split; [exact P2|]. split; [exact P8|exact P7].
    - destruct (nbinmaker_partition NE NC NT) as [bn [P1 [P2 [P3 [P4 [P5 [P6 [P7 P8]]]]]]]].
      exists bn. split; [exact P1|]. split; [exact P2|]. split; [exact P3|]. split; [exact (nbinmaker_mid NE NT P1)|]. split; [discriminate|]. intros _. split; [exact P4|].
      intros k Hk. destruct (P7 k Hk) as [_ [_ [_ Q]]]. exact Q. }
  pose proof B2 as [L [NL0 [W A0]]].
  assert (RS : rising (b_hi bn)) by (intros i j H1 H2; apply (adj_hi B2 H1); now rewrite L).
  assert (NH : b_hi bn <> []) by (intros E; rewrite E in L; destruct (b_lo bn); [now apply NL0|discriminate]).
  destruct (H bn B1 RS NH B4) as [ms [p [D [c' [out [E1 [E2 [E2' [E3 [E4 [E5 [E6 E7]]]]]]]]]]]].
  assert (IN : forall i, (i < nstars c)%nat -> nth 0 (b_lo bn) 0 <= fst (fst (nth i ms (0, 0, None))) <= nth (List.length (b_hi bn) - 1) (b_hi bn) 0).
  { intros i Hi. destruct (E6 i Hi) as [k [g [[K1 _] [_ [K3 _]]]]]. unfold zk in K3. replace (in_Myr (unit_size G (c_sc c) Ukpckms)) with 1000 in K3 by reflexivity.
    assert (EV : fst (fst (nth i ms (0, 0, None))) = nth k (map fst pth) 0) by (apply (Rmult_eq_reg_r 1000); [etransitivity; [exact K3|ring]|lra]). rewrite EV. rewrite map_length in K1.
    assert (I : In (nth k (map fst pth) 0) (map fst pth)) by (apply nth_In; now rewrite map_length). destruct B3 as [[_ M1] [_ M2]]. split; [now apply M1|now apply M2]. }
  exists own, (b_lo bn), (b_hi bn), (b_mid bn), ms, p, D, out, c'. split; [exact OW|]. fold pth. cbn zeta. split; [exact E1|]. split; [exact E2|]. split; [exact E2'|]. split; [exact B2|]. split; [exact B3|].
  split; [exact B5|]. split; [exact B6|]. split; [rewrite B4; symmetry; exact L|]. split; [exact E5|]. split.
  - intros i Hi. split; [exact (E6 i Hi)|]. destruct (bin_index_correct B2 (IN i Hi)) as [k [_ Q]]. exists k. split; [exact Q|]. intros k' Q'. exact (in_bin_unique B2 Q Q').
  - destruct E7 as [js [J1 [J2 [J3 J4]]]]. exists js. split; [exact J1|]. split; [|split; [exact J3|]].
    + intros j. rewrite J2. split; intros [Q1 [i [Q2 [Q3 Q4]]]]; (split; [exact Q1|]; exists i; split; [exact Q2|]; split; [|exact Q4]); apply (in_cell j B2 (IN i Q2)); exact Q3.
    + intros k Hk j. destruct (J4 k Hk) as [sel [rest [W1 [W2 [W3 W4]]]]]. exists sel, rest. split; [exact W1|].
      assert (LT' : forall i, In i (sel ++ rest) -> (i < nstars c)%nat) by (intros i Q; apply (Permutation_in _ (Permutation_sym W1)) in Q; apply in_seq in Q; lia).
      split; [|split; [|exact W4]].
      * apply Forall_forall. intros i Q. destruct (proj1 (Forall_forall _ _) W2 i Q) as [Q1 Q2]. split; [|exact Q2]. apply (in_cell _ B2 (IN i (LT' i (in_or_app _ _ _ (or_introl Q))))). exact Q1.
      * apply Forall_forall. intros i Q [Q1 Q2]. apply (proj1 (Forall_forall _ _) W3 i Q). split; [|exact Q2]. apply (in_cell _ B2 (IN i (LT' i (in_or_app _ _ _ (or_intror Q))))). exact Q1.
Qed.
Print Assumptions C96_tail_partial.
(* finding: for a cluster with another Sun than the default the points of the tail are not where its Sun sees them, although the path is *)
Theorem C96_tail_sun_refuted :
  forall (G : galpy) (zo zd : R) (m : R * R * R) (ev : evolution) (tfinal : option R) (no nt ntail : nat) (bt : pathbin) (from_centre to_path : bool) (c : cluster) (u : usys) (o : osys),
    lawful ev -> ready G c u o -> SpecFrame.aligned c -> no_orbits c -> (2 <= no)%nat -> (0 < nt)%nat -> (ntail <= nt)%nat -> gyr tfinal <> 0 ->
    (0 < nstars c)%nat -> ro (c_sc c) <> solar_ro ->
    exists (A : astrometry) out c', sky_tail G A zo m ev tfinal no nt ntail None bt zd from_centre to_path false None None c = Ok (out, c') /\ out <> [] /\
      forall n member mid pos z, ~ sky_points n member mid pos z (seen A (mkSun (ro (c_sc c)) (vo (c_sc c)) zo m)) out.
Proof.
  intros G zo zd m ev tfinal no nt ntail bt fc tp c u o HE HR HL HN NO NT NL NG NS NR.
  set (A := mkAst (fun S _ => mk6 (su_ro S) 0 0 0 0 0) (fun _ p => p)). exists A.
  destruct (@C96_tail_partial G A zo m ev tfinal no nt ntail None bt zd fc tp c u o HE HR HL HN NO NT NL NG) as [own [lo [hi [mid [ms [p [D [out [c' [_ [E1 [_ [_ [B [_ [_ [_ [BM [_ [E2 E3]]]]]]]]]]]]]]]]]]]].
  exists out, c'. split; [exact E1|]. destruct E3 as [js [_ [J2 [J3 J4]]]].
  assert (NJ : (0 < List.length js)%nat).
  { destruct (E2 0%nat NS) as [_ [k [K _]]]. destruct js as [|j js]; [|cbn; lia]. exfalso. destruct (J2 k) as [_ Q]. apply Q. split; [rewrite BM; destruct K as [K _]; exact K|].
    exists 0%nat. split; [exact NS|]. split; [exact K|exact I]. }
  split; [intros E; rewrite E in J3; cbn in J3; lia|].
  intros n member md pos z [ks [_ [_ [L4 K4]]]]. destruct (J4 0%nat NJ) as [s1 [s2 [_ [_ [_ [_ V1]]]]]]. destruct (K4 0%nat ltac:(lia)) as [s3 [s4 [_ [_ [_ [_ V2]]]]]].
  rewrite V1 in V2. apply NR. symmetry. exact (f_equal (@sx R) V2).
Qed.
Print Assumptions C96_tail_sun_refuted.

(* ------------------------------------------------------------------ the hypotheses are met *)
Definition sky_galpy (s : six R) : galpy := mkG (fun r v => r / v) (fun r v => r * v * v) (fun v _ => v * (1022712 / 1000000)) (fun _ => s) (fun s => s).
Example C96_hypotheses_met : forall o, flat o -> let c := ride o (mk6 8000 0 100 3 4 0) in
  lawful drift /\ ready demo_galpy c Upckms o /\ SpecFrame.aligned c /\ no_orbits c /\ analyze true true c = c /\ nstars c = 5%nat /\
  ro (c_sc c) <> solar_ro /\ gyr (Some 1) <> 0 /\ unseen (mkAst (fun _ p => p) (fun _ p => p)) (mkSun 8 220 0 (0, 0, 0)) (to_radec6 demo_galpy (orbit_kpc demo_galpy c false)) = orbit_kpc demo_galpy c false.
Proof.
  intros o F c. destruct (C72_hypotheses_met o F) as [H1 [H2 [H3 [H4 [_ [_ [_ [_ [H5 [H6 _]]]]]]]]]]. fold c in H2, H3, H4, H6.
  split; [exact H1|]. split; [exact H2|]. split; [exact H3|]. split; [split; reflexivity|]. split; [exact H4|]. split; [exact H6|].
  split; [unfold c; rewrite ride_sc; cbn; unfold solar_ro; lra|]. split; [exact H5|reflexivity].
Qed.
(* a star at right ascension 359, and one seen exactly at a point of the path *)
Example C96_wrap_met : let G := sky_galpy (mk6 359 0 8 0 0 0) in let c := ride Ogalaxy (mk6 8000 0 100 3 4 0) in
  ready G c Upckms Ogalaxy /\ SpecFrame.aligned c /\ no_orbits c /\ (0 < nstars c)%nat /\ sx (to_radec6 G (star_kpc G c 0)) = 359 /\ sy (to_radec6 G (star_kpc G c 0)) = 0.
Proof.
  intros G c. destruct (C72_hypotheses_met Ogalaxy ltac:(discriminate)) as [_ [H2 [H3 [_ [_ [_ [_ [_ [_ [H6 _]]]]]]]]]]. fold c in H2, H3, H6.
  split; [exact H2|]. split; [exact H3|]. split; [split; reflexivity|]. split; [lia|]. split; reflexivity.
Qed.
Example C96_origin_met : let G := sky_galpy (mk6 359 0 8 0 0 0) in let c := ride Ocluster (mk6 8000 0 100 3 4 0) in
  let s := to_radec6 G (star_kpc G c 0) in let g := to_radec6 G (orbit_kpc G c false) in
  ready G c Upckms Ocluster /\ SpecFrame.aligned c /\ no_orbits c /\ (0 < nstars c)%nat /\ gap true (mk6 359 0 8 0 0 0) s = 0 /\
  gap true (mk6 5 0 8 0 0 0) (beside_sky s g) < gap true (mk6 359 0 8 0 0 0) (beside_sky s g).
Proof.
  intros G c s g. destruct (C72_hypotheses_met Ocluster ltac:(discriminate)) as [_ [H2 [H3 [_ [_ [_ [_ [_ [_ [H6 _]]]]]]]]]]. fold c in H2, H3, H6.
  split; [exact H2|]. split; [exact H3|]. split; [split; reflexivity|]. split; [lia|].
  unfold gap, beside_sky, s, g, G, sky_galpy. cbn [to_radec6 sx sy]. split.
  - replace ((359 - 359) ^ 2 + (0 - 0) ^ 2 + 0) with 0 by ring. exact sqrt_0.
  - apply sqrt_lt_1; replace ((359 - 359) * cos (0 * (PI / 180))) with 0 by ring; lra.
Qed.
