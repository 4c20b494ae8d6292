(* C50 (own path), C72-C75: orbital paths, tail paths and interpolated orbits. *)
From Verif Require Import Base ModelCluster ModelOps ModelConv ModelEnergy ModelRecipes ModelCoords ModelStars ModelSubset ModelLagrange ModelProfiles ModelDynamics ModelLoad ModelTail ModelOrbit.
From Verif Require Import SpecUnits SpecFrame SpecConv SpecRecipes SpecEnergy SpecLagrange SpecProfiles SpecDynamics SpecTail SpecOrbit.
From Verif Require Import ProofsUnits ProofsFrame ProofsConv ProofsSees ProofsStars ProofsRecipes ProofsRecipes2 ProofsTail ProofsTail2 ProofsTail3 ProofsTail4 ProofsTail5.
From Verif Require Import ProofsOrbit ProofsOrbit2 ProofsOrbit3 ProofsOrbit4 ProofsOrbit5 PropUnits PropEnergy PropProfiles PropDynamics PropTail.

(* C72: orbital_path.  ev is the motion of a point in the potential, in units in which the cluster's ro and vo are 1; only the laws of a
   flow are used.  The path has nt points at equally spaced times from -tfinal to tfinal (tfinal in the units of the cluster, 0.1 Gyr if
   None); each point is where the cluster (its centre, if from_centre) is at that time, being where it is at time zero.  Times and places are in the
   units of the cluster, and so are velocities except in the two systems below.  The cluster is as before. *)
Theorem C72_orbital_path :
  forall (G : galpy) (ev : evolution) (tfinal : option R) (nt : nat) (from_centre : bool) (c : cluster) (u : usys) (o : osys),
    lawful ev -> ready G c u o -> analyze true true c = c -> (2 <= nt)%nat ->
    let z := unit_size G (c_sc c) u in let r := ro (c_sc c) in let v := vo (c_sc c) in let T := duration G c u (1 / 10) tfinal in
    exists pth orb c', orbital_path G ev tfinal nt from_centre None None c = Ok (pth, orb, c') /\ restored c c' /\ length pth = nt /\
      forall j, (j < nt)%nat ->
        let t := spaced (- T) T nt j in let p := in_kpc r v (ev 0 t (natural r v (orbit_kpc G c from_centre))) in let q := nth j pth (0, zero6) in
        fst q * in_Myr z = t * in_Myr (unit_size G (c_sc c) Ugalpy) /\ place_is z (snd q) p /\
        (vel_system u -> ~ factor_forgotten Ukpckms u -> motion_is z (snd q) p).
Proof.
  intros G ev tfinal nt fc c u o HE HR HA NT z r v T. pose proof HR as [HS _]. pose proof HS as [N1 [N2 [N3 [N4 [N5 [N6 _]]]]]].
  destruct (@orbital_path_ok G ev tfinal nt fc None None c u o HE HR NT N5 N6) as [pth [orb [E1 [E2 [_ E4]]]]]. cbn [opt] in E1, E4.
  destruct (returned HR (proj1 (ready_galpy HR))) as [_ [RC1 RC2]].
  exists pth, orb. eexists. split; [exact E1|]. split; [exact (bracket_sees HR (proj1 (ready_galpy HR)) HA)|]. split; [exact E2|].
  intros j Hj t p q. unfold q. rewrite E4; [exact Hj|]. cbn [fst snd]. rewrite (galpy_time_ok (1 / 10) tfinal HR). fold T. fold t. fold r v. fold p.
  split; [|split].
  - unfold z. rewrite <- RC2. exact (time_galpy t RC1).
  - unfold z. rewrite <- RC2. exact (convert6_place p RC1).
  - intros H1 H2. unfold z. rewrite <- RC2. exact (convert6_motion p RC1 H1 H2).
Qed.
Print Assumptions C72_orbital_path.
(* in particular the middle point of an odd number is the present one *)
Theorem C72_present :
  forall (G : galpy) (ev : evolution) (tfinal : option R) (m : nat) (from_centre : bool) (c : cluster) (u : usys) (o : osys),
    lawful ev -> ready G c u o -> (1 <= m)%nat ->
    exists pth orb c', orbital_path G ev tfinal (2 * m + 1) from_centre None None c = Ok (pth, orb, c') /\
      fst (nth m pth (0, zero6)) = 0 /\ place_is (unit_size G (c_sc c) u) (snd (nth m pth (0, zero6))) (orbit_kpc G c from_centre).
Proof.
  intros G ev tfinal m fc c u o HE HR Hm. pose proof HR as [HS _]. pose proof HS as [N1 [N2 [N3 [N4 [N5 [N6 _]]]]]].
  destruct (@orbital_path_ok G ev tfinal (2 * m + 1) fc None None c u o HE HR ltac:(lia) N5 N6) as [pth [orb [E1 [E2 [_ E4]]]]]. cbn [opt] in E1, E4.
  destruct (returned HR (proj1 (ready_galpy HR))) as [_ [RC1 RC2]].
  exists pth, orb. eexists. split; [exact E1|]. rewrite E4; [lia|]. cbn [fst snd].
  set (T := galpy_time G (1 / 10) (ro (c_sc c)) (vo (c_sc c)) tfinal c).
  assert (S0 : spaced (- T) T (2 * m + 1) m = 0).
  { unfold spaced. replace (2 * m + 1 - 1)%nat with (2 * m)%nat by lia. rewrite mult_INR. cbn [INR]. assert (0 < INR m) by (apply lt_0_INR; lia). field. lra. }
  rewrite S0. split.
  - destruct (unit_size_nz u HS) as [NZ _]. apply (Rmult_eq_reg_r (in_Myr (unit_size G (c_sc c) u))); [|exact NZ]. pose proof (time_galpy 0 RC1) as H. rewrite RC2 in H. rewrite H. ring.
  - destruct HE as [HE1 _]. rewrite HE1. rewrite natural_kpc; [exact N5|exact N6|]. rewrite -{1}RC2. exact (convert6_place _ RC1).
Qed.
Print Assumptions C72_present.
(* finding: with ro and vo given that are not those of the cluster the present point is the cluster's position and velocity scaled by their ratios *)
Theorem C72_keyword_refuted :
  forall (G : galpy) (ev : evolution) (tfinal : option R) (m : nat) (from_centre : bool) (r' v' : R) (c : cluster) (u : usys) (o : osys),
    lawful ev -> ready G c u o -> (1 <= m)%nat -> r' <> 0 -> v' <> 0 ->
    exists pth orb c', orbital_path G ev tfinal (2 * m + 1) from_centre (Some r') (Some v') c = Ok (pth, orb, c') /\
      fst (nth m pth (0, zero6)) = 0 /\
      place_is (unit_size G (c_sc c) u) (snd (nth m pth (0, zero6))) (in_kpc (r' / ro (c_sc c)) (v' / vo (c_sc c)) (orbit_kpc G c from_centre)).
Proof.
  intros G ev tfinal m fc r' v' c u o HE HR Hm NR NV. pose proof HR as [HS _]. pose proof HS as [N1 [N2 [N3 [N4 [N5 [N6 _]]]]]].
  destruct (@orbital_path_ok G ev tfinal (2 * m + 1) fc (Some r') (Some v') c u o HE HR ltac:(lia) NR NV) as [pth [orb [E1 [E2 [_ E4]]]]]. cbn [opt] in E1, E4.
  destruct (returned HR (proj1 (ready_galpy HR))) as [_ [RC1 RC2]].
  exists pth, orb. eexists. split; [exact E1|]. rewrite E4; [lia|]. cbn [fst snd].
  set (T := galpy_time G (1 / 10) r' v' tfinal c).
  assert (S0 : spaced (- T) T (2 * m + 1) m = 0).
  { unfold spaced. replace (2 * m + 1 - 1)%nat with (2 * m)%nat by lia. rewrite mult_INR. cbn [INR]. assert (0 < INR m) by (apply lt_0_INR; lia). field. lra. }
  rewrite S0. split.
  - destruct (unit_size_nz u HS) as [NZ _]. apply (Rmult_eq_reg_r (in_Myr (unit_size G (c_sc c) u))); [|exact NZ]. pose proof (time_galpy 0 RC1) as H. rewrite RC2 in H. rewrite H. ring.
  - destruct HE as [HE1 _]. rewrite HE1. rewrite -{1}RC2.
    replace (in_kpc (r' / ro (c_sc c)) (v' / vo (c_sc c)) (orbit_kpc G c fc)) with (in_kpc r' v' (natural (ro (c_sc c)) (vo (c_sc c)) (orbit_kpc G c fc))); [exact (convert6_place _ RC1)|].
    unfold in_kpc, natural. cbn [sx sy sz svx svy svz]. f_equal; field; assumption.
Qed.
Print Assumptions C72_keyword_refuted.
(* finding: the velocities of the path of a cluster in pc/Myr or kpc/Gyr are off by the factor kms_in_pcmyr *)
Theorem C72_velocity_refuted :
  forall (G : galpy) (ev : evolution) (tfinal : option R) (nt : nat) (from_centre : bool) (c : cluster) (u : usys) (o : osys),
    lawful ev -> ready G c u o -> (2 <= nt)%nat -> u = Upcmyr \/ u = Ukpcgyr ->
    let z := unit_size G (c_sc c) u in let r := ro (c_sc c) in let v := vo (c_sc c) in let T := duration G c u (1 / 10) tfinal in
    exists pth orb c', orbital_path G ev tfinal nt from_centre None None c = Ok (pth, orb, c') /\
      forall j, (j < nt)%nat -> let p := in_kpc r v (ev 0 (spaced (- T) T nt j) (natural r v (orbit_kpc G c from_centre))) in
        svx (snd (nth j pth (0, zero6))) * in_kms z * kms_in_pcmyr = svx p.
Proof.
  intros G ev tfinal nt fc c u o HE HR NT HU z r v T. pose proof HR as [HS [Hu [Hl _]]]. pose proof HS as [N1 [N2 [N3 [N4 [N5 [N6 _]]]]]].
  destruct (@orbital_path_ok G ev tfinal nt fc None None c u o HE HR NT N5 N6) as [pth [orb [E1 [E2 [_ E4]]]]]. cbn [opt] in E1, E4.
  destruct (returned HR (proj1 (ready_galpy HR))) as [_ [RC1 RC2]].
  exists pth, orb. eexists. split; [exact E1|]. intros j Hj p. rewrite E4; [exact Hj|]. cbn [fst snd]. rewrite (galpy_time_ok (1 / 10) tfinal HR). fold T. fold r v. fold p.
  unfold convert6. cbn [svx]. pose proof RC1 as [HS' [Hu' _]].
  rewrite (@velocity_forgotten G _ Ukpckms u (svx p) HS' Hu').
  - split; discriminate.
  - destruct HU as [-> | ->]; split; discriminate.
  - destruct HU as [-> | ->]; unfold factor_forgotten; repeat split; try discriminate; auto; intros [H _]; discriminate.
  - rewrite RC2. unfold rsc. fold z. replace (in_kms (unit_size G (c_sc c) Ukpckms)) with 1 by reflexivity.
    destruct (unit_size_nz u HS) as [_ [_ [_ NK]]]. fold z in NK. field. split; [exact NK|first [exact kms_nz|unfold kms_in_pcmyr; lra|rewrite -kms_spec; exact kms_nz]].
Qed.
Print Assumptions C72_velocity_refuted.
(* finding: with nt = 1 the only point is the present place, labelled with the time -tfinal *)
Theorem C72_one_point_refuted :
  forall (G : galpy) (ev : evolution) (tfinal : option R) (from_centre : bool) (c : cluster) (u : usys) (o : osys),
    lawful ev -> ready G c u o ->
    let z := unit_size G (c_sc c) u in
    exists t q orb c', orbital_path G ev tfinal 1 from_centre None None c = Ok ([(t, q)], orb, c') /\
      t * in_Myr z = - duration G c u (1 / 10) tfinal * in_Myr (unit_size G (c_sc c) Ugalpy) /\ place_is z q (orbit_kpc G c from_centre).
Proof.
  intros G ev tfinal fc c u o HE HR z. pose proof HR as [HS _]. pose proof HS as [N1 [N2 [N3 [N4 [N5 [N6 _]]]]]].
  destruct (@orbital_path_one G ev tfinal fc None None c u o HE HR N5 N6) as [orb E1]. cbn [opt] in E1.
  destruct (returned HR (proj1 (ready_galpy HR))) as [_ [RC1 RC2]].
  eexists. eexists. exists orb. eexists. split; [exact E1|]. rewrite (galpy_time_ok (1 / 10) tfinal HR). split.
  - unfold z. rewrite <- RC2. exact (time_galpy _ RC1).
  - rewrite natural_kpc; [exact N5|exact N6|]. unfold z. rewrite <- RC2. exact (convert6_place _ RC1).
Qed.
Print Assumptions C72_one_point_refuted.
(* finding: the default tfinal=0.1, documented as 0.1 Gyr, is 0.1 Myr for a cluster in pc and km/s *)
Theorem C72_default_refuted :
  forall (G : galpy) (ev : evolution) (nt : nat) (from_centre : bool) (c : cluster) (o : osys),
    lawful ev -> ready G c Upckms o -> (2 <= nt)%nat ->
    exists pth orb c', orbital_path G ev (Some (1 / 10)) nt from_centre None None c = Ok (pth, orb, c') /\
      fst (nth (nt - 1) pth (0, zero6)) * in_Myr (unit_size G (c_sc c) Upckms) = 1 / 10 /\ 1 / 10 < 100.
Proof.
  intros G ev nt fc c o HE HR NT. pose proof HR as [HS _]. pose proof HS as [N1 [N2 [N3 [N4 [N5 [N6 [N7 _]]]]]]].
  destruct (@orbital_path_ok G ev (Some (1 / 10)) nt fc None None c Upckms o HE HR NT N5 N6) as [pth [orb [E1 [E2 [_ E4]]]]]. cbn [opt] in E1, E4.
  destruct (returned HR (proj1 (ready_galpy HR))) as [_ [RC1 RC2]].
  exists pth, orb. eexists. split; [exact E1|]. rewrite E4; [lia|]. cbn [fst]. rewrite (galpy_time_ok (1 / 10) (Some (1 / 10)) HR). split; [|lra].
  rewrite <- RC2 at 1. rewrite (time_galpy _ RC1) RC2. unfold spaced, duration.
  replace (in_Myr (unit_size G (c_sc c) Upckms)) with 1 by reflexivity.
  replace (in_Myr (unit_size G (c_sc c) Ugalpy)) with (1000 * time_in_Gyr G (ro (c_sc c)) (vo (c_sc c))) by reflexivity.
  assert (0 < INR (nt - 1)) by (apply lt_0_INR; lia). field. split; lra.
Qed.
Print Assumptions C72_default_refuted.

(* C50 without a path: the stars are matched as in C50_match to the path of the cluster's own orbit, sampled at nt times between -T and T.
   Finding: T is tfinal Gyr whatever the units of the cluster are, where the documentation says "in cluster.units". *)
Theorem C50_own_path :
  forall (G : galpy) (ev : evolution) (tfinal : option R) (nt : nat) (from_centre to_path projected : bool) (c : cluster) (u : usys) (o : osys),
    lawful ev -> ready G c u o -> SpecFrame.aligned c -> analyze true true c = c -> (2 <= nt)%nat ->
    let z := unit_size G (c_sc c) u in
    exists pth out c' p D, orbital_path_match_own G ev tfinal nt from_centre to_path false projected None None c = Ok (out, c') /\ restored c c' /\
      own_path G ev c from_centre (gyr tfinal) nt pth /\ now (map fst pth) p /\
      (forall j k, (j <= k)%nat -> (k < nt)%nat -> 0 <= D k - D j <= arc projected (map snd pth) j k) /\ length out = nstars c /\
      forall i, (i < nstars c)%nat -> star_match projected to_path z (map fst pth) (map snd pth) D p (star_kpc G c i) (nth i out (0, 0, None)).
Proof.
  intros G ev tfinal nt fc tp b c u o HE HR HL HA NT z.
  destruct (@own_match_ok G ev tfinal nt fc tp b c u o HE HR HL NT) as [pth [c2 [out [p [D [E1 [E2 [E3 [E4 [E5 [E6 E7]]]]]]]]]]].
  exists pth, out. eexists. exists p, D. split; [exact E1|]. split; [exact (bracket_sees HR E2 HA)|]. split; [exact E3|]. split; [exact E4|].
  split; [destruct E3 as [L _]; rewrite <- L; exact E5|]. split; [exact E6|exact E7].
Qed.
Print Assumptions C50_own_path.

(* C73: tail_path without roaming bins.  The stars are matched to the cluster's own orbit (ms, in kpc and Gyr); the times of the orbit are cut into
   adjacent bins, nt of equal width (bintype fix) or at most nt (num); the points returned are, bin by bin, the mean position and velocity
   of the stars in the bin that are within dmax of the orbit; bins without stars are left out.  Every star is in exactly one bin. *)
Theorem C73_tail_path :
  forall (G : galpy) (ev : evolution) (tfinal : option R) (no nt ntail : nat) (dmax : option R) (bt : pathbin) (from_centre to_path projected : bool)
    (c : cluster) (u : usys) (o : osys),
    lawful ev -> ready G c u o -> SpecFrame.aligned c -> analyze true true c = c -> (2 <= no)%nat -> (0 < nt)%nat -> (ntail <= nt)%nat -> gyr tfinal <> 0 ->
    let z := unit_size G (c_sc c) u in let zk := unit_size G (c_sc c) Ukpckms in
    exists pth lo hi mid ms p D out c', tail_path G ev tfinal no nt ntail dmax bt from_centre to_path false projected None None c = Ok (out, c') /\ restored c c' /\
      own_path G ev c from_centre (gyr tfinal) no pth /\ adjacent lo hi /\ spans (map fst pth) lo hi /\
      (bt = Fix -> length lo = nt /\ (forall j k, (j < nt)%nat -> (k < nt)%nat -> nth j hi 0 - nth j lo 0 = nth k hi 0 - nth k lo 0) /\
                   forall k, (k < nt)%nat -> nth k mid 0 = (nth k lo 0 + nth k hi 0) / 2) /\
      (bt = Num -> (length lo <= nt)%nat /\ forall k, (k < length lo)%nat -> nth k lo 0 <= nth k mid 0 <= nth k hi 0) /\
      length ms = nstars c /\
      (forall i, (i < nstars c)%nat -> star_match projected to_path zk (map fst pth) (map snd pth) D p (star_kpc G c i) (nth i ms (0, 0, None)) /\
         exists! k, in_bin lo hi k (fst (fst (nth i ms (0, 0, None))))) /\
      tail_points (nstars c) (fun j i => in_bin lo hi j (fst (fst (nth i ms (0, 0, None)))) /\ near zk z dmax (snd (nth i ms (0, 0, None))))
        mid (star_kpc G c) z (vel_system u /\ ~ factor_forgotten Ukpckms u) out.
Proof.
  intros G ev tfinal no nt ntail dmax bt fc tp b c u o HE HR HL HA NO NT NL NG z zk.
  destruct (@tail_ok G ev tfinal no nt ntail dmax bt fc tp b c u o HE HR HL NO) as [pth [OW H]].
  pose proof (own_const NO NG OW) as NC. pose proof (own_times OW) as [LT _].
  assert (NE : map fst pth <> []) by (intros E; rewrite E in LT; cbn in LT; lia).
  assert (exists bn, tail_bins bt (map fst pth) nt ntail = Ok bn /\ adjacent (b_lo bn) (b_hi bn) /\ spans (map fst pth) (b_lo bn) (b_hi bn) /\ length (b_mid bn) = length (b_hi bn) /\
     (bt = Fix -> length (b_lo bn) = nt /\ (forall j k, (j < nt)%nat -> (k < nt)%nat -> nth j (b_hi bn) 0 - nth j (b_lo bn) 0 = nth k (b_hi bn) 0 - nth k (b_lo bn) 0) /\
                   forall k, (k < nt)%nat -> nth k (b_mid bn) 0 = (nth k (b_lo bn) 0 + nth k (b_hi bn) 0) / 2) /\
      (bt = Num -> (length (b_lo bn) <= nt)%nat /\ forall k, (k < length (b_lo bn))%nat -> nth k (b_lo bn) 0 <= nth k (b_mid bn) 0 <= nth k (b_hi bn) 0)) as [bn [B1 [B2 [B3 [B4 [B5 B6]]]]]].
  { unfold tail_bins. destruct (Nat.ltb_spec nt ntail); [lia|]. destruct bt.
    - destruct (@binmaker_partition (map fst pth) nt Linear NE NT ltac:(discriminate)) as [bn [P1 [P2 [P3 [P4 [P5 [P6 [P7 [P8 P9]]]]]]]]].
      exists bn. split; [exact P1|]. split; [exact P3|]. split; [exact P4|]. split; [exact (binmaker_mid P1)|]. split; [|discriminate]. intros _. split; [exact P2|]. split; [exact P8|exact P7].
    - destruct (nbinmaker_partition NE NC NT) as [bn [P1 [P2 [P3 [P4 [P5 [P6 [P7 P8]]]]]]]].
      exists bn. split; [exact P1|]. split; [exact P2|]. split; [exact P3|]. split; [exact (nbinmaker_mid NE NT P1)|]. split; [discriminate|]. intros _. split; [exact P4|].
      intros k Hk. destruct (P7 k Hk) as [_ [_ [_ Q]]]. exact Q. }
  pose proof B2 as [L [NL0 [W A]]].
  assert (RS : rising (b_hi bn)) by (intros i j H1 H2; apply (adj_hi B2 H1); now rewrite L).
  assert (NH : b_hi bn <> []) by (intros E; rewrite E in L; destruct (b_lo bn); [now apply NL0|discriminate]).
  destruct (H bn B1 RS NH B4) as [ms [p [D [c3 [out [E1 [E2 [E3 [E4 [E5 [E6 E7]]]]]]]]]]].
  assert (IN : forall i, (i < nstars c)%nat -> nth 0 (b_lo bn) 0 <= fst (fst (nth i ms (0, 0, None))) <= nth (length (b_hi bn) - 1) (b_hi bn) 0).
  { intros i Hi. destruct (E6 i Hi) as [k [g [[K1 _] [_ [K3 _]]]]]. unfold zk in K3. replace (in_Myr (unit_size G (c_sc c) Ukpckms)) with 1000 in K3 by reflexivity.
    assert (EV : fst (fst (nth i ms (0, 0, None))) = nth k (map fst pth) 0) by (apply (Rmult_eq_reg_r 1000); [etransitivity; [exact K3|ring]|lra]). rewrite EV. rewrite map_length in K1.
    assert (I : In (nth k (map fst pth) 0) (map fst pth)) by (apply nth_In; now rewrite map_length). destruct B3 as [[_ M1] [_ M2]]. split; [now apply M1|now apply M2]. }
  exists pth, (b_lo bn), (b_hi bn), (b_mid bn), ms, p, D, out. eexists. split; [exact E1|]. split; [exact (bracket_sees HR E2 HA)|]. split; [exact OW|]. split; [exact B2|]. split; [exact B3|].
  split; [exact B5|]. split; [exact B6|]. split; [exact E5|]. split.
  - intros i Hi. split; [exact (E6 i Hi)|]. destruct (bin_index_correct B2 (IN i Hi)) as [k [_ Q]]. exists k. split; [exact Q|]. intros k' Q'. exact (in_bin_unique B2 Q Q').
  - revert E7. apply tail_points_ext. intros j i Hi. rewrite (in_cell j B2 (IN i Hi)). tauto.
Qed.
Print Assumptions C73_tail_path.
(* finding: with ntail > nt the bins overlap, "roaming average", but a star is used only in the first of the bins it lies in: the point of bin
   j+1 leaves out every star of bin j+1 that also lies in bin j *)
Theorem C73_roaming_refuted :
  forall (G : galpy) (ev : evolution) (tfinal : option R) (no nt ntail : nat) (dmax : option R) (from_centre to_path projected : bool)
    (c : cluster) (u : usys) (o : osys),
    lawful ev -> ready G c u o -> SpecFrame.aligned c -> (2 <= no)%nat -> (0 < nt)%nat -> (nt < ntail)%nat -> gyr tfinal <> 0 ->
    let z := unit_size G (c_sc c) u in let zk := unit_size G (c_sc c) Ukpckms in
    exists pth lo hi mid ms p D out c' member, tail_path G ev tfinal no nt ntail dmax Fix from_centre to_path false projected None None c = Ok (out, c') /\
      own_path G ev c from_centre (gyr tfinal) no pth /\ length lo = ntail /\ length hi = ntail /\
      (forall j, (S j < ntail)%nat -> nth j lo 0 <= nth (S j) lo 0 < nth j hi 0) /\
      (forall j, (j < ntail)%nat -> nth j mid 0 = (nth j lo 0 + nth j hi 0) / 2) /\ length ms = nstars c /\
      (forall i, (i < nstars c)%nat -> star_match projected to_path zk (map fst pth) (map snd pth) D p (star_kpc G c i) (nth i ms (0, 0, None))) /\
      tail_points (nstars c) member mid (star_kpc G c) z (vel_system u /\ ~ factor_forgotten Ukpckms u) out /\
      forall j i, (S j < ntail)%nat -> (i < nstars c)%nat -> let t := fst (fst (nth i ms (0, 0, None))) in nth (S j) lo 0 <= t < nth j hi 0 -> ~ member (S j) i.
Proof.
  intros G ev tfinal no nt ntail dmax fc tp b c u o HE HR HL NO NT NL NG z zk.
  destruct (@tail_ok G ev tfinal no nt ntail dmax Fix fc tp b c u o HE HR HL NO) as [pth [OW H]].
  destruct (own_ends NO OW) as [LE GR].
  assert (MM : Rmin (- gyr tfinal) (gyr tfinal) < Rmax (- gyr tfinal) (gyr tfinal)) by (unfold Rmin, Rmax; destruct (Rle_dec (- gyr tfinal) (gyr tfinal)); lra).
  destruct (roaming_edges LE GR NT NL MM) as [bn [B1 [B2 [B3 [B4 [B5 [B6 B7]]]]]]].
  assert (BT : tail_bins Fix (map fst pth) nt ntail = Ok bn) by (unfold tail_bins; destruct (Nat.ltb_spec nt ntail); [exact B1|lia]).
  destruct (H bn BT B5 ltac:(intros E; rewrite E in B3; cbn in B3; lia) ltac:(lia)) as [ms [p [D [c3 [out [E1 [E2 [E3 [E4 [E5 [E6 E7]]]]]]]]]]].
  exists pth, (b_lo bn), (b_hi bn), (b_mid bn), ms, p, D, out. eexists. eexists. split; [exact E1|]. split; [exact OW|]. split; [exact B2|]. split; [exact B3|]. split; [exact B6|]. split; [exact B7|].
  split; [exact E5|]. split; [exact E6|]. split; [exact E7|]. intros j i Hj Hi t [T1 T2] [[_ [C2 _]] _]. fold t in C2. replace (S j - 1)%nat with j in C2 by lia. destruct C2 as [C2|C2]; [discriminate|lra].
Qed.
Print Assumptions C73_roaming_refuted.
(* finding: tail_path_match of a cluster in pc and km/s computes the tail in pc and Myr and then matches the stars to it as if it were in kpc and Gyr *)
Theorem C73_match_units_refuted :
  forall (G : galpy) (ev : evolution) (tfinal : option R) (no nt ntail : nat) (dmax : option R) (from_centre projected : bool) (c : cluster) (o : osys),
    lawful ev -> ready G c Upckms o -> SpecFrame.aligned c -> analyze true true c = c -> (2 <= no)%nat -> (0 < nt)%nat -> (ntail <= nt)%nat -> gyr tfinal <> 0 ->
    forall tail c1, tail_path G ev tfinal no nt ntail dmax Fix from_centre false false false None None c = Ok (tail, c1) -> tail <> [] ->
    exists member mid ms p D c', tail_points (nstars c) member mid (star_kpc G c) (mkSize 1 1 1 1) True tail /\
      tail_path_match G ev tfinal no nt ntail None dmax Fix from_centre false false projected None None c = Ok (ms, c') /\
      forall i, (i < nstars c)%nat -> star_match projected false (mkSize 1 1 1 1) (map fst tail) (map snd tail) D p (star_kpc G c i) (nth i ms (0, 0, None)).
Proof.
  intros G ev tfinal no nt ntail dmax fc b c o HE HR HL HA NO NT NL NG tail c1 ET NE.
  destruct (@C73_tail_path G ev tfinal no nt ntail dmax Fix fc false false c Upckms o HE HR HL HA NO NT NL NG) as [pth [lo [hi [mid [ms0 [p0 [D0 [out [c' [E1 [E2 [_ [_ [_ [_ [_ [_ [_ E3]]]]]]]]]]]]]]]]]].
  rewrite E1 in ET. assert (out = tail /\ c' = c1) as [-> ->] by (split; congruence).
  pose proof E2 as [Ph [Un [Or [De [Sc _]]]]].
  assert (R1 : ready G c1 Upckms o) by (unfold ready; rewrite Sc Un Or; exact HR).
  assert (A1 : SpecFrame.aligned c1) by (unfold SpecFrame.aligned; rewrite Ph; exact HL).
  destruct (@match_ok G tail false b c1 Upckms o R1 A1 NE ltac:(discriminate)) as [ms [p [D [F1 [_ [_ [_ [_ F6]]]]]]]].
  match type of E3 with tail_points _ ?m _ _ _ _ _ => exists m end. exists mid, ms, p, D. eexists. split; [|split].
  - destruct E3 as [js [J1 [J2 [J3 J4]]]]. exists js. split; [exact J1|]. split; [exact J2|]. split; [exact J3|]. intros k Hk. destruct (J4 k Hk) as [sel [rest [K1 [K2 [K3 [K4 [K5 K6]]]]]]].
    exists sel, rest. split; [exact K1|]. split; [exact K2|]. split; [exact K3|]. split; [exact K4|]. split; [exact K5|]. intros _. apply K6. split; [split; discriminate|]. intros [[X|X] _]; discriminate.
  - unfold tail_path_match. rewrite E1. cbn [bind fst snd]. exact F1.
  - intros i Hi. assert (N1 : nstars c1 = nstars c) by (unfold nstars; now rewrite Ph). rewrite N1 in F6. pose proof (F6 i Hi) as Q.
    assert (EV : star_kpc G c1 i = star_kpc G c i) by (unfold star_kpc, galactic_view, origin_shift; now rewrite Ph Un Or Sc). rewrite EV in Q. exact Q.
Qed.
Print Assumptions C73_match_units_refuted.

(* C74: interpolate_orbit returns where the cluster (its centre, if from_centre) is after tfinal (in the units of the cluster; 12 Gyr if None), in the units
   of the cluster, and leaves the cluster as it is *)
Theorem C74_interpolate_orbit :
  forall (G : galpy) (ev : evolution) (tfinal : option R) (nt : nat) (from_centre : bool) (c : cluster) (u : usys) (o : osys),
    lawful ev -> ready G c u o -> analyze true true c = c -> (2 <= nt)%nat -> (u = Uamuse -> tfinal <> None) ->
    let z := unit_size G (c_sc c) u in let r := ro (c_sc c) in let v := vo (c_sc c) in
    let p := in_kpc r v (ev 0 (duration G c u 12 tfinal) (natural r v (orbit_kpc G c from_centre))) in
    exists q c', interpolate_orbit G ev tfinal nt from_centre None None c = Ok (q, c') /\ restored c c' /\ place_is z q p /\
      (vel_system u -> ~ factor_forgotten Ukpckms u -> motion_is z q p).
Proof.
  intros G ev tfinal nt fc c u o HE HR HA NT HU z r v p.
  destruct (@interpolate_ok G ev tfinal nt fc c u o HE HR NT HU) as [q [c1 [E1 [E2 [E3 E4]]]]].
  exists q. eexists. split; [exact E1|]. split; [exact (bracket_sees HR E2 HA)|]. split; [exact E3|exact E4].
Qed.
Print Assumptions C74_interpolate_orbit.
(* the method puts the cluster there: its orbit is replaced and its stars keep their place and motion relative to it *)
Theorem C74_moved :
  forall (G : galpy) (ev : evolution) (tfinal : option R) (nt : nat) (from_centre : bool) (c : cluster) (u : usys) (o : osys),
    lawful ev -> ready G c u o -> SpecFrame.aligned c -> analyze true true c = c -> (2 <= nt)%nat -> (u = Uamuse -> tfinal <> None) ->
    let z := unit_size G (c_sc c) u in let r := ro (c_sc c) in let v := vo (c_sc c) in
    let p := in_kpc r v (ev 0 (duration G c u 12 tfinal) (natural r v (orbit_kpc G c from_centre))) in
    exists c', interpolate_orbit_method G ev tfinal nt from_centre None None c = Ok c' /\ ready G c' u o /\ nstars c' = nstars c /\ c_id c' = c_id c /\
      p_m (c_ph c') = p_m (c_ph c) /\ p_t (c_ph c') = p_t (c_ph c) /\ p_c (c_ph c') = p_c (c_ph c) /\
      place_is z (p_g (c_ph c')) p /\ (vel_system u -> ~ factor_forgotten Ukpckms u -> motion_is z (p_g (c_ph c')) p) /\
      forall i, (i < nstars c)%nat -> beside G c' i = beside G c i.
Proof.
  intros G ev tfinal nt fc c u o HE HR HL HA NT HU z r v p.
  destruct (@interpolate_ok G ev tfinal nt fc c u o HE HR NT HU) as [q [c1 [E1 [E2 [E3 E4]]]]].
  destruct (returned HR E2) as [S1 _]. destruct (returned_same HR E2) as [U1 O1]. pose proof (bracket_sees HR E2 HA) as RS. cbn zeta in RS. destruct RS as [Ph _].
  set (c2 := return_cluster G (save_cluster c) c1) in *.
  destruct (@move_orbit G q c c2 u o HR S1 HL U1 O1) as [R4 [G4 [N4 [I4 [M4 [T4 [C4 B4]]]]]]].
  eexists. split; [unfold interpolate_orbit_method; rewrite E1; reflexivity|]. cbn [fst snd]. split; [exact R4|]. split; [exact N4|]. split; [exact I4|].
  split; [rewrite M4 Ph; reflexivity|]. split; [rewrite T4 Ph; reflexivity|]. split; [rewrite C4 Ph; reflexivity|]. rewrite G4. split; [exact E3|]. split; [exact E4|exact B4].
Qed.
Print Assumptions C74_moved.
(* finding: with from_centre=True the orbit becomes that of the centre while the centre's offset is kept, so moving the cluster by no time at all moves
   its centre by its offset *)
Theorem C74_from_centre_refuted :
  forall (G : galpy) (ev : evolution) (nt : nat) (c : cluster) (u : usys) (o : osys),
    lawful ev -> ready G c u o -> SpecFrame.aligned c -> analyze true true c = c -> (2 <= nt)%nat ->
    exists c', interpolate_orbit_method G ev (Some 0) nt true None None c = Ok c' /\
      sx (p_g (c_ph c')) + sx (p_c (c_ph c')) = sx (p_g (c_ph c)) + 2 * sx (p_c (c_ph c)).
Proof.
  intros G ev nt c u o HE HR HL HA NT. pose proof HR as [HS [Hu _]]. pose proof HS as [N1 [N2 [N3 [N4 [N5 [N6 _]]]]]].
  destruct (@C74_moved G ev (Some 0) nt true c u o HE HR HL HA NT ltac:(discriminate)) as [c' [E1 [_ [_ [_ [_ [_ [E2 [[E3 _] _]]]]]]]]]. exists c'. split; [exact E1|]. rewrite E2.
  assert (D0 : duration G c u 12 (Some 0) = 0) by (unfold duration, Rdiv; ring). rewrite D0 in E3. destruct HE as [HE1 _]. rewrite HE1 in E3. rewrite (natural_kpc _ N5 N6) in E3.
  unfold orbit_kpc, galactic_view in E3. rewrite Hu in E3. cbn [p_g p_c plus6 view6 sx] in E3.
  destruct (unit_size_nz u HS) as [_ [_ [NZ _]]]. set (z := in_pc (unit_size G (c_sc c) u)) in *.
  assert (E4 : sx (p_g (c_ph c')) * z = (sx (p_g (c_ph c)) + sx (p_c (c_ph c))) * z) by (rewrite E3; field). apply Rmult_eq_reg_r in E4; [|exact NZ]. lra.
Qed.
Print Assumptions C74_from_centre_refuted.

(* C75: interpolate_orbits returns where each star is after tfinal, the star moving relative to the origin the cluster has (the potential being that of the
   galaxy or of the cluster accordingly), in the units of the cluster, and leaves the cluster as it is *)
Theorem C75_interpolate_orbits :
  forall (G : galpy) (ev : evolution) (tfinal : option R) (nt : nat) (c : cluster) (u : usys) (o : osys),
    lawful ev -> ready G c u o -> SpecFrame.aligned c -> analyze true true c = c -> (2 <= nt)%nat -> (u = Uamuse -> tfinal <> None) ->
    let z := unit_size G (c_sc c) u in let r := ro (c_sc c) in let v := vo (c_sc c) in
    exists s c', interpolate_orbits G ev tfinal nt None None c = Ok (s, c') /\ restored c c' /\
      length (sx s) = nstars c /\ length (sy s) = nstars c /\ length (sz s) = nstars c /\ length (svx s) = nstars c /\ length (svy s) = nstars c /\ length (svz s) = nstars c /\
      forall i, (i < nstars c)%nat -> let p := in_kpc r v (ev 0 (duration G c u 12 tfinal) (natural r v (stored_kpc G c u i))) in
        place_is z (row s i) p /\ (vel_system u -> ~ factor_forgotten Ukpckms u -> motion_is z (row s i) p).
Proof.
  intros G ev tfinal nt c u o HE HR HL HA NT HU z r v.
  destruct (@interpolate_stars_ok G ev tfinal nt c u o HE HR HL NT HU) as [s [c1 [E1 [E2 E3]]]].
  exists s. eexists. split; [exact E1|]. split; [exact (bracket_sees HR E2 HA)|]. exact E3.
Qed.
Print Assumptions C75_interpolate_orbits.
(* finding: the method replaces the positions but the radii, speeds and order of the stars recorded are those of the old positions *)
Theorem C75_radii_refuted :
  forall (G : galpy) (ev : evolution) (tfinal : option R) (nt : nat) (c : cluster) (u : usys) (o : osys),
    lawful ev -> ready G c u o -> SpecFrame.aligned c -> analyze true true c = c -> (2 <= nt)%nat -> (u = Uamuse -> tfinal <> None) -> o = Ocentre \/ o = Ocluster ->
    let z := unit_size G (c_sc c) u in let r := ro (c_sc c) in let v := vo (c_sc c) in
    exists c', interpolate_orbits_method G ev tfinal nt None None c = Ok c' /\ c_der c' = c_der c /\ p_g (c_ph c') = p_g (c_ph c) /\ c_origin c' = c_origin c /\
      forall i, (i < nstars c)%nat -> place_is z (row (p_s (c_ph c')) i) (in_kpc r v (ev 0 (duration G c u 12 tfinal) (natural r v (stored_kpc G c u i)))).
Proof.
  intros G ev tfinal nt c u o HE HR HL HA NT HU HO z r v.
  destruct (@C75_interpolate_orbits G ev tfinal nt c u o HE HR HL HA NT HU) as [s [c1 [E1 [[Ph [Un [Or [De _]]]] [_ [_ [_ [_ [_ [_ E3]]]]]]]]]].
  exists (set_stars c1 s (c_origin c1)). split; [|split; [exact De|split; [|split; [exact Or|]]]].
  - unfold interpolate_orbits_method. rewrite E1. cbn [bind fst snd set_stars c_origin]. rewrite Or. pose proof HR as [_ [_ [_ [Ho _]]]]. rewrite Ho. destruct HO as [-> | ->]; reflexivity.
  - cbn [set_stars c_ph p_g]. now rewrite Ph.
  - intros i Hi. cbn [set_stars c_ph p_s]. exact (proj1 (E3 i Hi)).
Qed.
Print Assumptions C75_radii_refuted.
(* finding: the legacy names orbit_interpolate and orbits_interpolate, functions and methods, never return *)
Theorem C75_legacy_refuted :
  forall (ev : evolution) (tfinal : option R) (nt : nat) (from_centre : bool) (r v : option R) (c : cluster),
    orbit_interpolate ev tfinal nt r v c = Raise /\ orbits_interpolate ev tfinal nt r v c = Raise /\
    orbit_interpolate_method ev tfinal nt from_centre r v c = Raise /\ orbits_interpolate_method ev tfinal nt r v c = Raise.
Proof. intros. now repeat split. Qed.
Print Assumptions C75_legacy_refuted.

(* ------------------------------------------------------------------ the hypotheses are met: free motion of five stars *)
Definition drift : evolution := fun t0 t p =>
  mk6 (sx p + (t - t0) * svx p) (sy p + (t - t0) * svy p) (sz p + (t - t0) * svz p) (svx p) (svy p) (svz p).
Lemma drift_lawful : lawful drift.
Proof. split; intros; unfold drift; [destruct p|]; cbn; f_equal; ring. Qed.
Example C72_hypotheses_met : forall o, flat o -> let c := ride o (mk6 8000 0 100 3 4 0) in
  lawful drift /\ ready demo_galpy c Upckms o /\ SpecFrame.aligned c /\ analyze true true c = c /\ (2 <= 5)%nat /\ (0 < 4)%nat /\ (3 <= 4)%nat /\ (4 < 6)%nat /\ gyr (Some 1) <> 0 /\
  nstars c = 5%nat /\ orbit_kpc demo_galpy c false = mk6 8 0 (1 / 10) 3 4 0.
Proof.
  intros o F c. split; [exact drift_lawful|]. split; [now apply ride_ready|]. split; [apply ride_aligned|]. split; [apply ride_settled|]. repeat (split; [lia|]). split; [cbn; lra|].
  split; [apply ride_n|]. unfold orbit_kpc, galactic_view, c. destruct (ride_ready o (mk6 8000 0 100 3 4 0) F) as [_ [U _]]. rewrite U ride_ph ride_sc. unfold unit_size. cbn. f_equal; lra.
Qed.
