(* C42, C43, C52, C67: tidal radius, rotation, N-body scales, relaxation times. *)
From Coq Require Import Sorted.
From Verif Require Import Base ModelCluster ModelOps ModelConv ModelEnergy ModelRecipes ModelCoords ModelStars ModelSubset ModelLagrange ModelProfiles ModelDynamics.
From Verif Require Import SpecUnits SpecFrame SpecConv SpecOrder SpecRecipes SpecEnergy SpecStars SpecSubset SpecLagrange SpecProfiles SpecDynamics.
From Verif Require Import ProofsUnits ProofsFrame ProofsStars ProofsLagrange ProofsProfiles ProofsDynamics ProofsDynamics3 ProofsDynamics4 ProofsDynamics5 ProofsDynamics6 PropUnits PropEnergy PropProfiles.

(* C42: rtidal.  t is the sequence of radii tried, in pc: the tidal radius of the selected stars, then each time the tidal
   radius of the selected stars inside the last one; it decreases by more than the factor converge at each step.  The radius returned is
   the last one tried; unless the limit n on the iterations was reached, it agrees to the factor converge with the tidal
   radius of the stars inside it.  No mass inside, or no tide, gives 0.  Everything is in pc and Msun, whatever the units and
   origin the cluster is stored in; the cluster is as before. *)
Theorem C42_tidal_radius :
  forall (G : galpy) (rtide : R -> R -> R -> R) (converge : R) (indx : option (list bool)) (rgc zgc : option R) (from_centre : bool)
    (c : cluster) (u : usys) (o : osys) (n : nat),
    ready G c u o -> positive_scales G (c_sc c) -> SpecFrame.aligned c -> analyze true true c = c -> nonneg (p_m (c_ph c)) ->
    SpecSubset.mask_fits indx (nstars c) -> tidal_law rtide ->
    exists rt c' caller (k : nat) (t : nat -> R),
    rtidal G rtide n converge indx rgc zgc from_centre c = (rt, c', caller) /\ restored c c' /\
    let tide := tide_pc G rtide (c_sc c) (place_kpc G c rgc zgc from_centre) in
    let radius := rt * in_pc (sizes G c) in
    (k <= n)%nat /\ t 0%nat = tide (selected_mass G c indx) /\
    (forall j, (j < k)%nat -> t (S j) = tide (mass_closer G c indx (t j)) /\ 0 < t (S j) < converge * t j /\ t (S j) <= t j) /\
    (radius = t k /\ (k = n \/ 0 < tide (mass_closer G c indx (t k)) <= t k /\ converge * t k <= tide (mass_closer G c indx (t k))) \/
     radius = 0 /\ (k < n)%nat /\ tide (mass_closer G c indx (t k)) = 0).
Proof.
  intros G rtide converge indx rgc zgc fc c u o n HR HP HL HA HM HI HT.
  destruct (@rtidal_iterates G rtide converge indx rgc zgc fc c u o HR HP HL HA HM HI HT n) as [rt [c' [caller [k [t [E [Rs [K1 [K2 [K3 [K4 _]]]]]]]]]]].
  exists rt, c', caller, k, t. split; [exact E|]. split; [exact Rs|]. cbn zeta. split; [exact K1|]. split; [exact K2|]. split; [exact K3|exact K4].
Qed.
Print Assumptions C42_tidal_radius.

(* finding: the mask the caller passed is overwritten; the stars outside the first tidal radius are gone from it *)
Theorem C42_mask_overwritten_refuted :
  forall (G : galpy) (rtide : R -> R -> R -> R) (converge : R) (l : list bool) (rgc zgc : option R) (from_centre : bool)
    (c : cluster) (u : usys) (o : osys) (n i : nat),
    ready G c u o -> positive_scales G (c_sc c) -> SpecFrame.aligned c -> analyze true true c = c -> nonneg (p_m (c_ph c)) ->
    length l = nstars c -> tidal_law rtide -> (0 < n)%nat -> (i < nstars c)%nat -> nth i l false = true ->
    tide_pc G rtide (c_sc c) (place_kpc G c rgc zgc from_centre) (selected_mass G c (Some l)) <= pc_distance G false c i ->
    exists rt c' l', rtidal G rtide n converge (Some l) rgc zgc from_centre c = (rt, c', Some l') /\ nth i l' false = false.
Proof.
  intros G rtide converge l rgc zgc fc c u o n i HR HP HL HA HM HI HT Hn Hi Hl Far.
  destruct (@rtidal_iterates G rtide converge (Some l) rgc zgc fc c u o HR HP HL HA HM HI HT n) as [rt [c' [caller [k [t [E [Rs [K1 [K2 [K3 [_ K5]]]]]]]]]]].
  destruct (K5 l eq_refl) as [l' [-> [_ M]]]. exists rt, c', l'. split; [exact E|]. rewrite M //.
  destruct (Nat.eqb_spec n 0) as [X|X]; [lia|]. rewrite Hl. cbn [andb].
  assert (Mono : forall j, (j <= k)%nat -> t j <= t 0%nat).
  { induction j as [|j IH]; intros Hj; [lra|]. destruct (K3 j ltac:(lia)) as [_ [_ S]]. pose proof (IH ltac:(lia)). lra. }
  apply Rltb_false. pose proof (Mono (Nat.min k (n - 1)) ltac:(lia)). rewrite K2 in H. lra.
Qed.
Print Assumptions C42_mask_overwritten_refuted.

(* C43: add_rotation, for a cluster stored relative to itself.  Star by star, d its random number: if d >= q it is left
   alone, otherwise it turns forward afterwards, either unchanged or reflected in the plane through it and the axis; nothing
   else about the cluster changes, and the distances, speeds, orders and radii stored remain right. *)
Theorem C43_rotation :
  forall (G : galpy) (qrot : R) (draws : list R) (c : cluster) (u : usys) (o : osys),
    ready G c u o -> o <> Ogalaxy -> SpecFrame.aligned c -> analyze true true c = c -> length draws = nstars c ->
    let c' := add_rotation_method G qrot draws c in
    (forall i, (i < nstars c)%nat -> rotated qrot (nth i draws 0) (star_row c i) (star_row c' i)) /\
    SpecFrame.aligned c' /\ p_m (c_ph c') = p_m (c_ph c) /\ p_g (c_ph c') = p_g (c_ph c) /\ p_c (c_ph c') = p_c (c_ph c) /\
    p_t (c_ph c') = p_t (c_ph c) /\ c_units c' = c_units c /\ c_origin c' = c_origin c /\ c_id c' = c_id c /\ c_sc c' = c_sc c /\
    c_der c' = c_der c /\ analyze true true c' = c'.
Proof. exact rotation_ok. Qed.
Print Assumptions C43_rotation.
(* C43: in particular places and speeds stay, with q >= 1 no star turns backward, with q <= 0 nothing changes (draws are in
   [0, 1)) *)
Theorem C43_rotation_limits :
  forall (G : galpy) (qrot : R) (draws : list R) (c : cluster) (u : usys) (o : osys),
    ready G c u o -> o <> Ogalaxy -> SpecFrame.aligned c -> analyze true true c = c -> length draws = nstars c ->
    (forall d, In d draws -> 0 <= d < 1) ->
    let c' := add_rotation_method G qrot draws c in forall i, (i < nstars c)%nat ->
      same_place (star_row c i) (star_row c' i) /\
      (forall projected, speed6 projected (star_row c' i) = speed6 projected (star_row c i)) /\
      (1 <= qrot -> 0 <= spin (star_row c' i)) /\ (qrot <= 0 -> star_row c' i = star_row c i).
Proof.
  intros G qrot draws c u o HR No HL HA HD HB c' i Hi. destruct (rotation_ok qrot HR No HL HA HD) as [Rot _]. specialize (Rot i Hi). fold c' in Rot.
  destruct (rotated_place Rot) as [P1 [P2 [P3 P4]]]. assert (B : 0 <= nth i draws 0 < 1) by (apply HB, nth_In; lia).
  split; [exact P1|]. split; [|split].
  - intros p. unfold speed6. destruct p; [now rewrite P3|]. now rewrite P3 P2.
  - intros Hq. destruct Rot as [_ Rot]. destruct (Rot ltac:(lra)) as [-> _]. apply Rabs_pos.
  - intros Hq. destruct Rot as [Rot _]. apply Rot. lra.
Qed.
Print Assumptions C43_rotation_limits.
(* finding: for a cluster stored in the galactic frame, every star is moved by the position of the centre *)
Theorem C43_galactic_frame_refuted :
  forall (G : galpy) (qrot : R) (draws : list R) (c : cluster) (u : usys),
    ready G c u Ogalaxy -> SpecFrame.aligned c -> analyze true true c = c -> length draws = nstars c ->
    let c' := add_rotation_method G qrot draws c in c_origin c' = Some Ogalaxy /\
    forall i, (i < nstars c)%nat ->
      sx (star_row c' i) = sx (star_row c i) - (sx (p_g (c_ph c)) + sx (p_c (c_ph c))) /\
      sy (star_row c' i) = sy (star_row c i) - (sy (p_g (c_ph c)) + sy (p_c (c_ph c))) /\
      sz (star_row c' i) = sz (star_row c i) - (sz (p_g (c_ph c)) + sz (p_c (c_ph c))).
Proof.
  intros G qrot draws c u HR HL HA HD c'. destruct (rotation_galaxy qrot HR HL HA HD) as [O Rot]. fold c' in O, Rot. split; [exact O|].
  intros i Hi. destruct (rotated_place (Rot i Hi)) as [[P1 [P2 P3]] _]. destruct HR as [_ [_ [_ [Ho _]]]].
  unfold own_star in P1, P2, P3. rewrite Ho in P1, P2, P3. now repeat split.
Qed.
Print Assumptions C43_galactic_frame_refuted.

(* C52: reset_nbody_scale with the virial radius.  The mass scale is the total mass, the length scale the virial radius of
   the stars, G = 1 in these scales, and the cluster is as before; after the method, converting to N-body units gives total
   mass one and virial radius one. *)
Theorem C52_nbody_scales :
  forall (G : galpy) (projected full : bool) (c : cluster) (u : usys) (o : osys) (ps : list (nat * nat)),
    ready G c u o -> positive_scales G (c_sc c) -> SpecFrame.aligned c -> analyze true true c = c -> pair_set (nstars c) ps ->
    (2 <= nstars c)%nat -> (forall m, In m (p_m (c_ph c)) -> 0 < m) -> separated (bodies_seen projected c) ->
    (exists z r v t c', reset_nbody_scale G true true true projected false c = Ok ((z, r, v, t), c') /\ restored c c' /\
       z = total_mass G c /\ r = virial_pc (sun_bodies G projected c) ps /\ nbody_scales z r v t) /\
    (u <> Unbody -> exists c', reset_nbody_scale_method G true true true projected false c = Ok c' /\
       c_ph c' = c_ph c /\ c_units c' = c_units c /\ c_origin c' = c_origin c /\ c_der c' = c_der c /\
       zmbar (c_sc c') = total_mass G c /\ rbar (c_sc c') = virial_pc (sun_bodies G projected c) ps /\
       nbody_scales (zmbar (c_sc c')) (rbar (c_sc c')) (vbar (c_sc c')) (tbar (c_sc c')) /\
       ro (c_sc c') = ro (c_sc c) /\ vo (c_sc c') = vo (c_sc c) /\
       let d := to_units G (Ureq Unbody) c' in c_units d = Some Unbody /\ sumR (p_m (c_ph d)) = 1 /\
         fst (virial_radius G projected full d) = 1).
Proof.
  intros G p full c u o ps HR HP HL HA HPS H2 HM HSep.
  destruct (nbody_scale HR HP HL HA HPS H2 HM HSep) as [z [r [v [t [c' [E [Rs [Ez [Er NS]]]]]]]]].
  split; [exists z, r, v, t, c'; split; [exact E|]; split; [exact Rs|]; split; [exact Ez|]; split; [exact Er|exact NS]|].
  intros Nu. unfold reset_nbody_scale_method. rewrite E. eexists. split; [reflexivity|].
  destruct Rs as [E1 [E2 [E3 [E4 E5]]]]. split; [exact E1|]. split; [exact E2|]. split; [exact E3|]. split; [exact E4|].
  split; [exact Ez|]. split; [exact Er|]. split; [exact NS|]. split; [cbn; now rewrite (proj1 E5)|]. split; [cbn; now rewrite (proj1 E5)|]. cbn zeta.
  assert (Rs : restored c c') by (unfold restored; tauto).
  destruct (unit_mass false HR HP Nu Rs Ez NS) as [M1 M2]. split; [exact M2|]. split; [exact M1|].
  exact (@unit_virial G p full c u o z r v t c' ps HR HP Nu HL HA HPS HM Rs Er NS).
Qed.
Print Assumptions C52_nbody_scales.
(* C52: without the virial radius the length scale is four thirds of the half-mass radius *)
Theorem C52_nbody_scales_half_mass :
  forall (G : galpy) (projected : bool) (c : cluster) (u : usys) (o : osys),
    ready G c u o -> positive_scales G (c_sc c) -> SpecFrame.aligned c -> well_sorted false c -> nonneg (p_m (c_ph c)) ->
    0 < sumR (p_m (c_ph c)) ->
    exists h, is_fraction_radius (1/2) (map (pc_distance G false c) (stars c)) (map (sun_mass G c) (stars c)) h /\
    exists v t c', reset_nbody_scale G true true false projected false c = Ok ((total_mass G c, 4 / 3 * h, v, t), c') /\ restored c c' /\
      (0 < h -> nbody_scales (total_mass G c) (4 / 3 * h) v t).
Proof. exact nbody_scale_half. Qed.
Print Assumptions C52_nbody_scales_half_mass.
(* finding: a cluster stored in N-body units keeps its numbers while the scales change, so its mass in Msun is multiplied
   by the sum of those numbers *)
Theorem C52_stored_in_nbody_units_refuted :
  forall (G : galpy) (projected : bool) (c : cluster) (o : osys) (ps : list (nat * nat)),
    ready G c Unbody o -> positive_scales G (c_sc c) -> SpecFrame.aligned c -> analyze true true c = c -> pair_set (nstars c) ps ->
    (2 <= nstars c)%nat -> (forall m, In m (p_m (c_ph c)) -> 0 < m) -> separated (bodies_seen projected c) ->
    exists c', reset_nbody_scale_method G true true true projected false c = Ok c' /\
      total_mass G c' = sumR (p_m (c_ph c)) * total_mass G c.
Proof.
  intros G p c o ps HR HP HL HA HPS H2 HM HSep.
  destruct (nbody_scale HR HP HL HA HPS H2 HM HSep) as [z [r [v [t [c' [E [Rs [Ez [Er NS]]]]]]]]].
  unfold reset_nbody_scale_method. rewrite E. eexists. split; [reflexivity|]. exact (rescaled_mass r v t HR Rs Ez).
Qed.
Print Assumptions C52_stored_in_nbody_units_refuted.
(* finding: the keywords documented for the virial radius cannot be used *)
Theorem C52_virial_keywords_refuted :
  forall (G : galpy) (projected : bool) (c : cluster), reset_nbody_scale G true true true projected true c = Raise.
Proof. exact nbody_scale_repeated. Qed.
Print Assumptions C52_virial_keywords_refuted.

(* C67: half_mass_relaxation_time is Spitzer's, of the half-mass radius in pc, in the units of time of the cluster *)
Theorem C67_half_mass_relaxation_time :
  forall (G : galpy) (coulomb : R) (projected : bool) (c : cluster) (u : usys) (o : osys),
    ready G c u o -> positive_scales G (c_sc c) -> SpecFrame.aligned c -> well_sorted projected c ->
    (projected = true -> c_origin c <> Some Ogalaxy) -> nonneg (p_m (c_ph c)) -> 0 < sumR (p_m (c_ph c)) ->
    ln (coulomb * INR (nstars c)) <> 0 ->
    exists h t c', half_mass_relaxation_time G coulomb projected c = Ok (Some t, c') /\ restored c c' /\
      is_fraction_radius (1/2) (map (pc_distance G projected c) (stars c)) (map (sun_mass G c) (stars c)) h /\
      t * in_Myr (sizes G c) = spitzer_half_mass coulomb (INR (nstars c)) (total_mass G c) h.
Proof. exact half_mass_relaxation. Qed.
Print Assumptions C67_half_mass_relaxation_time.
(* C67: relaxation_time at the half-mass radius h: of the density and mean mass of the stars within h, and of the mean square speed *)
Theorem C67_relaxation_time :
  forall (G : galpy) (coulomb : R) (projected : bool) (c : cluster) (u : usys) (o : osys),
    ready G c u o -> positive_scales G (c_sc c) -> SpecFrame.aligned c -> well_sorted projected c ->
    (projected = true -> c_origin c <> Some Ogalaxy) -> nonneg (p_m (c_ph c)) -> 0 < sumR (p_m (c_ph c)) ->
    ln (coulomb * INR (nstars c)) <> 0 ->
    exists h, is_fraction_radius (1/2) (map (pc_distance G projected c) (stars c)) (map (sun_mass G c) (stars c)) h /\
    exists t c', relaxation_time G None coulomb projected c = Ok (t, c') /\ restored c c' /\
    (0 < h -> exists x, t = Some x /\
      let l := filter (fun i => Rleb (pc_distance G projected c i) h) (stars c) in
      x * in_Myr (sizes G c) = spitzer_local coulomb (INR (nstars c)) (average (map (sun_mass G c) l))
        (INR (length l) / (4 / 3 * PI * h ^ 3)) (average (map (fun i => kms_speed G projected c i ^ 2) (stars c)))).
Proof. exact local_relaxation. Qed.
Print Assumptions C67_relaxation_time.
(* finding: asking for another radius always fails *)
Theorem C67_given_radius_refuted :
  forall (G : galpy) (rad coulomb : R) (projected : bool) (c : cluster), relaxation_time G (Some rad) coulomb projected c = Raise.
Proof. reflexivity. Qed.
Print Assumptions C67_given_radius_refuted.

(* ---- the hypotheses are met: five stars in pc and km/s, relative to the cluster or 100 pc away in the galaxy *)
Definition five (o : osys) (k : R) : cluster := g_c (y_k (prof_system o k)).
Lemma five_ph o k : c_ph (five o k) = c_ph (prof_raw o k).
Proof. destruct (analyze_ph true true (prof_raw o k)) as [Q1 _]. exact Q1. Qed.
Lemma five_ready o k : flat o -> ready demo_galpy (five o k) Upckms o.
Proof.
  intros F. unfold five, prof_system. cbn [y_k g_c]. apply ProofsEnergy2.analyzed_ready. unfold ready, good_scales. cbn [c_sc c_units c_origin prof_raw].
  split; [cbn; repeat split; lra|]. split; [reflexivity|]. split; [discriminate|]. split; [reflexivity|exact F].
Qed.
Lemma five_aligned o k : SpecFrame.aligned (five o k).
Proof. unfold SpecFrame.aligned. rewrite five_ph. cbn. now repeat split. Qed.
Lemma five_n o k : nstars (five o k) = 5%nat. Proof. unfold nstars. now rewrite five_ph. Qed.
Lemma five_separated o k p : separated (bodies_seen p (five o k)).
Proof.
  unfold separated, bodies_seen, bodies, body, dist2. rewrite five_ph. cbn [prof_raw c_ph p_m p_s length]. intros i j Hi Hj N.
  rewrite map_length map_length seq_length in Hi, Hj. cbn [seq map].
  do 5 (destruct i as [|i]; [do 5 (destruct j as [|j]; [try (exfalso; now apply N); destruct p; cbn; lra|]); lia|]). lia.
Qed.
Definition demo_tide (a z M : R) : R := Rmax 0 M.
Lemma pairs5 : pair_set 5 [(0,1);(0,2);(0,3);(0,4);(1,2);(1,3);(1,4);(2,3);(2,4);(3,4)]%nat.
Proof.
  split.
  - repeat constructor; cbn; intuition congruence.
  - intros i j. cbn. split.
    + intuition (match goal with H : (_, _) = (_, _) |- _ => injection H as <- <- end; lia).
    + intros H. do 5 (destruct i as [|i]; [do 5 (destruct j as [|j]; [try lia; tauto|]); lia|]). lia.
Qed.
Example C42_hypotheses_met : forall o, o = Ocluster \/ o = Ogalaxy -> let c := five o (if oosys_eqb (Some o) (Some Ogalaxy) then 100 else 0) in
  ready demo_galpy c Upckms o /\ positive_scales demo_galpy (c_sc c) /\ SpecFrame.aligned c /\ analyze true true c = c /\
  nonneg (p_m (c_ph c)) /\ SpecSubset.mask_fits (Some [true; true; false; true; true]) (nstars c) /\ tidal_law demo_tide /\
  0 < sumR (p_m (c_ph c)) /\ well_sorted false c /\ ln (INR (nstars c)) <> 0 /\ nstars c = 5%nat /\
  (forall m, In m (p_m (c_ph c)) -> 0 < m) /\ separated (bodies_seen false c) /\
  pair_set (nstars c) [(0,1);(0,2);(0,3);(0,4);(1,2);(1,3);(1,4);(2,3);(2,4);(3,4)]%nat.
Proof.
  intros o Ho k. destruct (prof_weighed o (if oosys_eqb (Some o) (Some Ogalaxy) then 100 else 0)) as [W1 [W2 [W3 W4]]].
  unfold k. set (x := if oosys_eqb (Some o) (Some Ogalaxy) then 100 else 0) in *.
  split; [apply five_ready; destruct Ho as [-> | ->]; discriminate|]. split; [exact W1|]. split; [apply five_aligned|].
  split; [destruct W2 as [W2 _]; exact W2|]. split; [exact W3|]. split; [unfold SpecSubset.mask_fits; now rewrite five_n|].
  split; [|split; [exact W4|split; [exact W2|split; [|split; [apply five_n|split; [|split; [apply five_separated|rewrite five_n; exact pairs5]]]]]]].
  - intros a z. unfold demo_tide. split; [apply Rmax_left; lra|]. intros M M' H. apply Rle_max_compat_l. lra.
  - rewrite five_n. assert (H : 0 < ln (INR 5)); [|lra]. rewrite -ln_1. apply ln_increasing; cbn; lra.
  - intros m. rewrite five_ph. cbn. intuition lra.
Qed.
Example C43_hypotheses_met : let c := five Ocluster 0 in
  ready demo_galpy c Upckms Ocluster /\ SpecFrame.aligned c /\ analyze true true c = c /\ length [1/10; 2/10; 3/10; 4/10; 5/10] = nstars c /\
  (exists i, (i < nstars c)%nat /\ spin (star_row c i) < 0) /\ (exists i, (i < nstars c)%nat /\ 0 < spin (star_row c i)).
Proof.
  destruct (C42_hypotheses_met Ocluster (or_introl eq_refl)) as [A1 [A2 [A3 [A4 _]]]]. cbn zeta in *. cbn [oosys_eqb] in *.
  split; [exact A1|]. split; [exact A3|]. split; [exact A4|]. split; [now rewrite five_n|].
  split; [exists 2%nat|exists 3%nat]; (split; [rewrite five_n; lia|]); unfold spin, star_row; rewrite five_ph; cbn; lra.
Qed.
Print Assumptions C42_hypotheses_met.
