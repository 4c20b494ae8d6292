(* C34-C36, C38, C06: potentials, energies, virial ratio, virial radius. *)
From Verif Require Import Base ModelCluster ModelOps ModelConv ModelEnergy SpecUnits SpecFrame SpecConv SpecEnergy
  ProofsUnits ProofsFrame ProofsPot ProofsPar ProofsSees ProofsEnergy ProofsVirial ProofsEnergyUnits ProofsVR ProofsEnergy2 PropUnits PropFrame.

(* C34/C36: energies() on an analysed cluster without coincident stars returns, star by star, the kinetic energy of the
   velocity relative to the cluster and the Newtonian potential (softened) in the field of all other stars, and leaves
   the cluster as it was. *)
Theorem C34_energies_are_newtonian :
  forall (G : galpy) (specific projected : bool) (soft : R) (c : cluster) (u : usys) (o : osys),
    ready G c u o -> aligned c -> analyze true true c = c -> separated (bodies_seen projected c) ->
    let '((kin, pot), c') := energies G specific projected true soft c in
    length kin = nstars c /\ length pot = nstars c /\
    (forall k, (k < nstars c)%nat ->
       nth k kin 0 = (if specific then 1 else mass c k) * rel_speed2 projected c k / 2 /\
       nth k pot None = Some (get_grav c * newton_potential soft (bodies_seen projected c) k
                              / (if specific then mass c k else 1))) /\
    restored c c'.
Proof. exact energies_spec. Qed.
Print Assumptions C34_energies_are_newtonian.

(* C34: the sum of the potentials is twice the potential energy summed over pairs. *)
Theorem C34_total_is_twice_pairs :
  forall (G : galpy) (projected : bool) (soft : R) (c : cluster) (u : usys) (o : osys) (ps : list (nat * nat)),
    ready G c u o -> aligned c -> analyze true true c = c -> separated (bodies_seen projected c) ->
    pair_set (nstars c) ps ->
    let '((_, pot), _) := energies G false projected true soft c in
    sumR (map nan_to_num pot) = 2 * (get_grav c * sumR (map (fun '(i, j) =>
      pair_energy soft (nth i (bodies_seen projected c) star0) (nth j (bodies_seen projected c) star0)) ps)).
Proof.
  move=> G p soft c u o ps R HA HN HS HP. pose proof (@energies_spec G false p soft c u o R HA HN HS) as E.
  destruct (energies G false p true soft c) as [[kin pot] c']. destruct E as [_ [L [V _]]].
  rewrite -(potential_sum_pairs soft HS HP) /potential_sum. f_equal.
  rewrite (list_seq_nth (d := None) (f := fun k => Some (get_grav c * newton_potential soft (bodies_seen p c) k / 1)) L); last by rewrite map_map.
  move=> k Hk. by have [_ ->] := V _ Hk.
Qed.
Print Assumptions C34_total_is_twice_pairs.

(* C34: a change of origin does not change any potential. *)
Theorem C34_potential_origin_independent :
  forall (G : galpy) (sort specific projected : bool) (soft : R) (c : cluster) (u : usys) (o o' : osys),
    ready G c u o -> flat o' -> aligned c -> analyze true true c = c -> separated (bodies_seen projected c) ->
    snd (fst (energies G specific projected true soft (analyze true true (to_origin G (Oreq o') sort c)))) =
    snd (fst (energies G specific projected true soft c)).
Proof. exact pot_origin_independent. Qed.
Print Assumptions C34_potential_origin_independent.

(* C34: energies(ids=mask) returns the values of the full computation for the selected stars. *)
Theorem C34_subset_agrees :
  forall (G : galpy) (specific : bool) (soft : R) (ids : list bool) (c : cluster) (u : usys) (o : osys),
    ready G c u o -> aligned c -> analyze true true c = c -> separated (bodies c) ->
    length ids = nstars c -> Forall (fun m => m <> 0) (p_m (c_ph c)) ->
    let '((kin, pot), c') := energies_ids G specific soft ids c in
    let '((kin_all, pot_all), _) := energies G specific false true soft c in
    kin = select ids kin_all /\ map Some pot = select ids pot_all /\ restored c c'.
Proof. exact energies_ids_spec. Qed.
Print Assumptions C34_subset_agrees.

(* C34: without softening, full=False gives the same potentials as full=True. *)
Theorem C34_loop_agrees_without_softening :
  forall (G : galpy) (specific projected : bool) (c : cluster) (u : usys) (o : osys),
    ready G c u o -> aligned c -> analyze true true c = c -> separated (bodies_seen projected c) ->
    (forall k, (k < nstars c)%nat -> mass c k <> 0) ->
    snd (fst (energies G specific projected false 0 c)) = snd (fst (energies G specific projected true 0 c)).
Proof.
  move=> G spec p c u o R HA HN HS Hm.
  pose proof (@energies_spec G spec p 0 c u o R HA HN HS) as E.
  pose proof (@energies_loop_spec G spec p 0 c u o R HA HN HS (fun _ => Hm)) as E'.
  destruct (energies G spec p true 0 c) as [[kin pot] c']. destruct (energies G spec p false 0 c) as [[kin2 pot2] c2].
  destruct E as [_ [L [V _]]]. destruct E' as [L' [V' _]]. cbn [fst snd]. apply (nth_ext _ _ None None); [by rewrite L L'|].
  rewrite L' => k Hk. rewrite V' //. have [_ ->] := V _ Hk. have -> : Reqb 0 0 = true by apply Reqb_spec. by rewrite Rplus_0_r.
Qed.
Print Assumptions C34_loop_agrees_without_softening.

(* C34 finding: with softening, full=False adds to every star the energy of the star in its own field, -G m^2/|soft|,
   so it never agrees with full=True. *)
Theorem C34_loop_softening_self_energy_refuted :
  forall (G : galpy) (specific projected : bool) (soft : R) (c : cluster) (u : usys) (o : osys),
    ready G c u o -> aligned c -> analyze true true c = c -> separated (bodies_seen projected c) ->
    (forall k, (k < nstars c)%nat -> mass c k <> 0) -> soft <> 0 ->
    forall k, (k < nstars c)%nat ->
      exists full loop, nth k (snd (fst (energies G specific projected true soft c))) None = Some full /\
        nth k (snd (fst (energies G specific projected false soft c))) None = Some loop /\
        loop = full - get_grav c * (mass c k * mass c k) / Rabs soft / (if specific then mass c k else 1) /\ loop <> full.
Proof.
  move=> G spec p soft c u o R HA HN HS Hm Hs k Hk.
  pose proof (@energies_spec G spec p soft c u o R HA HN HS) as E.
  pose proof (@energies_loop_spec G spec p soft c u o R HA HN HS (fun _ => Hm)) as E'.
  destruct (energies G spec p true soft c) as [[kin pot] c']. destruct (energies G spec p false soft c) as [[kin2 pot2] c2].
  destruct E as [_ [L [V _]]]. destruct E' as [L' [V' _]]. cbn [fst snd]. have [_ E1] := V _ Hk. have E2 := V' _ Hk.
  eexists; eexists. split; [exact E1|]. split; [exact E2|].
  have -> : Reqb soft 0 = false by apply Reqb_false. have A : Rabs soft <> 0 by apply Rabs_no_R0.
  have M := Hm _ Hk. have GP := grav_pos c. have D : (if spec then mass c k else 1) <> 0 by destruct spec => //; lra.
  split; [by field|]. move=> H.
  have : get_grav c * (mass c k * mass c k) / Rabs soft / (if spec then mass c k else 1) = 0.
  { transitivity (get_grav c * newton_potential soft (bodies_seen p c) k / (if spec then mass c k else 1) - get_grav c * (newton_potential soft (bodies_seen p c) k + - (mass c k * mass c k) / Rabs soft) / (if spec then mass c k else 1)); [by field|]. rewrite H. ring. }
  apply Rmult_integral_contrapositive_currified; [|by apply Rinv_neq_0_compat].
  apply Rmult_integral_contrapositive_currified; [|by apply Rinv_neq_0_compat].
  apply Rmult_integral_contrapositive_currified; [lra|]. by apply Rmult_integral_contrapositive_currified.
Qed.
Print Assumptions C34_loop_softening_self_energy_refuted.

(* C34: two stars at the same place get the potential nan in the full computation. *)
Theorem C34_coincident_stars_nan :
  forall (G : galpy) (specific projected : bool) (soft : R) (c : cluster) (u : usys) (o : osys) (k j : nat),
    ready G c u o -> aligned c -> analyze true true c = c ->
    (k < nstars c)%nat -> (j < nstars c)%nat -> k <> j ->
    dist2 (nth k (bodies_seen projected c) star0) (nth j (bodies_seen projected c) star0) = 0 ->
    nth k (snd (fst (energies G specific projected true soft c))) None = None.
Proof. exact pot_nan. Qed.
Print Assumptions C34_coincident_stars_nan.

(* C35: the parallel computation for a subset of stars gives the serial result under every schedule. *)
Theorem C35_subset_parallel_any_schedule :
  forall (soft : R) (sub full : list star4) (schedule : list nat),
    let s := execute schedule (parallel_subset_start soft sub full) in
    finished s -> s_pot s = map Some (potential_energy_subset soft sub full).
Proof. exact subset_parallel. Qed.
Print Assumptions C35_subset_parallel_any_schedule.

(* C35: if each pot[k] += t were atomic, every schedule of the full parallel computation would give the serial result. *)
Theorem C35_parallel_correct_if_updates_atomic :
  forall (soft : R) (l : list star4) (ws : list nat),
    let s := execute (flat_map (fun w => [w; w]) ws) (parallel_start soft l) in
    finished s -> s_pot s = potential_energy soft l.
Proof. exact parallel_atomic. Qed.
Print Assumptions C35_parallel_correct_if_updates_atomic.

(* C35 finding: the updates are not atomic: for any three distinct stars there is a complete schedule of the parallel
   computation that loses an update. *)
Theorem C35_parallel_race_refuted :
  forall (soft : R) (a b c : star4), 0 < fm b -> 0 < fm c -> separated [a; b; c] ->
    exists schedule, let s := execute schedule (parallel_start soft [a; b; c]) in
      finished s /\ s_pot s <> potential_energy soft [a; b; c].
Proof. move=> soft a b c Hb Hc HS. exists race_schedule. exact: parallel_race. Qed.
Print Assumptions C35_parallel_race_refuted.

(* C36: after cluster.energies(): per-star total energy is kinetic plus potential, ektot is the sum of the kinetic
   energies, ptot half the sum of the potentials, qvir their ratio; the cluster is as before. *)
Theorem C36_energy_attributes :
  forall (G : galpy) (specific projected : bool) (soft : R) (c : cluster) (u : usys) (o : osys),
    ready G c u o -> aligned c -> analyze true true c = c -> separated (bodies_seen projected c) ->
    let '(e, c') := energies_method G specific projected true soft c in
    let '(kp, _) := energies G specific projected true soft c in
    restored c c' /\ e_kin e = fst kp /\ e_pot e = snd kp /\
    length (e_etot e) = nstars c /\
    (forall k, (k < nstars c)%nat -> nth k (e_etot e) None = nadd (Some (nth k (e_kin e) 0)) (nth k (e_pot e) None)) /\
    e_ektot e = kinetic_sum specific projected c /\ e_ptot e = potential_sum specific projected soft c / 2 /\
    e_qvir e = virial_ratio specific projected soft c.
Proof. exact energies_method_spec. Qed.
Print Assumptions C36_energy_attributes.

(* C36: kinetic energies are never negative, potential energies and the virial ratio never positive. *)
Theorem C36_signs :
  forall (specific projected : bool) (soft : R) (c : cluster),
    (forall k, (k < nstars c)%nat -> 0 < mass c k) ->
    (forall k, 0 <= rel_speed2 projected c k) /\ 0 <= kinetic_sum specific projected c /\
    potential_sum specific projected soft c <= 0 /\ virial_ratio specific projected soft c <= 0.
Proof.
  move=> spec p soft c H. split; [exact: rel_speed2_nonneg|]. split; [exact: kinetic_nonneg|].
  split; [exact: potential_nonpos|exact: virial_ratio_nonpos].
Qed.
Print Assumptions C36_signs.

(* C36: virialize(Q) on a cluster whose energies were not computed before: masses, positions and orbit are unchanged,
   velocities relative to the cluster are multiplied by one factor, and the virial ratio becomes -|Q|. *)
Theorem C36_virialize :
  forall (G : galpy) (Q soft : R) (projected : bool) (c : cluster) (u : usys) (o : osys),
    ready G c u o -> aligned c -> analyze true true c = c -> separated (bodies_seen projected c) -> still_centre c ->
    (forall k, (k < nstars c)%nat -> 0 < mass c k) -> virial_ratio true projected soft c <> 0 ->
    let '(_, c') := virialize G Q soft projected None c in
    ready G c' u o /\ p_m (c_ph c') = p_m (c_ph c) /\ bodies c' = bodies c /\ p_g (c_ph c') = p_g (c_ph c) /\
    (exists f, forall p k, (k < nstars c)%nat -> rel_speed2 p c' k = f ^ 2 * rel_speed2 p c k) /\
    virial_ratio true projected soft c' = - Rabs Q.
Proof.
  move=> G Q soft p c u o R HA HN HS HC Hm Hq.
  pose proof (@virialize_spec G Q soft p None c u o R HA HN HS HC) as V.
  destruct (virialize G Q soft p None c) as [cache c']. destruct V as [_ B]. cbn zeta in B.
  have RT := boosted_ratio true p soft B. have [RR [AL [NN [HM [HB [HG [_ [HU HV]]]]]]]] := B.
  split; [exact: RR|]. do 3 (split => //). split; [by eexists; exact HV|].
  rewrite RT sqrt_pow2; [exact: Rabs_pos|]. have Nq := virial_ratio_nonpos true p soft Hm.
  rewrite /Rdiv Rabs_mult Rabs_inv (Rabs_left (virial_ratio true p soft c)); [lra|]. field. lra.
Qed.
Print Assumptions C36_virialize.

(* C36 finding: a second virialize(Q) reuses the virial ratio cached before the first one, so the cluster leaves the
   requested ratio again unless it started with it. *)
Theorem C36_second_virialize_refuted :
  forall (G : galpy) (Q soft : R) (projected : bool) (c : cluster) (u : usys) (o : osys),
    ready G c u o -> aligned c -> analyze true true c = c -> separated (bodies_seen projected c) -> still_centre c ->
    virial_ratio true projected soft c <> 0 -> Q <> 0 -> Rabs Q <> Rabs (virial_ratio true projected soft c) ->
    let '(cache1, c1) := virialize G Q soft projected None c in
    let '(_, c2) := virialize G Q soft projected cache1 c1 in
    Rabs (virial_ratio true projected soft c1) = Rabs Q /\ Rabs (virial_ratio true projected soft c2) <> Rabs Q.
Proof.
  move=> G Q soft p c u o R HA HN HS HC Hq HQ Hne.
  pose proof (@virialize_twice G Q soft p c u o R HA HN HS HC Hq) as V. cbn zeta in V.
  destruct (virialize G Q soft p None c) as [cache1 c1]. destruct (virialize G Q soft p cache1 c1) as [cache2 c2].
  destruct V as [V1 V2]. split => //. rewrite V2 => E. apply Hne.
  have A : Rabs Q <> 0 by apply Rabs_no_R0. have B : Rabs (virial_ratio true p soft c) <> 0 by apply Rabs_no_R0.
  have C : Rabs Q / Rabs (virial_ratio true p soft c) = 1. { apply (Rmult_eq_reg_l (Rabs Q)) => //. lra. }
  apply (Rmult_eq_reg_r (/ Rabs (virial_ratio true p soft c))); [|by apply Rinv_neq_0_compat].
  by rewrite Rinv_r.
Qed.
Print Assumptions C36_second_virialize_refuted.

(* C36: the virial ratio of specific energies, which virialize uses, is the physical one when all masses are equal. *)
Theorem C36_specific_ratio_equal_masses :
  forall (projected : bool) (soft : R) (c : cluster) (m : R),
    0 < m -> (forall k, (k < nstars c)%nat -> mass c k = m) ->
    virial_ratio true projected soft c = virial_ratio false projected soft c.
Proof. exact equal_mass_ratio. Qed.
Print Assumptions C36_specific_ratio_equal_masses.

(* C06: energies of one physical cluster in two unit systems are the same physical quantities, if the constant used is
   Newton's constant in both (C06_grav_constant, C06_grav_nbody, C06_grav_galpy); softening is a length. *)
Theorem C06_energies_unit_independent :
  forall (G : galpy) (c c' : cluster) (u u' : usys) (o : osys),
    ready G c u o -> ready G c' u' o -> c_sc c' = c_sc c -> positive_scales G (c_sc c) -> aligned c ->
    let z := unit_size G (c_sc c) u in let z' := unit_size G (c_sc c) u' in
    same_physics z z' (c_ph c) (c_ph c') ->
    is_grav z (get_grav c) -> is_grav z' (get_grav c') ->
    analyze true true c = c -> analyze true true c' = c' ->
    (forall k, (k < nstars c)%nat -> mass c k <> 0) ->
    forall (specific projected : bool) (soft : R), separated (bodies_seen projected c) ->
    (let '((kin, pot), _) := energies G specific projected true soft c in
     let '((kin', pot'), _) := energies G specific projected true (soft * in_pc z / in_pc z') c' in
     length kin' = length kin /\ length pot' = length pot /\
     forall k, (k < nstars c)%nat ->
       nth k kin' 0 * energy_size specific z' = nth k kin 0 * energy_size specific z /\
       exists P P', nth k pot None = Some P /\ nth k pot' None = Some P' /\
                    P' * energy_size specific z' = P * energy_size specific z) /\
    virial_ratio specific projected (soft * in_pc z / in_pc z') c' = virial_ratio specific projected soft c.
Proof.
  move=> G c c' u u' o R R' HSc HP HA z z' HPH HG HG' N N' Hm spec p soft HS. split.
  - exact: (energies_units R R' HP HA HPH HG HG' spec soft N N' HS Hm).
  - have -> : soft * in_pc z / in_pc z' = in_pc z / in_pc z' * soft by rewrite /Rdiv; ring.
    exact: (ratio_same R R' HP HPH HG HG' p soft (fun _ => Hm)).
Qed.
Print Assumptions C06_energies_unit_independent.

(* C38: both computations of the virial radius give M^2 / (2 sum over pairs m_i m_j / r_ij), and restore the cluster. *)
Theorem C38_virial_radius :
  forall (G : galpy) (projected full : bool) (c : cluster) (u : usys) (o : osys) (ps : list (nat * nat)),
    ready G c u o -> aligned c -> analyze true true c = c -> separated (bodies_seen projected c) ->
    pair_set (nstars c) ps ->
    let '(rv, c') := virial_radius G projected full c in
    rv = sumR (p_m (c_ph c)) ^ 2 / (2 * inverse_distance (bodies_seen projected c) ps) /\ restored c c'.
Proof. move=> G p full c u o ps R HA HN _ HP. exact: virial_radius_spec R HA HN HP. Qed.
Print Assumptions C38_virial_radius.

(* C38: it does not depend on the origin, and is the same length in all units. *)
Theorem C38_virial_radius_origin_independent :
  forall (G : galpy) (sort projected full : bool) (c : cluster) (u : usys) (o o' : osys),
    ready G c u o -> flat o' -> aligned c -> analyze true true c = c -> separated (bodies_seen projected c) ->
    fst (virial_radius G projected full (analyze true true (to_origin G (Oreq o') sort c))) =
    fst (virial_radius G projected full c).
Proof. move=> G s p full c u o o' R Hf HA HN _. exact: virial_radius_origin R Hf HA HN. Qed.
Print Assumptions C38_virial_radius_origin_independent.
Theorem C38_virial_radius_scales_with_units :
  forall (G : galpy) (projected full : bool) (c c' : cluster) (u u' : usys) (o : osys),
    ready G c u o -> ready G c' u' o -> c_sc c' = c_sc c -> positive_scales G (c_sc c) -> aligned c ->
    same_physics (unit_size G (c_sc c) u) (unit_size G (c_sc c) u') (c_ph c) (c_ph c') ->
    analyze true true c = c -> analyze true true c' = c' -> (forall k, (k < nstars c)%nat -> 0 < mass c k) ->
    separated (bodies_seen projected c) ->
    fst (virial_radius G projected full c') * in_pc (unit_size G (c_sc c) u') =
    fst (virial_radius G projected full c) * in_pc (unit_size G (c_sc c) u).
Proof. move=> G p full c c' u u' o R R' HSc HP HA HPH HN HN' Hm _. exact: virial_radius_units R R' HSc HP HA HPH HN HN' Hm. Qed.
Print Assumptions C38_virial_radius_scales_with_units.

(* Non-vacuity: the analysed demo cluster (two stars, nbody units) meets the hypotheses. *)
Example demo_energy : let c := analyze true true demo_cluster in
  ready demo_galpy c Unbody Ocluster /\ aligned c /\ analyze true true c = c /\
  separated (bodies_seen false c) /\ separated (bodies_seen true c) /\ still_centre c /\
  (forall k, (k < nstars c)%nat -> 0 < mass c k) /\ pair_set (nstars c) [(0, 1)]%nat /\ positive_scales demo_galpy (c_sc c) /\
  virial_ratio true false 0 c <> 0.
Proof.
  cbn zeta. have [R N] := demo_analyzed.
  have [E1 [E2 [_ [_ [_ [E3 _]]]]]] := skel_eq_fields (skel_analyze true true demo_cluster).
  have E5 := c_ph_analyze true true demo_cluster.
  move: (analyze true true demo_cluster) R N E1 E2 E3 E5 => c R N E1 E2 E3 E5.
  split => //. split. { rewrite /aligned E5 /=. by repeat split. }
  split => //.
  have B : bodies c = [mk4 1 2 0 1; mk4 (-1) 0 3 2] by rewrite /bodies /body E5 /=.
  have NS : nstars c = 2%nat by rewrite /nstars E5.
  have SEP : forall p, separated (bodies_seen p c).
  { move=> p i j. rewrite /bodies_seen B /= => Hi Hj Hne.
    destruct i as [|[|i]], j as [|[|j]]; try lia; rewrite /dist2 /=; destruct p; lra. }
  split; [exact: SEP|]. split; [exact: SEP|]. split; [by rewrite /still_centre E2|].
  have M : mass c 0 = 1 /\ mass c 1 = 2 by rewrite /mass E5 /=.
  split. { rewrite NS => k Hk. destruct M as [M0 M1]. destruct k as [|[|k]]; [rewrite M0|rewrite M1|lia]; lra. }
  split. { rewrite NS. split; [repeat constructor; by move=> []|]. move=> i j /=. split; [move=> [[<- <-]|[]]; lia|]. move=> H. left. f_equal; lia. }
  split. { rewrite E3. apply demo_frame. }
  destruct M as [M0 M1].
  have K : kinetic_sum true false c = (1 ^ 2 + 0 ^ 2 + 5 ^ 2) / 2 + (1 ^ 2 + 2 ^ 2 + 5 ^ 2) / 2.
  { rewrite /kinetic_sum NS /rel_speed2 E2 E5 /=. field. }
  have P : potential_sum true false 0 c = - (2 + 1) / sqrt 17.
  { have D : forall x y, dist2 x y = 17 -> sqrt (dist2 x y + 0 ^ 2) = sqrt 17 by move=> x y ->; f_equal; ring.
    have S : 0 < sqrt 17 by apply sqrt_lt_R0; lra.
    rewrite /potential_sum NS /newton_potential /get_grav E1 /= /others /bodies_seen B /= M0 M1 /pair_energy /=.
    rewrite !D; try (rewrite /dist2 /=; lra). }
  rewrite /virial_ratio K P. have S : 0 < sqrt 17 by apply sqrt_lt_R0; lra.
  apply Rmult_integral_contrapositive_currified; [lra|]. apply Rinv_neq_0_compat.
  rewrite /Rdiv. apply Rmult_integral_contrapositive_currified; [|lra]. apply Rmult_integral_contrapositive_currified; [lra|].
  apply Rinv_neq_0_compat. lra.
Qed.
Example demo_race : separated [mk4 0 0 0 1; mk4 1 0 0 1; mk4 0 1 0 1].
Proof.
  move=> i j /= Hi Hj Hne. destruct i as [|[|[|i]]], j as [|[|[|j]]]; try lia; rewrite /dist2 /=; lra.
Qed.
