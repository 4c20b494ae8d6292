(* C07-C10, C12-C14: origins, bracketing, binary units, ordering, half-mass radius. *)
From Verif Require Import Base ModelCluster ModelOps SpecUnits SpecFrame SpecOrder SpecBinUnits
  ProofsUnits ProofsFrame ProofsOrder ProofsSort ProofsBinUnits ProofsFrame2 PropUnits.

(* C07/C09: any history of unit requests and origin requests ends in the last requested units and origin, and the
   cluster is, star by star, the same physical configuration seen from the galactic centre. *)
Theorem C07_history_preserves_configuration :
  forall (G : galpy) (ops : list op) (c : cluster) (u : usys) (o : osys),
    ready G c u o -> Forall flat_op ops ->
    let c' := run G ops c in
    galactic_view G c' = galactic_view G c /\
    ready G c' (last_units ops u) (last_origin ops o) /\
    c_sc c' = c_sc c /\ c_id c' = c_id c /\ c_sky c' = c_sky c /\ c_nb c' = c_nb c.
Proof. exact run_view. Qed.
Print Assumptions C07_history_preserves_configuration.

(* C07: returning to the starting units and origin restores the stored numbers. *)
Theorem C07_origin_round_trip :
  forall (G : galpy) (ops : list op) (c : cluster) (u : usys) (o : osys),
    ready G c u o -> Forall flat_op ops -> last_units ops u = u -> last_origin ops o = o ->
    c_ph (run G ops c) = c_ph c.
Proof. exact run_round_trip. Qed.
Print Assumptions C07_origin_round_trip.

(* C09: two histories with the same last units and the same last origin give the same stored numbers; in
   particular a unit change and an origin change commute. *)
Theorem C09_histories_commute :
  forall (G : galpy) (ops1 ops2 : list op) (c : cluster) (u : usys) (o : osys),
    ready G c u o -> Forall flat_op ops1 -> Forall flat_op ops2 ->
    last_units ops1 u = last_units ops2 u -> last_origin ops1 o = last_origin ops2 o ->
    c_ph (run G ops1 c) = c_ph (run G ops2 c).
Proof. exact run_commute. Qed.
Print Assumptions C09_histories_commute.

(* C08: an origin change keeps masses, time, ids, and all differences between stars. *)
Theorem C08_origin_change_is_rigid :
  forall (G : galpy) (sort : bool) (c : cluster) (u : usys) (o o' : osys),
    ready G c u o -> flat o' ->
    let c' := to_origin G (Oreq o') sort c in
    p_t (c_ph c') = p_t (c_ph c) /\ p_m (c_ph c') = p_m (c_ph c) /\ c_id c' = c_id c /\
    forall comp : six (list R) -> list R,
      In comp [@sx (list R); @sy (list R); @sz (list R); @svx (list R); @svy (list R); @svz (list R)] ->
      length (comp (p_s (c_ph c'))) = length (comp (p_s (c_ph c))) /\
      forall i j, (i < length (comp (p_s (c_ph c))))%nat -> (j < length (comp (p_s (c_ph c))))%nat ->
        nth i (comp (p_s (c_ph c'))) 0 - nth j (comp (p_s (c_ph c'))) 0 =
        nth i (comp (p_s (c_ph c))) 0 - nth j (comp (p_s (c_ph c))) 0.
Proof. exact origin_rigid. Qed.
Print Assumptions C08_origin_change_is_rigid.

(* C10: between save_cluster and return_cluster any unit and origin changes leave no trace in an analysed cluster:
   data, units, origin and every derived quantity (radii, orders, half-mass radii) are as before. *)
Theorem C10_bracket_restores_cluster :
  forall (G : galpy) (c0 : cluster) (u : usys) (o : osys) (ops : list op),
    ready G c0 u o -> Forall flat_op ops -> analyze true true c0 = c0 ->
    let c' := return_cluster G (save_cluster c0) (run G ops c0) in
    c_ph c' = c_ph c0 /\ c_units c' = c_units c0 /\ c_origin c' = c_origin c0 /\ c_der c' = c_der c0 /\
    c_sc c' = c_sc c0 /\ c_id c' = c_id c0 /\ c_sky c' = c_sky c0 /\ c_nb c' = c_nb c0.
Proof. exact bracket_restores. Qed.
Print Assumptions C10_bracket_restores_cluster.

(* C10: an analysed cluster is one that analyze() leaves alone. *)
Theorem C10_analyze_idempotent :
  forall c : cluster, analyze true true (analyze true true c) = analyze true true c.
Proof. exact analyze_idem. Qed.
Print Assumptions C10_analyze_idempotent.

(* C10/C12 finding: the bracket does not restore binary elements; a routine that visits nbody units leaves a cluster
   with au/days binaries in nbody binary units. *)
Theorem C10_bracket_binaries_refuted :
  exists (G : galpy) (c0 : cluster) (u : usys) (o : osys) (ops : list op),
    ready G c0 u o /\ Forall flat_op ops /\ analyze true true c0 = c0 /\
    let c' := return_cluster G (save_cluster c0) (run G ops c0) in
    c_bunits c' <> c_bunits c0 /\ c_bin c' <> c_bin c0.
Proof. exact bracket_binaries_refuted. Qed.
Print Assumptions C10_bracket_binaries_refuted.

(* C12: any sequence of to_sudays, to_audays, to_nbody on a cluster whose binary units are one of these keeps the
   binaries physically the same and ends in the last requested units; back to the start restores them. *)
Theorem C12_binary_units_history :
  forall (G : galpy) (ops : list bop) (c : cluster) (b : busys) (z : bsize),
    bready G c b z ->
    exists z', bready G (brun G ops c) (last (map bop_units ops) b) z' /\
      bin_view z' (c_bin (brun G ops c)) = bin_view z (c_bin c) /\ c_sc (brun G ops c) = c_sc c.
Proof. exact brun_view. Qed.
Print Assumptions C12_binary_units_history.

Theorem C12_binary_round_trip :
  forall (G : galpy) (ops : list bop) (c : cluster) (b : busys) (z : bsize),
    bready G c b z -> last (map bop_units ops) b = b ->
    c_bin (brun G ops c) = c_bin c /\ c_bunits (brun G ops c) = Some b.
Proof. exact brun_round_trip. Qed.
Print Assumptions C12_binary_round_trip.

(* C12 finding: a cluster created in pckms has binary units pckms; to_sudays then relabels the numbers without
   converting them, and to_audays "back" changes the data. *)
Theorem C12_sudays_mislabels_refuted :
  exists (c : cluster), c_bunits c = Some (Bu Upckms) /\ rbar_au (c_sc c) <> rbar_su (c_sc c) /\
    c_bunits (to_sudays c) = Some Bsudays /\ c_bin (to_sudays c) = c_bin c /\
    c_bin (to_audays (to_sudays c)) <> c_bin (to_audays c).
Proof. exact sudays_mislabels. Qed.
Print Assumptions C12_sudays_mislabels_refuted.

(* C13: from a cluster that was never sorted, after any history of unit and origin requests (with or without
   sorting), analyze(sortstars=True) leaves an order that lists all stars by distance from the current origin. *)
Theorem C13_order_sorted_after_history :
  forall (G : galpy) (ops : list op) (c : cluster) (u : usys) (o : osys),
    positive_scales G (c_sc c) -> ready G c u o -> Forall flat_op ops -> d_rorder (c_der c) = None ->
    let c' := analyze true true (run G ops c) in
    exists r, d_rorder (c_der c') = Some r /\ sorted_order r (distances c').
Proof. exact order_after_history. Qed.
Print Assumptions C13_order_sorted_after_history.

(* C13 finding: the projected order is not refreshed by an origin change. *)
Theorem C13_projected_order_refuted :
  exists (G : galpy) (c : cluster) (o' : osys),
    ready G c Upckms Ocluster /\ aligned c /\ flat o' /\ d_rproorder (c_der c) = None /\
    let c' := to_origin G (Oreq o') true (analyze true true c) in
    exists r, d_rproorder (c_der c') = Some r /\ ~ sorted_order r (distances_2d c').
Proof. exact projected_order_refuted. Qed.
Print Assumptions C13_projected_order_refuted.

(* C14: half-mass and 10% radii after any history. *)
Theorem C14_half_mass_radius :
  forall (G : galpy) (ops : list op) (c : cluster) (u : usys) (o : osys),
    positive_scales G (c_sc c) -> ready G c u o -> Forall flat_op ops -> d_rorder (c_der c) = None ->
    aligned c -> nonneg (p_m (c_ph c)) -> 0 < sumR (p_m (c_ph c)) ->
    let c' := analyze true true (run G ops c) in
    exists rm r10, d_rm (c_der c') = Some rm /\ d_r10 (c_der c') = Some r10 /\
      is_fraction_radius (1/2) (distances c') (p_m (c_ph c')) rm /\
      is_fraction_radius (1/10) (distances c') (p_m (c_ph c')) r10.
Proof. exact half_mass_after_history. Qed.
Print Assumptions C14_half_mass_radius.

(* Non-vacuity: a cluster meeting the hypotheses of C07-C14, and a history that visits all origins and units. *)
Definition demo_ops : list op :=
  [OpUnits Ugalpy; OpOrigin Ogalaxy false; OpUnits UWD; OpOrigin Ocentre true; OpUnits Unbody; OpOrigin Ocluster false].
Example demo_frame :
  positive_scales demo_galpy (c_sc demo_cluster) /\ ready demo_galpy demo_cluster Unbody Ocluster /\
  Forall flat_op demo_ops /\ aligned demo_cluster /\ nonneg (p_m (c_ph demo_cluster)) /\
  0 < sumR (p_m (c_ph demo_cluster)) /\ d_rorder (c_der demo_cluster) = None /\
  last_units demo_ops Unbody = Unbody /\ last_origin demo_ops Ocluster = Ocluster.
Proof.
  rewrite /positive_scales /ready /good_scales /linear /flat /aligned /nonneg /=.
  repeat split; try lra; try discriminate; try (repeat constructor; discriminate).
  move=> a [<-|[<-|[]]]; lra.
Qed.
Example demo_analyzed : ready demo_galpy (analyze true true demo_cluster) Unbody Ocluster /\
  analyze true true (analyze true true demo_cluster) = analyze true true demo_cluster.
Proof.
  split; [|apply analyze_idem].
  have [H1 [H2 [_ [_ [_ [H3 _]]]]]] := skel_eq_fields (skel_analyze true true demo_cluster).
  rewrite /ready H1 H2 H3 /good_scales /linear /flat /=. repeat split; try lra; discriminate.
Qed.
Definition demo_bin : cluster :=
  mkC (Some Unbody) (Some Ocluster) (Some Baudays) 1 (c_ph demo_cluster) (mkSc 1000 2 3 (7/10) 5 6 7 8 220)
    (mkB [3] [4] [1] [2]) (c_sky demo_cluster) empty_derived [1%Z; 2%Z].
Example demo_bready : exists z, bready demo_galpy demo_bin Baudays z.
Proof.
  eexists. rewrite /bready /good_scales /good_bin_scales /=.
  repeat split; try lra; try lia. exists Unbody; split => //; discriminate.
Qed.
