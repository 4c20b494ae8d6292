(* C01, C02, C03: unit conversion of a whole cluster (cluster/operations.py to_units and the to_* functions). *)
From Verif Require Import Base ModelCluster ModelOps SpecUnits ProofsUnits.

(* C01/C03: after any history of unit requests the cluster is in the last requested system, and every quantity it
   holds is the same physical quantity as before; origin, scale factors, sky data, ids, binary count unchanged. *)
Theorem C01_unit_history_preserves_physics :
  forall (G : galpy) (us : list usys) (c : cluster) (u : usys),
    good_scales G (c_sc c) -> c_units c = Some u -> linear u -> Forall linear us ->
    let c' := request_units G us c in
    let u' := last us u in
    c_units c' = Some u' /\
    same_physics (unit_size G (c_sc c) u) (unit_size G (c_sc c) u') (c_ph c) (c_ph c') /\
    c_origin c' = c_origin c /\ c_sc c' = c_sc c /\ c_sky c' = c_sky c /\ c_id c' = c_id c /\ c_nb c' = c_nb c.
Proof. exact unit_same_physics. Qed.
Print Assumptions C01_unit_history_preserves_physics.

(* C01: a history that ends in the starting system restores all physical data. *)
Theorem C01_unit_round_trip :
  forall (G : galpy) (us : list usys) (c : cluster) (u : usys),
    good_scales G (c_sc c) -> c_units c = Some u -> linear u -> Forall linear us -> last us u = u ->
    c_ph (request_units G us c) = c_ph c /\ c_units (request_units G us c) = Some u.
Proof. exact unit_round_trip. Qed.
Print Assumptions C01_unit_round_trip.

(* C02: the result depends only on the last request. *)
Theorem C02_unit_path_independent :
  forall (G : galpy) (us vs : list usys) (c : cluster) (u : usys),
    good_scales G (c_sc c) -> c_units c = Some u -> linear u ->
    Forall linear us -> Forall linear vs -> last us u = last vs u ->
    c_ph (request_units G us c) = c_ph (request_units G vs c) /\
    c_units (request_units G us c) = c_units (request_units G vs c).
Proof. exact unit_path_independent. Qed.
Print Assumptions C02_unit_path_independent.

(* C03: unsupported requests, and any request on a cluster without units, change nothing. *)
Theorem C03_unknown_request_no_effect :
  forall (G : galpy) (c : cluster),
    to_units G Uother c = c /\ (c_units c = None -> forall q, to_units G q c = c).
Proof. exact unit_unknown. Qed.
Print Assumptions C03_unknown_request_no_effect.

(* Non-vacuity: a two-star N-body cluster with non-trivial scales. *)
Definition demo_galpy : galpy :=
  mkG (fun r v => r / v) (fun r v => r * v * v) (fun v _ => v * (1022712 / 1000000)) (fun s => s) (fun s => s).
Definition demo_cluster : cluster :=
  set_sc (set_ph (init_cluster 5 (Some Unbody) (Some Ocluster) 8 220)
    (mkP 5 [1; 2] (mk6 [1; -1] [2; 0] [0; 3] [1; 1] [0; 2] [5; -5]) (mk6 1 0 0 0 1 0) (mk6 8 1 0 0 220 1))
    (Some Unbody))
    (mkSc 1000 2 3 (7/10) 1 1 1 8 220).
Example demo_meets_hypotheses :
  good_scales demo_galpy (c_sc demo_cluster) /\ c_units demo_cluster = Some Unbody /\ linear Unbody /\
  Forall linear [Ugalpy; UWD; Upcmyr; Ukpcgyr; Uamuse; Unbody] /\
  last [Ugalpy; UWD; Upcmyr; Ukpcgyr; Uamuse; Unbody] Unbody = Unbody.
Proof.
  rewrite /good_scales /linear /=. repeat split; try lra; try discriminate.
  repeat constructor; discriminate.
Qed.
