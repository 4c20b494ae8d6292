(* C37, C60: Lagrange radii. *)
From Verif Require Import Base ModelCluster ModelOps ModelRecipes ModelLagrange SpecUnits SpecFrame SpecOrder SpecRecipes SpecEnergy SpecLagrange.
From Verif Require Import ProofsUnits ProofsFrame ProofsFrame2 ProofsEnergy2 ProofsLagrange ProofsLagrange2 PropUnits PropFrame.

(* C37: rlagrange returns n radii; entry i is the radius of fraction (i+1)/n of the mass among the distances from the
   cluster's own centre, the last is the largest distance, they do not decrease; the cluster is as before.
   For projected radii the stored origin must not be the galaxy: see C60. *)
Theorem C37_lagrange_radii :
  forall (G : galpy) (n : nat) (projected : bool) (c : cluster) (u : usys) (o : osys),
    ready G c u o -> positive_scales G (c_sc c) -> aligned c -> well_sorted projected c ->
    (projected = true -> c_origin c <> Some Ogalaxy) -> (1 <= n)%nat -> nonneg (p_m (c_ph c)) -> 0 < sumR (p_m (c_ph c)) ->
    exists rn c', rlagrange G n projected c = Ok (rn, c') /\
      lagrange_table n (own_distances projected c) (p_m (c_ph c)) rn /\ restored c c'.
Proof. intros G n p c u o. exact (@rlagrange_correct G n p c u o). Qed.
Print Assumptions C37_lagrange_radii.

(* the table is determined by the distances and masses *)
Theorem C37_table_is_unique :
  forall (n : nat) (r m a b : list R), length r = length m -> nonneg m -> 0 <= sumR m ->
    lagrange_table n r m a -> lagrange_table n r m b -> a = b.
Proof. intros n r m a b. exact (@table_unique n r m a b). Qed.
Print Assumptions C37_table_is_unique.

(* C37: the mass-fraction form gives the radius of that fraction, and raises exactly for fractions above one *)
Theorem C37_one_fraction :
  forall (G : galpy) (f : R) (projected : bool) (c : cluster) (u : usys) (o : osys),
    ready G c u o -> positive_scales G (c_sc c) -> aligned c -> well_sorted projected c ->
    (projected = true -> c_origin c <> Some Ogalaxy) -> 0 < f -> nonneg (p_m (c_ph c)) -> 0 < sumR (p_m (c_ph c)) ->
    if Rle_dec f 1 then
      exists r c', rlagrange_frac G f projected c = Ok (r, c') /\
        is_fraction_radius f (own_distances projected c) (p_m (c_ph c)) r /\ restored c c'
    else rlagrange_frac G f projected c = Raise.
Proof. intros G f p c u o. exact (@rlagrange_frac_correct G f p c u o). Qed.
Print Assumptions C37_one_fraction.

(* C37: the answer does not depend on whether the cluster was stored relative to the galaxy or to its own centre *)
Theorem C37_origin_independent :
  forall (G : galpy) (n : nat) (c : cluster) (u : usys),
    ready G c u Ogalaxy -> positive_scales G (c_sc c) -> aligned c -> well_sorted false c ->
    (1 <= n)%nat -> nonneg (p_m (c_ph c)) -> 0 < sumR (p_m (c_ph c)) ->
    exists rn c1 c2, rlagrange G n false c = Ok (rn, c1) /\
      rlagrange G n false (to_origin G (Oreq Ocentre) true c) = Ok (rn, c2).
Proof. intros G n c u. exact (@rlagrange_origin G n c u). Qed.
Print Assumptions C37_origin_independent.

(* C37: in another unit system the same radii come back, as lengths *)
Theorem C37_units :
  forall (G : galpy) (n : nat) (projected : bool) (c : cluster) (u u' : usys) (o : osys),
    ready G c u o -> linear u' -> positive_scales G (c_sc c) -> aligned c -> well_sorted projected c ->
    (projected = true -> c_origin c <> Some Ogalaxy) -> (1 <= n)%nat -> nonneg (p_m (c_ph c)) -> 0 < sumR (p_m (c_ph c)) ->
    exists rn rn' c1 c2, rlagrange G n projected c = Ok (rn, c1) /\ rlagrange G n projected (to_units G (Ureq u') c) = Ok (rn', c2) /\
      map (fun a => a * in_pc (unit_size G (c_sc c) u')) rn' = map (fun a => a * in_pc (unit_size G (c_sc c) u)) rn.
Proof. intros G n p c u u' o. exact (@rlagrange_units G n p c u u' o). Qed.
Print Assumptions C37_units.

(* a cluster analysed for the first time meets well_sorted *)
Theorem C37_first_analysis_sorts :
  forall (projected : bool) (c : cluster), d_rorder (c_der c) = None -> d_rproorder (c_der c) = None ->
    well_sorted projected (analyze true true c).
Proof. intros p c. exact (@first_analysis p c). Qed.
Print Assumptions C37_first_analysis_sorts.

(* C60: projected Lagrange radii are wrong for a cluster stored relative to the galaxy: two stars of mass 1 at projected
   distances 2 and 1 from the centre; the radius of half the mass comes back as 2. *)
Theorem C60_projected_from_galaxy_refuted :
  exists (c : cluster),
    ready w_galpy c Upckms Ogalaxy /\ positive_scales w_galpy (c_sc c) /\ aligned c /\ well_sorted true c /\
    nonneg (p_m (c_ph c)) /\ 0 < sumR (p_m (c_ph c)) /\
    exists rn c', rlagrange w_galpy 2 true c = Ok (rn, c') /\
      own_distances true c = [2; 1] /\ p_m (c_ph c) = [1; 1] /\ rn = [2; 2] /\
      ~ lagrange_table 2 (own_distances true c) (p_m (c_ph c)) rn.
Proof. exact projected_refuted. Qed.
Print Assumptions C60_projected_from_galaxy_refuted.

Example C37_hypotheses_met :
  let c := analyze true true demo_cluster in
  ready demo_galpy c Unbody Ocluster /\ positive_scales demo_galpy (c_sc c) /\ aligned c /\ well_sorted true c /\
  (true = true -> c_origin c <> Some Ogalaxy) /\ nonneg (p_m (c_ph c)) /\ 0 < sumR (p_m (c_ph c)).
Proof.
  cbv zeta. split; [apply demo_analyzed|].
  assert (W : well_sorted true (analyze true true demo_cluster)) by (apply first_analysis; reflexivity).
  destruct (skel_eq_fields (skel_analyze true true demo_cluster)) as [_ [E2 [_ [_ [E5 [E6 _]]]]]].
  rewrite E6 E5 E2 /aligned E5. split; [cbn; repeat split; cbn; lra|]. split; [cbn; lia|]. split; [exact W|].
  split; [discriminate|]. split; [intros a [H|[H|[]]]; subst; lra|cbn; lra].
Qed.
