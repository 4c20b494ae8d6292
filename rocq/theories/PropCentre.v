(* C32, C33, C57: cluster centres. *)
From Verif Require Import Base ModelCluster ModelOps ModelConv ModelEnergy ModelRecipes ModelCoords ModelCentre SpecUnits SpecFrame SpecCentre.
From Verif Require Import ProofsUnits ProofsFrame ProofsCentre ProofsCentre2 ProofsCentre3 ProofsCentre4 ProofsCentre5 PropUnits PropFrame.

(* C32: find_centre_of_mass returns the mass-weighted mean of the stars, whenever their total mass is not zero. *)
Theorem C32_centre_of_mass :
  forall (c : cluster) (p : six R), aligned c ->
    (find_centre_of_mass c = Some p <-> mass_weighted_mean (star_table c) p).
Proof. intros c p. exact (@com_mean c p). Qed.
Print Assumptions C32_centre_of_mass.

(* the point with that property is unique *)
Theorem C32_mean_is_unique :
  forall (t : list (R * six R)) (p q : six R), mass_weighted_mean t p -> mass_weighted_mean t q -> p = q.
Proof. intros t p q. exact (@mwm_unique t p q). Qed.
Print Assumptions C32_mean_is_unique.

(* C32: translating and boosting the cluster translates and boosts the result. *)
Theorem C32_moves_with_cluster :
  forall (d : six R) (c c' : cluster), aligned c -> moved d c c' ->
    find_centre_of_mass c' = option_map (move d) (find_centre_of_mass c).
Proof. exact com_moved. Qed.
Print Assumptions C32_moves_with_cluster.

(* C57: after a found centre is stored, to_centre puts the origin exactly there: every star's coordinates decrease by it.
   The excluded case, an orbit equal to the found centre together with a non-zero stored offset, is C57_stale_offset_refuted. *)
Definition centre_case (reset : bool) (p : six R) (c : cluster) : Prop :=
  c_origin c = Some Ocluster \/
  c_origin c = Some Ogalaxy /\ (p_g (c_ph c) <> p \/ p_g (c_ph c) = mk6 0 0 0 0 0 0 \/ reset = true \/ p_c (c_ph c) = mk6 0 0 0 0 0 0).
Definition opposite (p : six R) : six R := mk6 (- sx p) (- sy p) (- sz p) (- svx p) (- svy p) (- svz p).
Theorem C57_to_centre_goes_to_the_found_centre :
  forall (sort reset : bool) (p : six R) (c : cluster) (u : usys), c_units c = Some u -> linear u -> centre_case reset p c ->
    let c' := to_centre sort (set_centre reset p c) in moved (opposite p) c c' /\ c_origin c' = Some Ocentre.
Proof.
  intros sort reset p c u Hu Hl Hc. cbv zeta.
  assert (O : exists o, c_origin c = Some o /\ flat o) by (destruct Hc as [H|[H _]]; rewrite H; eexists; split; try reflexivity; discriminate).
  destruct O as [o [Ho Hf]]. destruct (@ph_of_centre sort reset p c u o Hu Hl Ho Hf) as [_ [Em Eo]]. split; [|exact Eo]. split; [exact Em|].
  rewrite (@centre_moves sort reset p c u o Hu Hl Ho).
  - destruct Hc as [H|[H Hg]]; rewrite H in Ho; injection Ho as <-; [now left|right; split; [reflexivity|exact Hg]].
  - reflexivity.
Qed.
Print Assumptions C57_to_centre_goes_to_the_found_centre.

(* C57: the excluded case.  With origin galaxy, when the found centre equals the stored orbit and an offset is still stored,
   nothing is updated and to_centre goes to a different point: the found centre does not end up at the origin. *)
Theorem C57_stale_offset_refuted :
  forall (sort : bool) (p : six R) (c : cluster) (u : usys), c_units c = Some u -> linear u -> c_origin c = Some Ogalaxy ->
    p_g (c_ph c) = p -> p <> mk6 0 0 0 0 0 0 -> p_c (c_ph c) <> mk6 0 0 0 0 0 0 ->
    let c' := to_centre sort (set_centre false p c) in
    moved (opposite (move (p_c (c_ph c)) p)) c c' /\ move (p_c (c_ph c)) p <> p.
Proof.
  intros sort p c u Hu Hl Ho Hg Hz Hc. cbv zeta. assert (Hf : flat Ogalaxy) by discriminate.
  destruct (@ph_of_centre sort false p c u Ogalaxy Hu Hl Ho Hf) as [_ [Em Eo]]. split.
  - split; [exact Em|]. rewrite (@centre_stale sort p c u Hu Hl Ho Hg Hz). reflexivity.
  - intros E. apply Hc. apply six_ext; cbn;
    [generalize (f_equal (@sx R) E)|generalize (f_equal (@sy R) E)|generalize (f_equal (@sz R) E)
    |generalize (f_equal (@svx R) E)|generalize (f_equal (@svy R) E)|generalize (f_equal (@svz R) E)]; cbn; lra.
Qed.
Print Assumptions C57_stale_offset_refuted.

(* C32: after find_centre_of_mass and to_centre the mass-weighted mean position and velocity are zero. *)
Theorem C32_centred_mean_is_zero :
  forall (sort reset : bool) (c c' : cluster) (p : six R) (u : usys), aligned c -> c_units c = Some u -> linear u ->
    method_centre_of_mass reset c = Some (p, c') -> centre_case reset p c ->
    mass_weighted_mean (star_table (to_centre sort c')) (mk6 0 0 0 0 0 0).
Proof.
  intros sort reset c c' p u H Hu Hl M Hc. unfold method_centre_of_mass in M. destruct (find_centre_of_mass c) as [q|] eqn:E; [|discriminate].
  cbn in M. injection M as -> <-. destruct (@C57_to_centre_goes_to_the_found_centre sort reset p c u Hu Hl Hc) as [Mv _].
  rewrite (moved_table H Mv). apply (com_mean p H) in E. pose proof (mwm_moved (opposite p) E) as F.
  replace (mk6 0 0 0 0 0 0) with (move (opposite p) p); [exact F|]. apply six_ext; cbn; lra.
Qed.
Print Assumptions C32_centred_mean_is_zero.

Definition outcome {A} (r : result (A * cluster)) : result A := match r with Ok (p, _) => Ok p | Raise => Raise end.
Definition on_result {A B} (f : A -> B) (r : result (option A)) : result (option B) :=
  match r with Ok p => Ok (option_map f p) | Raise => Raise end.
Definition starting_at (p : six R) (a : centre_args) : centre_args :=
  mkCA p (ca_indx a) (ca_nsphere a) (ca_rmin a) (ca_rmax a) (ca_nmax a) (ca_method a) (ca_nneighbour a).
Definition selecting (i : option (list bool)) (a : centre_args) : centre_args :=
  mkCA (ca_start a) i (ca_nsphere a) (ca_rmin a) (ca_rmax a) (ca_nmax a) (ca_method a) (ca_nneighbour a).
Definition at_most (n : nat) (a : centre_args) : centre_args :=
  mkCA (ca_start a) (ca_indx a) (ca_nsphere a) (ca_rmin a) (ca_rmax a) n (ca_method a) (ca_nneighbour a).

(* C33: both density centres move with the cluster (and with the starting guess), in position and in velocity. *)
Theorem C33_moves_with_cluster :
  forall (G : galpy) (a : centre_args) (d : six R) (c c' : cluster), aligned c -> moved d c c' ->
    outcome (find_centre_of_density G (starting_at (move d (ca_start a)) a) c') = on_result (move d) (outcome (find_centre_of_density G a c)).
Proof.
  intros G a d c c' H M. change (@outcome (option (six R))) with (@answer (option (six R))). rewrite !density_answer'. exact (raw_moved a H M).
Qed.
Print Assumptions C33_moves_with_cluster.

(* C33: the default density centre depends on the selected stars only, not on their order or on how they are selected. *)
Theorem C33_independent_of_order :
  forall (G : galpy) (a : centre_args) (i i' : option (list bool)) (c c' : cluster), aligned c -> aligned c' ->
    mask_fits i c -> mask_fits i' c' -> same_selection c c' i i' -> ca_method a = Mharfst ->
    outcome (find_centre_of_density G (selecting i a) c) = outcome (find_centre_of_density G (selecting i' a) c').
Proof.
  intros G a i i' c c' H H' F F' S M. change (@outcome (option (six R))) with (@answer (option (six R))).
  rewrite !density_answer'. exact (raw_order H H' F F' S M).
Qed.
Print Assumptions C33_independent_of_order.

(* C33: what the default method returns: the end point of the shrinking-sphere refinement. *)
Theorem C33_refines :
  forall (G : galpy) (a : centre_args) (c : cluster) (p : six R), aligned c -> mask_fits (ca_indx a) c -> ca_method a = Mharfst ->
    outcome (find_centre_of_density G a c) = Ok (Some p) ->
    let t := masked_rows (ca_indx a) (star_table c) in
    (exists rho, first_radius t (ca_start a) (ca_rmax a) rho /\ refined t (ca_nsphere a) (ca_rmin a) (ca_nmax a) rho (ca_start a) p) /\
    found_from t (ca_start a) p (ca_nsphere a) (ca_rmin a).
Proof.
  intros G a c p H F M E. change (@outcome (option (six R))) with (@answer (option (six R))) in E. rewrite density_answer' in E.
  split; [exact (raw_refined H F M E)|exact (raw_found H F M E)].
Qed.
Print Assumptions C33_refines.

(* C33: it always answers, unless there is no star and no sphere to start with. *)
Theorem C33_answers :
  forall (G : galpy) (a : centre_args) (c : cluster), aligned c -> mask_fits (ca_indx a) c -> ca_method a = Mharfst ->
    (exists p, outcome (find_centre_of_density G a c) = Ok (Some p)) <->
    (ca_rmax a <> None \/ masked_rows (ca_indx a) (star_table c) <> []).
Proof.
  intros G a c H F M. rewrite <- (raw_defined H F M). change (@outcome (option (six R))) with (@answer (option (six R))).
  rewrite density_answer'. reflexivity.
Qed.
Print Assumptions C33_answers.

(* C33: for a positive minimum radius the iteration limit does not matter once it is large enough. *)
Theorem C33_limit_irrelevant :
  forall (G : galpy) (a : centre_args) (c : cluster), ca_method a = Mharfst -> 0 < ca_rmin a ->
    exists N, forall n, (N <= n)%nat ->
      outcome (find_centre_of_density G (at_most n a) c) = outcome (find_centre_of_density G (at_most N a) c).
Proof.
  intros G a c M H. destruct (@raw_settles a c M H) as [N HN]. exists N. intros n Hn.
  change (@outcome (option (six R))) with (@answer (option (six R))). rewrite !density_answer'. exact (HN n Hn).
Qed.
Print Assumptions C33_limit_irrelevant.

(* C33: the neighbour method returns the mean of the stars weighted by their local density, defined from k nearest stars. *)
Theorem C33_neighbour_method :
  forall (G : galpy) (a : centre_args) (c : cluster) (p : six R), aligned c -> ca_method a = Mcasertano ->
    outcome (find_centre_of_density G a c) = Ok (Some p) ->
    exists w, length w = length (star_table c) /\
      (forall i, (i < length (star_table c))%nat -> neighbour_density (star_table c) (ca_nneighbour a) i (nth i w 0)) /\
      mass_weighted_mean (reweighted w (star_table c)) p.
Proof.
  intros G a c p H M E. change (@outcome (option (six R))) with (@answer (option (six R))) in E. rewrite density_answer' in E.
  unfold raw_density in E. rewrite M in E. destruct (casertano_ok E) as [w [L [D W]]]. exists w.
  rewrite <- (particles_table H). rewrite map_length. now split.
Qed.
Print Assumptions C33_neighbour_method.

(* C59: the search leaves the cluster as it was. *)
Theorem C59_cluster_unchanged :
  forall (G : galpy) (a : centre_args) (c c' : cluster) (p : option (six R)) (u : usys) (o : osys), ready G c u o ->
    analyze true true c = c -> find_centre_of_density G a c = Ok (p, c') ->
    c_ph c' = c_ph c /\ c_units c' = c_units c /\ c_origin c' = c_origin c /\ c_der c' = c_der c /\ c_sc c' = c_sc c /\ c_id c' = c_id c.
Proof.
  intros G a c c' p u o HR HA E. rewrite density_answer in E. destruct (raw_density a c) as [q|]; [|discriminate]. injection E as _ <-.
  exact (back_ok HR HA).
Qed.
Print Assumptions C59_cluster_unchanged.

Definition some_selected (a : centre_args) : Prop := match ca_indx a with Some mk => count mk <> O | None => True end.
(* C33: find_centre with density is find_centre_of_density. *)
Theorem C33_find_centre_density :
  forall (G : galpy) (fuel : nat) (nsigma : R) (a : centre_args) (c : cluster), some_selected a -> analyze true true c = c ->
    find_centre G fuel nsigma true a c = Done (find_centre_of_density G a c).
Proof. exact find_centre_density. Qed.
Print Assumptions C33_find_centre_density.

(* the rows of the stars whose id is listed *)
Definition rows_with_ids (kept : list Z) (c : cluster) : list (R * six R) :=
  map snd (filter (fun p => existsb (Z.eqb (fst p)) kept) (combine (c_id c) (star_table c))).
(* C58: without density, for every clipping factor up to 2 the clipping loop ends on every cluster, after at most as many
   passes as there are stars, having kept more than nsphere of the selected stars (or all of them), and the answer is the
   mass-weighted mean of the stars kept. *)
Theorem C58_clipping_ends :
  forall (G : galpy) (nsigma : R) (a : centre_args) (c : cluster), aligned c -> length (c_id c) = length (p_m (c_ph c)) ->
    mask_fits (ca_indx a) c -> some_selected a -> nsigma <= 2 ->
    let ids := masked_rows (ca_indx a) (c_id c) in
    exists kept, incl kept ids /\ (NoDup ids -> NoDup kept) /\ ((ca_nsphere a < length ids)%nat -> (ca_nsphere a < length kept)%nat) /\
      ((length ids <= ca_nsphere a)%nat -> kept = ids) /\
      exists p c', (forall fuel, (length (p_m (c_ph c)) < fuel)%nat -> find_centre G fuel nsigma false a c = Done (Ok (p, c'))) /\
        match p with Some q => mass_weighted_mean (rows_with_ids kept c) q | None => table_mass (rows_with_ids kept c) = 0 end.
Proof. exact find_centre_clipped. Qed.
Print Assumptions C58_clipping_ends.

(* C58: for every clipping factor above 2 and every nsphere there is a cluster on which find_centre(density=False) never returns. *)
Theorem C58_clipping_endless_refuted :
  forall (G : galpy) (nsigma : R) (a : centre_args), 2 < nsigma -> ca_start a = mk6 0 0 0 0 0 0 -> ca_indx a = None ->
    exists c, aligned c /\ length (c_id c) = length (p_m (c_ph c)) /\ NoDup (c_id c) /\ (forall m, In m (p_m (c_ph c)) -> m = 1) /\
      forall fuel, find_centre G fuel nsigma false a c = Running _.
Proof.
  intros G nsigma a Hs H0 Hi. exists (stuck_cluster (S (ca_nsphere a))). split; [apply stuck_aligned|]. split; [|split; [|split]].
  - unfold stuck_cluster. cbn [c_id c_ph p_m]. now rewrite map_length seq_length repeat_length.
  - unfold stuck_cluster. cbn [c_id]. apply FinFun.Injective_map_NoDup; [intros x y; apply Nat2Z.inj|apply seq_NoDup].
  - intros m. unfold stuck_cluster. cbn [c_ph p_m]. intros H. exact (repeat_spec _ _ _ H).
  - intros fuel. apply stuck_running; assumption.
Qed.
Print Assumptions C58_clipping_endless_refuted.

(* C59: with a selection of no stars find_centre returns zeros and leaves an amuse cluster in pckms. *)
Theorem C59_empty_selection_refuted :
  forall (G : galpy) (fuel : nat) (nsigma : R) (density : bool) (a : centre_args) (c : cluster) (mk : list bool),
    ca_indx a = Some mk -> count mk = O -> c_units c = Some Uamuse ->
    exists c', find_centre G fuel nsigma density a c = Done (Ok (Some (mk6 0 0 0 0 0 0), c')) /\ c_units c' = Some Upckms.
Proof.
  intros G fuel nsigma density a c mk Hi Hm Hu. unfold find_centre. rewrite Hi Hm Hu. eexists. split; [reflexivity|].
  unfold to_pckms, analyze_if_units. rewrite Hu. destruct (skel_eq_fields (skel_analyze true true (to_pckms0 G c))) as [-> _].
  unfold to_pckms0, from_amuse, pckms_step. rewrite Hu. reflexivity.
Qed.
Print Assumptions C59_empty_selection_refuted.

(* C59: the method of the cluster object ignores its method argument: with nneighbour = 1 the neighbour method raises, but
   cluster.find_centre_of_density(method='casertano', nneighbour=1) returns a centre, for every non-empty cluster. *)
Theorem C59_method_argument_refuted :
  forall (G : galpy) (reset : bool) (a : centre_args) (c : cluster), aligned c -> p_m (c_ph c) <> [] -> ca_indx a = None ->
    ca_method a = Mcasertano -> ca_nneighbour a = 1%nat ->
    find_centre_of_density G a c = Raise /\ exists r, method_centre_of_density G reset a c = Ok (Some r).
Proof.
  intros G reset a c H Hn Hi Hm Hk. split. { rewrite density_answer. unfold raw_density. rewrite Hm Hk. reflexivity. }
  unfold method_centre_of_density. set (b := mkCA _ _ _ _ _ _ _ _). assert (F : mask_fits (ca_indx b) c) by (cbn; now rewrite Hi).
  assert (E : exists p, raw_density b c = Ok (Some p)).
  { apply (raw_defined H F eq_refl). right. cbn. rewrite Hi. cbn. intros E. apply (f_equal (@length _)) in E. rewrite table_length in E.
    destruct (p_m (c_ph c)); [now apply Hn|discriminate]. }
  destruct E as [p E]. rewrite density_answer E. eexists. reflexivity.
Qed.
Print Assumptions C59_method_argument_refuted.

(* ---- the hypotheses are met *)
Definition demo_shift : six R := mk6 1 2 3 4 5 6.
Definition demo_far : cluster :=
  mkC (Some Unbody) (Some Ogalaxy) None 0
    (mkP 5 [2; 1] (mk6 [-1 + 1; 1 + 1] [0 + 2; 2 + 2] [3 + 3; 0 + 3] [1 + 4; 1 + 4] [2 + 5; 0 + 5] [-5 + 6; 5 + 6]) (mk6 1 0 0 0 1 0) (mk6 8 1 0 0 220 1))
    (mkSc 1000 2 3 (7/10) 1 1 1 8 220) (mkB [] [] [] []) (mkSk nil6 zero6 zero6 None None None) empty_derived [1; 2]%Z.
Definition demo_near : cluster :=
  mkC (Some Unbody) (Some Ogalaxy) None 0
    (mkP 5 [2; 1] (mk6 [-1; 1] [0; 2] [3; 0] [1; 1] [2; 0] [-5; 5]) (mk6 1 0 0 0 1 0) (mk6 8 1 0 0 220 1))
    (mkSc 1000 2 3 (7/10) 1 1 1 8 220) (mkB [] [] [] []) (mkSk nil6 zero6 zero6 None None None) empty_derived [1; 2]%Z.
Definition demo_args : centre_args := mkCA (mk6 0 0 0 0 0 0) None 0 (1/10) None 100 Mharfst 6.

Example C32_hypotheses_met : aligned demo_near /\ moved demo_shift demo_near demo_far /\ linear Unbody /\
  (exists p c', method_centre_of_mass false demo_near = Some (p, c') /\ centre_case false p demo_near /\ sx p = - (1 / 3)).
Proof.
  split; [now repeat split|]. split; [now split|]. split; [discriminate|].
  assert (E : find_centre_of_mass demo_near = Some (mk6 (- (1/3)) (2/3) 2 1 (4/3) (- (5/3)))).
  { apply C32_centre_of_mass; [now repeat split|]. split; [unfold table_mass; cbn; lra|].
    repeat split; unfold moment; cbn; lra. }
  unfold method_centre_of_mass. rewrite E. do 2 eexists. split; [reflexivity|]. split; [|reflexivity].
  right. split; [reflexivity|]. left. intros H. apply (f_equal (@sx R)) in H. cbn in H. lra.
Qed.
Example C57_hypotheses_met : c_units demo_near = Some Unbody /\ linear Unbody /\ centre_case false (mk6 1 0 0 0 0 0) demo_near /\
  c_origin demo_near = Some Ogalaxy /\ p_g (c_ph demo_near) = mk6 8 1 0 0 220 1 /\ mk6 8 1 0 0 220 1 <> mk6 0 0 0 0 0 0 /\
  p_c (c_ph demo_near) <> mk6 0 0 0 0 0 0.
Proof.
  split; [reflexivity|]. split; [discriminate|]. split; [|split; [reflexivity|split; [reflexivity|split]]].
  - right. split; [reflexivity|]. left. intros H. apply (f_equal (@sx R)) in H. cbn in H. lra.
  - intros H. apply (f_equal (@sx R)) in H. cbn in H. lra.
  - intros H. apply (f_equal (@sx R)) in H. cbn in H. lra.
Qed.
(* demo_cluster has the stars of demo_near in the opposite order *)
Example C33_hypotheses_met : aligned demo_near /\ aligned demo_cluster /\ same_selection demo_near demo_cluster None None /\
  mask_fits None demo_near /\ ca_method demo_args = Mharfst /\ 0 < ca_rmin demo_args /\ some_selected demo_args /\
  (exists p, outcome (find_centre_of_density demo_galpy demo_args demo_near) = Ok (Some p)) /\
  length (c_id demo_near) = length (p_m (c_ph demo_near)) /\
  ready demo_galpy (analyze true true demo_cluster) Unbody Ocluster /\
  (exists p, outcome (find_centre_of_density demo_galpy (mkCA (mk6 0 0 0 0 0 0) None 0 (1/10) None 100 Mcasertano 2) demo_near) = Ok (Some p)).
Proof.
  assert (A : aligned demo_near) by now repeat split.
  split; [exact A|]. split; [now repeat split|]. split; [apply perm_swap|]. do 2 (split; [now cbn|]). split; [cbn; lra|]. split; [now cbn|].
  split; [apply C33_answers; [exact A|exact I|reflexivity|right; discriminate]|]. split; [reflexivity|]. split; [apply demo_analyzed|].
  change (@outcome (option (six R))) with (@answer (option (six R))). rewrite density_answer'. unfold raw_density. cbn [ca_method ca_nneighbour].
  unfold casertano. change (length (particles demo_near)) with 2%nat. change (Nat.leb 2 1 || Nat.ltb 2 2) with false. cbn iota.
  assert (D : forall i, (i < 2)%nat -> exists r, local_density 2 (particles demo_near) i = Some r /\ 0 < r).
  { intros i Hi. pose proof (@neighbours_nearest 2 (particles demo_near) i ltac:(lia) ltac:(cbn; lia)) as N.
    unfold local_density. set (j := nth (2 - 1) _ _) in *. set (q := neighbours 2 (particles demo_near) i) in *.
    destruct N as [N1 [N2 [N3 [N4 [N5 N6]]]]].
    destruct q as [|q0 [|q1 [|]]]; try discriminate. change j with q1 in *. clear j.
    assert (B0 : (q0 < 2)%nat) by (apply N3; now left). assert (B1 : (q1 < 2)%nat) by (apply N3; right; now left).
    assert (Dq : q0 <> q1) by (intros ->; inversion N1 as [|? ? X]; apply X; now left).
    assert (Ds : pos_distance (mk6 (-1) 0 3 1 2 (-5)) (mk6 1 2 0 1 0 5) > 0) by (apply sqrt_lt_R0; cbn; lra).
    assert (Ds' : pos_distance (mk6 1 2 0 1 0 5) (mk6 (-1) 0 3 1 2 (-5)) > 0) by (apply sqrt_lt_R0; cbn; lra).
    assert (D0 : forall b, pos_distance b b = 0).
    { intros b. unfold pos_distance. rewrite !Rminus_diag_eq; try reflexivity. replace (0 ^ 2 + 0 ^ 2 + 0 ^ 2) with 0 by ring. apply sqrt_0. }
    assert (P0 : nth 0 (particles demo_near) (mkPart 0 zero6) = mkPart 2 (mk6 (-1) 0 3 1 2 (-5))) by reflexivity.
    assert (P1 : nth 1 (particles demo_near) (mkPart 0 zero6) = mkPart 1 (mk6 1 2 0 1 0 5)) by reflexivity.
    assert (C : q1 <> i).
    { intros ->. specialize (N5 q0 (or_introl eq_refl)). rewrite !row_part_at !row_distance_part D0 in N5.
      destruct i as [|[|]]; destruct q0 as [|[|]]; try lia; rewrite ?P0 ?P1 in N5; cbn [y_p] in N5; lra. }
    assert (Pos : 0 < pos_distance (y_p (nth i (particles demo_near) (mkPart 0 zero6))) (y_p (nth q1 (particles demo_near) (mkPart 0 zero6)))).
    { destruct i as [|[|]]; destruct q1 as [|[|]]; try lia; rewrite ?P0 ?P1; cbn [y_p]; lra. }
    cbn [map sumR]. set (dd := pos_distance (y_p (nth i (particles demo_near) (mkPart 0 zero6))) (y_p (nth q1 (particles demo_near) (mkPart 0 zero6)))) in *. assert (P3 : 0 < dd ^ 3) by now apply pow_lt.
    replace (Reqb (dd ^ 3) 0) with false by (symmetry; apply Reqb_false; lra). eexists. split; [reflexivity|].
    apply Rdiv_lt_0_compat; [|exact P3].
    destruct q0 as [|[|]]; destruct q1 as [|[|]]; try lia; rewrite ?P0 ?P1; cbn [y_m]; lra. }
  destruct (D 0%nat ltac:(lia)) as [r0 [E0 R0]]. destruct (D 1%nat ltac:(lia)) as [r1 [E1 R1]].
  change (seq 0 2) with [0%nat; 1%nat]. cbn [map]. rewrite E0 E1. cbn [all_finite option_map sumR].
  replace (Reqb (r0 + (r1 + 0)) 0) with false by (symmetry; apply Reqb_false; lra). eexists. reflexivity.
Qed.
