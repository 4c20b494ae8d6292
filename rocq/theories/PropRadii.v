(* C76, C77, C78, C79, C67: limiting radius, core radius, virial radius by critical density, equipartition mass, kinematic
   concentration, core relaxation time. *)
From Coq Require Import Sorted.
From Verif Require Import Base ModelCluster ModelOps ModelConv ModelEnergy ModelRecipes ModelStars ModelSubset ModelCoords ModelLagrange ModelProfiles ModelMassFunction ModelDynamics.
From Verif Require Import ModelTail ModelCentre ModelRadii.
From Verif Require Import SpecUnits SpecFrame SpecConv SpecOrder SpecRecipes SpecEnergy SpecStars SpecSubset SpecLagrange SpecProfiles SpecDynamics SpecCentre SpecMassFunction SpecRadii.
From Verif Require Import ProofsUnits ProofsFrame ProofsEnergy2 ProofsStars ProofsSubset4 ProofsLagrange2 ProofsProfiles ProofsProfiles3 ProofsProfiles7 PropUnits PropProfiles PropMassFunction PropDynamics.
From Verif Require Import ProofsRadii3 ProofsRadii4 ProofsRadii5 ProofsRadii6 ProofsRadii7 ProofsRadii8 ProofsRadii9 ProofsRadii10 ProofsRadii11.

(* C76: rlimiting is where the density profile of the cluster (pc, Msun; equal-number bins) falls to the density d of the
   galaxy at the place asked: on the chord between two neighbouring bins, the outermost bin if the profile stays above d, 0
   if it starts below.  It raises exactly when the last bin has the density d and none is below.  The result, scaled from the
   cluster's own units, does not depend on them; the cluster is as before.  In projection d is multiplied by 4/3 of the
   radius of the outermost bin. *)
Theorem C76_limiting_radius :
  forall (G : galpy) (s : system) (u : usys) (o : osys) (nrad : nat) (projected : bool) (dens : R -> R -> R) (rgc zgc : option R)
    (from_centre : bool), let c := g_c (y_k s) in
    ready G c u o -> positive_scales G (c_sc c) -> analyze true true c = c -> measured s (nstars c) -> (0 < nrad)%nat -> spread G projected s ->
    exists lo mid hi rho, density_table G projected nrad s lo mid hi rho /\
      let d := galaxy_density G dens (c_sc c) (place_kpc G c rgc zgc from_centre) * (if projected then 4 * last mid 0 / 3 else 1) in
      match rlimiting G dens rgc zgc nrad projected from_centre s with
      | Ok (rl, s') => falls_to mid rho d (rl * in_pc (sizes G c)) /\ system_restored s s'
      | Raise => last rho 0 = d /\ forall k, (k < length rho)%nat -> d <= nth k rho 0
      end.
Proof. cbn zeta. intros G s u o nrad projected dens rgc zgc fc HR HP HA HM Hr SP. exact (limiting_ok HR HP HA HM Hr SP dens rgc zgc fc). Qed.
Print Assumptions C76_limiting_radius.

(* C77: the core radius (casertano): the root mean square distance from the centre, weighted by the squared local densities,
   in the cluster's units; nan exactly in the cases listed in no_core; it raises only for k below 2 or above the number of
   stars; the cluster is as before, provided it has a centre *)
Theorem C77_core_radius :
  forall (G : galpy) (c : cluster) (u : usys) (o : osys) (projected : bool) (k : nat),
    ready G c u o -> positive_scales G (c_sc c) -> analyze true true c = c -> SpecFrame.aligned c ->
    o = Ocentre \/ no_centre c = false ->
    match rcore_casertano G k projected c with
    | Ok (Some rc, c') => restored c c' /\ casertano_radius G projected k c (rc * in_pc (sizes G c))
    | Ok (None, c') => restored c c' /\ no_core G projected k c
    | Raise => (k <= 1)%nat \/ (nstars c < k)%nat
    end.
Proof. intros G c u o projected k. apply core_ok. Qed.
Print Assumptions C77_core_radius.
(* C77: it lies between the smallest and the largest distance from the centre *)
Theorem C77_core_radius_is_a_mean :
  forall (G : galpy) (projected : bool) (k : nat) (c : cluster) (x lo hi : R), casertano_radius G projected k c x -> 0 <= lo ->
    (forall i, (i < nstars c)%nat -> lo <= central_distance G projected c i <= hi) -> lo <= x <= hi.
Proof.
  intros G p k c x lo hi [w [Lw [_ H]]] H0 B. apply (@rms_between w (map (central_distance G p c) (SpecDynamics.stars c))); [|exact H0| |exact H].
  - rewrite map_length /SpecDynamics.stars seq_length. now symmetry.
  - intros i Hi. rewrite map_length /SpecDynamics.stars seq_length in Hi. unfold SpecDynamics.stars. rewrite ProofsRecipes2.nth_map_seq //. now apply B.
Qed.
Print Assumptions C77_core_radius_is_a_mean.
(* C77: the core radius (isothermal): where the density profile around the centre drops to a third (in projection half) of
   its first value; it raises only if no bin is below that *)
Theorem C77_isothermal_core_radius :
  forall (G : galpy) (s : system) (u : usys) (o : osys) (projected : bool) (mfrac : R), let c := g_c (y_k s) in
    ready G c u o -> weighed G projected c -> measured s (nstars c) -> o = Ocentre \/ no_centre c = false -> 0 < mfrac <= 1 -> central_spread G projected s ->
    exists lo mid hi rho, central_densities G projected (nceil (1 / mfrac)) s lo mid hi rho /\
      let d := if projected then 1 / 2 * nth 0 rho 0 else nth 0 rho 0 / 3 in
      match rcore_isothermal G mfrac projected s with
      | Ok (r, s') => system_restored s s' /\ exists rc, r = Some rc /\ drops_to mid rho d (rc * in_pc (sizes G c))
      | Raise => forall i, (i < length rho)%nat -> d <= nth i rho 0
      end.
Proof. intros G s u o projected mfrac. apply isothermal_full. Qed.
Print Assumptions C77_isothermal_core_radius.
(* C77 finding: a cluster without a centre gets the density centre as a side effect, and keeps it *)
Theorem C77_centre_left_behind_refuted :
  forall (G : galpy) (c c0 c' : cluster) (u : usys) (k : nat) (projected : bool) (q : six R) (r : num),
    ready G c u Ocluster -> u <> Uamuse -> analyze true true c = c -> no_centre c = true ->
    find_centre_of_density G (default_centre Mcasertano) c = Ok (Some q, c0) -> rcore_casertano G k projected c = Ok (r, c') ->
    p_c (c_ph c') = q /\ ((sx q, sy q, sz q) <> (0, 0, 0) -> ~ restored c c').
Proof.
  intros G c c0 c' u k projected q r HR HU HA NC F E. pose proof (core_sets_centre HR HU HA NC F E) as X. split; [exact X|].
  intros N [Y _]. apply N. rewrite -X Y. move: NC. unfold no_centre. destruct (Reqb (sx (p_c (c_ph c))) 0) eqn:E1; [|discriminate].
  destruct (Reqb (sy (p_c (c_ph c))) 0) eqn:E2; [|discriminate]. destruct (Reqb (sz (p_c (c_ph c))) 0) eqn:E3; [|discriminate]. intros _.
  apply Reqb_spec in E1. apply Reqb_spec in E2. apply Reqb_spec in E3. now rewrite E1 E2 E3.
Qed.
Print Assumptions C77_centre_left_behind_refuted.
(* The same without a hypothesis on the centre found: six or more distinct stars of positive mass, all with x > 0. *)
Theorem C77_centre_left_behind_crowd_refuted :
  forall (G : galpy) (c : cluster) (u : usys) (k : nat) (projected : bool),
    ready G c u Ocluster -> u <> Uamuse -> analyze true true c = c -> SpecFrame.aligned c -> (6 <= nstars c)%nat -> (1 < k <= nstars c)%nat ->
    p_c (c_ph c) = zero6 -> (forall i, (i < nstars c)%nat -> 0 < mass c i) ->
    (forall i j, (i < nstars c)%nat -> (j < nstars c)%nat -> i <> j -> 0 < row_distance (row_at (star_table c) i) (row_at (star_table c) j)) ->
    (forall i, (i < nstars c)%nat -> 0 < nth i (sx (p_s (c_ph c))) 0) ->
    exists r c', rcore_casertano G k projected c = Ok (r, c') /\ ~ restored c c'.
Proof.
  intros G c u k projected HR HU HA AL H6 Hk Hc Hm Hd Hx. destruct (crowd_density G H6 AL Hm Hd Hx) as [q [c0 [F Q]]].
  assert (NC : no_centre c = true). { unfold no_centre. rewrite Hc. cbn [sx sy sz zero6]. assert (E : Reqb 0 0 = true) by now apply Reqb_spec. now rewrite !E. }
  destruct (core_runs projected HR HU HA NC AL F Hk) as [r [c' E]]. exists r, c'. split; [exact E|].
  destruct (C77_centre_left_behind_refuted G c c0 c' u k projected q r HR HU HA NC F E) as [_ X]. apply X. intros Y. injection Y as Y _ _. lra.
Qed.
Print Assumptions C77_centre_left_behind_crowd_refuted.

(* C67: core_relaxation_time is that of the core radius (6 neighbours) and the half-mass radius, in the units of time of the
   cluster; nan only if the core radius is, or if both radii are zero *)
Theorem C67_core_relaxation_time :
  forall (G : galpy) (gamma : R) (projected : bool) (c : cluster) (u : usys) (o : osys),
    ready G c u o -> positive_scales G (c_sc c) -> SpecFrame.aligned c -> well_sorted projected c ->
    (projected = true -> c_origin c <> Some Ogalaxy) -> nonneg (p_m (c_ph c)) -> 0 < sumR (p_m (c_ph c)) ->
    ln (gamma * INR (nstars c)) <> 0 -> (6 <= nstars c)%nat -> o <> Ocluster \/ no_centre c = false ->
    exists h r c', core_relaxation_time G gamma projected c = Ok (r, c') /\ restored c c' /\
      is_fraction_radius (1/2) (map (pc_distance G projected c) (SpecDynamics.stars c)) (map (sun_mass G c) (SpecDynamics.stars c)) h /\
      match r with
      | Some t => exists rc, casertano_radius G projected 6 c rc /\ 0 < rc + h /\
          t * in_Myr (sizes G c) = core_relaxation gamma (INR (nstars c)) (SpecDynamics.total_mass G c) rc h
      | None => no_core G projected 6 c \/ exists rc, casertano_radius G projected 6 c rc /\ rc + h = 0
      end.
Proof. intros G gamma projected c u o. apply core_relaxation_ok. Qed.
Print Assumptions C67_core_relaxation_time.

(* C78: virial_radius by critical density: in the order of distance, the mean densities inside each star; the result is where
   they cross overdens times the critical density, in the cluster's units; the cluster is as before.  nan: a star at the
   centre, or two neighbours in the order with one distance or one density. *)
Theorem C78_virial_radius_critical_density :
  forall (G : galpy) (crit : R -> R -> R -> R) (H Om overdens : R) (projected : bool) (c : cluster) (u : usys) (o : osys),
    ready G c u o -> positive_scales G (c_sc c) -> SpecFrame.aligned c -> well_sorted projected c ->
    (projected = true -> c_origin c <> Some Ogalaxy) -> (0 < nstars c)%nat ->
    let rho := crit (vo (c_sc c)) (ro (c_sc c)) H * overdens in
    exists order rv c', sorted_order order (map (pc_distance G projected c) (SpecDynamics.stars c)) /\
      virial_radius_critical_density G crit H Om overdens projected c = Ok (rv, c') /\ restored c c' /\
      match rv with
      | Some x => exists P, mean_densities (pc_distance G projected c) (sun_mass G c) order P /\
          crosses (map (pc_distance G projected c) order) P rho (x * in_pc (sizes G c)) /\
          ((forall k, (S k < length P)%nat -> nth (S k) P 0 < nth k P 0) ->
             crosses_falling (map (pc_distance G projected c) order) P rho (x * in_pc (sizes G c)))
      | None => (exists i, (i < nstars c)%nat /\ pc_distance G projected c i = 0) \/
          exists P k, mean_densities (pc_distance G projected c) (sun_mass G c) order P /\ (S k < nstars c)%nat /\
            (pc_distance G projected c (nth k order 0%nat) = pc_distance G projected c (nth (S k) order 0%nat) \/ nth k P 0 = nth (S k) P 0)
      end.
Proof.
  intros G crit H Om overdens p c u o HR HP HL HW Hp Hn rho.
  destruct (@critical_density_ok G crit H Om overdens p c u o HR HP HL HW Hp Hn) as [order [rv [c' [A1 [A2 [A3 A4]]]]]].
  exists order, rv, c'. split; [exact A1|]. split; [exact A2|]. split; [exact A3|]. destruct rv as [x|]; [|exact A4].
  destruct A4 as [P [B1 B2]]. exists P. split; [exact B1|]. split; [exact B2|]. intros F. apply falling_ok; [|exact F|exact B2].
  rewrite map_length. symmetry. exact (proj1 B1).
Qed.
Print Assumptions C78_virial_radius_critical_density.
(* C78 finding: the matter density Om asked for has no effect *)
Theorem C78_matter_density_ignored_refuted :
  forall (G : galpy) (crit : R -> R -> R -> R) (H Om Om' overdens : R) (projected : bool) (c : cluster),
    virial_radius_critical_density G crit H Om overdens projected c = virial_radius_critical_density G crit H Om' overdens projected c.
Proof. reflexivity. Qed.
Print Assumptions C78_matter_density_ignored_refuted.

(* C79: meq_function fits the dispersions in mass bins of the picked stars; the marker -1000 with too few; a mask given by
   the caller then holds exactly the stars picked; otherwise everything is as before *)
Theorem C79_equipartition_mass :
  forall (G : galpy) (fit : R -> R -> list R -> list R -> result line_fit) (q : selection) (indx : option (list bool)) (s : system)
    (n nmass : nat) (l : list nat), let c := g_c (y_k s) in let speed (i : nat) := seen_speed (l_projected q) (y_k s) i in
    profile_input G q indx s n -> (0 < n)%nat -> members n (picked q indx s) l -> (0 < nmass)%nat ->
    ((2 * nmass <= length l)%nat -> mass_spread (picked q indx s) (mass c) n) ->
    match meq_function G fit q indx nmass s with
    | Ok ((mean, sig, f), s', caller) => equipartition fit (mass c) speed n l nmass f /\ system_restored s s' /\ mask_after q indx s n caller /\
        ((2 * nmass <= length l)%nat -> dispersions_of (mass c) speed l nmass mean sig)
    | Raise => unfitted fit (mass c) speed n l nmass
    end.
Proof. intros G fit q indx s n nmass l. apply meq_function_ok. Qed.
Print Assumptions C79_equipartition_mass.

(* C79: ckin is the quotient of two equipartition masses: that of the stars within the 50 per cent Lagrange radius over that
   of the stars between the 40 and the 60 per cent radii (distances as stored).  With a mask, the first sample is also
   limited to the second, because the first call has overwritten the mask. *)
Theorem C79_kinematic_concentration :
  forall (G : galpy) (fit : R -> R -> list R -> list R -> result line_fit) (q : selection) (indx : option (list bool)) (s : system)
    (n nmass : nat), let c := g_c (y_k s) in let p := l_projected q in let speed (i : nat) := seen_speed p (y_k s) i in
    profile_input G q indx s n -> weighed G p c -> (p = true -> c_origin c <> Some Ogalaxy) -> (0 < nmass)%nat ->
    mixed (picked (within_radii None None q) indx s) (mass c) n (2 * nmass) ->
    exists rn l1 l2, lagrange_table 10 (own_distances p c) (p_m (c_ph c)) rn /\
      members n (picked (within_radii (Some (nth 3 rn 0)) (Some (nth 5 rn 0)) q) indx s) l1 /\
      members n (fun i => picked (within_radii (Some 0) (Some (nth 4 rn 0)) q) indx s i /\ (indx <> None -> In i l1)) l2 /\
      match ckin G fit q indx nmass s with
      | Ok (x, s', caller) => system_restored s s' /\
          (exists f1 f2, equipartition fit (mass c) speed n l1 nmass f1 /\ equipartition fit (mass c) speed n l2 nmass f2 /\
             quotient (t_slope f2) (t_slope f1) x) /\
          match indx with
          | None => caller = None
          | Some _ => exists m, caller = Some m /\ length m = n /\ forall i, (i < n)%nat -> nth i m false = true <-> In i l2
          end
      | Raise => unfitted fit (mass c) speed n l1 nmass \/ unfitted fit (mass c) speed n l2 nmass
      end.
Proof. intros G fit q indx s n nmass. apply ckin_ok. Qed.
Print Assumptions C79_kinematic_concentration.

(* C79 finding: relative to the galaxy, with every star stored farther from the origin than any is from the cluster, both
   samples are empty and ckin reports 1, the quotient of two markers, whatever the stars do *)
Theorem C79_galactic_frame_refuted :
  forall (G : galpy) (fit : R -> R -> list R -> list R -> result line_fit) (q : selection) (indx : option (list bool)) (s : system)
    (n nmass : nat), let c := g_c (y_k s) in let p := l_projected q in
    profile_input G q indx s n -> weighed G p c -> (p = true -> c_origin c <> Some Ogalaxy) -> (0 < nmass)%nat ->
    mixed (picked (within_radii None None q) indx s) (mass c) n (2 * nmass) ->
    (forall i j, (i < n)%nat -> (j < n)%nat -> own_distance p c i < SpecSubset.seen_distance p (y_k s) j) ->
    exists s' caller, ckin G fit q indx nmass s = Ok (Some 1, s', caller) /\ system_restored s s'.
Proof. intros G fit q indx s n nmass. apply ckin_far. Qed.
Print Assumptions C79_galactic_frame_refuted.
(* C79 finding: the limits rmin and rmax of the caller have no effect *)
Theorem C79_radii_ignored_refuted :
  forall (G : galpy) (fit : R -> R -> list R -> list R -> result line_fit) (q : selection) (lo hi : option R) (indx : option (list bool))
    (nmass : nat) (s : system), ckin G fit (within_radii lo hi q) indx nmass s = ckin G fit q indx nmass s.
Proof. reflexivity. Qed.
Print Assumptions C79_radii_ignored_refuted.

(* ---- the hypotheses are met *)
Lemma prof_no_centre o k : k <> 0 -> no_centre (five o k) = false.
Proof.
  intros H. unfold no_centre. rewrite five_ph. cbn [prof_raw c_ph p_c sx sy sz]. apply Reqb_false in H. now rewrite H.
Qed.
Lemma five_sizes o k : in_pc (sizes demo_galpy (five o k)) = 1 /\ c_origin (five o k) = Some o.
Proof.
  destruct (skel_eq_fields (skel_analyze true true (prof_raw o k))) as [U [O _]]. unfold sizes, five, prof_system. cbn [y_k g_c]. rewrite U O. now split.
Qed.
Lemma prof_ordinary o k i : (i < 5)%nat -> In i (ordinary_stars (prof_system o k)).
Proof.
  intros H. unfold ordinary_stars. apply filter_In. split; [|reflexivity]. unfold SpecDynamics.stars. apply in_seq.
  change (nstars (g_c (y_k (prof_system o k)))) with (nstars (five o k)). rewrite five_n. lia.
Qed.
Lemma prof_spread o k : o = Ocluster /\ k = 0 \/ o = Ogalaxy -> spread demo_galpy false (prof_system o k).
Proof.
  intros H. exists 0%nat, 1%nat. split; [apply prof_ordinary; lia|]. split; [apply prof_ordinary; lia|]. unfold pc_distance.
  change (g_c (y_k (prof_system o k))) with (five o k). destruct (five_sizes o k) as [-> _].
  pose proof (prof_own_distances o k H) as D. unfold own_distances in D. change (g_c (y_k (prof_system o k))) with (five o k) in D. rewrite five_n in D.
  cbn [seq map] in D. injection D as -> -> _ _ _. lra.
Qed.
Lemma five_central o k i : (i < 5)%nat -> o = Ogalaxy -> central_distance demo_galpy false (five o k) i = nth i [3; 2; 1; 4; 5] 0.
Proof.
  intros Hi ->. destruct (five_sizes Ogalaxy k) as [Z O]. unfold central_distance, central_star. rewrite O.
  unfold star_row. rewrite five_ph. cbn [prof_raw c_ph p_s p_g p_c]. unfold radius6, view6, relative6, zero6. cbn [sx sy sz svx svy svz].
  rewrite Z. assert (S : forall x y, 0 <= y -> x = y * y -> sqrt x = y) by (intros x y Hy ->; now apply sqrt_square).
  do 5 (destruct i as [|i]; [cbn [nth]; apply S; [lra|cbn; ring]|]). lia.
Qed.

Example C76_hypotheses_met : forall o, o = Ocluster \/ o = Ogalaxy ->
  let s := prof_system o (if oosys_eqb (Some o) (Some Ogalaxy) then 100 else 0) in let c := g_c (y_k s) in
  ready demo_galpy c Upckms o /\ positive_scales demo_galpy (c_sc c) /\ analyze true true c = c /\ measured s (nstars c) /\ spread demo_galpy false s.
Proof.
  intros o Ho. cbv zeta. set (k := if oosys_eqb (Some o) (Some Ogalaxy) then 100 else 0).
  assert (H : o = Ocluster /\ k = 0 \/ o = Ogalaxy) by (unfold k; destruct Ho as [-> | ->]; [left; split; reflexivity|right; reflexivity]).
  split; [apply five_ready; destruct Ho as [-> | ->]; discriminate|]. split; [exact (proj1 (prof_weighed o k))|].
  split; [apply analyze_idem|]. split; [|now apply prof_spread]. change (nstars (g_c (y_k (prof_system o k)))) with (nstars (five o k)).
  rewrite five_n. apply prof_measured.
Qed.

(* a cluster 100 pc from the centre of the galaxy, its offset set *)
Example C77_hypotheses_met : let s := prof_system Ogalaxy 100 in let c := g_c (y_k s) in
  ready demo_galpy c Upckms Ogalaxy /\ positive_scales demo_galpy (c_sc c) /\ analyze true true c = c /\ SpecFrame.aligned c /\
  no_centre c = false /\ nstars c = 5%nat /\ measured s (nstars c) /\ central_spread demo_galpy false s /\ well_sorted false c /\
  (forall i, (i < nstars c)%nat -> 1 <= central_distance demo_galpy false c i <= 5).
Proof.
  cbv zeta. split; [apply five_ready; discriminate|]. split; [exact (proj1 (prof_weighed Ogalaxy 100))|]. split; [apply analyze_idem|].
  split; [apply five_aligned|]. split; [apply prof_no_centre; lra|]. split; [apply five_n|].
  change (g_c (y_k (prof_system Ogalaxy 100))) with (five Ogalaxy 100). rewrite five_n. split; [apply prof_measured|].
  split; [|split; [exact (proj1 (proj2 (prof_weighed Ogalaxy 100)))|]].
  - exists 0%nat, 1%nat. split; [apply prof_ordinary; lia|]. split; [apply prof_ordinary; lia|].
    change (g_c (y_k (prof_system Ogalaxy 100))) with (five Ogalaxy 100). rewrite !five_central; [lia|reflexivity|lia|reflexivity|]. cbn. lra.
  - intros i Hi. rewrite five_central; [exact Hi|reflexivity|]. do 5 (destruct i as [|i]; [cbn; lra|]). lia.
Qed.

(* C67: six stars around the centre *)
Definition six_raw : cluster :=
  mkC (Some Upckms) (Some Ocentre) (Some (Bu Upckms)) 0
      (mkP 0 [1; 2; 3; 1; 1; 1] (mk6 [3; 0; -1; 0; 0; 6] [0; 2; 0; -4; 5; 0] [0; 0; 0; 0; 0; 0] [1; 0; 2; 3; 0; 0] [0; 2; 1; 1; 1; 0] [0; 0; 3; 0; 0; 0])
           zero6 zero6)
      (mkSc 1 1 1 1 1 1 1 8 220) (mkB [] [] [] []) (mkSk nil6 zero6 zero6 None None None) empty_derived [1; 2; 3; 4; 5; 6]%Z.
Example C67_core_hypotheses_met : let c := analyze true true six_raw in
  ready demo_galpy c Upckms Ocentre /\ positive_scales demo_galpy (c_sc c) /\ SpecFrame.aligned c /\ well_sorted false c /\
  nonneg (p_m (c_ph c)) /\ 0 < sumR (p_m (c_ph c)) /\ ln (2 / 10 * INR (nstars c)) <> 0 /\ nstars c = 6%nat /\ Ocentre <> Ocluster.
Proof.
  cbv zeta. destruct (skel_eq_fields (skel_analyze true true six_raw)) as [_ [_ [_ [_ [E5 [E6 _]]]]]].
  split; [apply ProofsEnergy2.analyzed_ready; unfold ready, good_scales; cbn [c_sc c_units c_origin six_raw]; split; [cbn; repeat split; lra|]; split; [reflexivity|]; split; [discriminate|]; split; [reflexivity|discriminate]|].
  rewrite E6. unfold SpecFrame.aligned, nstars. rewrite E5. cbn [six_raw c_ph c_sc p_m p_s].
  split; [cbn; repeat split; cbn; lra|]. split; [cbn; now repeat split|]. split; [now apply first_analysis|].
  split; [intros a [H|[H|[H|[H|[H|[H|[]]]]]]]; subst; lra|]. split; [cbn; lra|]. split; [|split; [reflexivity|discriminate]].
  assert (H : 0 < ln (2 / 10 * INR 6)); [|cbn [length]; lra]. rewrite -ln_1. apply ln_increasing; cbn; lra.
Qed.

(* C77: a crowd of six stars, all at x > 0, asked from the orbit of the cluster *)
Definition crowd_raw : cluster :=
  mkC (Some Upckms) (Some Ocluster) (Some (Bu Upckms)) 0
      (mkP 0 [1; 2; 3; 1; 1; 1] (mk6 [1; 2; 3; 4; 5; 6] [0; 2; 0; -4; 5; 0] [0; 0; 0; 0; 0; 0] [1; 0; 2; 3; 0; 0] [0; 2; 1; 1; 1; 0] [0; 0; 3; 0; 0; 0])
           zero6 (mk6 1000 0 0 0 1 0))
      (mkSc 1 1 1 1 1 1 1 8 220) (mkB [] [] [] []) (mkSk nil6 zero6 zero6 None None None) empty_derived [1; 2; 3; 4; 5; 6]%Z.
Example C77_crowd_hypotheses_met : let c := analyze true true crowd_raw in
  ready demo_galpy c Upckms Ocluster /\ analyze true true c = c /\ SpecFrame.aligned c /\ nstars c = 6%nat /\ p_c (c_ph c) = zero6 /\
  (forall i, (i < nstars c)%nat -> 0 < mass c i) /\
  (forall i j, (i < nstars c)%nat -> (j < nstars c)%nat -> i <> j -> 0 < row_distance (row_at (star_table c) i) (row_at (star_table c) j)) /\
  (forall i, (i < nstars c)%nat -> 0 < nth i (sx (p_s (c_ph c))) 0).
Proof.
  cbv zeta. destruct (skel_eq_fields (skel_analyze true true crowd_raw)) as [_ [_ [_ [_ [E5 [E6 _]]]]]].
  split; [apply ProofsEnergy2.analyzed_ready; unfold ready, good_scales; cbn [c_sc c_units c_origin crowd_raw]; split; [cbn; repeat split; lra|]; split; [reflexivity|]; split; [discriminate|]; split; [reflexivity|discriminate]|].
  split; [apply analyze_idem|]. unfold SpecFrame.aligned, nstars, mass, star_table. rewrite E5. cbn [crowd_raw c_ph p_m p_s p_c].
  split; [cbn; now repeat split|]. split; [reflexivity|]. split; [reflexivity|]. cbn [length].
  split; [intros i Hi; do 6 (destruct i as [|i]; [cbn; lra|]); lia|].
  split; [|intros i Hi; do 6 (destruct i as [|i]; [cbn; lra|]); lia].
  intros i j Hi Hj N. do 6 (destruct i as [|i]; [do 6 (destruct j as [|j]; [first [now contradiction N|apply sqrt_lt_R0; cbn; lra]|]); lia|]). lia.
Qed.

Lemma prof_mixed o k (indx : option (list bool)) : mixed (picked (within_radii None None select_default) indx (prof_system o k)) (mass (g_c (y_k (prof_system o k)))) 5 (2 * 2).
Proof.
  intros l N H Hl.
  assert (I1 : In 1%nat l \/ In 2%nat l).
  { destruct (in_dec Nat.eq_dec 1%nat l) as [?|A]; [now left|]. destruct (in_dec Nat.eq_dec 2%nat l) as [?|B]; [now right|]. exfalso.
    assert (X : incl l [0; 3; 4]%nat). { intros i Hi. destruct (H i Hi) as [Hi5 _]. do 5 (destruct i as [|i]; [cbn; tauto|]). lia. }
    pose proof (NoDup_incl_length N X) as Y. cbn in Y. lia. }
  assert (I2 : exists j, In j l /\ j <> 1%nat /\ j <> 2%nat).
  { destruct (in_dec Nat.eq_dec 0%nat l) as [A|A]; [exists 0%nat; split; [exact A|lia]|]. destruct (in_dec Nat.eq_dec 3%nat l) as [B|B]; [exists 3%nat; split; [exact B|lia]|].
    destruct (in_dec Nat.eq_dec 4%nat l) as [C|C]; [exists 4%nat; split; [exact C|lia]|]. exfalso.
    assert (X : incl l [1; 2]%nat). { intros i Hi. destruct (H i Hi) as [Hi5 _]. do 5 (destruct i as [|i]; [cbn; tauto|]). lia. }
    pose proof (NoDup_incl_length N X) as Y. cbn in Y. lia. }
  destruct I2 as [j [Ij [J1 J2]]]. destruct (H j Ij) as [Hj _].
  assert (E : mass (g_c (y_k (prof_system o k))) j = 1) by (rewrite prof_mass; do 5 (destruct j as [|j]; [cbn; first [lra | exfalso; lia]|]); lia).
  destruct I1 as [I1|I1]; [exists 1%nat, j|exists 2%nat, j]; (split; [exact I1|]; split; [exact Ij|]); rewrite E prof_mass; cbn; lra.
Qed.
Example C79_hypotheses_met :
  (forall indx, SpecSubset.mask_fits indx 5 -> let s := prof_system Ocluster 0 in let c := g_c (y_k s) in
     profile_input demo_galpy select_default indx s 5 /\ weighed demo_galpy false c /\
     mixed (picked (within_radii None None select_default) indx s) (mass c) 5 (2 * 2)) /\
  (let s := prof_system Ogalaxy 100 in let c := g_c (y_k s) in
     profile_input demo_galpy select_default None s 5 /\ weighed demo_galpy false c /\
     mixed (picked (within_radii None None select_default) None s) (mass c) 5 (2 * 2) /\
     forall i j, (i < 5)%nat -> (j < 5)%nat -> own_distance false c i < SpecSubset.seen_distance false (y_k s) j).
Proof.
  split; [|cbv zeta].
  - intros indx MF. cbv zeta. split; [apply prof_input; [discriminate|exact MF]|]. split; [apply prof_weighed|apply prof_mixed].
  - split; [apply prof_input; [discriminate|exact I]|]. split; [apply prof_weighed|]. split; [apply prof_mixed|]. intros i j Hi Hj.
    pose proof (prof_own_distances Ogalaxy 100 (or_intror eq_refl)) as D. unfold own_distances in D.
    change (g_c (y_k (prof_system Ogalaxy 100))) with (five Ogalaxy 100) in *. rewrite five_n in D. cbn [seq map] in D. injection D as D0 D1 D2 D3 D4.
    assert (A : own_distance false (five Ogalaxy 100) i <= 5) by (do 5 (destruct i as [|i]; [lra|]); lia).
    assert (B : 99 <= SpecSubset.seen_distance false (y_k (prof_system Ogalaxy 100)) j); [|lra].
    unfold SpecSubset.seen_distance, star_at. cbn [w_s]. change (g_c (y_k (prof_system Ogalaxy 100))) with (five Ogalaxy 100). rewrite five_ph. cbn [prof_raw c_ph p_s].
    assert (S : forall x y, 99 <= x -> 99 <= sqrt (x ^ 2 + y ^ 2 + 0 ^ 2)).
    { intros x y Hx. apply Rle_trans with (sqrt (99 * 99)); [rewrite sqrt_square; lra|]. apply sqrt_le_1_alt. nra. }
    do 5 (destruct j as [|j]; [apply S; cbn; lra|]). lia.
Qed.
