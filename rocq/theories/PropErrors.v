(* C99: sessions in which analyses fail. *)
From Verif Require Import Base ModelCluster ModelOps ModelConv ModelEnergy ModelRecipes ModelLagrange ModelProfiles ModelDynamics ModelStars ModelOrbit ModelRadii ModelTail ModelCentre ModelHistory ModelErrors.
From Verif Require Import SpecUnits SpecFrame SpecOrder SpecEnergy SpecLagrange SpecHistory SpecErrors ProofsUnits ProofsFrame ProofsEnergy2 ProofsRadii9 ProofsHistory ProofsHistory2 ProofsHistory3 ProofsErrors.
From Verif Require Import PropUnits PropFrame PropLagrange PropProfiles PropDynamics.
Open Scope list_scope. Open Scope R_scope.

(* C99: whatever is asked, and whether or not it fails, the cluster is as if only the changes of units and origin of the session had been made, among them
   the detours of the analyses that failed; every reply is the one the request gets alone on the cluster taken through the changes made so far *)
Theorem C99_interactive :
  forall (G : galpy) (l : list request) (c : cluster) (u : usys) (o : osys),
    ready G c u o -> analyze true true c = c -> Forall allowed l ->
    let '(replies, c') := interactive G l c in
    length replies = length l /\
    restored (run G (itinerary (combine l replies) u o) c) c' /\
    forall i, (i < length l)%nat ->
      nth i replies Done = reply_alone G (nth i l (Ask Tail)) (run G (itinerary (firstn i (combine l replies)) u o) c).
Proof.
  intros G l c u o HR HA HF. pose proof (@interactive_ok G l c c u o (conj HR HA) (restored_refl c) HF) as K.
  destruct (interactive G l c) as [rs c']. destruct K as [K1 [K2 [_ K4]]]. split; [exact K1|]. split; [exact K2|exact K4].
Qed.
Print Assumptions C99_interactive.

(* C99: no session, failures included, changes where the stars are, their velocities and masses, seen from the Galaxy in pc, km/s and Msun, nor ids and scales *)
Theorem C99_stars_kept :
  forall (G : galpy) (l : list request) (c : cluster) (u : usys) (o : osys),
    ready G c u o -> analyze true true c = c -> Forall allowed l ->
    let c' := snd (interactive G l c) in
    galactic_view G c' = galactic_view G c /\ (exists u' o', ready G c' u' o') /\ c_sc c' = c_sc c /\ c_id c' = c_id c /\ c_nb c' = c_nb c.
Proof.
  intros G l c u o HR HA HF c'. pose proof (@interactive_ok G l c c u o (conj HR HA) (restored_refl c) HF) as K. unfold c'.
  destruct (interactive G l c) as [rs d]. destruct K as [_ [K2 [K3 _]]]. cbn [snd].
  assert (FF : Forall flat_op (itinerary (combine l rs) u o)) by (revert K3; apply Forall_impl; intros op [X _]; exact X).
  destruct (run_view HR FF) as [V [R1 [S1 [I1 [_ N1]]]]]. pose proof K2 as K3'. destruct K2 as [P [U [O [_ [Sc [Id [_ Nb]]]]]]].
  split; [|split; [|split; [|split]]].
  - rewrite <- V. unfold galactic_view, origin_shift. rewrite P U Sc. now rewrite ?O.
  - do 2 eexists. exact (@same_ready G _ _ _ _ K3' R1).
  - now rewrite Sc.
  - now rewrite Id.
  - now rewrite Nb.
Qed.
Print Assumptions C99_stars_kept.

(* finding: relaxation_time at a given radius fails and leaves the cluster in pc and km/s, away from the galactic frame *)
Theorem C99_relaxation_left_refuted :
  forall (G : galpy) (rad coulomb : R) (projected : bool) (c : cluster) (u : usys) (o : osys),
    ready G c u o -> analyze true true c = c -> u <> Upckms \/ o = Ogalaxy ->
    let '(r, c') := attempt G (RelaxationAt rad coulomb projected) c in
    r = Error /\ c_units c' = Some Upckms /\ c_origin c' <> Some Ogalaxy /\ ~ restored c c'.
Proof.
  intros G rad k p c u o HR HA D. cbn [attempt]. unfold relaxation_time. cbv zeta.
  pose proof (relax_detour (conj HR HA)) as E. pose proof (detour_sorting (HalfMassRelaxation 0 false) u o) as S1.
  destruct (good_run (conj HR HA) S1) as [R1 _]. rewrite <- E in R1. destruct R1 as [_ [U1 [_ [O1 _]]]].
  assert (U2 : last_units (detour (HalfMassRelaxation 0 false) u o) u = Upckms) by now destruct o.
  assert (O2 : last_origin (detour (HalfMassRelaxation 0 false) u o) o <> Ogalaxy) by now destruct o.
  split; [reflexivity|]. rewrite U1 U2. split; [reflexivity|]. split; [rewrite O1; congruence|].
  intros [_ [X [Y _]]]. destruct HR as [_ [HU [_ [HO _]]]]. rewrite U1 U2 HU in X. rewrite O1 HO in Y. destruct D as [D|D]; congruence.
Qed.
Print Assumptions C99_relaxation_left_refuted.

(* finding: asking for the radius of more than the whole mass fails and leaves a cluster of the galactic frame about its centre *)
Theorem C99_fraction_left_refuted :
  forall (G : galpy) (f : R) (c : cluster) (u : usys),
    ready G c u Ogalaxy -> positive_scales G (c_sc c) -> SpecFrame.aligned c -> well_sorted false c -> nonneg (p_m (c_ph c)) -> 0 < sumR (p_m (c_ph c)) ->
    1 < f ->
    let '(r, c') := attempt G (Ask (Fraction f false)) c in r = Error /\ c_origin c' = Some Ocentre /\ c_origin c = Some Ogalaxy.
Proof.
  intros G f c u HR HP HL HW HN HM H1. cbn [attempt measure].
  assert (H0 : 0 < f) by lra. pose proof (C37_one_fraction G f false c u Ogalaxy HR HP HL HW (fun E => ltac:(discriminate E)) H0 HN HM) as Q.
  destruct (Rle_dec f 1) as [X|_]; [lra|]. rewrite Q. cbn [bind left_behind]. split; [reflexivity|].
  destruct HW as [HA _]. pose proof (lagrange_detour (conj HR HA)) as E. pose proof (detour_sorting (Lagrange 0 false) u Ogalaxy) as S1.
  destruct (good_run (conj HR HA) S1) as [R1 _]. rewrite <- E in R1. destruct R1 as [_ [_ [_ [O1 _]]]].
  split; [|destruct HR as [_ [_ [_ [HO _]]]]; exact HO]. rewrite O1. cbn [detour]. now destruct u.
Qed.
Print Assumptions C99_fraction_left_refuted.

(* ---- the hypotheses are met by five stars 100 pc from the galactic centre and a session with two failures *)
Definition failing_session : list request := [Ask (Lagrange 4 false); Ask (Fraction 2 false); Units Ukpckms; RelaxationAt 1 1 false; Ask (Virial false true); Origin Ogalaxy].
Example C99_hypotheses_met : let c := five Ogalaxy 100 in
  ready demo_galpy c Upckms Ogalaxy /\ analyze true true c = c /\ Forall allowed failing_session /\ positive_scales demo_galpy (c_sc c) /\ SpecFrame.aligned c /\
  well_sorted false c /\ nonneg (p_m (c_ph c)) /\ 0 < sumR (p_m (c_ph c)) /\
  itinerary (combine failing_session [Answer (Aone 0); Error; Done; Error; Answer (Aone 0); Done]) Upckms Ogalaxy =
    [OpOrigin Ocentre true; OpUnits Ukpckms; OpUnits Upckms; OpOrigin Ogalaxy true].
Proof.
  destruct (C42_hypotheses_met Ogalaxy (or_intror eq_refl)) as [A1 [A2 [A3 [A4 [A5 [_ [_ [A7 [A8 _]]]]]]]]].
  cbn zeta in *. cbn [oosys_eqb] in *.
  split; [exact A1|]. split; [exact A4|]. split; [repeat constructor; discriminate|]. split; [exact A2|]. split; [exact A3|]. split; [exact A8|]. split; [exact A5|]. split; [exact A7|]. reflexivity.
Qed.
Print Assumptions C99_hypotheses_met.
