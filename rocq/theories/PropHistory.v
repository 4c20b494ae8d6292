(* C98: sessions of analyses, changes of units and changes of origin. *)
From Verif Require Import Base ModelCluster ModelOps ModelConv ModelEnergy ModelRecipes ModelLagrange ModelProfiles ModelDynamics ModelStars ModelOrbit ModelRadii ModelTail ModelCentre ModelHistory.
From Verif Require Import SpecUnits SpecFrame SpecOrder SpecEnergy SpecLagrange SpecHistory ProofsUnits ProofsFrame ProofsEnergy2 ProofsRadii9 ProofsHistory ProofsHistory2 ProofsHistory3.
From Verif Require Import PropUnits PropFrame PropLagrange PropProfiles PropDynamics.
Open Scope list_scope. Open Scope R_scope.

(* C98: in a session of any length, every analysis gives the answer (or the error) it gives when made alone, first, on the cluster taken through the changes of
   units and origin that precede it; at the end the cluster is as if there had been only those changes (binary elements apart, see C10) *)
Theorem C98_session :
  forall (G : galpy) (l : list step) (c : cluster) (u : usys) (o : osys),
    ready G c u o -> analyze true true c = c -> Forall plain l ->
    match session G l c with
    | Ok (answers, c') => restored (run G (moves l) c) c' /\ length answers = measured l /\
        forall before a after, l = before ++ Measure a :: after ->
          alone G a (run G (moves before) c) = Ok (nth (measured before) answers (Aone 0))
    | Raise => exists before a after, l = before ++ Measure a :: after /\ alone G a (run G (moves before) c) = Raise
    end.
Proof. intros G l c u o HR HA HF. exact (session_gen HF HR HA (restored_refl c)). Qed.
Print Assumptions C98_session.

(* C98: analyses one after the other can be made in any order, and repeated *)
Theorem C98_order_of_analyses :
  forall (G : galpy) (l1 l2 : list analysis) (c c1 c2 : cluster) (x1 x2 : list answer) (u : usys) (o : osys),
    ready G c u o -> analyze true true c = c ->
    session G (map Measure l1) c = Ok (x1, c1) -> session G (map Measure l2) c = Ok (x2, c2) ->
    restored c c1 /\ restored c1 c2 /\
    forall i j, (i < length l1)%nat -> (j < length l2)%nat -> nth i l1 Tail = nth j l2 Tail -> nth i x1 (Aone 0) = nth j x2 (Aone 0).
Proof.
  intros G l1 l2 c c1 c2 x1 x2 u o HR HA E1 E2.
  assert (M : forall l, moves (map Measure l) = []) by (induction l as [|a l IH]; [reflexivity|exact IH]).
  assert (N : forall l, measured (map Measure l) = length l).
  { induction l as [|a l IH]; [reflexivity|]. unfold measured in *. cbn. now rewrite IH. }
  assert (P : forall l, Forall plain (map Measure l)) by (induction l; constructor; [exact Logic.I|assumption]).
  pose proof (@C98_session G (map Measure l1) c u o HR HA (P l1)) as S1. rewrite E1 in S1. destruct S1 as [A1 [_ B1]].
  pose proof (@C98_session G (map Measure l2) c u o HR HA (P l2)) as S2. rewrite E2 in S2. destruct S2 as [A2 [_ B2]].
  rewrite M in A1. rewrite M in A2. cbn [run fold_left] in A1. cbn [run fold_left] in A2. split; [exact A1|]. split.
  - apply bare_restored. pose proof (proj1 (bare_restored _ _) A1) as Q1. pose proof (proj1 (bare_restored _ _) A2) as Q2. exact (eq_trans (eq_sym Q1) Q2).
  - intros i j Hi Hj E.
    assert (W : forall (l : list analysis) k, (k < length l)%nat -> map Measure l = map Measure (firstn k l) ++ Measure (nth k l Tail) :: map Measure (skipn (S k) l)).
    { intros l k Hk. rewrite -map_cons -map_app. f_equal. rewrite -{1}(firstn_skipn k l). f_equal.
      clear -Hk. revert k Hk. induction l as [|a l IH]; intros k Hk; [cbn in Hk; lia|]. destruct k as [|k]; [reflexivity|]. cbn. apply IH. cbn in Hk. lia. }
    pose proof (B1 _ _ _ (W l1 i Hi)) as X1. pose proof (B2 _ _ _ (W l2 j Hj)) as X2. rewrite M N firstn_length in X1. rewrite M N firstn_length in X2.
    rewrite (Nat.min_l i) in X1; [lia|]. rewrite (Nat.min_l j) in X2; [lia|]. cbn [run fold_left] in X1. cbn [run fold_left] in X2. rewrite E in X1. congruence.
Qed.
Print Assumptions C98_order_of_analyses.

(* C98: two sessions with the same changes of units and origin leave the same cluster, whatever was measured on the way *)
Theorem C98_same_changes :
  forall (G : galpy) (l1 l2 : list step) (c c1 c2 : cluster) (x1 x2 : list answer) (u : usys) (o : osys),
    ready G c u o -> analyze true true c = c -> Forall plain l1 -> Forall plain l2 -> moves l1 = moves l2 ->
    session G l1 c = Ok (x1, c1) -> session G l2 c = Ok (x2, c2) -> restored c1 c2.
Proof.
  intros G l1 l2 c c1 c2 x1 x2 u o HR HA F1 F2 M E1 E2.
  pose proof (@C98_session G l1 c u o HR HA F1) as S1. rewrite E1 in S1. destruct S1 as [A1 _].
  pose proof (@C98_session G l2 c u o HR HA F2) as S2. rewrite E2 in S2. destruct S2 as [A2 _].
  rewrite M in A1. apply bare_restored. pose proof (proj1 (bare_restored _ _) A1) as Q1. pose proof (proj1 (bare_restored _ _) A2) as Q2. exact (eq_trans (eq_sym Q1) Q2).
Qed.
Print Assumptions C98_same_changes.

(* C98: a session that comes back to the units and origin of the start leaves the stars, masses and time as they were *)
Theorem C98_round_trip :
  forall (G : galpy) (l : list step) (c c' : cluster) (x : list answer) (u : usys) (o : osys),
    ready G c u o -> analyze true true c = c -> Forall plain l -> last_units (moves l) u = u -> last_origin (moves l) o = o ->
    session G l c = Ok (x, c') -> c_ph c' = c_ph c.
Proof.
  intros G l c c' x u o HR HA F LU LO E.
  pose proof (@C98_session G l c u o HR HA F) as S1. rewrite E in S1. destruct S1 as [[A1 _] _]. rewrite A1.
  apply (C07_origin_round_trip G (moves l) c u o HR); [|exact LU|exact LO].
  clear -F. induction l as [|a l IH]; [constructor|]. inversion F; subst. destruct a; cbn [moves]; [constructor; [assumption|now apply IH]|constructor; [assumption|now apply IH]|now apply IH].
Qed.
Print Assumptions C98_round_trip.

(* ---- the hypotheses are met by five stars and a session of six analyses in three systems of units and two origins, all of which succeed *)
Definition demo_session : list step :=
  [Measure (Lagrange 10 false); Measure (Virial false true); ToUnits Ukpckms; Measure (Energies false false true 0); Measure Tail; ToOrigin Ogalaxy;
   ToUnits Unbody; Measure (EnergiesOf true 0 [true; false; true; true; false]); Measure (Virial true false); ToOrigin Ocluster; ToUnits Upckms].
(* energies, virial radius (inverse distances) and tail never raise *)
Lemma sure_session G l : Forall (fun s => match s with Measure a => match a with Energies _ _ _ _ | EnergiesOf _ _ _ | Virial _ _ | ModelHistory.Tail => True | _ => False end | _ => True end) l ->
  forall c, exists x c', session G l c = Ok (x, c').
Proof.
  induction l as [|s l IH]; intros F c; [now exists [], c|]. inversion F as [|? ? F1 F2]; subst. destruct s as [w|w|a]; cbn [session]; [now apply IH|now apply IH|].
  assert (Q : exists y d, measure G a c = Ok (y, d)) by (destruct a; try contradiction; cbn [measure]; cbv zeta; do 2 eexists; exact (eq_refl _)).
  destruct Q as [y [d ->]]. cbn [bind fst snd]. destruct (IH F2 d) as [x [c' ->]]. cbn [bind fst snd]. do 2 eexists. exact (eq_refl _).
Qed.
Example C98_hypotheses_met : let c := five Ocluster 0 in
  ready demo_galpy c Upckms Ocluster /\ analyze true true c = c /\ Forall plain demo_session /\
  last_units (moves demo_session) Upckms = Upckms /\ last_origin (moves demo_session) Ocluster = Ocluster /\
  exists x c', session demo_galpy demo_session c = Ok (x, c').
Proof.
  destruct (C42_hypotheses_met Ocluster (or_introl eq_refl)) as [A1 [A2 [A3 [A4 [A5 [_ [_ [A7 [A8 [A9 [A10 [A11 [A12 A13]]]]]]]]]]]]].
  cbn zeta in *. cbn [oosys_eqb] in *.
  split; [exact A1|]. split; [exact A4|]. split; [repeat constructor; try discriminate|]. split; [reflexivity|]. split; [reflexivity|].
  destruct (C37_lagrange_radii demo_galpy 10 false _ _ _ A1 A2 A3 A8 (fun E => ltac:(discriminate E)) ltac:(lia) A5 A7) as [rn [c1 [E _]]].
  unfold demo_session.
  match goal with |- context [session _ (Measure (Lagrange 10 false) :: ?l) _] => set (rest := l) end. cbn [session measure]. rewrite E. cbn [bind fst snd].
  destruct (sure_session demo_galpy rest ltac:(unfold rest; repeat constructor) c1) as [x [c' ->]]. cbn [bind fst snd]. do 2 eexists. exact (eq_refl _).
Qed.
Print Assumptions C98_hypotheses_met.
