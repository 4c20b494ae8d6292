(* C80: sub_cluster with its reset options. *)
From Coq Require Import Sorted.
From Verif Require Import Base ModelCluster ModelOps ModelConv ModelEnergy ModelRecipes ModelLagrange ModelStars ModelSubset ModelCoords ModelCentre ModelDynamics ModelReset.
From Verif Require Import SpecUnits SpecFrame SpecConv SpecOrder SpecRecipes SpecEnergy SpecLagrange SpecStars SpecSubset SpecProfiles SpecDynamics SpecCentre SpecReset.
From Verif Require Import ProofsUnits ProofsFrame ProofsEnergyUnits ProofsStars ProofsSubset ProofsSubset4 ProofsDynamics5 ProofsCentre ProofsCentre2 ProofsCentre5
  ProofsReset ProofsReset2 ProofsReset3 ProofsReset4 ProofsReset5.
From Verif Require Import PropUnits PropCentre PropProfiles PropDynamics.

(* the options of a call: reset_centre; reset_nbody, reset_nbody_mass, reset_nbody_radii, with rvirial and projected *)
Definition options (centre nbody mass radii rvirial projected : bool) : reset := mkReset centre nbody mass radii rvirial projected false.
(* the call without options selects at least one star *)
Definition plain_call (G : galpy) (q : selection) (indx : option (list bool)) (sort : bool) (s : system) (sub0 parent : system) (caller : option (list bool)) : Prop :=
  sub_cluster G q indx sort s = Ok (sub0, parent, caller) /\ p_m (c_ph (g_c (y_k sub0))) <> [].
Definition call_ok (G : galpy) (q : selection) (indx : option (list bool)) (s : system) (n : nat) (u : usys) (o : osys) : Prop :=
  ready G (g_c (y_k s)) u o /\ complete s n /\ (1 <= n)%nat /\ energies_known q s n /\ SpecSubset.mask_fits indx n.

(* C80: with every option off the call is the one of C23. *)
Theorem C80_no_options :
  forall (G : galpy) (q : selection) (indx : option (list bool)) (sort rvirial projected : bool) (s : system) (n : nat),
    complete s n -> (1 <= n)%nat -> energies_known q s n -> SpecSubset.mask_fits indx n ->
    sub_cluster_reset G (options false false false false rvirial projected) q indx sort s = sub_cluster G q indx sort s.
Proof. intros G q indx sort rv pr s n H1 H2 H3 H4. exact (@reset_none G q indx sort s n H1 H2 H3 H4). Qed.
Print Assumptions C80_no_options.

(* C80: reset_centre=True changes nothing but the recorded centre.  The stars keep their rows, coordinates, masses and data, the
   caller's mask and the parent are treated alike, and, in the frame of the cluster or of the galaxy, to_centre now goes to the
   density centre of the selected stars. *)
Theorem C80_reset_centre :
  forall (G : galpy) (q : selection) (indx : option (list bool)) (sort : bool) (s : system) (n : nat) (u : usys) (o : osys)
         (sub0 parent : system) (caller : option (list bool)),
    call_ok G q indx s n u o -> plain_call G q indx sort s sub0 parent caller -> o = Ocluster \/ o = Ogalaxy ->
    exists p sub, sub_cluster_reset G (options true false false false false false) q indx sort s = Ok (sub, parent, caller) /\
      outcome (find_centre_of_density G first_guess (g_c (y_k sub0))) = Ok (Some p) /\
      (o = Ocluster -> p_c (c_ph (g_c (y_k sub))) = p /\ p_g (c_ph (g_c (y_k sub))) = p_g (c_ph (g_c (y_k s)))) /\
      (o = Ogalaxy -> p_c (c_ph (g_c (y_k sub))) = zero6 /\ p_g (c_ph (g_c (y_k sub))) = p) /\
      (forall st, let c' := to_centre st (g_c (y_k sub)) in moved (opposite p) (g_c (y_k sub0)) c' /\ c_origin c' = Some Ocentre) /\
      same_rows sub sub0 /\ SpecSubset.measured sub (g_ntot (y_k sub)) /\ ready G (g_c (y_k sub)) u o /\
      c_sc (g_c (y_k sub)) = c_sc (g_c (y_k sub0)) /\ p_t (c_ph (g_c (y_k sub))) = p_t (c_ph (g_c (y_k sub0))) /\
      (u <> Uamuse -> c_bin (g_c (y_k sub)) = c_bin (g_c (y_k sub0))) /\ (sort = true -> well_sorted false (g_c (y_k sub))).
Proof.
  intros G q indx sort s n u o sub0 parent caller [HR [CO [Hn [EK MF]]]] [ER NE] O.
  destruct (reset_centre_call HR CO Hn EK MF ER NE) as [p [sub [E [D [SR [M [R1 [R0 [Es [Em [Et [Ec [Eb [CL [_ W]]]]]]]]]]]]]]].
  exists p, sub. split; [exact E|]. split.
  { change (@outcome (option (six R))) with (@answer (option (six R))). now rewrite density_answer' D. }
  split; [intros ->; cbn in CL; split; congruence|]. split; [intros ->; cbn in CL; split; congruence|]. split.
  { intros st. cbv zeta. destruct (@centre_at G st p _ u o R1 O) as [C1 [C2 C3]].
    - destruct O as [-> | ->]; cbn in CL |- *; [|exact CL]. injection CL as -> ->. reflexivity.
    - split; [|exact C3]. split; [now rewrite C1|]. rewrite C2 Es. reflexivity. }
  split; [exact SR|]. split; [exact M|]. split; [exact R1|]. split; [exact Ec|]. split; [exact Et|]. split; [exact Eb|exact W].
Qed.
Print Assumptions C80_reset_centre.

(* C80 finding: for a cluster stored relative to its centre reset_centre=True does not record the new centre; instead the
   velocity of the old centre is lost, so every star's velocity in the galaxy changes by it. *)
Theorem C80_reset_centre_in_the_centre_frame_refuted :
  forall (G : galpy) (q : selection) (indx : option (list bool)) (sort : bool) (s : system) (n : nat) (u : usys)
         (sub0 parent : system) (caller : option (list bool)),
    call_ok G q indx s n u Ocentre -> plain_call G q indx sort s sub0 parent caller ->
    let old := p_c (c_ph (g_c (y_k s))) in let z := unit_size G (c_sc (g_c (y_k sub0))) u in
    exists sub, sub_cluster_reset G (options true false false false false false) q indx sort s = Ok (sub, parent, caller) /\
      p_c (c_ph (g_c (y_k sub))) = mk6 (sx old) (sy old) (sz old) 0 0 0 /\
      p_g (c_ph (g_c (y_k sub))) = p_g (c_ph (g_c (y_k s))) /\ same_rows sub sub0 /\
      forall j, (j < nstars (g_c (y_k sub0)))%nat ->
        let '(a, b, c) := galactic_velocity G (g_c (y_k sub)) j in
        galactic_velocity G (g_c (y_k sub0)) j = (a + svx old * in_kms z, b + svy old * in_kms z, c + svz old * in_kms z).
Proof.
  intros G q indx sort s n u sub0 parent caller [HR [CO [Hn [EK MF]]]] [ER NE].
  destruct (reset_centre_call HR CO Hn EK MF ER NE) as [p [sub [E [D [SR [M [R1 [R0 [Es [Em [Et [Ec [Eb [CL [CL0 W]]]]]]]]]]]]]]].
  cbv zeta. exists sub. split; [exact E|]. cbn in CL. unfold place_only in CL.
  split; [congruence|]. split; [congruence|]. split; [exact SR|]. intros j Hj.
  destruct R1 as [_ [U1 [_ [V1 _]]]]. destruct R0 as [_ [U0 [_ [V0 _]]]].
  assert (A : SpecFrame.aligned (g_c (y_k sub))) by exact (ProofsProfiles7.aligned_measured M).
  unfold SpecFrame.aligned in A. destruct A as [_ [_ [_ [A1 [A2 A3]]]]]. rewrite Em in A1, A2, A3.
  unfold galactic_velocity, galactic_view, origin_shift. rewrite U1 U0 V1 V0 Ec. cbn [p_s svx svy svz].
  assert (C1 : p_c (c_ph (g_c (y_k sub))) = mk6 (sx (p_c (c_ph (g_c (y_k s))))) (sy (p_c (c_ph (g_c (y_k s))))) (sz (p_c (c_ph (g_c (y_k s))))) 0 0 0) by congruence.
  assert (C2 : p_g (c_ph (g_c (y_k sub))) = p_g (c_ph (g_c (y_k s)))) by congruence.
  assert (C3 : p_c (c_ph (g_c (y_k sub0))) = p_c (c_ph (g_c (y_k s)))) by congruence.
  assert (C4 : p_g (c_ph (g_c (y_k sub0))) = p_g (c_ph (g_c (y_k s)))) by congruence.
  rewrite C1 C2 C3 C4. cbn [svx svy svz]. unfold nstars in Hj.
  set (z := unit_size G (c_sc (g_c (y_k sub0))) u).
  assert (NM : forall (f g : R -> R) l l' k, (j < length l)%nat -> l' = l -> (forall a, g a = f a + k) -> nth j (map g l) 0 = nth j (map f l') 0 + k).
  { intros f g l l' k Hl -> H. rewrite (@ProofsRecipes.nth_map' _ _ g _ _ 0 0); [exact Hl|]. rewrite (@ProofsRecipes.nth_map' _ _ f _ _ 0 0); [exact Hl|]. apply H. }
  rewrite Es in A1, A2, A3.
  assert (P3 : forall a b c a' b' c' : R, a = a' -> b = b' -> c = c' -> (a, b, c) = (a', b', c')) by (intros; subst; reflexivity).
  apply P3; apply NM; try (rewrite ?A1 ?A2 ?A3; exact Hj); try (rewrite Es; reflexivity); intros a; ring.
Qed.
Print Assumptions C80_reset_centre_in_the_centre_frame_refuted.

(* C80: with rvirial=True the N-body scales become the virial radius of the selected stars (in pc), their total mass (in Msun)
   if reset_nbody or reset_nbody_mass is given, and the velocity and time that go with them.  The stars stay where they are in
   the galaxy, with the units and the origin of the parent; sub0 is what the call returns without the scale options. *)
Theorem C80_reset_scales_virial :
  forall (G : galpy) (q : selection) (indx : option (list bool)) (sort centre nbody mass radii projected : bool) (s : system) (n : nat)
         (u : usys) (o : osys) (sub0 parent : system) (caller : option (list bool)) (ps : list (nat * nat)),
    call_ok G q indx s n u o -> positive_scales G (c_sc (g_c (y_k s))) -> nbody || (mass || radii) = true ->
    sub_cluster_reset G (options centre false false false false false) q indx sort s = Ok (sub0, parent, caller) ->
    let c0 := g_c (y_k sub0) in
    (2 <= nstars c0)%nat -> (forall m, In m (p_m (c_ph c0)) -> 0 < m) -> pair_set (nstars c0) ps -> separated (bodies_seen projected c0) ->
    exists sub v t, sub_cluster_reset G (options centre nbody mass radii true projected) q indx sort s = Ok (sub, parent, caller) /\
      let c := g_c (y_k sub) in
      zmbar (c_sc c) = (if nbody || mass then total_mass G c0 else zmbar (c_sc (g_c (y_k s)))) /\
      rbar (c_sc c) = virial_pc (sun_bodies G projected c0) ps /\ vbar (c_sc c) = v /\ tbar (c_sc c) = t /\
      nbody_scales (zmbar (c_sc c)) (rbar (c_sc c)) v t /\
      (ro (c_sc c), vo (c_sc c)) = (ro (c_sc c0), vo (c_sc c0)) /\
      ready G c u o /\ galactic_view G c = galactic_view G c0 /\ same_labels sub sub0 /\ (sort = true -> well_sorted false c) /\
      (u = Unbody -> nbody || mass = true -> sumR (p_m (c_ph c)) = 1).
Proof.
  intros G q indx sort ce nb ma ra pr s n u o sub0 parent caller ps [HR [CO [Hn [EK MF]]]] HP SS ER c0 H2 HM HPS HSep.
  assert (NE : p_m (c_ph c0) <> []) by (intros X; unfold nstars in H2; rewrite X in H2; cbn in H2; lia).
  destruct (reset_call HR CO Hn EK MF ER NE) as [_ [_ [cB [_ [_ [RB [_ [_ [_ [EC [EZ _]]]]]]]]]]].
  destruct (@reset_nbody_virial G nb ma ra pr ce q indx sort s n u o sub0 parent caller ps SS HR HP CO Hn EK MF ER H2 HM HPS HSep)
    as [sub [r [v [t [E [Er [NS [SL [V [RD [SC W]]]]]]]]]]].
  fold c0 in Er, NS, V, SC. exists sub, v, t. split; [exact E|]. cbv zeta.
  assert (MS : mass_scale G (nb || ma) c0 = if nb || ma then total_mass G c0 else zmbar (c_sc (g_c (y_k s)))).
  { unfold mass_scale. destruct (nb || ma); [reflexivity|]. unfold c0. rewrite -EC EZ. reflexivity. }
  rewrite MS in NS, SC. rewrite SC. cbn [set_scales zmbar rbar vbar tbar ro vo].
  split; [reflexivity|]. split; [exact Er|]. split; [reflexivity|]. split; [reflexivity|]. split; [exact NS|]. split; [reflexivity|].
  split; [exact RD|]. split; [exact V|]. split; [exact SL|]. split; [exact W|].
  intros Hu TM. destruct RD as [_ [U _]]. rewrite Hu in U. generalize (f_equal p_m V). unfold galactic_view. rewrite U. cbn [p_m].
  rewrite SC. cbn [unit_size in_Msun set_scales zmbar]. rewrite TM. intros Q. apply (f_equal sumR) in Q. rewrite TM in NS. destruct NS as [NZ _].
  assert (ST : sumR (map (fun a => a * in_Msun (sizes G c0)) (p_m (c_ph c0))) = total_mass G c0).
  { unfold total_mass, stars, sun_mass, mass, nstars. f_equal. apply (nth_ext _ _ 0 0); [now rewrite !map_length seq_length|].
    intros i. rewrite map_length. intros Hi. rewrite (@ProofsRecipes.nth_map' _ _ _ _ _ 0 0); [exact Hi|].
    rewrite (@ProofsRecipes.nth_map' _ _ _ _ _ 0 0%nat); [now rewrite seq_length|]. now rewrite seq_nth. }
  unfold sizes in ST. rewrite ST in Q.
  assert (SM : forall k l, sumR (map (fun a => a * k) l) = sumR l * k).
  { intros k l. induction l as [|a l IH]; cbn [map sumR]; [ring|]. rewrite IH. ring. }
  rewrite SM in Q. apply Rmult_eq_reg_r with (total_mass G c0); [|lra]. rewrite Q. ring.
Qed.
Print Assumptions C80_reset_scales_virial.

(* C80: otherwise (rvirial=False, the default) the length scale is 4/3 of the radius containing half of the mass. *)
Theorem C80_reset_scales_half_mass :
  forall (G : galpy) (q : selection) (indx : option (list bool)) (sort centre nbody mass radii projected : bool) (s : system) (n : nat)
         (u : usys) (o : osys) (sub0 parent : system) (caller : option (list bool)),
    call_ok G q indx s n u o -> positive_scales G (c_sc (g_c (y_k s))) -> nbody || (mass || radii) = true ->
    sub_cluster_reset G (options centre false false false false false) q indx sort s = Ok (sub0, parent, caller) ->
    let c0 := g_c (y_k sub0) in
    p_m (c_ph c0) <> [] -> (forall m, In m (p_m (c_ph c0)) -> 0 < m) ->
    exists h, is_fraction_radius (1/2) (map (pc_distance G false c0) (stars c0)) (map (sun_mass G c0) (stars c0)) h /\ (0 < h ->
    exists sub v t, sub_cluster_reset G (options centre nbody mass radii false projected) q indx sort s = Ok (sub, parent, caller) /\
      let c := g_c (y_k sub) in
      zmbar (c_sc c) = (if nbody || mass then total_mass G c0 else zmbar (c_sc (g_c (y_k s)))) /\
      rbar (c_sc c) = 4 / 3 * h /\ vbar (c_sc c) = v /\ tbar (c_sc c) = t /\
      nbody_scales (zmbar (c_sc c)) (rbar (c_sc c)) v t /\
      (ro (c_sc c), vo (c_sc c)) = (ro (c_sc c0), vo (c_sc c0)) /\
      ready G c u o /\ galactic_view G c = galactic_view G c0 /\ same_labels sub sub0 /\ (sort = true -> well_sorted false c)).
Proof.
  intros G q indx sort ce nb ma ra pr s n u o sub0 parent caller [HR [CO [Hn [EK MF]]]] HP SS ER c0 NE HM.
  destruct (reset_call HR CO Hn EK MF ER NE) as [_ [_ [cB [_ [_ [RB [_ [_ [_ [EC [EZ _]]]]]]]]]]].
  destruct (@reset_nbody_half G nb ma ra pr ce q indx sort s n u o sub0 parent caller SS HR HP CO Hn EK MF ER NE HM) as [h [F H]].
  exists h. split; [exact F|]. intros Hh. destruct (H Hh) as [sub [v [t [E [NS [SL [V [RD [SC W]]]]]]]]].
  fold c0 in NS, V, SC. exists sub, v, t. split; [exact E|]. cbv zeta.
  assert (MS : mass_scale G (nb || ma) c0 = if nb || ma then total_mass G c0 else zmbar (c_sc (g_c (y_k s)))).
  { unfold mass_scale. destruct (nb || ma); [reflexivity|]. unfold c0. rewrite -EC EZ. reflexivity. }
  rewrite MS in NS, SC. rewrite SC. cbn [set_scales zmbar rbar vbar tbar ro vo].
  split; [reflexivity|]. split; [reflexivity|]. split; [reflexivity|]. split; [reflexivity|]. split; [exact NS|]. split; [reflexivity|].
  split; [exact RD|]. split; [exact V|]. split; [exact SL|exact W].
Qed.
Print Assumptions C80_reset_scales_half_mass.

(* C80 finding: reset_nbody_mass=True alone, which should change the mass scale only, replaces the length scale as well (the
   keyword radius= is not the parameter radii=): the result is that of reset_nbody=True. *)
Theorem C80_mass_alone_resets_radii_refuted :
  forall (G : galpy) (q : selection) (indx : option (list bool)) (sort projected : bool) (s : system) (n : nat)
         (u : usys) (o : osys) (sub0 parent : system) (caller : option (list bool)) (ps : list (nat * nat)),
    call_ok G q indx s n u o -> positive_scales G (c_sc (g_c (y_k s))) -> plain_call G q indx sort s sub0 parent caller ->
    let c0 := g_c (y_k sub0) in
    (2 <= nstars c0)%nat -> (forall m, In m (p_m (c_ph c0)) -> 0 < m) -> pair_set (nstars c0) ps -> separated (bodies_seen projected c0) ->
    virial_pc (sun_bodies G projected c0) ps <> rbar (c_sc (g_c (y_k s))) ->
    exists sub, sub_cluster_reset G (options false false true false true projected) q indx sort s = Ok (sub, parent, caller) /\
      sub_cluster_reset G (options false true false false true projected) q indx sort s = Ok (sub, parent, caller) /\
      rbar (c_sc (g_c (y_k sub))) <> rbar (c_sc (g_c (y_k s))).
Proof.
  intros G q indx sort pr s n u o sub0 parent caller ps OK HP [ER NE] c0 H2 HM HPS HSep NR.
  pose proof OK as [_ [CO [Hn [EK MF]]]]. rewrite <- (C80_no_options G q indx sort false false s n CO Hn EK MF) in ER.
  destruct (C80_reset_scales_virial G q indx sort false false true false pr s n u o sub0 parent caller ps OK HP eq_refl ER H2 HM HPS HSep)
    as [sub [v [t [E [_ [Er _]]]]]].
  exists sub. split; [exact E|]. split; [exact E|]. fold c0 in Er. now rewrite Er.
Qed.
Print Assumptions C80_mass_alone_resets_radii_refuted.

(* ---- the hypotheses are met: five stars, one of them left out *)
Definition moving_raw (o : osys) (k : R) : cluster :=
  let c := prof_raw o k in set_ph c (mkP (p_t (c_ph c)) (p_m (c_ph c)) (p_s (c_ph c)) (mk6 k 0 0 0 7 0) (p_g (c_ph c))) (c_units c).
Definition moving_system (o : osys) (k : R) : system :=
  mkSys (mkCat (analyze true true (moving_raw o k)) [1; 2; 3; 1; 1] [1; 1; 1; 1; 1]%Z init_pairs init_sse init_bse 5 5) [] [] [].
Lemma moving_ph o k : c_ph (g_c (y_k (moving_system o k))) = c_ph (moving_raw o k).
Proof. exact (proj1 (analyze_ph true true (moving_raw o k))). Qed.
Lemma moving_complete o k : complete (moving_system o k) 5.
Proof.
  destruct (analyze_ph true true (moving_raw o k)) as [Q1 [Q2 [_ [_ [_ [_ Q7]]]]]]. destruct (analyze_norms true true (moving_raw o k)) as [G1 [G2 [G3 G4]]].
  assert (A : SpecStars.aligned (y_k (moving_system o k)) 5).
  { unfold SpecStars.aligned, moving_system. cbn [y_k g_c g_m0 g_npop]. rewrite Q1 Q2. now repeat split. }
  pose proof (moving_ph o k) as E.
  destruct (@measured_norms (y_k (moving_system o k)) 5 A ltac:(rewrite E; exact G1) ltac:(rewrite E; exact G2) ltac:(rewrite E; exact G3)
     ltac:(rewrite E; exact G4)) as [N1 [N2 [N3 [N4 N5]]]].
  split; [|split; [now left|split; [now left|split; [exists 0%nat; now left|]]]].
  - split; [exact A|]. split; [reflexivity|]. do 4 (split; [assumption|]). split; [exact N5|]. split; now left.
  - left. unfold moving_system; cbn [y_k g_c]. rewrite Q7. discriminate.
Qed.
Lemma moving_ok o k indx : flat o -> SpecSubset.mask_fits indx 5 -> call_ok demo_galpy select_default indx (moving_system o k) 5 Upckms o.
Proof.
  intros F M. split; [|split; [apply moving_complete|split; [lia|split; [left; split; reflexivity|exact M]]]].
  unfold moving_system. cbn [y_k g_c]. apply ProofsEnergy2.analyzed_ready. unfold ready, good_scales. cbn [c_sc c_units c_origin moving_raw prof_raw set_ph].
  split; [cbn; repeat split; lra|]. split; [reflexivity|]. split; [discriminate|]. split; [reflexivity|exact F].
Qed.
Lemma holds_body sub s J j : holds_stars sub s J -> (j < length J)%nat -> body (g_c (y_k sub)) j = body (g_c (y_k s)) (nth j J 0%nat).
Proof.
  intros [_ [_ H]] Hj. destruct (H j Hj) as [E _]. unfold body.
  generalize (f_equal w_s E) (f_equal w_m E). unfold star_at; cbn [w_s w_m]. intros E1 ->.
  generalize (f_equal (@sx R) E1) (f_equal (@sy R) E1) (f_equal (@sz R) E1). unfold map6; cbn [sx sy sz]. now intros -> -> ->.
Qed.
Example C80_hypotheses_met : forall o, flat o -> let s := moving_system o 100 in let msk := [true; true; false; true; true] in
  call_ok demo_galpy select_default (Some msk) s 5 Upckms o /\ positive_scales demo_galpy (c_sc (g_c (y_k s))) /\ svy (p_c (c_ph (g_c (y_k s)))) <> 0 /\
  exists sub0 parent caller, plain_call demo_galpy select_default (Some msk) true s sub0 parent caller /\ (2 <= nstars (g_c (y_k sub0)))%nat /\
    (forall m, In m (p_m (c_ph (g_c (y_k sub0)))) -> 0 < m) /\ separated (bodies_seen false (g_c (y_k sub0))) /\ nstars (g_c (y_k sub0)) = 4%nat.
Proof.
  intros o F s msk. pose proof (@moving_ok o 100 (Some msk) F eq_refl) as OK. split; [exact OK|].
  destruct (skel_eq_fields (skel_analyze true true (moving_raw o 100))) as [_ [_ [_ [_ [_ [E6 _]]]]]].
  split; [unfold s, moving_system; cbn [y_k g_c]; rewrite E6; cbn; repeat split; cbn; lra|].
  split; [unfold s; rewrite moving_ph; cbn; lra|].
  destruct OK as [_ [CO [Hn [EK MF]]]]. fold s in CO.
  destruct (@sub_cluster_ok demo_galpy select_default (Some msk) true s 5 CO Hn EK MF) as [J [sub [caller [Q [SJ [IJ [_ N]]]]]]].
  assert (SAT : forall i, satisfies select_default s i).
  { intros i. unfold satisfies, SpecSubset.within; cbn. do 3 (split; [split; intros ? X; discriminate|]).
    split; [intros ? X; discriminate|]. split; [now left|now left]. }
  assert (IN : forall i, In i J <-> In i [0; 1; 3; 4]%nat).
  { intros i. rewrite IJ. cbn [in_mask]. split.
    - intros [Hi [T _]]. do 5 (destruct i as [|i]; [cbn in T |- *; try discriminate; tauto|]). lia.
    - intros H. split; [cbn in H; intuition lia|]. split; [|apply SAT]. cbn in H. destruct H as [<-|[<-|[<-|[<-|[]]]]]; reflexivity. }
  assert (LJ : length J = 4%nat).
  { apply Nat.le_antisymm.
    - apply (NoDup_incl_length (ss_nodup SJ) (l' := [0; 1; 3; 4]%nat)). intros x Hx. now apply IN.
    - change 4%nat with (length [0; 1; 3; 4]%nat). apply NoDup_incl_length; [repeat constructor; cbn; intuition lia|]. intros x Hx. now apply IN. }
  assert (NE : J <> []) by (intros ->; discriminate). destruct (N NE) as [HS _].
  assert (NS : nstars (g_c (y_k sub)) = 4%nat).
  { destruct HS as [[[_ [L _]] _] _]. unfold nstars. rewrite L. exact LJ. }
  exists sub, (parent_after s), caller. split; [split; [exact Q|intros X; unfold nstars in NS; rewrite X in NS; discriminate]|].
  split; [lia|]. split; [|split; [|exact NS]].
  - intros m Hm. apply (In_nth _ _ 0) in Hm. destruct Hm as [j [Hj <-]]. unfold nstars in NS. rewrite NS in Hj.
    pose proof (holds_body _ _ _ j HS ltac:(lia)) as B. apply (f_equal fm) in B. cbn [body fm] in B. rewrite B.
    assert (I1 : In (nth j J 0%nat) J) by (apply nth_In; lia). apply IN in I1. unfold s. rewrite moving_ph. cbn [moving_raw prof_raw set_ph c_ph p_m].
    cbn in I1. destruct I1 as [<-|[<-|[<-|[<-|[]]]]]; cbn; lra.
  - unfold separated, bodies_seen, bodies. unfold nstars in NS. rewrite NS !map_length seq_length. intros i j Hi Hj D.
    rewrite !(@ProofsRecipes.nth_map' _ _ (in_plane false) _ _ star0 star0) ?map_length ?seq_length //.
    rewrite !(@ProofsRecipes.nth_map' _ _ (body (g_c (y_k sub))) _ _ star0 0%nat) ?seq_length // !seq_nth //. cbn [Nat.add].
    rewrite !(holds_body _ _ _ _ HS) ?LJ //.
    assert (I1 : In (nth i J 0%nat) [0; 1; 3; 4]%nat) by (apply IN, nth_In; lia). assert (I2 : In (nth j J 0%nat) [0; 1; 3; 4]%nat) by (apply IN, nth_In; lia).
    assert (D' : nth i J 0%nat <> nth j J 0%nat). { intros X. apply D. apply (proj1 (NoDup_nth J 0%nat) (ss_nodup SJ) i j) in X; lia. }
    unfold s, body, dist2, in_plane. rewrite moving_ph. cbn [moving_raw prof_raw set_ph c_ph p_m p_s sx sy sz fx fy fz].
    generalize dependent (nth i J 0%nat). generalize dependent (nth j J 0%nat). intros b I2 a I1 D'.
    cbn in I1, I2. destruct I1 as [<-|[<-|[<-|[<-|[]]]]]; destruct I2 as [<-|[<-|[<-|[<-|[]]]]]; try (now exfalso); cbn; lra.
Qed.
