(* Proofs: the core relaxation time. *)
From Coq Require Import Sorted.
From Verif Require Import Base ModelCluster ModelOps ModelConv ModelEnergy ModelRecipes ModelStars ModelSubset ModelCoords ModelLagrange ModelProfiles ModelMassFunction ModelDynamics.
From Verif Require Import ModelTail ModelCentre ModelRadii.
From Verif Require Import SpecUnits SpecFrame SpecConv SpecOrder SpecRecipes SpecEnergy SpecLagrange SpecProfiles SpecDynamics SpecRadii.
From Verif Require Import ProofsUnits ProofsFrame ProofsConv ProofsOrder ProofsSort ProofsSees ProofsEnergy ProofsEnergyUnits ProofsVR ProofsRecipes ProofsRecipes2 ProofsLagrange ProofsProfiles ProofsDynamics ProofsDynamics2 ProofsDynamics3 ProofsDynamics4 ProofsRadii5.
Set Implicit Arguments. Unset Strict Implicit.

Section WithGalpy.
Variable G : galpy.

(* positions around the centre do not depend on the frame *)
Lemma central_sees c c1 u o u1 o1 : ready G c u o -> sees G c c1 -> ready G c1 u1 o1 -> SpecFrame.aligned c ->
  nstars c1 = nstars c /\ SpecFrame.aligned c1 /\ (forall i, (i < nstars c)%nat -> sun_mass G c1 i = sun_mass G c i /\ central_star G c1 i = central_star G c i).
Proof.
  move=> HR S1 R1 AL. have Fc : flat Ocentre by discriminate.
  have S2 := sees_origin true (sees_refl R1) Fc. have [_ [R2 _]] := to_origin_view true R1 Fc. cbn zeta in R2.
  move: S2 R2. generalize (to_origin G (Oreq Ocentre) true c1). move=> c2 S2 R2.
  have V := seen_central HR (sees_trans S1 S2) R2. have V1 := seen_central R1 S2 R2.
  have Sc : c_sc c1 = c_sc c by destruct S1 as [_ [_ [? _]]]. rewrite Sc in V1.
  have N : nstars c1 = nstars c by rewrite -(ct_n V) (ct_n V1).
  have AL1 : SpecFrame.aligned c1.
  { destruct S1 as [Vw _]. have A2 := ct_al V AL. destruct S2 as [Vw2 _].
    have len : forall a b, galactic_view G a = galactic_view G b -> SpecFrame.aligned a -> SpecFrame.aligned b.
    { move=> a b E [A1 [A3 [A4 [A5 [A6 A7]]]]]. rewrite /galactic_view in E. cbn zeta in E.
      have Em := f_equal p_m E. have Es := f_equal p_s E. cbn [p_m p_s] in Em, Es.
      have X := f_equal (@sx _) Es. have Y := f_equal (@sy _) Es. have Zz := f_equal (@sz _) Es.
      have VX := f_equal (@svx _) Es. have VY := f_equal (@svy _) Es. have VZ := f_equal (@svz _) Es.
      cbn [sx sy sz svx svy svz] in X, Y, Zz, VX, VY, VZ.
      rewrite /SpecFrame.aligned -(map_map_length X) -(map_map_length Y) -(map_map_length Zz) -(map_map_length VX) -(map_map_length VY) -(map_map_length VZ) -(map_map_length Em).
      by repeat split. }
    exact (len _ _ (eq_sym Vw) AL). }
  split=> //. split=> //. move=> i Hi. have Hi1 : (i < nstars c1)%nat by lia. split.
  - by rewrite -(ct_mass V Hi) -(ct_mass V1 Hi1).
  - by rewrite -(ct_star V AL Hi) -(ct_star V1 AL1 Hi1).
Qed.
Lemma central_table_sees p c c1 u o u1 o1 : ready G c u o -> sees G c c1 -> ready G c1 u1 o1 -> SpecFrame.aligned c ->
  nstars c1 = nstars c /\ SpecFrame.aligned c1 /\ central_table G p c1 = central_table G p c /\
  map (central_distance G p c1) (stars c1) = map (central_distance G p c) (stars c).
Proof.
  move=> HR S1 R1 AL. have [N [AL1 H]] := central_sees HR S1 R1 AL. split=> //. split=> //.
  rewrite /central_table /stars N. split; apply map_ext_in => i /in_seq Hi; have [H1 H2] := H i ltac:(lia).
  - by rewrite H1 H2.
  - by rewrite /central_distance H2.
Qed.
Lemma restored_sees c c' u o : ready G c u o -> restored c c' -> sees G c c'.
Proof.
  move=> HR [P [U [O [D [S [I [K N]]]]]]]. split; [by rewrite /galactic_view /origin_shift P U O S|].
  split; [exists u, o; by rewrite /ready U O S|]. do 4 (split=> //). move=> rp H1 H2. rewrite D. split=> //. move: H2. by rewrite /proorder_ok /rprolist P.
Qed.
Lemma no_centre_view c c1 ku kU : viewed c c1 ku kU -> 0 < in_pc ku -> 0 < in_pc kU -> no_centre c1 = no_centre c.
Proof.
  move=> V H1 H2. have X := vw_c V. rewrite /view6 in X. injection X => _ _ _ Ez Ey Ex.
  have z : forall a b, a * in_pc kU = b * in_pc ku -> Reqb a 0 = Reqb b 0.
  { move=> a b E. destruct (Reqb a 0) eqn:Ea; destruct (Reqb b 0) eqn:Eb => //; [move/Reqb_spec: Ea => Ea; move/Reqb_false: Eb => Eb|move/Reqb_false: Ea => Ea; move/Reqb_spec: Eb => Eb]; exfalso; nra. }
  by rewrite /no_centre (z _ _ Ex) (z _ _ Ey) (z _ _ Ez).
Qed.

Theorem core_relaxation_ok gamma (p : bool) c u o : ready G c u o -> positive_scales G (c_sc c) -> SpecFrame.aligned c -> well_sorted p c ->
  (p = true -> c_origin c <> Some Ogalaxy) -> nonneg (p_m (c_ph c)) -> 0 < sumR (p_m (c_ph c)) -> ln (gamma * INR (nstars c)) <> 0 ->
  (6 <= nstars c)%nat -> o <> Ocluster \/ no_centre c = false ->
  exists h r c', core_relaxation_time G gamma p c = Ok (r, c') /\ restored c c' /\
    is_fraction_radius (1/2) (map (pc_distance G p c) (stars c)) (map (sun_mass G c) (stars c)) h /\
    match r with
    | Some t => exists rc, casertano_radius G p 6 c rc /\ 0 < rc + h /\
        t * in_Myr (sizes G c) = core_relaxation gamma (INR (nstars c)) (total_mass G c) rc h
    | None => no_core G p 6 c \/ exists rc, casertano_radius G p 6 c rc /\ rc + h = 0
    end.
Proof.
  move=> HR HP HL HW Hp Hm Hs Hln H6 HC. have [HS [Hu [Hl [Ho Hf]]]] := HR. have HA : analyze true true c = c by destruct HW.
  have [h [H1 H2]] := pc_half HR HP HL HW Hp Hm Hs.
  have [ops [F [E [A [S1 [R1 [N V]]]]]]] := pc_frame_run HR. cbn zeta in H1.
  rewrite -(relax_frame_eq G HA) in H1 E A S1 R1 N V. rewrite /core_relaxation_time.
  have PM := @pc_masses G c _ u o HR V. have Tot := @sun_total_pos G c _ u o HR HP V Hs.
  have LP : linear Upckms by discriminate.
  have [Pu _] := size_positive HP Hl. have [Pp _] := size_positive HP LP.
  have NC := no_centre_view V Pu Pp.
  have [_ [Hu1 _]] := R1.
  move: (relax_frame G c) H1 N V PM Hu1 A S1 R1 NC {E} => c1 H1 N V PM Hu1 A S1 R1 NC.
  have [N1 [AL1 [T1 D1]]] := central_table_sees p HR S1 R1 HL.
  have Sc : c_sc c1 = c_sc c by destruct S1 as [_ [_ [? _]]].
  have HC1 : work_origin o = Ocentre \/ no_centre c1 = false.
  { destruct HC as [HC|HC]; [|by right; rewrite NC]. destruct o; by (left) || case: HC || case: Hf. }
  have CO := @core_ok G c1 Upckms (work_origin o) p 6 R1 ltac:(by rewrite Sc) A AL1 HC1.
  have Ez : in_pc (sizes G c1) = 1 by rewrite /sizes Hu1.
  have Cas : forall x, casertano_radius G p 6 c1 x -> casertano_radius G p 6 c x.
  { move=> x [w [W1 [W2 W3]]]. exists w. rewrite N1 T1 in W1 W2. by rewrite D1 in W3. }
  have Noc : no_core G p 6 c1 -> no_core G p 6 c by rewrite /no_core N1 T1.
  have Ln : length (p_m (c_ph c1)) = nstars c by exact (vw_n V).
  have EM : sumR (p_m (c_ph c1)) = total_mass G c by rewrite PM.
  have Eg : get_grav c1 = 4302 / 1000000 by rewrite /get_grav Hu1.
  have Nz : (nstars c <> 0)%nat by lia.
  have Np : 0 < INR (nstars c) by apply lt_0_INR; lia.
  have Hh : 0 <= h.
  { have I := half_in_range H2. apply in_map_iff in I. destruct I as [i [<- _]]. exact (pc_distance_nonneg p i HR HP). }
  cbn zeta. rewrite Ln EM Eg.
  destruct (rcore_casertano G 6 p c1) as [[[rc|] c2]|]; cbn [bind snd fst].
  - destruct CO as [RE CO]. rewrite Ez Rmult_1_r in CO. have S2 := restored_sees R1 RE.
    have B := bracket_sees HR (sees_trans S1 S2) HA. cbn zeta in B.
    have Dr : c_der c2 = c_der c1 by destruct RE as [_ [_ [_ [? _]]]]. rewrite Dr H1.
    move: B. generalize (return_cluster G (save_cluster c) c2). move=> c' B.
    have -> : Reqb (INR (nstars c)) 0 = false by apply Reqb_false; lra.
    have -> : Reqb (ln (gamma * INR (nstars c))) 0 = false by apply Reqb_false.
    have -> : Reqb (4302 / 1000000 * total_mass G c) 0 = false by apply Reqb_false; lra.
    have Mb := Rdiv_lt_0_compat _ _ Tot Np.
    have -> : Reqb (total_mass G c / INR (nstars c)) 0 = false by apply Reqb_false; lra.
    cbn [orb]. have Rc : 0 <= rc by destruct CO as [w [_ [_ [_ [? _]]]]].
    destruct (Reqb (rc + h) 0) eqn:EZ.
    + move/Reqb_spec: EZ => EZ. exists h, None, c'. split=> //. split; [exact B|]. split=> //. right. exists rc. split=> //. exact: Cas.
    + move/Reqb_false: EZ => EZ. eexists h, (Some _), c'. split; [reflexivity|]. split; [exact B|]. split=> //.
      exists rc. split; [exact: Cas|]. split; [lra|].
      destruct B as [_ [B2 [_ [_ [B5 _]]]]].
      rewrite (@time_correct G c' Upckms u); [by rewrite B5|by rewrite B2|discriminate|exact Hl|].
      rewrite B5 /sizes Hu /rsc /core_relaxation -crossing_eq /G_pc.
      have [NZ _] := unit_size_nz u HS. change (in_Myr (unit_size G (c_sc c) Upckms)) with 1.
      move: (sqrt (rc ^ 3 / (4302 / 1000000 * total_mass G c))) => a. move: (sqrt (rc * h)) => b.
      move: (ln (gamma * INR (nstars c))) Hln => l Hln. field. repeat split; lra || exact NZ || exact Hln.
  - destruct CO as [RE CO]. have S2 := restored_sees R1 RE.
    have B := bracket_sees HR (sees_trans S1 S2) HA. cbn zeta in B.
    have Dr : c_der c2 = c_der c1 by destruct RE as [_ [_ [_ [? _]]]]. rewrite Dr H1.
    move: B. generalize (return_cluster G (save_cluster c) c2). move=> c' B.
    exists h, None, c'. split=> //. split; [exact B|]. split=> //. left. exact: Noc.
  - exfalso. rewrite N1 in CO. lia.
Qed.
End WithGalpy.
