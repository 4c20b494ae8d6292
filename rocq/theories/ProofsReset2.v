(* Proofs: sub_cluster with new N-body scales. *)
From Coq Require Import Sorted.
From Verif Require Import Base ModelCluster ModelOps ModelConv ModelEnergy ModelRecipes ModelLagrange ModelStars ModelSubset ModelCentre ModelDynamics ModelReset.
From Verif Require Import SpecUnits SpecFrame SpecConv SpecOrder SpecRecipes SpecEnergy SpecLagrange SpecSubset SpecProfiles SpecDynamics.
From Verif Require Import ProofsUnits ProofsConv ProofsFrame ProofsOrder ProofsPot ProofsSort ProofsSees ProofsEnergy ProofsVirial ProofsEnergyUnits ProofsVR ProofsRecipes ProofsRecipes2 ProofsLagrange ProofsSubset2 ProofsProfiles ProofsProfiles5 ProofsDynamics ProofsDynamics2 ProofsDynamics4 ProofsDynamics5 ProofsReset.
Set Implicit Arguments. Unset Strict Implicit.

Section WithGalpy.
Variable G : galpy.

(* ---- reset_nbody_scale keeping or replacing the mass scale *)
Definition mass_scale (mass : bool) (c : cluster) : R := if mass then SpecDynamics.total_mass G c else zmbar (c_sc c).
Lemma reset_keeping p c q c' : reset_nbody_scale G true true true p false c = Ok (q, c') -> c_sc c' = c_sc c ->
  let '(_, r, _, _) := q in exists v t, reset_nbody_scale G false true true p false c = Ok ((zmbar (c_sc (scale_frame G c)), r, v, t), c') /\
   v = 6557 / 100000 * sqrt (zmbar (c_sc (scale_frame G c)) / r) /\ t = r / (1023 / 1000 * v).
Proof.
  rewrite /reset_nbody_scale. cbn zeta. destruct (virial_radius G p true (scale_frame G c)) as [rb c2] => E _.
  destruct q as [[[z r] v] t]. injection E as _ Er _ _ Ec. do 2 eexists. split; [|split; reflexivity]. by rewrite -Er -Ec.
Qed.
Lemma scale_frame_sc c u o : ready G c u o -> c_sc (scale_frame G c) = c_sc c.
Proof.
  move=> HR. have [ops [F [E [A [S1 [R1 [N V]]]]]]] := pc_frame_run HR. rewrite /scale_frame. have [_ [_ [-> _]]] := S1. reflexivity.
Qed.
Theorem nbody_scale_any (mass p : bool) c u o ps : ready G c u o -> positive_scales G (c_sc c) -> SpecFrame.aligned c ->
  analyze true true c = c -> pair_set (nstars c) ps -> (2 <= nstars c)%nat -> (forall m, In m (p_m (c_ph c)) -> 0 < m) ->
  separated (bodies_seen p c) ->
  exists r v t c', reset_nbody_scale G mass true true p false c = Ok ((mass_scale mass c, r, v, t), c') /\ restored c c' /\
    r = virial_pc (sun_bodies G p c) ps /\ nbody_scales (mass_scale mass c) r v t.
Proof.
  move=> HR HP HL HA HPS H2 HM HSep.
  have [z [r [v [t [c' [E [Rs [Ez [Er NS]]]]]]]]] := nbody_scale HR HP HL HA HPS H2 HM HSep. destruct mass.
  - exists r, v, t, c'. rewrite /mass_scale -Ez. by split.
  - have Esc : c_sc c' = c_sc c by have [_ [_ [_ [_ [-> _]]]]] := Rs.
    have [v' [t' [E' [Ev Et]]]] := reset_keeping E Esc. rewrite (scale_frame_sc HR) in E' Ev.
    exists r, v', t', c'. split; [exact E'|]. split; [exact Rs|]. split; [exact Er|].
    have [_ [Pr _]] := NS. have [Pz _] := HP. rewrite Et Ev. exact (scales_consistent Pz Pr).
Qed.
Theorem nbody_half_any (mass p : bool) c u o : ready G c u o -> positive_scales G (c_sc c) -> SpecFrame.aligned c ->
  well_sorted false c -> nonneg (p_m (c_ph c)) -> 0 < sumR (p_m (c_ph c)) ->
  exists h, is_fraction_radius (1/2) (map (pc_distance G false c) (SpecDynamics.stars c)) (map (sun_mass G c) (SpecDynamics.stars c)) h /\
  exists v t c', reset_nbody_scale G mass true false p false c = Ok ((mass_scale mass c, 4 / 3 * h, v, t), c') /\ restored c c' /\
    (0 < h -> nbody_scales (mass_scale mass c) (4 / 3 * h) v t).
Proof.
  move=> HR HP HL HW Hm Hs. have HA : analyze true true c = c by destruct HW.
  have [h [H1 H2]] := pc_half HR HP HL HW (fun E => match diff_false_true E with end) Hm Hs. cbn zeta in H1.
  have [ops [F [E [A [S1 [R1 [N V]]]]]]] := pc_frame_run HR.
  have B := bracket_sees HR S1 HA. cbn zeta in B.
  have SC := scale_frame_sc HR.
  exists h. split=> //. rewrite /reset_nbody_scale. cbn zeta. rewrite SC. rewrite /scale_frame. cbn zeta. cbv iota.
  move: (to_pckms G (if off_centre c then to_centre true c else c)) H1 V B {N E A S1 R1 SC} => c1 H1 V B. cbv iota in H1. rewrite H1.
  have EM : sumR (p_m (c_ph c1)) = SpecDynamics.total_mass G c by rewrite (@pc_masses G c c1 u o HR V).
  rewrite EM. have -> : 4 * h / 3 = 4 / 3 * h by field. rewrite -/(mass_scale mass c). do 3 eexists. split; [reflexivity|]. split; [exact B|].
  move=> Hh. apply scales_consistent; [|lra]. rewrite /mass_scale. destruct mass; [exact (@sun_total_pos G c c1 u o HR HP V Hs)|by case: HP].
Qed.

(* ---- in pc and Msun the same numbers in any units *)
Lemma to_pckms_ph c u o : ready G c u o -> let b := analyze true true (to_pckms G c) in
  c_ph b = rescale (unit_size G (c_sc c) u) (unit_size G (c_sc c) Upckms) (c_ph c) /\ ready G b Upckms o /\ c_sc b = c_sc c /\
  c_id b = c_id c /\ c_nb b = c_nb c /\ galactic_view G b = galactic_view G c.
Proof.
  move=> HR. have [HS [Hu [Hl [Ho Hf]]]] := HR. cbn zeta. rewrite -(to_pckms_units G Hu).
  have L : linear Upckms by [].
  have [V [R1 [S1 [I1 [_ N1]]]]] := to_units_view HR L.
  have [K1 [K2 [K3 [K4 [K5 [K6 _]]]]]] := skel_eq_fields (to_units_lin HS Hu Hl L).
  set d := to_units G (Ureq Upckms) c in V R1 S1 I1 N1 K1 K2 K3 K4 K5 K6 *.
  have SK := skel_analyze true true d. have [E1 [E2 [E3 [E4 [E5 [E6 [E7 [E8 E9]]]]]]]] := skel_eq_fields SK.
  rewrite /ready E1 E2 E4 E5 E6 E9 (view_skel G SK). split; [exact K5|]. split; [exact R1|]. split; [exact S1|]. split; [exact I1|]. split; [exact N1|exact V].
Qed.
Lemma pc_size s : unit_size G s Upckms = mkSize 1 1 1 1. Proof. by []. Qed.
Lemma nth_rsc ka l i : nth i (map (rsc ka 1) l) 0 = nth i l 0 * ka.
Proof. have E : 0 = rsc ka 1 0 by rewrite /rsc; ring. rewrite {1}E map_nth /rsc. field. Qed.

Lemma pc_same p c b u o : ready G c u o -> positive_scales G (c_sc c) -> SpecFrame.aligned c ->
  c_ph b = rescale (unit_size G (c_sc c) u) (unit_size G (c_sc c) Upckms) (c_ph c) -> c_units b = Some Upckms -> c_origin b = Some o ->
  nstars b = nstars c /\ sun_bodies G p b = sun_bodies G p c /\ SpecDynamics.total_mass G b = SpecDynamics.total_mass G c /\
  map (pc_distance G p b) (SpecDynamics.stars b) = map (pc_distance G p c) (SpecDynamics.stars c) /\
  map (sun_mass G b) (SpecDynamics.stars b) = map (sun_mass G c) (SpecDynamics.stars c) /\ SpecFrame.aligned b /\
  (forall m, In m (p_m (c_ph b)) -> exists m', In m' (p_m (c_ph c)) /\ m = m' * in_Msun (unit_size G (c_sc c) u)) /\
  sumR (p_m (c_ph b)) = sumR (p_m (c_ph c)) * in_Msun (unit_size G (c_sc c) u).
Proof.
  move=> HR HP HL Ep Ub Ob. have [HS [Hu [Hl [Ho Hf]]]] := HR. rewrite pc_size in Ep.
  have [P1 [P2 P3]] := size_positive HP Hl.
  set z := unit_size G (c_sc c) u in Ep P1 P2 P3 *.
  have Sb : sizes G b = mkSize 1 1 1 1 by rewrite /sizes Ub. have Sc : sizes G c = z by rewrite /sizes Hu.
  have N : nstars b = nstars c by rewrite /nstars Ep; cbn [rescale p_m]; rewrite map_length.
  have EB : sun_bodies G p b = sun_bodies G p c.
  { rewrite /sun_bodies Sb Sc /bodies_seen /bodies -!/(nstars _) N !map_map. apply map_ext => i.
    rewrite /dilate /in_plane /body Ep; cbn [rescale rscs p_m p_s sx sy sz fx fy fz fm in_pc in_Msun]. rewrite !nth_rsc. destruct p; f_equal; ring. }
  have EM : map (sun_mass G b) (SpecDynamics.stars b) = map (sun_mass G c) (SpecDynamics.stars c) by rewrite -!(sun_fm G p) EB.
  split; [exact N|]. split; [exact EB|]. split; [by rewrite /SpecDynamics.total_mass EM|]. split; [|split; [exact EM|]].
  { have E := @own_rescale p c b z (mkSize 1 1 1 1) P1 Rlt_0_1 HL Ep ltac:(by rewrite Ob Ho).
    rewrite /own_distances N in E. rewrite /SpecDynamics.stars N. rewrite /pc_distance Sb Sc. cbn [in_pc].
    rewrite -(map_map (own_distance p b) (fun a => a * 1)) E -(map_map (own_distance p c) (fun a => a * in_pc z)) map_map. apply map_ext => a. cbn. field. }
  split. { move: HL. rewrite /SpecFrame.aligned Ep; cbn [rescale rscs p_m p_s sx sy sz svx svy svz]. by rewrite !map_length. }
  rewrite Ep; cbn [rescale p_m in_Msun]. split.
  - move=> m /in_map_iff [m' [<- I]]. exists m'. split=> //. rewrite /rsc. field.
  - elim: (p_m (c_ph c)) => [|a l IH]; [cbn; ring|]. cbn [map sumR fold_right]. rewrite -!/(sumR _) IH /rsc. field.
Qed.

(* ---- back in the units of the parent, with the new scales *)
Definition new_scales (s : scales) (q : R * R * R * R) : scales := set_scales s q.
Lemma scaled_back sort from b c' z r v t u o : ready G b Upckms o -> restored b c' -> nbody_scales z r v t ->
  c_units from = Some u -> linear u -> c_origin from = Some o ->
  let c3 := back_to_units G sort from (set_sc c' (set_scales (c_sc c') (z, r, v, t))) in
  galactic_view G c3 = galactic_view G b /\ ready G c3 u o /\ c_sc c3 = set_scales (c_sc b) (z, r, v, t) /\ c_id c3 = c_id b /\ c_nb c3 = c_nb b /\
  (exists d, c3 = analyze sort true d /\ (vord b -> positive_scales G (c_sc b) -> vord d)).
Proof.
  move=> HR [E1 [E2 [E3 [E4 [E5 [E6 [E7 E8]]]]]]] NS Hu Hl Ho. cbn zeta.
  have HR' : ready G c' Upckms o by rewrite /ready E2 E3 E5.
  have RX := set_scales_ready HR' NS.
  set X := set_sc c' (set_scales (c_sc c') (z, r, v, t)) in RX *.
  have VX : galactic_view G X = galactic_view G b.
  { have [_ [U1 _]] := HR. have [_ [U2 _]] := HR'. rewrite /galactic_view /origin_shift.
    change (c_units X) with (c_units c'). change (c_origin X) with (c_origin c'). change (c_ph X) with (c_ph c'). by rewrite U2 U1 E1 E3. }
  have [_ [UX [_ [OX _]]]] := RX.
  have SX : c_sc X = set_scales (c_sc b) (z, r, v, t) by rewrite /X -E5.
  have OOX : vord b -> vord X. { move=> OO w. change (c_der X) with (c_der c'). change (c_origin X) with (c_origin c'). change (c_ph X) with (c_ph c').
    rewrite E4 E3 E1. exact: OO. }
  have PX : positive_scales G (c_sc b) -> positive_scales G (c_sc X).
  { rewrite SX. have [Pz [Pr [Pv [Pt _]]]] := NS. rewrite /positive_scales /set_scales. cbn. intuition. }
  rewrite /back_to_units.
  set Y := if ousys_eq_dec _ _ then _ else _.
  have [VY [RY [SY [IY [NY OY]]]]] : galactic_view G Y = galactic_view G X /\ ready G Y u o /\ c_sc Y = c_sc X /\ c_id Y = c_id X /\ c_nb Y = c_nb X /\
     (vord b -> positive_scales G (c_sc b) -> vord Y).
  { rewrite /Y. destruct (ousys_eq_dec (c_units X) (c_units from)) as [Q|Q].
    - have Eu : u = Upckms by rewrite UX Hu in Q; congruence. rewrite Eu. split; [reflexivity|]. split; [exact RX|]. do 3 (split; [reflexivity|]).
      move=> OO _. exact (OOX OO).
    - rewrite Hu. cbn [ureq_of]. have [V1 [R1 [S1 [I1 [_ N1]]]]] := to_units_view RX Hl. split; [exact V1|]. split; [exact R1|]. split; [exact S1|].
      split; [exact I1|]. split; [exact N1|]. move=> OO PP. exact (vord_units (PX PP) RX Hl (OOX OO)). }
  clearbody Y. have [_ [UY [_ [OOY _]]]] := RY. destruct (oosys_eq_dec (c_origin Y) (c_origin from)) as [Q|Q]; [|by case: Q; rewrite OOY Ho].
  have SK := skel_analyze sort true Y. have [A1 [A2 [A3 [A4 [A5 [A6 [A7 [A8 A9]]]]]]]] := skel_eq_fields SK.
  rewrite (view_skel G SK) /ready A1 A2 A4 A6 A9. split; [by rewrite VY VX|]. split; [exact RY|]. split; [by rewrite SY SX|].
  split; [by rewrite IY -E6|]. split; [by rewrite NY -E8|]. exists Y. by split.
Qed.
End WithGalpy.
