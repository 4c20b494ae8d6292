(* Proofs: the cluster moved along its orbit, the stars moved along theirs. *)
From Verif Require Import Base ModelCluster ModelOps ModelConv ModelEnergy ModelRecipes ModelCoords ModelLagrange ModelProfiles ModelStars ModelLoad ModelTail ModelOrbit.
From Verif Require Import SpecUnits SpecFrame SpecConv SpecOrder SpecRecipes SpecEnergy SpecLagrange SpecSubset SpecProfiles SpecDynamics SpecTail SpecOrbit.
From Verif Require Import ProofsUnits ProofsFrame ProofsConv ProofsCoords ProofsSees ProofsEnergy ProofsEnergy2 ProofsRecipes ProofsDynamics ProofsDynamics2 ProofsDynamics6 ProofsTail ProofsTail2 ProofsTail3 ProofsTail4 ProofsTail5 ProofsOrbit ProofsOrbit2.
Set Implicit Arguments. Unset Strict Implicit.

Section WithGalpy.
Variable G : galpy.
Lemma view_aligned c c1 : galactic_view G c1 = galactic_view G c -> SpecFrame.aligned c -> SpecFrame.aligned c1 /\ nstars c1 = nstars c.
Proof.
  move=> V HL. rewrite /galactic_view in V. cbn zeta in V.
  have Vm := f_equal (fun p => length (p_m p)) V. have Vs := f_equal p_s V. cbn [p_m p_s] in Vm, Vs. rewrite !map_length in Vm.
  have L6 := fun f : six (list R) -> list R => f_equal (fun s => length (f s)) Vs.
  have Lx := L6 (@sx _). have Ly := L6 (@sy _). have Lz := L6 (@sz _). have Lu := L6 (@svx _). have Lv := L6 (@svy _). have Lw := L6 (@svz _).
  cbn [sx sy sz svx svy svz] in Lx, Ly, Lz, Lu, Lv, Lw. rewrite !map_length in Lx Ly Lz Lu Lv Lw.
  split; [|exact Vm]. rewrite /SpecFrame.aligned. cbn zeta. rewrite Lx Ly Lz Lu Lv Lw Vm. exact HL.
Qed.
Lemma coord_same d z d' z' l l' i : map (fun a => (a + d) * z) l = map (fun a => (a + d') * z') l' -> d * z = d' * z' -> (i < length l)%nat ->
  nth i l 0 * z = nth i l' 0 * z'.
Proof.
  move=> E D Hi. have L : length l = length l' by move: (f_equal (@length R) E); rewrite !map_length.
  have H := f_equal (fun m => nth i m 0) E. cbn beta in H. rewrite (@nth_map' _ _ _ _ i 0 0) in H; [exact Hi|]. rewrite (@nth_map' _ _ _ _ i 0 0) in H; [by rewrite -L|].
  cbn beta in H. rewrite !Rmult_plus_distr_r in H. lra.
Qed.
(* two clusters seen alike, with the same origin, store the same physical offsets *)
Lemma stored_same c c1 u u1 o i : ready G c u o -> ready G c1 u1 o -> galactic_view G c1 = galactic_view G c -> SpecFrame.aligned c -> (i < nstars c)%nat ->
  stored_kpc G c1 u1 i = stored_kpc G c u i.
Proof.
  move=> [_ [Hu [_ [Ho _]]]] [_ [Hu1 [_ [Ho1 _]]]] V HL Hi. have [AL1 N1] := view_aligned V HL.
  rewrite /galactic_view Hu Hu1 in V. cbn zeta in V.
  set z := unit_size G (c_sc c) u in V *. set z1 := unit_size G (c_sc c1) u1 in V *.
  have Vs := f_equal p_s V. have Vc := f_equal p_c V. have Vg := f_equal p_g V. cbn [p_s p_c p_g] in Vs, Vc, Vg. clear V. rewrite /view6 in Vc Vg.
  have D : view6 z1 (origin_shift c1) = view6 z (origin_shift c).
  { rewrite /origin_shift Ho Ho1 /view6. destruct o; cbn [sx sy sz svx svy svz]; injection Vc => ? ? ? ? ? ?; injection Vg => ? ? ? ? ? ?; f_equal; lra. }
  rewrite /view6 in D. injection D => D6 D5 D4 D3 D2 D1. injection Vs => W6 W5 W4 W3 W2 W1. clear D Vs Vc Vg.
  have [A1 [A2 [A3 [A4 [A5 A6]]]]] := AL1. cbn zeta in A1, A2, A3, A4, A5, A6.
  have HN : (i < length (p_m (c_ph c1)))%nat by have : nstars c1 = length (p_m (c_ph c1)) by []; lia.
  rewrite /stored_kpc /row /map6 -/z -/z1. cbn zeta. cbn [sx sy sz svx svy svz].
  rewrite (coord_same W1 D1); [lia|]. rewrite (coord_same W2 D2); [lia|]. rewrite (coord_same W3 D3); [lia|].
  rewrite (coord_same W4 D4); [lia|]. rewrite (coord_same W5 D5); [lia|]. rewrite (coord_same W6 D6); [lia|]. reflexivity.
Qed.
Lemma galpy_rows c u o i : ready G c u o -> SpecFrame.aligned c -> (i < nstars c)%nat ->
  length (rows6 (p_s (c_ph (to_galpy G c)))) = nstars c /\
  nth i (rows6 (p_s (c_ph (to_galpy G c)))) zero6 = natural (ro (c_sc c)) (vo (c_sc c)) (stored_kpc G c u i).
Proof.
  move=> HR HL Hi. have [S1 R1] := ready_galpy HR. have [V [_ [SC _]]] := S1. have [AL1 N1] := view_aligned V HL. have [HS _] := HR.
  have [N5 N6] : ro (c_sc c) <> 0 /\ vo (c_sc c) <> 0 by case: HS => _ [_ [_ [_ [? [? _]]]]].
  have LN : length (sx (p_s (c_ph (to_galpy G c)))) = nstars c by case: AL1; cbn zeta; move=> -> _; exact N1.
  split; [by rewrite rows_length|]. rewrite (rows_nth LN Hi) -(stored_same HR R1 V HL Hi) /stored_kpc SC. cbn zeta.
  have E1 : in_pc (unit_size G (c_sc c) Ugalpy) = 1000 * ro (c_sc c) by []. have E2 : in_kms (unit_size G (c_sc c) Ugalpy) = vo (c_sc c) by [].
  rewrite E1 E2 /natural /star_row /row /map6. cbn [sx sy sz svx svy svz]. f_equal; field; assumption.
Qed.

(* moving the cluster: stars keep their place beside the orbit *)
Lemma beside_cluster c u i : ready G c u Ocluster -> SpecFrame.aligned c -> (i < nstars c)%nat ->
  let z := unit_size G (c_sc c) u in let p := view6 z (row (p_s (c_ph c)) i) in beside G c i = (place p, motion p).
Proof.
  move=> [_ [Hu [_ [Ho _]]]] [A1 [A2 [A3 [A4 [A5 A6]]]]] Hi z p. cbn zeta in A1, A2, A3, A4, A5, A6.
  have HN : (i < length (p_m (c_ph c)))%nat by exact Hi.
  rewrite /beside /galactic_view Hu /origin_shift Ho -/z. cbn zeta. cbn [p_s p_g]. rewrite /row /map6 /place /motion /minus3. cbn [sx sy sz svx svy svz].
  rewrite !(@nth_map' _ _ _ _ i 0 0) ?A1 ?A2 ?A3 ?A4 ?A5 ?A6 //. rewrite /p /view6 /row /map6. cbn [sx sy sz svx svy svz]. congr ((_, _, _), (_, _, _)); ring.
Qed.
Lemma beside_view c c1 i : galactic_view G c1 = galactic_view G c -> beside G c1 i = beside G c i.
Proof. by rewrite /beside => ->. Qed.
Lemma add_orbit_lin q c u : c_units c = Some u -> linear u -> add_orbit G q None None c = set_ph c (mkP (p_t (c_ph c)) (p_m (c_ph c)) (p_s (c_ph c)) (p_c (c_ph c)) q) (c_units c).
Proof. move=> Hu Hl. rewrite /add_orbit Hu. by destruct u. Qed.
Theorem move_orbit q c c1 u o : ready G c u o -> sees G c c1 -> SpecFrame.aligned c -> c_units c1 = c_units c -> c_origin c1 = c_origin c ->
  let c' := to_origin G (oreq_of (c_origin c1)) true (add_orbit G q None None (to_cluster true c1)) in
  ready G c' u o /\ p_g (c_ph c') = q /\ nstars c' = nstars c /\ c_id c' = c_id c /\ p_m (c_ph c') = p_m (c_ph c1) /\ p_t (c_ph c') = p_t (c_ph c1) /\ p_c (c_ph c') = p_c (c_ph c1) /\
  forall i, (i < nstars c)%nat -> beside G c' i = beside G c i.
Proof.
  move=> HR S1 HL EU EO c'. have [HS [Hu [Hl [Ho Hf]]]] := HR. have [V1 [_ [SC1 [ID1 _]]]] := S1.
  have Hu1 : c_units c1 = Some u by rewrite EU. have Ho1 : c_origin c1 = Some o by rewrite EO.
  have R1 : ready G c1 u o by rewrite /ready SC1.
  have SK := to_cluster_flat true Hu1 Hl Ho1 Hf. have S2 := sees_cluster true (sees_refl R1). set c2 := to_cluster true c1 in SK S2 *.
  have [V2 [_ [SC2 [ID2 _]]]] := S2. have [F1 [F2 [F3 [F4 [F5 F6]]]]] := skel_eq_fields SK. cbn [set_stars c_units c_origin c_ph c_sc] in F1, F2, F5, F6.
  have Hu2 : c_units c2 = Some u by rewrite F1. have Ho2 : c_origin c2 = Some Ocluster by exact F2.
  have R2 : ready G c2 u Ocluster by rewrite /ready SC2 SC1; repeat split => //; by case: HS => ? [? [? [? [? [? [? [? ?]]]]]]].
  rewrite /c' /c2 Ho1 -/c2. cbn [oreq_of]. rewrite (add_orbit_lin q Hu2 Hl). set c3 := set_ph c2 _ _.
  have R3 : ready G c3 u Ocluster by exact R2.
  have [V2' N2] := view_aligned (eq_trans V2 V1) HL. have A3 : SpecFrame.aligned c3 by exact V2'.
  have [V4 [R4 [SC4 [ID4 [_ [_ [T4 [M4 [C4 [G4 _]]]]]]]]]] := @to_origin_view G true c3 u Ocluster o R3 Hf. set c4 := to_origin G (Oreq o) true c3 in V4 R4 SC4 ID4 T4 M4 C4 G4 *.
  split; [exact R4|]. split; [exact G4|]. split; [rewrite /nstars M4; exact N2|]. split; [rewrite ID4 /c3; cbn [set_ph c_id]; congruence|].
  split; [rewrite M4 /c3; cbn [set_ph c_ph p_m]; by rewrite F5|]. split; [rewrite T4 /c3; cbn [set_ph c_ph p_t]; by rewrite F5|]. split; [rewrite C4 /c3; cbn [set_ph c_ph p_c]; by rewrite F5|].
  move=> i Hi. have Hi2 : (i < nstars c2)%nat by rewrite N2. rewrite (beside_view i V4) (beside_cluster R3 A3 Hi2) -(beside_view i (eq_trans V2 V1)) (beside_cluster R2 V2' Hi2). by [].
Qed.
Lemma returned_same c c1 u o : ready G c u o -> sees G c c1 -> let c' := return_cluster G (save_cluster c) c1 in c_units c' = c_units c /\ c_origin c' = c_origin c.
Proof. move=> HR S1 c'. have [_ [R1 _]] := returned HR S1. rewrite -/c' in R1. case: R1 => _ [-> [_ [-> _]]]. by case: HR => _ [-> [_ [-> _]]]. Qed.

(* the stars *)
Theorem interpolate_stars_ok ev tfinal nt c u o : lawful ev -> ready G c u o -> SpecFrame.aligned c -> (2 <= nt)%nat -> (u = Uamuse -> tfinal <> None) ->
  let z := unit_size G (c_sc c) u in let r := ro (c_sc c) in let v := vo (c_sc c) in
  let end_ i := in_kpc r v (ev 0 (duration G c u 12 tfinal) (natural r v (stored_kpc G c u i))) in
  exists s c1, interpolate_orbits G ev tfinal nt None None c = Ok (s, return_cluster G (save_cluster c) c1) /\ sees G c c1 /\
    length (sx s) = nstars c /\ length (sy s) = nstars c /\ length (sz s) = nstars c /\ length (svx s) = nstars c /\ length (svy s) = nstars c /\ length (svz s) = nstars c /\
    forall i, (i < nstars c)%nat -> place_is z (row s i) (end_ i) /\ (vel_system u -> ~ factor_forgotten Ukpckms u -> motion_is z (row s i) (end_ i)).
Proof.
  move=> HE HR HL NT HA z r v end_. have [HS [Hu _]] := HR.
  have [u0 [S0 [R0 D0]]] := working_ok HR. have [V0 [_ [SC0 _]]] := S0.
  set c0 := working G c u in S0 R0 D0 V0 SC0 *. have [AL0 N0] := view_aligned V0 HL.
  have [S1 [R1 SC1]] := returned R0 (proj1 (ready_galpy R0)).
  set c1 := return_cluster G (save_cluster c0) (to_galpy G c0) in S1 R1 SC1 *.
  have S01 := sees_trans S0 S1. have [RC0 [RC1 RC2]] := returned HR S01. set c' := return_cluster G (save_cluster c) c1 in RC0 RC1 RC2 *.
  set ts := linspace 0 (duration G c u 12 tfinal) nt.
  set h := fun p : six R => convert6 (at_time ev (mkOrb p r v) ts (last ts 0)) Ukpckms c'.
  set rows := rows6 (p_s (c_ph (to_galpy G c0))).
  have E : interpolate_orbits G ev tfinal nt None None c = Ok (unstack6 (map h rows), c').
  { have EG : (let ts := linspace 0 (galpy_time G 12 r v tfinal c0) nt in let '(os, c2) := initialize_orbits G None None c0 in
      match nt with O => Raise | _ => let c3 := return_cluster G (save_cluster c) c2 in
           Ok (unstack6 (map (fun o => convert6 (at_time ev o ts (last ts 0)) Ukpckms c3) os), c3) end) = Ok (unstack6 (map h rows), c').
    { cbn zeta. have TE := galpy_time_ok 12 tfinal R0. rewrite SC0 in TE. rewrite {1}/r {1}/v TE D0 -/ts.
      rewrite /initialize_orbits. cbn zeta. cbn [opt]. destruct nt; [lia|]. rewrite -/c1 -/c' SC0 map_map. do 2 f_equal. f_equal. apply map_ext => p. rewrite /h. do 2 f_equal.
      rewrite /orbit_cyl. f_equal. have [E _] := cyl_round_trip p. cbn zeta in E. by rewrite -{7}E -[X in _ = cyl_to_cart X]six_eta. }
    rewrite /interpolate_orbits. cbn [opt] in EG |- *. rewrite Hu. rewrite /c0 /working in EG. destruct u; try exact EG.
    destruct tfinal; [exact EG|]. by case: (HA eq_refl). }
  exists (unstack6 (map h rows)), c1. split; [exact E|]. split; [exact S01|].
  destruct (le_lt_dec (nstars c) 0) as [Z0|Z0].
  { have ER : rows = [].
    { have [S2 R2] := ready_galpy R0. have [V2 _] := S2. have [AL2 N2] := view_aligned (eq_trans V2 V0) HL. apply length_zero_iff_nil. rewrite /rows.
      have LN : length (sx (p_s (c_ph (to_galpy G c0)))) = nstars c by case: AL2; cbn zeta; move=> -> _; exact N2. rewrite rows_length. lia. }
    rewrite ER. cbn. have -> : nstars c = 0%nat by lia. repeat (split; [reflexivity|]). move=> i Hi. lia. }
  have Z0' : (0 < nstars c0)%nat by rewrite N0.
  have [LR _] := galpy_rows R0 AL0 Z0'. rewrite -/rows N0 in LR.
  rewrite /unstack6. cbn [sx sy sz svx svy svz]. have LH : length (map h rows) = nstars c by etransitivity; [apply map_length|exact LR].
  have Q : forall f : six R -> R, length (map f (map h rows)) = nstars c by move=> f; etransitivity; [apply map_length|exact LH].
  rewrite !Q. repeat (split; [reflexivity|]).
  move=> i Hi.
  have ER : row (mk6 (map (@sx R) (map h rows)) (map (@sy R) (map h rows)) (map (@sz R) (map h rows)) (map (@svx R) (map h rows)) (map (@svy R) (map h rows)) (map (@svz R) (map h rows))) i = convert6 (end_ i) Ukpckms c'.
  { have Hi0 : (i < nstars c0)%nat by rewrite N0. have [_ EN] := galpy_rows R0 AL0 Hi0. rewrite -/rows SC0 (stored_same HR R0 V0 HL Hi) in EN.
    have EH : nth i (map h rows) zero6 = convert6 (end_ i) Ukpckms c'.
    { rewrite (@nth_map' _ _ h rows i zero6 zero6); [by rewrite LR|]. rewrite EN /h /at_time /ts (linspace_last _ _ NT) linspace_hd; [lia|]. by []. }
    rewrite -EH -[RHS]six_eta /row /map6. cbn [sx sy sz svx svy svz].
    rewrite !(@nth_map' _ _ _ (map h rows) i 0 zero6) ?LH //. }
  rewrite ER. split.
  - rewrite /z -RC2. exact (convert6_place (end_ i) RC1).
  - move=> H1 H2. rewrite /z -RC2. exact (convert6_motion (end_ i) RC1 H1 H2).
Qed.
End WithGalpy.
