From Verif Require Import Base ModelCluster ModelOps ModelConv ModelEnergy SpecUnits SpecFrame SpecConv SpecEnergy
  ProofsUnits ProofsFrame ProofsPot ProofsSees ProofsEnergy ProofsVirial ProofsEnergyUnits ProofsVR.
Set Implicit Arguments. Unset Strict Implicit.

Section E.
Variable G : galpy.

(* a change of origin translates the bodies *)
Lemma origin_bodies s c u o o' : ready G c u o -> flat o' -> aligned c ->
  let c' := to_origin G (Oreq o') s c in
  ready G c' u o' /\ aligned c' /\ p_m (c_ph c') = p_m (c_ph c) /\ exists d, bodies c' = map (translate d) (bodies c).
Proof.
  move=> R Hf' HA /=. have [HS [Hu [Hl [Ho Hf]]]] := R. have [A1 [A2 [A3 [A4 [A5 A6]]]]] := HA.
  have [E1 [E2 [E3 [E4 [E5 [E6 _]]]]]] := skel_eq_fields (to_origin_flat G s Hu Hl Ho Hf Hf').
  move: (to_origin G (Oreq o') s c) E1 E2 E5 E6 => c' E1 E2 E5 E6.
  split; [rewrite /ready E1 E2 E6 /= Hu; repeat split => //; apply HS|].
  have HM : p_m (c_ph c') = p_m (c_ph c) by rewrite E5.
  split. { rewrite /aligned E5 /= /reorigin /add6 /vadd /= !map_length. by repeat split. }
  split => //. set m := minus6 (shift_of (c_ph c) o) (shift_of (c_ph c) o').
  exists (sx m, sy m, sz m). rewrite /bodies HM map_map. apply map_ext_in => k /in_seq Hk.
  rewrite /body E5 /translate. cbn [set_stars c_ph p_s p_m]. rewrite /reorigin -/m /add6 /vadd. cbn [sx sy sz fx fy fz fm].
  rewrite !(@nth_map_in _ _ _ _ _ 0) //; lia.
Qed.
Lemma analyzed_ready c u o : ready G c u o -> ready G (analyze true true c) u o.
Proof.
  have [E1 [E2 [_ [_ [E5 [E6 _]]]]]] := skel_eq_fields (skel_analyze true true c). by rewrite /ready E1 E2 E6.
Qed.
Lemma analyzed_origin_bodies s c u o o' : ready G c u o -> flat o' -> aligned c ->
  let c' := analyze true true (to_origin G (Oreq o') s c) in
  ready G c' u o' /\ aligned c' /\ p_m (c_ph c') = p_m (c_ph c) /\ exists d, bodies c' = map (translate d) (bodies c).
Proof.
  move=> R Hf' HA. have [R1 [A1 [M1 B1]]] := @origin_bodies s c u o o' R Hf' HA. cbn zeta.
  split; [exact: analyzed_ready|]. by rewrite /aligned /bodies /body !c_ph_analyze.
Qed.

Lemma pot_origin_independent s spec p soft c u o o' : ready G c u o -> flat o' -> aligned c -> analyze true true c = c ->
  separated (bodies_seen p c) ->
  snd (fst (energies G spec p true soft (analyze true true (to_origin G (Oreq o') s c)))) =
  snd (fst (energies G spec p true soft c)).
Proof.
  move=> R Hf' HA HN HS. have [R1 [A1 [M1 [d B1]]]] := @analyzed_origin_bodies s c u o o' R Hf' HA.
  have [_ [Hu _]] := R. have [_ [Hu1 _]] := R1.
  have N1 := analyze_idem (to_origin G (Oreq o') s c).
  move: (analyze true true (to_origin G (Oreq o') s c)) R1 A1 M1 B1 N1 Hu1 => c1 R1 A1 M1 B1 N1 Hu1.
  have EN : nstars c1 = nstars c by rewrite /nstars M1.
  have BS : bodies_seen p c1 = map (translate (fst (fst d), snd (fst d), if p then 0 else snd d)) (bodies_seen p c) by rewrite /bodies_seen B1 in_plane_translate.
  have HS1 : separated (bodies_seen p c1) by rewrite BS; exact: separated_translate.
  pose proof (@energies_spec G spec p soft c u o R HA HN HS) as E.
  pose proof (@energies_spec G spec p soft c1 u o' R1 A1 N1 HS1) as E'.
  destruct (energies G spec p true soft c) as [[kin pot] c2]. destruct (energies G spec p true soft c1) as [[kin' pot'] c2'].
  destruct E as [_ [L [V _]]]. destruct E' as [_ [L' [V' _]]]. cbn [fst snd].
  apply (nth_ext _ _ None None); [by rewrite L L' EN|]. move=> k Hk. rewrite L' EN in Hk.
  have [_ ->] := V _ Hk. rewrite -EN in Hk. have [_ ->] := V' _ Hk.
  rewrite BS newton_translate ?seen_length -?EN // /get_grav Hu Hu1 /mass M1 //.
Qed.

Lemma virial_radius_origin s p full c u o o' : ready G c u o -> flat o' -> aligned c -> analyze true true c = c ->
  fst (virial_radius G p full (analyze true true (to_origin G (Oreq o') s c))) = fst (virial_radius G p full c).
Proof.
  move=> R Hf' HA HN. have [R1 [A1 [M1 [d B1]]]] := @analyzed_origin_bodies s c u o o' R Hf' HA.
  have N1 := analyze_idem (to_origin G (Oreq o') s c).
  move: (analyze true true (to_origin G (Oreq o') s c)) R1 A1 M1 B1 N1 => c1 R1 A1 M1 B1 N1.
  have EN : nstars c1 = nstars c by rewrite /nstars M1.
  have BS : bodies_seen p c1 = map (translate (fst (fst d), snd (fst d), if p then 0 else snd d)) (bodies_seen p c) by rewrite /bodies_seen B1 in_plane_translate.
  pose proof (@virial_radius_spec G p full c u o _ R HA HN (pairs_set _)) as E.
  pose proof (@virial_radius_spec G p full c1 u o' _ R1 A1 N1 (pairs_set _)) as E'.
  destruct (virial_radius G p full c) as [rv c2]. destruct (virial_radius G p full c1) as [rv' c2'].
  destruct E as [E _]. destruct E' as [E' _]. cbn [fst]. rewrite E E' M1 BS inverse_translate EN //.
  move=> i j /pairs_in H. rewrite seen_length. lia.
Qed.

(* coincident stars *)
Lemma pot_nan spec p soft c u o k j : ready G c u o -> aligned c -> analyze true true c = c ->
  (k < nstars c)%nat -> (j < nstars c)%nat -> k <> j ->
  dist2 (nth k (bodies_seen p c) star0) (nth j (bodies_seen p c) star0) = 0 ->
  nth k (snd (fst (energies G spec p true soft c))) None = None.
Proof.
  move=> R HA HN Hk Hj Hne HD. rewrite /energies. cbn [fst snd].
  have FR := energy_frame_framed R HA (fresh_settled HN). have [d ED] := framed_seen p FR.
  have [SE [F1 [AL [OC [GR [HM _]]]]]] := FR.
  move: (energy_frame G c) FR SE F1 AL OC GR HM ED => c1 FR SE F1 AL OC GR HM ED.
  have HL : length (bodies_seen p c1) = nstars c by rewrite seen_length /nstars HM.
  rewrite /potential rows_seen //.
  have E : nth k (map (nmul (get_grav c1)) (potential_energy soft (bodies_seen p c1))) None = None.
  { rewrite (@nth_map_in _ _ _ _ _ None); [rewrite potential_energy_length HL //|].
    have DD : dist2 (nth k (bodies_seen p c1) star0) (nth j (bodies_seen p c1) star0) = 0.
    { rewrite ED !(@nth_map_in _ _ (translate d) (bodies_seen p c) _ star0 star0) ?seen_length //.
      transitivity (dist2 (nth k (bodies_seen p c) star0) (nth j (bodies_seen p c) star0)) => //. rewrite /dist2 /translate. destruct d as [[x y] z]. cbn [fx fy fz]. ring. }
    rewrite -HL in Hk Hj. by rewrite (@potential_energy_nan _ _ k j). }
  destruct spec => //. rewrite (@nth_zip_with _ _ _ _ _ _ _ None 0) ?E // ?map_length ?potential_energy_length ?HL // HM //.
Qed.

(* equal masses: specific and absolute virial ratio agree *)
Lemma equal_mass_ratio p soft c m : 0 < m -> (forall k, (k < nstars c)%nat -> mass c k = m) ->
  virial_ratio true p soft c = virial_ratio false p soft c.
Proof.
  move=> Hm H. rewrite /virial_ratio.
  have -> : kinetic_sum false p c = kinetic_sum true p c * m.
  { rewrite /kinetic_sum -sumR_map_mul map_map. apply sumR_ext => k /in_seq Hk. rewrite H; [lia|]. field. }
  have -> : potential_sum false p soft c = potential_sum true p soft c * m.
  { rewrite /potential_sum -sumR_map_mul map_map. apply sumR_ext => k /in_seq Hk. rewrite H; [lia|]. field. lra. }
  set a := kinetic_sum _ _ _. set b := potential_sum _ _ _ _.
  destruct (Req_dec b 0) as [->|N]; [|by field; lra].
  have -> : 0 * m / 2 = 0 by field. have -> : 0 / 2 = 0 by field. rewrite /Rdiv Rinv_0. ring.
Qed.

(* total potential energy = G times the sum over pairs, each pair counted twice *)
Lemma potential_sum_pairs p soft c ps : separated (bodies_seen p c) -> pair_set (nstars c) ps ->
  potential_sum false p soft c = 2 * (get_grav c *
   sumR (map (fun '(i, j) => pair_energy soft (nth i (bodies_seen p c) star0) (nth j (bodies_seen p c) star0)) ps)).
Proof.
  move=> HS [P1 P2]. rewrite /potential_sum.
  transitivity (sumR (map (newton_potential soft (bodies_seen p c)) (seq 0 (nstars c))) * get_grav c).
  { rewrite -sumR_map_mul map_map. f_equal. apply map_ext => k. field. }
  have T := potential_energy_total soft HS. rewrite seen_length in T. rewrite T.
  have -> : sumR (map (fun '(i, j) => pair_energy soft (nth i (bodies_seen p c) star0) (nth j (bodies_seen p c) star0)) (pairs (nstars c))) =
            sumR (map (fun '(i, j) => pair_energy soft (nth i (bodies_seen p c) star0) (nth j (bodies_seen p c) star0)) ps); last by ring.
  have [H3 H4] := pairs_set (nstars c). apply sumR_perm, Permutation_map, NoDup_Permutation => //. move=> [i j]. by rewrite P2 H4.
Qed.

Lemma virialize_twice Q soft p c u o : ready G c u o -> aligned c -> analyze true true c = c ->
  separated (bodies_seen p c) -> still_centre c -> virial_ratio true p soft c <> 0 ->
  let q := virial_ratio true p soft c in
  let '(cache1, c1) := virialize G Q soft p None c in
  let '(cache2, c2) := virialize G Q soft p cache1 c1 in
  Rabs (virial_ratio true p soft c1) = Rabs Q /\
  Rabs (virial_ratio true p soft c2) = Rabs Q * (Rabs Q / Rabs q).
Proof.
  move=> R HA HN HS HC Hq. cbn zeta. set q := virial_ratio true p soft c.
  pose proof (@virialize_spec G Q soft p None c u o R HA HN HS HC) as V1.
  destruct (virialize G Q soft p None c) as [cache1 c1]. destruct V1 as [-> B1].
  have RT1 := boosted_ratio true p soft B1. cbn zeta in B1.
  have [RR [AL [NN [HM [HB [HG [HPc [HU HV]]]]]]]] := B1.
  have R1 := RR _ _ R. have HS1 : separated (bodies_seen p c1) by rewrite /bodies_seen HB.
  have HC1 : still_centre c1. { rewrite /still_centre HPc. have [_ [_ [_ [-> _]]]] := R1. have [_ [_ [_ [Ho _]]]] := R. rewrite -Ho. exact HC. }
  pose proof (@virialize_spec G Q soft p (Some (virial_ratio true p soft c)) c1 u o R1 AL NN HS1 HC1) as V2.
  destruct (virialize G Q soft p (Some (virial_ratio true p soft c)) c1) as [cache2 c2]. destruct V2 as [_ B2].
  have RT2 := boosted_ratio true p soft B2. cbn zeta in RT2, RT1, B2.
  rewrite -/q in RT1 RT2 Hq *.
  have Sq : sqrt (Rabs (Q / q)) ^ 2 = Rabs (Q / q) by apply sqrt_pow2, Rabs_pos.
  have A : Rabs (Q / q) = Rabs Q / Rabs q by rewrite /Rdiv Rabs_mult Rabs_inv.
  have Nq : Rabs q <> 0 by apply Rabs_no_R0.
  have E1 : Rabs (virial_ratio true p soft c1) = Rabs Q.
  { rewrite RT1 Sq Rabs_mult Rabs_Rabsolu A -/q. field. exact Nq. }
  split => //. rewrite RT2 Sq Rabs_mult Rabs_Rabsolu E1 A. ring.
Qed.
End E.
