From Verif Require Import Base ModelCluster ModelOps ModelConv SpecUnits SpecConv ProofsUnits.
Set Implicit Arguments. Unset Strict Implicit.

Section S.
Variable G : galpy.
Notation size c u := (unit_size G (c_sc c) u).

Ltac pairs u cu := destruct u; destruct cu; try congruence; try (by exfalso; tauto);
  try (match goal with |- context [usys_eq_dec ?a ?b] => destruct (usys_eq_dec a b) end); try congruence.

Lemma length_correct c u cu x : good_scales G (c_sc c) -> c_units c = Some cu -> linear u -> linear cu ->
  convert_length x u c = rsc (in_pc (size c u)) (in_pc (size c cu)) x.
Proof.
  move=> [N1 [N2 [N3 [N4 [N5 [N6 [N7 [N8 N9]]]]]]]] Hu Hl Hl'. rewrite /convert_length Hu /rsc /unit_size.
  rewrite /linear in Hl Hl'.
  pairs u cu; simpl; field; repeat split; try assumption; lra.
Qed.

Lemma time_correct c u cu x : good_scales G (c_sc c) -> c_units c = Some cu -> linear u -> linear cu ->
  convert_time G x u c = rsc (in_Myr (size c u)) (in_Myr (size c cu)) x.
Proof.
  move=> [N1 [N2 [N3 [N4 [N5 [N6 [N7 [N8 N9]]]]]]]] Hu Hl Hl'. rewrite /convert_time Hu /rsc /unit_size.
  rewrite /linear in Hl Hl'.
  pairs u cu; simpl; field; repeat split; try assumption; lra.
Qed.

Lemma mass_correct c u cu x : good_scales G (c_sc c) -> c_units c = Some cu -> mass_system u -> mass_system cu ->
  convert_mass x u c = Ok (rsc (in_Msun (size c u)) (in_Msun (size c cu)) x).
Proof.
  move=> [N1 [N2 [N3 [N4 [N5 [N6 [N7 [N8 N9]]]]]]]] Hu [Hl Hm] [Hl' Hm']. rewrite /convert_mass Hu /rsc /unit_size.
  have M := mcon_nz. rewrite !mcon_spec.
  pairs u cu; simpl; f_equal; field; repeat split; try assumption; lra.
Qed.

Lemma mass_galpy_raises c u cu x : c_units c = Some cu -> u <> cu -> u = Ugalpy \/ cu = Ugalpy ->
  convert_mass x u c = Raise.
Proof.
  move=> Hu Hne H. rewrite /convert_mass Hu. destruct (usys_eq_dec u cu); [done|].
  destruct H as [->| ->]; [by destruct cu|by destruct u].
Qed.

Lemma velocity_correct c u cu x : good_scales G (c_sc c) -> c_units c = Some cu -> vel_system u -> vel_system cu ->
  ~ factor_forgotten u cu ->
  convert_velocity x u c = rsc (in_kms (size c u)) (in_kms (size c cu)) x.
Proof.
  move=> [N1 [N2 [N3 [N4 [N5 [N6 [N7 [N8 N9]]]]]]]] Hu [Hl Hm] [Hl' Hm'] HF.
  rewrite /convert_velocity Hu /rsc /unit_size. have M := kms_nz. rewrite !kms_spec.
  rewrite /factor_forgotten in HF.
  pairs u cu; simpl;
    first [by exfalso; apply HF; repeat split; try (by left); try (by right); try discriminate; case; discriminate
          | field; repeat split; try assumption; lra].
Qed.

Lemma velocity_forgotten c u cu x : good_scales G (c_sc c) -> c_units c = Some cu -> vel_system u -> vel_system cu ->
  factor_forgotten u cu ->
  convert_velocity x u c = rsc (in_kms (size c u)) (in_kms (size c cu)) x / kms_in_pcmyr.
Proof.
  move=> [N1 [N2 [N3 [N4 [N5 [N6 [N7 [N8 N9]]]]]]]] Hu [Hl Hm] [Hl' Hm'] [HF1 [HF2 [HF3 HF4]]].
  rewrite /convert_velocity Hu /rsc /unit_size. have M := kms_nz. rewrite !kms_spec.
  pairs u cu; simpl; try (by exfalso; tauto); try (by destruct HF1);
    try (field; repeat split; try assumption; lra).
Qed.

Lemma sqvelocity_correct c u cu x : good_scales G (c_sc c) -> c_units c = Some cu -> vel_system u -> vel_system cu ->
  ~ square_factor_forgotten u cu ->
  convert_square_velocity x u c = rsc (in_kms (size c u) ^ 2) (in_kms (size c cu) ^ 2) x.
Proof.
  move=> [N1 [N2 [N3 [N4 [N5 [N6 [N7 [N8 N9]]]]]]]] Hu [Hl Hm] [Hl' Hm'] HF.
  rewrite /convert_square_velocity Hu /rsc /unit_size. have M := kms_nz. rewrite !kms_spec.
  rewrite /square_factor_forgotten in HF.
  pairs u cu;
    cbn [in_kms];
    first [by exfalso; apply HF; repeat split; try (by left); try (by right); discriminate
          | field; repeat split; try assumption; lra].
Qed.

Lemma sqvelocity_forgotten c u cu x : good_scales G (c_sc c) -> c_units c = Some cu -> vel_system u -> vel_system cu ->
  square_factor_forgotten u cu ->
  convert_square_velocity x u c = rsc (in_kms (size c u) ^ 2) (in_kms (size c cu) ^ 2) x / kms_in_pcmyr ^ 2.
Proof.
  move=> [N1 [N2 [N3 [N4 [N5 [N6 [N7 [N8 N9]]]]]]]] Hu [Hl Hm] [Hl' Hm'] [HF1 [HF2 HF3]].
  rewrite /convert_square_velocity Hu /rsc /unit_size. have M := kms_nz. rewrite !kms_spec.
  pairs u cu; cbn [in_kms]; try (by exfalso; tauto); try (by destruct HF1);
    try (field; repeat split; try assumption; lra).
Qed.

Lemma density_correct c u cu x p : good_scales G (c_sc c) -> c_units c = Some cu -> mass_system u -> mass_system cu ->
  convert_density x u c p = Ok (rsc (density_size (size c u) p) (density_size (size c cu) p) x).
Proof.
  move=> HS Hu HM HM'. have HS' := HS. move: HS' => [N1 [N2 [N3 [N4 [N5 [N6 [N7 [N8 N9]]]]]]]].
  rewrite /convert_density Hu (mass_correct _ HS Hu HM HM'). case: HM => Hl Hm; case: HM' => Hl' Hm'.
  rewrite /rsc /density_size /unit_size. have M := mcon_nz. rewrite !mcon_spec.
  pairs u cu; cbn [in_Msun in_pc]; f_equal; destruct p;
    field; repeat split; try assumption; lra.
Qed.

(* agreement with to_units *)
Lemma convert_agrees c u v : good_scales G (c_sc c) -> c_units c = Some u -> linear u -> linear v ->
  let c' := to_units G (Ureq v) c in
  map (fun x => convert_length x u c') (sx (p_s (c_ph c))) = sx (p_s (c_ph c')) /\
  map (fun x => convert_length x u c') (sy (p_s (c_ph c))) = sy (p_s (c_ph c')) /\
  map (fun x => convert_length x u c') (sz (p_s (c_ph c))) = sz (p_s (c_ph c')) /\
  convert_time G (p_t (c_ph c)) u c' = p_t (c_ph c') /\
  (mass_system u -> mass_system v -> map (fun x => convert_mass x u c') (p_m (c_ph c)) = map Ok (p_m (c_ph c'))) /\
  (vel_system u -> vel_system v -> ~ factor_forgotten u v ->
    map (fun x => convert_velocity x u c') (svx (p_s (c_ph c))) = svx (p_s (c_ph c')) /\
    map (fun x => convert_velocity x u c') (svy (p_s (c_ph c))) = svy (p_s (c_ph c')) /\
    map (fun x => convert_velocity x u c') (svz (p_s (c_ph c))) = svz (p_s (c_ph c'))).
Proof.
  move=> HS Hu Hl Hl'.
  have [Hu' [F5 [_ [Hsc _]]]] := to_units_full HS Hu Hl Hl'.
  move: (to_units G (Ureq v) c) Hu' F5 Hsc => c' Hu' F5 Hsc. cbv zeta.
  have HS' : good_scales G (c_sc c') by rewrite Hsc.
  have -> : p_s (c_ph c') = rscs (size c u) (size c v) (p_s (c_ph c)) by rewrite F5.
  have -> : p_t (c_ph c') = rsc (in_Myr (size c u)) (in_Myr (size c v)) (p_t (c_ph c)) by rewrite F5.
  have -> : p_m (c_ph c') = map (rsc (in_Msun (size c u)) (in_Msun (size c v))) (p_m (c_ph c)) by rewrite F5.
  have L : forall x, convert_length x u c' = rsc (in_pc (size c u)) (in_pc (size c v)) x.
  { move=> x. by rewrite (length_correct _ HS' Hu' Hl Hl') Hsc. }
  repeat split.
  - apply map_ext => x. exact: L.
  - apply map_ext => x. exact: L.
  - apply map_ext => x. exact: L.
  - by rewrite (time_correct _ HS' Hu' Hl Hl') Hsc.
  - move=> M1 M2. rewrite map_map. apply map_ext => x. by rewrite (mass_correct _ HS' Hu' M1 M2) Hsc.
  - apply map_ext => x. by rewrite (velocity_correct _ HS' Hu' H H0 H1) Hsc.
  - apply map_ext => x. by rewrite (velocity_correct _ HS' Hu' H H0 H1) Hsc.
  - apply map_ext => x. by rewrite (velocity_correct _ HS' Hu' H H0 H1) Hsc.
Qed.

(* round trips *)
Lemma rsc_back k l x : k <> 0 -> l <> 0 -> rsc l k (rsc k l x) = x.
Proof. move=> ? ?. rewrite rsc_comp // rsc_id //. Qed.

Lemma density_nz z p : pos_size z -> density_size z p <> 0.
Proof. move=> [_ [M [L _]]]. rewrite /density_size. apply div_nz => //. by apply pow_nonzero. Qed.

Lemma convert_round_trip c1 c2 u v x : good_scales G (c_sc c1) -> c_sc c2 = c_sc c1 ->
  c_units c1 = Some v -> c_units c2 = Some u -> linear u -> linear v ->
  convert_length (convert_length x u c1) v c2 = x /\
  convert_time G (convert_time G x u c1) v c2 = x /\
  (mass_system u -> mass_system v -> exists y, convert_mass x u c1 = Ok y /\ convert_mass y v c2 = Ok x) /\
  (mass_system u -> mass_system v -> forall p, exists y, convert_density x u c1 p = Ok y /\ convert_density y v c2 p = Ok x) /\
  (vel_system u -> vel_system v -> ~ factor_forgotten u v -> ~ factor_forgotten v u ->
     convert_velocity (convert_velocity x u c1) v c2 = x) /\
  (vel_system u -> vel_system v -> ~ square_factor_forgotten u v -> ~ square_factor_forgotten v u ->
     convert_square_velocity (convert_square_velocity x u c1) v c2 = x).
Proof.
  move=> HS E H1 H2 L1 L2. have HS2 : good_scales G (c_sc c2) by rewrite E.
  have Pu := unit_size_nz u HS. have Pv := unit_size_nz v HS.
  have Pu' := Pu; move: Pu' => [P1 [P2 [P3 P4]]]. have Pv' := Pv; move: Pv' => [Q1 [Q2 [Q3 Q4]]].
  repeat split.
  - rewrite (length_correct _ HS H1 L1 L2) (length_correct _ HS2 H2 L2 L1) E. exact: rsc_back.
  - rewrite (time_correct _ HS H1 L1 L2) (time_correct _ HS2 H2 L2 L1) E. exact: rsc_back.
  - move=> M1 M2. eexists. split; [exact: mass_correct HS H1 M1 M2|].
    rewrite (mass_correct _ HS2 H2 M2 M1) E rsc_back //.
  - move=> M1 M2 p. eexists. split; [exact: density_correct HS H1 M1 M2|].
    rewrite (density_correct _ _ HS2 H2 M2 M1) E rsc_back //; exact: density_nz.
  - move=> V1 V2 F1 F2. rewrite (velocity_correct _ HS H1 V1 V2 F1) (velocity_correct _ HS2 H2 V2 V1 F2) E. exact: rsc_back.
  - move=> V1 V2 F1 F2. rewrite (sqvelocity_correct _ HS H1 V1 V2 F1) (sqvelocity_correct _ HS2 H2 V2 V1 F2) E.
    apply rsc_back; exact: pow_nonzero.
Qed.

(* the sky length converters *)
Lemma tan_atan2 y x : 0 < x -> tan (atan2 y x) = y / x.
Proof. move=> H. rewrite /atan2. have -> : Rltb 0 x = true by apply Rltb_spec. apply tan_atan. Qed.
Lemma radians_degrees a : radians (degrees a) = a.
Proof. rewrite /radians /degrees. field. exact: PI_neq0. Qed.

Lemma radec_length_round_trip c1 c2 x : c_units c1 = Some Uradec -> c_units c2 = Some Ukpckms ->
  0 < sz (p_g (c_ph c1)) ->
  convert_length (convert_length x Ukpckms c1) Uradec c2 =
  x * (sqrt (sx (p_g (c_ph c2)) ^ 2 + sy (p_g (c_ph c2)) ^ 2 + sz (p_g (c_ph c2)) ^ 2) / sz (p_g (c_ph c1))).
Proof.
  move=> H1 H2 Hz. rewrite /convert_length H1 H2. destruct (usys_eq_dec Ukpckms Uradec) => //.
  destruct (usys_eq_dec Uradec Ukpckms) => //. rewrite radians_degrees tan_atan2 //. field. lra.
Qed.

Lemma radec_length_round_trip_pc c1 c2 x : c_units c1 = Some Uradec -> c_units c2 = Some Upckms ->
  0 < sz (p_g (c_ph c1)) ->
  convert_length (convert_length x Upckms c1) Uradec c2 =
  x * (sqrt (sx (p_g (c_ph c2)) ^ 2 + sy (p_g (c_ph c2)) ^ 2 + sz (p_g (c_ph c2)) ^ 2) / sz (p_g (c_ph c1))).
Proof.
  move=> H1 H2 Hz. rewrite /convert_length H1 H2. destruct (usys_eq_dec Upckms Uradec) => //.
  destruct (usys_eq_dec Uradec Upckms) => //. rewrite radians_degrees tan_atan2 //. field. lra.
Qed.

(* gravity *)
Lemma grav_physical c u : c_units c = Some u -> In u [Upckms; Uamuse; Upcmyr; Ukpckms; Ukpcgyr] ->
  is_grav (size c u) (get_grav c).
Proof.
  move=> Hu. rewrite /is_grav /get_grav Hu. have M := kms_nz.
  case=> [<-|[<-|[<-|[<-|[<-|[]]]]]]; rewrite /unit_size /G_pc ?kms_spec; cbn [in_pc in_kms in_Msun]; field; lra.
Qed.
Lemma grav_nbody c : c_units c = Some Unbody -> good_scales G (c_sc c) ->
  (is_grav (size c Unbody) (get_grav c) <-> rbar (c_sc c) * vbar (c_sc c) ^ 2 = G_pc * zmbar (c_sc c)).
Proof.
  move=> Hu [N1 _]. rewrite /is_grav /get_grav Hu. cbn [in_pc in_kms in_Msun unit_size].
  have -> : 1 * (rbar (c_sc c) * vbar (c_sc c) ^ 2 / zmbar (c_sc c)) = rbar (c_sc c) * vbar (c_sc c) ^ 2 / zmbar (c_sc c) by field.
  split => H; [rewrite -H; by field|rewrite H; by field].
Qed.
Lemma grav_galpy c : c_units c = Some Ugalpy -> good_scales G (c_sc c) ->
  (is_grav (size c Ugalpy) (get_grav c) <->
   1000 * ro (c_sc c) * vo (c_sc c) ^ 2 = G_pc * mass_in_msol G (ro (c_sc c)) (vo (c_sc c))).
Proof.
  move=> Hu [_ [_ [_ [_ [_ [_ [_ [N8 _]]]]]]]]. rewrite /is_grav /get_grav Hu. cbn [in_pc in_kms in_Msun unit_size].
  set m := mass_in_msol _ _ _ in N8 *.
  have -> : 1 * (1000 * ro (c_sc c) * vo (c_sc c) ^ 2 / m) = 1000 * ro (c_sc c) * vo (c_sc c) ^ 2 / m by field.
  split => H; [rewrite -H; by field|rewrite H; by field].
Qed.
End S.
