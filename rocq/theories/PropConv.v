(* C04, C05, C06: stand-alone converters (util/units.py) and the gravitational constant (util/constants.py). *)
From Verif Require Import Base ModelCluster ModelOps ModelConv SpecUnits SpecConv ProofsUnits ProofsConv PropUnits.

(* C04: for any two linear systems u, v: take a cluster in u, convert it to v.  Converting its old positions and time
   with the stand-alone functions gives its new positions and time; likewise masses unless a system is galpy, and
   velocities unless a system is WDunits or the pair is one of those that forget the km/s factor. *)
Theorem C04_converters_agree_with_to_units :
  forall (G : galpy) (c : cluster) (u v : usys),
    good_scales G (c_sc c) -> c_units c = Some u -> linear u -> linear v ->
    let c' := to_units G (Ureq v) c in
    map (fun x => convert_length x u c') (sx (p_s (c_ph c))) = sx (p_s (c_ph c')) /\
    map (fun x => convert_length x u c') (sy (p_s (c_ph c))) = sy (p_s (c_ph c')) /\
    map (fun x => convert_length x u c') (sz (p_s (c_ph c))) = sz (p_s (c_ph c')) /\
    convert_time G (p_t (c_ph c)) u c' = p_t (c_ph c') /\
    (mass_system u -> mass_system v -> map (fun x => convert_mass x u c') (p_m (c_ph c)) = map Ok (p_m (c_ph c'))) /\
    (vel_system u -> vel_system v -> ~ factor_forgotten u v ->
      map (fun x => convert_velocity x u c') (svx (p_s (c_ph c))) = svx (p_s (c_ph c')) /\
      map (fun x => convert_velocity x u c') (svy (p_s (c_ph c))) = svy (p_s (c_ph c')) /\
      map (fun x => convert_velocity x u c') (svz (p_s (c_ph c))) = svz (p_s (c_ph c'))).
Proof. exact convert_agrees. Qed.
Print Assumptions C04_converters_agree_with_to_units.

(* C04 finding: for every pair that forgets the factor, every converted velocity is 1.0227... times too small. *)
Theorem C04_velocity_factor_forgotten_refuted :
  forall (G : galpy) (c : cluster) (u v : usys) (x : R),
    good_scales G (c_sc c) -> c_units c = Some v -> vel_system u -> vel_system v -> factor_forgotten u v ->
    convert_velocity x u c * in_kms (unit_size G (c_sc c) v) * kms_in_pcmyr = x * in_kms (unit_size G (c_sc c) u).
Proof.
  move=> G c u v x HS Hu Hl Hl' HF. rewrite (velocity_forgotten x HS Hu Hl Hl' HF) /rsc.
  have [_ [_ [_ P]]] := unit_size_nz v HS. have M := kms_nz. rewrite !kms_spec. field. by split.
Qed.
Print Assumptions C04_velocity_factor_forgotten_refuted.

Theorem C04_square_velocity_factor_forgotten_refuted :
  forall (G : galpy) (c : cluster) (u v : usys) (x : R),
    good_scales G (c_sc c) -> c_units c = Some v -> vel_system u -> vel_system v -> square_factor_forgotten u v ->
    convert_square_velocity x u c * in_kms (unit_size G (c_sc c) v) ^ 2 * kms_in_pcmyr ^ 2 =
    x * in_kms (unit_size G (c_sc c) u) ^ 2.
Proof.
  move=> G c u v x HS Hu Hl Hl' HF. rewrite (sqvelocity_forgotten x HS Hu Hl Hl' HF) /rsc.
  have [_ [_ [_ P]]] := unit_size_nz v HS. have M := kms_nz. rewrite !kms_spec. field. by split.
Qed.
Print Assumptions C04_square_velocity_factor_forgotten_refuted.

(* C04: where no factor is forgotten the squared velocity converter is right. *)
Theorem C04_square_velocity_correct :
  forall (G : galpy) (c : cluster) (u v : usys) (x : R),
    good_scales G (c_sc c) -> c_units c = Some v -> vel_system u -> vel_system v -> ~ square_factor_forgotten u v ->
    same_q (in_kms (unit_size G (c_sc c) u) ^ 2) (in_kms (unit_size G (c_sc c) v) ^ 2) x
           (convert_square_velocity x u c).
Proof.
  move=> G c u v x HS Hu Hl Hl' HF. rewrite (sqvelocity_correct x HS Hu Hl Hl' HF) /rsc /same_q.
  have [_ [_ [_ P]]] := unit_size_nz v HS. by field.
Qed.
Print Assumptions C04_square_velocity_correct.

(* C04: densities, volume or surface, for all systems except galpy (and radec). *)
Theorem C04_density_correct :
  forall (G : galpy) (c : cluster) (u v : usys) (x : R) (projected : bool),
    good_scales G (c_sc c) -> c_units c = Some v -> mass_system u -> mass_system v ->
    exists y, convert_density x u c projected = Ok y /\
      same_q (density_size (unit_size G (c_sc c) u) projected) (density_size (unit_size G (c_sc c) v) projected) x y.
Proof.
  move=> G c u v x p HS Hu Hl Hl'. rewrite (density_correct x p HS Hu Hl Hl') /rsc /same_q. eexists; split => //.
  have P := density_nz (p := p) (unit_size_nz v HS). by field.
Qed.
Print Assumptions C04_density_correct.

(* C04 finding: any mass (hence density) conversion to or from galpy units raises. *)
Theorem C04_galpy_mass_refuted :
  forall (c : cluster) (u v : usys) (x : R),
    c_units c = Some v -> u <> v -> u = Ugalpy \/ v = Ugalpy -> convert_mass x u c = Raise.
Proof. exact mass_galpy_raises. Qed.
Print Assumptions C04_galpy_mass_refuted.

(* C04 finding: WDunits velocities are taken to be km/s, which agrees with to_WDunits only if the WDunits velocity
   unit happens to be 1 km/s. *)
Theorem C04_wd_velocity_refuted :
  forall (G : galpy) (c : cluster) (x : R),
    good_scales G (c_sc c) -> c_units c = Some UWD -> x <> 0 ->
    (same_q (in_kms (unit_size G (c_sc c) Ukpckms)) (in_kms (unit_size G (c_sc c) UWD)) x
            (convert_velocity x Ukpckms c) <-> in_kms (unit_size G (c_sc c) UWD) = 1).
Proof.
  move=> G c x HS Hu Hx. rewrite /convert_velocity Hu /same_q.
  destruct (usys_eq_dec Ukpckms UWD) => //. set k := in_kms (unit_size G (c_sc c) UWD).
  cbn [in_kms unit_size]. split => H; [|by rewrite H].
  apply (Rmult_eq_reg_l x) => //.
Qed.
Print Assumptions C04_wd_velocity_refuted.

(* C05: u -> v -> u is the identity. *)
Theorem C05_converters_invertible :
  forall (G : galpy) (c1 c2 : cluster) (u v : usys) (x : R),
    good_scales G (c_sc c1) -> c_sc c2 = c_sc c1 ->
    c_units c1 = Some v -> c_units c2 = Some u -> linear u -> linear v ->
    convert_length (convert_length x u c1) v c2 = x /\
    convert_time G (convert_time G x u c1) v c2 = x /\
    (mass_system u -> mass_system v -> exists y, convert_mass x u c1 = Ok y /\ convert_mass y v c2 = Ok x) /\
    (mass_system u -> mass_system v ->
       forall p, exists y, convert_density x u c1 p = Ok y /\ convert_density y v c2 p = Ok x) /\
    (vel_system u -> vel_system v -> ~ factor_forgotten u v -> ~ factor_forgotten v u ->
       convert_velocity (convert_velocity x u c1) v c2 = x) /\
    (vel_system u -> vel_system v -> ~ square_factor_forgotten u v -> ~ square_factor_forgotten v u ->
       convert_square_velocity (convert_square_velocity x u c1) v c2 = x).
Proof. exact convert_round_trip. Qed.
Print Assumptions C05_converters_invertible.

(* C05 finding: pckms -> pcmyr -> pckms shrinks every velocity. *)
Theorem C05_velocity_round_trip_refuted :
  forall (c1 c2 : cluster) (x : R), c_units c1 = Some Upcmyr -> c_units c2 = Some Upckms ->
    convert_velocity (convert_velocity x Upckms c1) Upcmyr c2 = x / kms_in_pcmyr.
Proof.
  move=> c1 c2 x H1 H2. rewrite /convert_velocity H1 H2. destruct (usys_eq_dec Upckms Upcmyr) => //.
  destruct (usys_eq_dec Upcmyr Upckms) => //. by rewrite kms_spec.
Qed.
Print Assumptions C05_velocity_round_trip_refuted.

(* C05 finding: a length sent to sky coordinates and back is multiplied by (galactocentric distance in the cluster's
   own units) / (heliocentric distance in kpc). *)
Theorem C05_sky_length_round_trip_refuted :
  forall (c1 c2 : cluster) (x : R) (u : usys), In u [Ukpckms; Upckms] ->
    c_units c1 = Some Uradec -> c_units c2 = Some u -> 0 < sz (p_g (c_ph c1)) ->
    convert_length (convert_length x u c1) Uradec c2 =
    x * (sqrt (sx (p_g (c_ph c2)) ^ 2 + sy (p_g (c_ph c2)) ^ 2 + sz (p_g (c_ph c2)) ^ 2) / sz (p_g (c_ph c1))).
Proof.
  move=> c1 c2 x u [<-|[<-|[]]]; [exact: radec_length_round_trip|exact: radec_length_round_trip_pc].
Qed.
Print Assumptions C05_sky_length_round_trip_refuted.

(* C06: the constant used for energies is Newton's constant in each physical system; in nbody and galpy units exactly
   when the scale factors satisfy the defining relation. *)
Theorem C06_grav_constant :
  forall (G : galpy) (c : cluster) (u : usys),
    c_units c = Some u -> In u [Upckms; Uamuse; Upcmyr; Ukpckms; Ukpcgyr] ->
    is_grav (unit_size G (c_sc c) u) (get_grav c).
Proof. exact grav_physical. Qed.
Print Assumptions C06_grav_constant.

Theorem C06_grav_nbody :
  forall (G : galpy) (c : cluster), c_units c = Some Unbody -> good_scales G (c_sc c) ->
  (is_grav (unit_size G (c_sc c) Unbody) (get_grav c) <-> rbar (c_sc c) * vbar (c_sc c) ^ 2 = G_pc * zmbar (c_sc c)).
Proof. exact grav_nbody. Qed.
Print Assumptions C06_grav_nbody.

Theorem C06_grav_galpy :
  forall (G : galpy) (c : cluster), c_units c = Some Ugalpy -> good_scales G (c_sc c) ->
  (is_grav (unit_size G (c_sc c) Ugalpy) (get_grav c) <->
   1000 * ro (c_sc c) * vo (c_sc c) ^ 2 = G_pc * mass_in_msol G (ro (c_sc c)) (vo (c_sc c))).
Proof. exact grav_galpy. Qed.
Print Assumptions C06_grav_galpy.

(* Non-vacuity: the forgotten pairs exist and so do the correct ones; the demo cluster meets the rest. *)
Example demo_pairs : vel_system Upckms /\ vel_system Upcmyr /\ factor_forgotten Upckms Upcmyr /\
  square_factor_forgotten Ugalpy Upcmyr /\ ~ factor_forgotten Unbody Ukpcgyr /\ mass_system UWD.
Proof.
  rewrite /vel_system /mass_system /factor_forgotten /square_factor_forgotten.
  repeat split; try discriminate; try (by left); [by case|]. move=> [_ [_ [H _]]]. by apply H.
Qed.
Example demo_conv : good_scales demo_galpy (c_sc demo_cluster) /\ c_units demo_cluster = Some Unbody.
Proof. split => //. apply demo_meets_hypotheses. Qed.
