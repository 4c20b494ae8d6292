(* C89, C90: clusters from galpy Orbits and from AMUSE particles. *)
From Verif Require Import Base ModelCluster ModelOps ModelRecipes ModelCentre ModelStars ModelOutput ModelLoad ModelParticles
  SpecUnits SpecStars SpecLoad SpecParticles ProofsLoad2 ProofsParticles2 ProofsGorbit PropGorbit.
Open Scope R_scope.

(* the cluster is where its origin says: about the Galaxy, at the density centre of the stars; about the cluster, its centre is the
   density centre; otherwise nothing is recorded *)
Definition centre_recorded (o : option osys) (c : cluster) : Prop :=
  match o with
  | Some Ogalaxy => default_density_centre (p_m (c_ph c)) (p_s (c_ph c)) (p_g (c_ph c))
  | Some Ocluster => default_density_centre (p_m (c_ph c)) (p_s (c_ph c)) (p_c (c_ph c)) /\ p_g (c_ph c) = zero6
  | _ => p_g (c_ph c) = zero6 /\ p_c (c_ph c) = zero6
  end.
(* n stars, singles *)
Definition singles (k : catalog) (n : nat) : Prop := aligned k n /\ g_ntot k = n /\ c_nb (g_c k) = 0%nat.
(* a point in the units of a cluster is this point in kpc and km/s *)
Definition placed (G : galpy) (c : cluster) (u : usys) (w p : six R) : Prop := same_6 (unit_size G (c_sc c) u) (mkSize 1000 1 1000 1) w p.

(* C89: loaded in kpc and km/s, star i is object i of the Orbit, at its physical position and velocity, with the mass given and
   identifier i + 1; units, origin and time are as asked for, and the centre is recorded *)
Theorem C89_orbits_in_kpckms :
  forall (G : galpy) (o : load_opts) (ro vo : R) (l : orbits) (m : option (arg R)),
    l <> [] -> enough_masses m (length l) -> l_units o = Some Ukpckms ->
    exists v, get_orbits G o ro vo l m None = Ok v /\ singles (v_cat v) (length l) /\
      (forall i p a, nth_error l i = Some p -> given_mass m i a ->
        placed G (g_c (v_cat v)) Ukpckms (w_s (star_at (v_cat v) i)) (physical ro vo p) /\
        w_m (star_at (v_cat v) i) = a /\ w_id (star_at (v_cat v) i) = (Z.of_nat i + 1)%Z) /\
      c_units (g_c (v_cat v)) = Some Ukpckms /\ c_origin (g_c (v_cat v)) = l_origin o /\ p_t (c_ph (g_c (v_cat v))) = 0 /\
      centre_recorded (l_origin o) (g_c (v_cat v)).
Proof.
  intros G o ro vo l m NL EM U.
  assert (NR : l_units o <> Some Uradec) by (rewrite U; discriminate). assert (NA : l_units o <> Some Uamuse) by (rewrite U; discriminate).
  destruct (get_orbits_ok G ro vo NL EM NR NA) as [v [E [A [S [Hu [Ho [_ [_ [_ [T [SC C]]]]]]]]]]].
  exists v. split; [exact E|]. split; [exact A|]. split.
  - intros i p a Hp Ha. rewrite (S i p a Hp Ha). cbn [w_s w_m w_id]. rewrite U. cbn [mass_scale].
    split; [|split; [field|lia]]. unfold placed, same_6, same_q. cbv [unit_size in_pc in_kms]. repeat split; reflexivity.
  - split; [now rewrite Hu|]. split; [exact Ho|]. split; [exact T|]. exact C.
Qed.
Print Assumptions C89_orbits_in_kpckms.
(* finding: in any other units the numbers are still kpc and km/s, so no star is where its object is *)
Theorem C89_units_ignored_refuted :
  forall (G : galpy) (o : load_opts) (ro vo : R) (l : orbits) (m : option (arg R)) (u : usys),
    enough_masses m (length l) -> l_units o = Some u -> u = Upckms \/ u = Upcmyr \/ u = Ukpcgyr \/ u = Unbody -> ro <> 0 -> vo <> 0 ->
    forall i p a, nth_error l i = Some p -> given_mass m i a -> sx p <> 0 -> svx p <> 0 ->
    exists v, get_orbits G o ro vo l m None = Ok v /\ c_units (g_c (v_cat v)) = Some u /\
      ~ placed G (g_c (v_cat v)) u (w_s (star_at (v_cat v) i)) (physical ro vo p).
Proof.
  intros G o ro vo l m u EM U C HR HV i p a Hp Ha X V.
  assert (NL : l <> []) by (intros E; rewrite E in Hp; destruct i; discriminate).
  assert (NR : l_units o <> Some Uradec) by (rewrite U; intros E; injection E as E; subst u; destruct C as [C|[C|[C|C]]]; discriminate).
  assert (NA : l_units o <> Some Uamuse) by (rewrite U; intros E; injection E as E; subst u; destruct C as [C|[C|[C|C]]]; discriminate).
  destruct (get_orbits_ok G ro vo NL EM NR NA) as [v [E [A [S [Hu [Ho [_ [_ [_ [T [SC Q]]]]]]]]]]].
  exists v. split; [exact E|]. split; [now rewrite Hu|]. rewrite (S i p a Hp Ha). cbn [w_s].
  assert (XR : sx p * ro <> 0) by (now apply Rmult_integral_contrapositive_currified).
  assert (VR : svx p * vo <> 0) by (now apply Rmult_integral_contrapositive_currified).
  intros [P1 [_ [_ [P4 _]]]]. rewrite SC in P1, P4. unfold same_q in P1, P4.
  destruct C as [C|[C|[C|C]]]; subst u; cbv [unit_size in_pc in_kms rbar vbar kms_in_pcmyr physical sx svx] in P1, P4; fold (sx p) in P1; fold (svx p) in P4.
  - apply XR. lra.
  - apply XR. lra.
  - apply VR. change (match p with mk6 _ _ _ svx _ _ => svx end) with (svx p) in P4. lra.
  - apply XR. lra.
Qed.
Print Assumptions C89_units_ignored_refuted.
(* finding: in galpy units, for objects with the default scales, no choice of ro and vo gives both the right places and the right masses *)
Theorem C89_galpy_units_refuted :
  forall (G : galpy) (o : load_opts) (ro vo : R) (l : orbits) (m : option (arg R)),
    enough_masses m (length l) -> l_units o = Some Ugalpy ->
    mass_in_msol G 1 1 <> 0 -> mass_in_msol G 1 1 <> mass_in_msol G solar_ro solar_vo ->
    forall i p a, nth_error l i = Some p -> given_mass m i a -> sx p <> 0 -> svx p <> 0 -> a <> 0 ->
    exists v, get_orbits G o ro vo l m None = Ok v /\ c_units (g_c (v_cat v)) = Some Ugalpy /\
      ~ (placed G (g_c (v_cat v)) Ugalpy (w_s (star_at (v_cat v) i)) (physical solar_ro solar_vo p) /\
         w_m (star_at (v_cat v) i) * in_Msun (unit_size G (c_sc (g_c (v_cat v))) Ugalpy) = a).
Proof.
  intros G o ro_ vo_ l m EM U M1 M2 i p a Hp Ha X V A0.
  assert (NL : l <> []) by (intros E; rewrite E in Hp; destruct i; discriminate).
  assert (NR : l_units o <> Some Uradec) by (rewrite U; discriminate). assert (NA : l_units o <> Some Uamuse) by (rewrite U; discriminate).
  destruct (get_orbits_ok G ro_ vo_ NL EM NR NA) as [v [E [A [S [Hu [Ho [_ [_ [_ [T [SC Q]]]]]]]]]]].
  exists v. split; [exact E|]. split; [now rewrite Hu|]. rewrite (S i p a Hp Ha). cbn [w_s w_m]. rewrite U SC.
  intros [[P1 [_ [_ [P4 _]]]] PM]. rewrite SC in P1, P4. unfold same_q in P1, P4.
  cbn [unit_size in_pc in_kms in_Msun ro vo mass_scale] in P1, P4, PM.
  change (sx (physical ro_ vo_ p)) with (sx p * ro_) in P1. change (sx (physical solar_ro solar_vo p)) with (sx p * solar_ro) in P1.
  change (svx (physical ro_ vo_ p)) with (svx p * vo_) in P4. change (svx (physical solar_ro solar_vo p)) with (svx p * solar_vo) in P4.
  assert (HR : solar_ro <> 0) by (unfold solar_ro; lra).
  assert (HV : solar_vo <> 0) by (unfold solar_vo, solar_ro; lra).
  assert (R1 : ro_ = 1).
  { apply (Rmult_eq_reg_r (sx p * solar_ro)); [transitivity (sx p * ro_ * (1000 * solar_ro) / 1000); [field|rewrite P1; field]|now apply Rmult_integral_contrapositive_currified]. }
  assert (V1 : vo_ = 1).
  { apply (Rmult_eq_reg_r (svx p * solar_vo)); [transitivity (svx p * vo_ * solar_vo); [ring|rewrite P4; ring]|now apply Rmult_integral_contrapositive_currified]. }
  subst ro_ vo_. apply M2. apply (Rmult_eq_reg_l (a / mass_in_msol G 1 1)).
  - rewrite PM. field. exact M1.
  - unfold Rdiv. apply Rmult_integral_contrapositive_currified; [exact A0|now apply Rinv_neq_0_compat].
Qed.
Print Assumptions C89_galpy_units_refuted.
(* what is loaded in general: the numbers are kpc and km/s, masses are divided by galpy's mass unit in galpy units only *)
Theorem C89_orbits_loaded :
  forall (G : galpy) (o : load_opts) (ro vo : R) (l : orbits) (m : option (arg R)),
    l <> [] -> enough_masses m (length l) -> l_units o <> Some Uradec -> l_units o <> Some Uamuse ->
    exists v, get_orbits G o ro vo l m None = Ok v /\ singles (v_cat v) (length l) /\
      (forall i p a, nth_error l i = Some p -> given_mass m i a ->
        star_at (v_cat v) i = mkStar (physical ro vo p) (match l_units o with Some Ugalpy => a / mass_in_msol G ro vo | _ => a end) (Z.of_nat i + 1) 0 1%Z) /\
      c_units (g_c (v_cat v)) = l_units o /\ c_origin (g_c (v_cat v)) = l_origin o /\ p_t (c_ph (g_c (v_cat v))) = 0 /\
      centre_recorded (l_origin o) (g_c (v_cat v)).
Proof.
  intros G o ro vo l m NL EM NR NA.
  destruct (get_orbits_ok G ro vo NL EM NR NA) as [v [E [A [S [Hu [Ho [_ [_ [_ [T [SC C]]]]]]]]]]].
  exists v. split; [exact E|]. split; [exact A|]. split.
  - intros i p a Hp Ha. rewrite (S i p a Hp Ha). f_equal; [|lia]. destruct (l_units o) as [[]|]; cbn [mass_scale]; try reflexivity; field.
  - split; [exact Hu|]. split; [exact Ho|]. split; [exact T|]. exact C.
Qed.
Print Assumptions C89_orbits_loaded.
(* finding: an orbit file is always an error (with an origin that uses it) *)
Theorem C89_orbit_file_refuted :
  forall (G : galpy) (o : load_opts) (ro vo : R) (l : orbits) (m : option (arg R)) (f : text) (og : osys),
    l_origin o = Some og -> og <> Osky -> get_orbits G o ro vo l m (Some f) = Raise.
Proof.
  intros G o ro vo l m f og O NS. unfold get_orbits. cbv zeta. destruct (add_stars _ _ _ _ _ _) as [k|]; [|reflexivity]. cbn [bind].
  unfold centre_orbits. rewrite O. destruct og; try reflexivity; try (now destruct NS); destruct (find_centre_default G (g_c k)); reflexivity.
Qed.
Print Assumptions C89_orbit_file_refuted.

(* C90: loaded in one of the four physical unit systems, star i is particle i: the same position, velocity and mass, and its key *)
Theorem C90_particles_loaded :
  forall (G : galpy) (o : load_opts) (u : usys) (l : list particle),
    l <> [] -> u = Upckms \/ u = Ukpckms \/ u = Ukpcgyr \/ u = Upcmyr ->
    exists v, get_particles G kms_in_pcmyr o u l None = Ok v /\ singles (v_cat v) (length l) /\
      (forall i p, nth_error l i = Some p ->
        same_6 (unit_size G (c_sc (g_c (v_cat v))) u) (mkSize 1 1 1 1) (w_s (star_at (v_cat v) i)) (pt_s p) /\
        w_m (star_at (v_cat v) i) = pt_m p /\ w_id (star_at (v_cat v) i) = pt_key p) /\
      c_units (g_c (v_cat v)) = Some u /\ c_origin (g_c (v_cat v)) = l_origin o /\ p_t (c_ph (g_c (v_cat v))) = 0 /\
      centre_recorded (l_origin o) (g_c (v_cat v)).
Proof.
  intros G o u l NL C.
  assert (NR : u <> Uradec) by (intros ->; destruct C as [C|[C|[C|C]]]; discriminate).
  assert (NA : u <> Uamuse) by (intros ->; destruct C as [C|[C|[C|C]]]; discriminate).
  assert (D : exists kx kv, convert_amuse kms_in_pcmyr u l = Ok (six_cols kx kv l) /\
            (forall s p, same_6 (unit_size G s u) (mkSize 1 1 1 1) (scaled kx kv p) p)).
  { assert (K : kms_in_pcmyr <> 0) by (unfold kms_in_pcmyr; lra).
    destruct C as [C|[C|[C|C]]]; subst u; do 2 eexists; (split; [reflexivity|]); intros s [a b c d e f]; unfold same_6, same_q, scaled; cbv [unit_size in_pc in_kms]; cbn [sx sy sz svx svy svz];
      repeat split; field; exact K. }
  destruct D as [kx [kv [DC DS]]].
  destruct (get_particles_ok G o NL DC NR NA) as [v [E [A [S [Hu [Ho [_ [_ [_ [T [SC Q]]]]]]]]]]].
  exists v. split; [exact E|]. split; [exact A|]. split.
  - intros i p Hp. rewrite (S i p Hp). cbn [w_s w_m w_id]. split; [apply DS|split; reflexivity].
  - split; [exact Hu|]. split; [exact Ho|]. split; [exact T|]. exact Q.
Qed.
Print Assumptions C90_particles_loaded.
(* finding: N-body, galpy, WDunits and radec units are errors *)
Theorem C90_other_units_refuted :
  forall (G : galpy) (kms : R) (o : load_opts) (u : usys) (l : list particle) (ofile : option text),
    u = Unbody \/ u = Ugalpy \/ u = UWD \/ u = Uradec -> get_particles G kms o u l ofile = Raise.
Proof. intros G kms o u l ofile [C|[C|[C|C]]]; subst u; reflexivity. Qed.
Print Assumptions C90_other_units_refuted.
(* finding: an orbit file is always an error (with an origin that uses it) *)
Theorem C90_orbit_file_refuted :
  forall (G : galpy) (kms : R) (o : load_opts) (u : usys) (l : list particle) (f : text) (og : osys),
    l_origin o = Some og -> og <> Osky -> get_particles G kms o u l (Some f) = Raise.
Proof.
  intros G kms o u l f og O NS. unfold get_particles. destruct (convert_amuse kms u l) as [s|]; [|reflexivity]. cbn [bind].
  destruct (add_stars _ _ _ _ _ _) as [k|]; [|reflexivity]. cbn [bind].
  unfold centre_amuse. rewrite O. destruct og; try reflexivity; try (now destruct NS); destruct (find_centre_default G (g_c k)); reflexivity.
Qed.
Print Assumptions C90_orbit_file_refuted.

(* ------------------------------------------------------------------ non-vacuity *)
Definition demo_orbits : orbits := [mk6 1 2 0 (1/2) 0 1; mk6 (1/4) 0 1 1 1 0].
Example C89_hypotheses_met :
  demo_orbits <> [] /\ enough_masses (Some (Array [3; 4])) (length demo_orbits) /\
  nth_error demo_orbits 1 = Some (mk6 (1/4) 0 1 1 1 0) /\ given_mass (Some (Array [3; 4])) 1 4 /\
  physical 8 220 (mk6 (1/4) 0 1 1 1 0) = mk6 2 0 8 220 220 0.
Proof.
  split; [discriminate|]. split; [reflexivity|]. split; [reflexivity|]. split; [reflexivity|].
  unfold physical; cbn [sx sy sz svx svy svz]. f_equal; lra.
Qed.
(* the cluster of the two demo objects, in kpc and km/s, without an origin *)
Example C89_result_nontrivial :
  forall (G : galpy) (o : load_opts), l_units o = Some Ukpckms ->
  exists v, get_orbits G o 8 220 demo_orbits (Some (Array [3; 4])) None = Ok v /\ g_ntot (v_cat v) = 2%nat /\
    w_m (star_at (v_cat v) 1) = 4 /\ w_id (star_at (v_cat v) 1) = 2%Z.
Proof.
  intros G o U. destruct C89_hypotheses_met as [H1 [H2 [H3 [H4 _]]]].
  destruct (C89_orbits_in_kpckms G o 8 220 demo_orbits (Some (Array [3; 4])) H1 H2 U) as [v [E [[_ [N _]] [S _]]]].
  exists v. split; [exact E|]. split; [exact N|]. destruct (S 1%nat _ 4 H3 H4) as [_ Q]. exact Q.
Qed.
Definition demo_particles : list particle := [mkPtc (mk6 1000 0 0 10 0 0) 2 77%Z; mkPtc (mk6 0 500 0 0 10 0) 5 78%Z].
Example C90_result_nontrivial :
  forall (G : galpy) (o : load_opts),
  exists v, get_particles G kms_in_pcmyr o Ukpckms demo_particles None = Ok v /\ g_ntot (v_cat v) = 2%nat /\
    sx (w_s (star_at (v_cat v) 0)) = 1 /\ w_id (star_at (v_cat v) 1) = 78%Z.
Proof.
  intros G o. assert (NL : demo_particles <> []) by discriminate.
  destruct (C90_particles_loaded G o Ukpckms demo_particles NL) as [v [E [[_ [N _]] [S _]]]]; [tauto|].
  exists v. split; [exact E|]. split; [exact N|]. destruct (S 0%nat _ eq_refl) as [[P _] _]. destruct (S 1%nat _ eq_refl) as [_ [_ I]].
  split; [|exact I]. unfold same_q in P. revert P. generalize (sx (w_s (star_at (v_cat v) 0))). intros x P. cbv [unit_size in_pc] in P. cbn [pt_s sx] in P. lra.
Qed.
