(* C87: clusters that follow a galpy orbit. *)
From Coq Require Import String Ascii.
From Verif Require Import Base ModelCluster ModelOps ModelRecipes ModelCentre ModelStars ModelLoad ModelOutput ModelGorbit
  SpecUnits SpecFrame SpecStars SpecLoad SpecGorbit ProofsFrame ProofsLoad ProofsLoad2 ProofsLoad3 ProofsLoad4 ProofsLoad5 ProofsGorbit PropLoad.
Open Scope string_scope. Open Scope list_scope. Open Scope R_scope.

(* the density centre find_centre() gives by default for stars of these masses and coordinates *)
Definition default_density_centre (m : list R) (s : six (list R)) (p : six R) : Prop :=
  harfst zero6 100 (1/10) None 100 (zip_with mkPart m (ModelCoords.rows6 s)) = Some p.

(* C87: loaded in pc, km/s or in N-body units (or in galpy units when ro = 8 and vo = 220 are also the values the time scale is
   built on), the cluster is put where the orbit is at the time of the snapshot, in its own units; time, masses, identifiers,
   units and origin stay; the centre becomes the density centre of the stars as seen from the orbit; coordinates stay, or follow
   the new centre if that is their origin *)
Theorem C87_load_on_orbit :
  forall (G : galpy) (orb : gorbit) (c : cluster) (u : usys) (o : option osys),
    good_scales G (c_sc c) -> time_in_Gyr G solar_ro solar_vo <> 0 -> c_units c = Some u ->
    u = Upckms \/ u = Unbody \/
      (u = Ugalpy /\ ro (c_sc c) = 8 /\ vo (c_sc c) = 220 /\ time_in_Gyr G 8 220 = time_in_Gyr G solar_ro solar_vo) ->
    c_origin c = o -> o <> Some Osky -> p_m (c_ph c) <> [] -> sx (p_s (c_ph c)) <> [] ->
    exists c', load_orbit G orb c = Ok c' /\ on_orbit G (c_sc c) u orb (p_t (c_ph c)) (p_g (c_ph c')) /\
      (let s := about_orbit o (p_g (c_ph c')) (p_c (c_ph c)) (p_s (c_ph c)) in
       default_density_centre (p_m (c_ph c)) s (p_c (c_ph c')) /\
       p_s (c_ph c') = match o with Some Ocentre => seen_from (p_c (c_ph c')) s | _ => p_s (c_ph c) end) /\
      p_m (c_ph c') = p_m (c_ph c) /\ p_t (c_ph c') = p_t (c_ph c) /\ c_units c' = Some u /\ c_origin c' = o /\ c_id c' = c_id c /\
      c_sc c' = c_sc c.
Proof.
  intros G orb c u o GS T U F O OS N1 N2.
  assert (C : u = Upckms \/ u = Unbody \/ u = Ugalpy) by tauto.
  destruct (@load_orbit_ok G orb c u o GS T U C O OS (conj N1 N2)) as [d [c' [E [On [D [Q1 [Q2 [Q3 [Q4 [Q5 [Q6 [Q7 [Q8 [_ [Q9 _]]]]]]]]]]]]]]].
  exists c'. split; [exact E|]. rewrite Q1 Q2 Q3 Q4 Q5 Q6 Q7 Q8 Q9. split; [apply On; exact F|]. split; [split; [exact D|reflexivity]|].
  repeat split; try assumption.
Qed.
Print Assumptions C87_load_on_orbit.

(* C87: a snapshot file loaded with an orbit: the stars are the rows of the table and the cluster is on the orbit at the given time *)
Theorem C87_snapshot_on_orbit :
  forall (G : galpy) (rd : reader) (d : disk) (o : load_opts) (filename : option string) (f : text) (rows : list (list R)) (w : nat)
    (orb : gorbit) (u : usys),
    finds d (l_set o) filename f -> file_holds rd (o_skip (l_set o)) f rows w -> (2 <= w)%nat -> (2 <= length rows)%nat ->
    columns_fit (l_names o) (l_nums o) w -> l_units o = Some u -> u = Upckms \/ u = Unbody ->
    l_origin o = None \/ l_origin o = Some Ocluster \/ l_origin o = Some Ogalaxy ->
    l_ro o <> 0 -> l_vo o <> 0 -> time_in_Gyr G (l_ro o) (l_vo o) <> 0 -> mass_in_msol G (l_ro o) (l_vo o) <> 0 ->
    velocity_in_kpcGyr G (l_vo o) (l_ro o) <> 0 -> time_in_Gyr G solar_ro solar_vo <> 0 ->
    exists v, load_snapshot_with G rd d o filename None orb = Ok v /\
      loaded_from (l_names o) (l_nums o) rows (l_units o) (l_origin o) (l_set o) v /\ p_t (c_ph (g_c (v_cat v))) = l_tphys o /\
      on_orbit G (mkSc 1 1 1 1 1 1 1 (l_ro o) (l_vo o)) u orb (l_tphys o) (p_g (c_ph (g_c (v_cat v)))).
Proof.
  intros G rd d o fn f rows w orb u H1 H2 H3 H4 H5 U C O R1 R2 R3 R4 R5 T.
  assert (U1 : l_units o <> Some Uradec) by (rewrite U; destruct C; subst u; discriminate).
  assert (U2 : l_units o <> Some Uamuse) by (rewrite U; destruct C; subst u; discriminate).
  destruct (snapshot_scales G false H1 H2 H3 H4 H5 U1 U2) as [v [E [Rd [_ [Tp Sc]]]]].
  unfold load_snapshot_with, load_snapshot. rewrite E. cbn [bind].
  destruct Rd as [RS [Q1 [Q2 [Q3 [Q4 Q5]]]]].
  assert (GS : good_scales G (c_sc (g_c (v_cat v)))).
  { rewrite Sc. unfold good_scales; cbn. split; [lra|]. split; [lra|]. split; [lra|]. split; [lra|]. now repeat split. }
  assert (C' : u = Upckms \/ u = Unbody \/ u = Ugalpy) by tauto. assert (U' : c_units (g_c (v_cat v)) = Some u) by (rewrite Q1; exact U).
  assert (OS : l_origin o <> Some Osky) by (destruct O as [O|[O|O]]; rewrite O; discriminate).
  assert (NP : populated (g_c (v_cat v))) by (apply (rows_populated RS); lia).
  destruct (@load_orbit_ok G orb (g_c (v_cat v)) u (l_origin o) GS T U' C' Q2 OS NP)
    as [dd [c' [E2 [On [_ [P1 [_ [P3 [P4 [P5 [P6 [P7 [P8 [P9 _]]]]]]]]]]]]]].
  rewrite E2. cbn [bind]. eexists. split; [reflexivity|]. unfold loaded_from. cbn [with_cluster v_cat v_set v_units v_origin set_cluster g_c].
  assert (P3' : p_s (c_ph c') = p_s (c_ph (g_c (v_cat v)))) by (rewrite P3; destruct O as [O|[O|O]]; rewrite O; reflexivity).
  split. { split; [now apply stars_ext|]. split; [now rewrite P6|]. split; [now rewrite P7|]. now repeat split. }
  split; [now rewrite P5|]. rewrite P1. rewrite -Tp -Sc. apply On. unfold followed. tauto.
Qed.
Print Assumptions C87_snapshot_on_orbit.

(* finding: in kpc and km/s loading with an orbit is an error *)
Theorem C87_kpckms_refuted :
  forall (G : galpy) (orb : gorbit) (c : cluster), c_units c = Some Ukpckms -> load_orbit G orb c = Raise.
Proof. intros G orb c U. unfold load_orbit, place_orbit. rewrite U. reflexivity. Qed.
Print Assumptions C87_kpckms_refuted.
(* finding: in galpy units with the default values of ro and vo the cluster is put off the orbit *)
Theorem C87_galpy_refuted :
  forall (G : galpy) (orb : gorbit) (c c' : cluster) (o : option osys),
    good_scales G (c_sc c) -> c_units c = Some Ugalpy -> c_origin c = o -> o <> Some Osky ->
    p_m (c_ph c) <> [] -> sx (p_s (c_ph c)) <> [] -> ro (c_sc c) = solar_ro -> vo (c_sc c) = solar_vo -> (forall tau, sx (orb tau) <> 0) ->
    load_orbit G orb c = Ok c' -> ~ on_orbit G (c_sc c) Ugalpy orb (p_t (c_ph c)) (p_g (c_ph c')).
Proof.
  intros G orb c c' o GS U O OS N1 N2 R1 R2 X E.
  assert (T : time_in_Gyr G solar_ro solar_vo <> 0) by (destruct GS as [_ [_ [_ [_ [_ [_ [H _]]]]]]]; now rewrite R1 R2 in H).
  assert (P : p_g (c_ph c') = (let p := orb (p_t (c_ph c)) in mk6 (sx p / 8) (sy p / 8) (sz p / 8) (svx p / 220) (svy p / 220) (svz p / 220))).
  { assert (C : Ugalpy = Upckms \/ Ugalpy = Unbody \/ Ugalpy = Ugalpy) by tauto.
    destruct (@load_orbit_ok G orb c Ugalpy o GS T U C O OS (conj N1 N2)) as [d [c2 [E2 [_ [_ [Q1 _]]]]]].
    rewrite E in E2. assert (c2 = c') by congruence. subst c2. exact Q1. }
  rewrite P. apply (@off_orbit G orb (c_sc c) Ugalpy (p_t (c_ph c)) 8); [exact T|exact X| |].
  - intros tau Q. unfold same_q in Q. cbv [unit_size in_Myr] in Q. rewrite R1 R2 in Q.
    assert (tau = p_t (c_ph c)). { apply (Rmult_eq_reg_r (1000 * time_in_Gyr G solar_ro solar_vo)); [exact Q|]. intros Z0. apply T. lra. }
    subst tau. cbn. field.
  - cbv [unit_size in_pc]. rewrite R1. unfold solar_ro. lra.
Qed.
Print Assumptions C87_galpy_refuted.

(* finding: in the remaining systems the orbit is dropped without a word: the galactocentric position stays what it was *)
Theorem C87_other_units_refuted :
  forall (G : galpy) (orb : gorbit) (c : cluster) (u : usys) (o : option osys),
    c_units c = Some u -> u = Upcmyr \/ u = Ukpcgyr \/ u = UWD -> c_origin c = o -> o <> Some Osky ->
    p_m (c_ph c) <> [] -> sx (p_s (c_ph c)) <> [] ->
    exists c', load_orbit G orb c = Ok c' /\ p_g (c_ph c') = p_g (c_ph c).
Proof.
  intros G orb c u o U C O OS N1 N2. unfold load_orbit. rewrite (other_units G orb U C). cbn [bind]. cbv zeta.
  assert (L : linear u) by (destruct C as [C|[C|C]]; subst u; discriminate). assert (A : u <> Uamuse) by (destruct C as [C|[C|C]]; subst u; discriminate).
  rewrite O. destruct o as [o|].
  - assert (F : flat o) by (intros E; apply OS; now rewrite E).
    destruct (@recentre_some G c u o U L A O F (conj N1 N2)) as [p [c' [E [_ S]]]]. exists c'. split; [exact E|].
    rewrite (skel_ph S). reflexivity.
  - destruct (@recentre_none G c u U A O (conj N1 N2)) as [p [c' [E [_ S]]]]. exists c'. split; [exact E|]. rewrite (skel_ph S). reflexivity.
Qed.
Print Assumptions C87_other_units_refuted.

(* ------------------------------------------------------------------ advance_cluster *)
(* C87 (partial): advancing with an orbit puts the cluster on the orbit only in kpc and km/s and at time zero; whatever the units,
   the stars stay *)
Theorem C87_advance_partial :
  forall (G : galpy) (orb : gorbit) (c : cluster) (u : usys),
    time_in_Gyr G solar_ro solar_vo <> 0 -> c_units c = Some u -> u = Upckms \/ u = Ukpckms \/ u = Unbody \/ u = Ugalpy ->
    exists c', advance_orbit G orb c = Ok c' /\ same_stars c c' /\
      (u = Ukpckms -> p_t (c_ph c) = 0 -> on_orbit G (c_sc c) u orb (p_t (c_ph c)) (p_g (c_ph c'))).
Proof.
  intros G orb c u T U C. assert (P : plain c) by (unfold plain; rewrite U; destruct C as [C|[C|[C|C]]]; subst u; discriminate).
  unfold advance_orbit. rewrite U.
  assert (K : forall p, same_stars c (add_orbit G p None None c)).
  { intros p. destruct (add_orbit_plain G p None None P) as [M0 [X0 [I0 [B0 [U0 [O0 [S0 [K0 [_ T0]]]]]]]]].
    unfold same_stars. rewrite M0 X0 I0 B0 U0 O0 S0 K0 (T0 eq_refl). now repeat split. }
  destruct C as [C|[C|[C|C]]]; subst u; (eexists; split; [reflexivity|]; split; [apply K|intros D; try discriminate D]).
  intros Z0. rewrite (proj1 (add_orbit_none G _ None c)). rewrite Z0. exists (0 / 1000 / time_in_Gyr G solar_ro solar_vo).
  unfold same_6, same_q. cbv [unit_size in_pc in_kms in_Myr]. split; [now field|]. now repeat split.
Qed.
Print Assumptions C87_advance_partial.
(* finding: in the other systems the point is taken over in kpc and km/s: the cluster is off the orbit *)
Theorem C87_advance_units_refuted :
  forall (G : galpy) (orb : gorbit) (c c' : cluster) (u : usys),
    good_scales G (c_sc c) -> time_in_Gyr G solar_ro solar_vo <> 0 -> c_units c = Some u ->
    u = Upckms \/ (u = Unbody /\ rbar (c_sc c) <> 1000) \/ (u = Ugalpy /\ ro (c_sc c) = solar_ro /\ vo (c_sc c) = solar_vo) ->
    (forall tau, sx (orb tau) <> 0) -> advance_orbit G orb c = Ok c' ->
    ~ on_orbit G (c_sc c) u orb (p_t (c_ph c)) (p_g (c_ph c')).
Proof.
  intros G orb c c' u GS T U C X E. destruct GS as [S1 [S2 [S3 [S4 [S5 [S6 [S7 [S8 S9]]]]]]]].
  unfold advance_orbit in E. rewrite U in E.
  destruct C as [C|[[C R1]|[C [R1 R2]]]]; subst u; injection E as E; rewrite -E (proj1 (add_orbit_none G _ None c));
    (apply (@off_orbit G orb (c_sc c) _ (p_t (c_ph c)) 1); [exact T|exact X| |]).
  - intros tau Q. unfold same_q in Q. cbv [unit_size in_Myr] in Q. rewrite Rmult_1_r. do 2 f_equal.
    apply (Rmult_eq_reg_r (1000 * time_in_Gyr G solar_ro solar_vo)); [|intros Z0; apply T; lra]. rewrite Q. now field.
  - cbv [unit_size in_pc]. lra.
  - intros tau Q. unfold same_q in Q. cbv [unit_size in_Myr] in Q. rewrite Rmult_1_r. do 2 f_equal.
    apply (Rmult_eq_reg_r (1000 * time_in_Gyr G solar_ro solar_vo)); [|intros Z0; apply T; lra]. rewrite Q. now field.
  - cbv [unit_size in_pc]. lra.
  - intros tau Q. unfold same_q in Q. cbv [unit_size in_Myr] in Q. rewrite Rmult_1_r. do 2 f_equal. rewrite R1 R2 in Q.
    apply (Rmult_eq_reg_r (1000 * time_in_Gyr G solar_ro solar_vo)); [|intros Z0; apply T; lra]. now rewrite Q.
  - cbv [unit_size in_pc]. rewrite R1. unfold solar_ro. lra.
Qed.
Print Assumptions C87_advance_units_refuted.
(* finding: in kpc and km/s the time, in Gyr, is divided by 1000: the point is that of a thousandth of the time *)
Theorem C87_advance_time_refuted :
  forall (G : galpy) (orb : gorbit) (c : cluster),
    time_in_Gyr G solar_ro solar_vo <> 0 -> c_units c = Some Ukpckms ->
    exists c', advance_orbit G orb c = Ok c' /\ on_orbit G (c_sc c) Ukpckms orb (p_t (c_ph c) / 1000) (p_g (c_ph c')).
Proof.
  intros G orb c T U. unfold advance_orbit. rewrite U. eexists. split; [reflexivity|]. rewrite (proj1 (add_orbit_none G _ None c)).
  exists (p_t (c_ph c) / 1000 / time_in_Gyr G solar_ro solar_vo). unfold same_6, same_q. cbv [unit_size in_pc in_kms in_Myr]. split; [now field|]. now repeat split.
Qed.
Print Assumptions C87_advance_time_refuted.
(* finding: in any other system it is an error *)
Theorem C87_advance_raises_refuted :
  forall (G : galpy) (orb : gorbit) (c : cluster),
    c_units c <> Some Upckms -> c_units c <> Some Ukpckms -> c_units c <> Some Unbody -> c_units c <> Some Ugalpy ->
    advance_orbit G orb c = Raise.
Proof. intros G orb c H1 H2 H3 H4. unfold advance_orbit. destruct (c_units c) as [[]|]; try reflexivity; contradiction. Qed.
Print Assumptions C87_advance_raises_refuted.
(* finding: a snapshot loaded with an orbit in pc, km/s is on the orbit, and is off it after the next advance *)
Theorem C87_advance_snapshot_refuted :
  forall (G : galpy) (rd : reader) (d : disk) (a : adv_opts) (proj : bool) (v : loaded) (names : list string) (nums : list nat)
    (rows : list (list R)) (w : nat) (orb : gorbit),
    v_units v = Some Upckms -> v_orbit v = None -> plain_advance a -> advance_columns a = (names, nums) -> columns_fit names nums w ->
    on_disk rd d (v_set v) (o_nsnap (v_set v) + 1) rows w -> time_in_Gyr G solar_ro solar_vo <> 0 -> (forall tau, sx (orb tau) <> 0) ->
    exists v', advance_snapshot_with G rd d a proj orb v = Ok v' /\
      loaded_from names nums rows (Some Upckms) (v_origin v) (set_nsnap (v_set v) (o_nsnap (v_set v) + 1)) v' /\
      forall s, ~ on_orbit G s Upckms orb (p_t (c_ph (g_c (v_cat v')))) (p_g (c_ph (g_c (v_cat v')))).
Proof.
  intros G rd d a proj v names nums rows w orb U OF A CO CF D T X.
  destruct (@advance_many G rd d a proj v (Some Upckms) (v_origin v) names nums w (fun _ => rows) 1) as [v1 [E [S1 [W1 [O1 [F1 L1]]]]]]; try assumption; try reflexivity; try discriminate.
  { intros j Hj. assert (j = 1%nat) by lia. now subst j. }
  specialize (L1 ltac:(lia)). cbn [advance_times bind] in E. unfold advance_snapshot_with. rewrite E. cbn [bind].
  destruct L1 as [RS [Q1 [Q2 [Q3 [Q4 Q5]]]]]. assert (L2 : (2 <= length rows)%nat) by (destruct D as [f [_ [_ [_ H]]]]; exact H).
  assert (NT : g_ntot (v_cat v1) = length rows) by apply RS.
  destruct (Nat.eqb (g_ntot (v_cat v1)) 0) eqn:Z0; [apply Nat.eqb_eq in Z0; lia|].
  unfold advance_orbit. rewrite Q1. cbn [bind]. eexists. split; [reflexivity|]. unfold loaded_from. cbn [with_cluster v_cat v_set v_units v_origin set_cluster g_c].
  assert (P : plain (g_c (v_cat v1))) by (unfold plain; rewrite Q1; discriminate).
  match goal with |- context [add_orbit G ?q None None ?c] => destruct (add_orbit_plain G q None None P) as [M0 [X0 [I0 [B0 [U0 [O0 [S0 [K0 [_ T0]]]]]]]]] end.
  rewrite U0 O0 (T0 eq_refl) Q1 Q2. split.
  { split; [now apply stars_ext|]. now repeat split. }
  intros s. rewrite (proj1 (add_orbit_none G _ None _)).
  apply (@off_orbit G orb s _ (p_t (c_ph (g_c (v_cat v1)))) 1); [exact T|exact X| |].
  - intros tau Q. unfold same_q in Q. cbv [unit_size in_Myr] in Q. rewrite Rmult_1_r. do 2 f_equal.
    apply (Rmult_eq_reg_r (1000 * time_in_Gyr G solar_ro solar_vo)); [|intros Z1; apply T; lra]. rewrite Q. now field.
  - cbv [unit_size in_pc]. lra.
Qed.
Print Assumptions C87_advance_snapshot_refuted.

(* ------------------------------------------------------------------ non-vacuity *)
Definition circle : gorbit := fun t => mk6 (2 + cos t) (sin t) 0 (- sin t) (cos t) 0.
Definition unit_galpy : galpy := mkG (fun _ _ => 1) (fun _ _ => 1) (fun _ _ => 1) (fun p => p) (fun p => p).
Example C87_hypotheses_met :
  (forall tau, sx (circle tau) <> 0) /\ time_in_Gyr unit_galpy solar_ro solar_vo <> 0 /\
  finds demo_disk (l_set demo_load) None (demo_lines "1") /\ file_holds demo_reader (o_skip (l_set demo_load)) (demo_lines "1") (demo_rows (INR 1)) 7 /\
  columns_fit (l_names demo_load) (l_nums demo_load) 7 /\ l_units demo_load = Some Upckms /\ l_origin demo_load = Some Ocluster /\
  (exists v, load_snapshot_with unit_galpy demo_reader demo_disk demo_load None None circle = Ok v /\ p_g (c_ph (g_c (v_cat v))) = mk6 3000 0 0 0 1 0) /\
  (exists v, v_units v = Some Upckms /\ v_orbit v = None /\ on_disk demo_reader demo_disk (v_set v) (o_nsnap (v_set v) + 1) (demo_tables 10) 7) /\
  plain_advance demo_advance /\ advance_columns demo_advance = (default_names, default_nums).
Proof.
  destruct C44_hypotheses_met as [A1 [A2 [A3 [A4 [A5 _]]]]].
  split. { intros tau. unfold circle; cbn [sx]. pose proof (COS_bound tau). lra. }
  split; [cbn; lra|]. split; [exact A1|]. split; [exact A2|]. split; [exact A5|]. split; [reflexivity|]. split; [reflexivity|].
  split.
  { destruct (@C87_snapshot_on_orbit unit_galpy demo_reader demo_disk demo_load None (demo_lines "1") (demo_rows (INR 1)) 7 circle Upckms A1 A2 A3 A4 A5 eq_refl) as [v [E [_ [_ [tau [Q P]]]]]];
      try tauto; try (cbn; lra). exists v. split; [exact E|].
    unfold same_q in Q. cbv [unit_size in_Myr unit_galpy time_in_Gyr demo_load l_tphys] in Q. assert (tau = 0) by lra. subst tau. unfold same_6, same_q, circle in P. cbv [unit_size in_pc in_kms] in P. cbn [sx sy sz svx svy svz] in P. rewrite cos_0 sin_0 in P.
    destruct (p_g (c_ph (g_c (v_cat v)))) as [x y z vx vy vz]. cbn [sx sy sz svx svy svz] in P. destruct P as [P1 [P2 [P3 [P4 [P5 P6]]]]]. f_equal; lra. }
  split.
  { exists (mkLoaded (init_catalog (init_cluster 0 None None 8 220)) (demo_settings 9) (Some Upckms) None None). split; [reflexivity|]. split; [reflexivity|].
    exact (demo_on_disk 1 (le_n 1)). }
  split; [now repeat split|reflexivity].
Qed.
