(* C92, C93: clusters sampled from limepy models. *)
From Coq Require Import String Ascii.
From Verif Require Import Base ModelCluster ModelOps ModelRecipes ModelCoords ModelCentre ModelStars ModelOutput SpecUnits SpecFrame SpecStars ModelLoad SpecLoad ModelGorbit SpecGorbit
  ProofsUnits ProofsFrame ProofsLoad2 ProofsLoad3 ProofsLoad4 ProofsGorbit PropGorbit ModelParticles ProofsParticles ProofsParticles2 ModelNbody6pp ModelKing SpecKing ModelLimepy ProofsLimepy PropParticles PropKing.
Open Scope string_scope. Open Scope list_scope. Open Scope R_scope.

(* n is x rounded down *)
Definition floor_of (x : R) (n : nat) : Prop := INR n <= x < INR n + 1.
Lemma floor_count x n : floor_of x n -> Z.to_nat (truncate x) = n.
Proof.
  intros [A B]. unfold truncate. pose proof (pos_INR n). rewrite (proj2 (Rleb_spec 0 x)); [lra|].
  assert (E : Int_part x = Z.of_nat n).
  { unfold Int_part. rewrite INR_IZR_INZ in A, B. rewrite <- (tech_up x (Z.of_nat n + 1)); [lia| |]; rewrite plus_IZR; lra. }
  rewrite E. apply Nat2Z.id.
Qed.
(* what the keywords ask for: W0, or phi0; the first radius of rt, rv, rh, rm (half-mass), r0, rc (King), or a virial radius of 1;
   without a mass, G = M = rv = 1 *)
Definition asked_size (q : lime_kw) (r : lradius) : Prop :=
  match kw_rt q, kw_rv q, kw_rh q, kw_rm q, kw_r0 q, kw_rc q with
  | Some a, _, _, _, _, _ => r = LRt a
  | None, Some a, _, _, _, _ => r = LRv a
  | None, None, Some a, _, _, _ | None, None, None, Some a, _, _ => r = LRh a
  | None, None, None, None, Some a, _ | None, None, None, None, None, Some a => r = LR0 a
  | None, None, None, None, None, None => r = LRv 1
  end.
Definition asks_for (q : lime_kw) (m : lime) : Prop :=
  (kw_W0 q = Some (lm_phi0 m) \/ (kw_W0 q = None /\ kw_phi0 q = Some (lm_phi0 m))) /\ lm_g m = kw_g q /\
  match kw_M q with
  | Some M => lm_M m = M /\ asked_size q (lm_r m) /\ lm_one m = false
  | None => lm_M m = 1 /\ lm_r m = LRv 1 /\ lm_one m = true
  end.
Definition asks_number (q : lime_kw) (M : R) (n : nat) : Prop := floor_of (match kw_N q with Some x => x | None => M / kw_mbar q end) n.
Lemma asked_model q m : asks_for q m -> model_of q = Ok m.
Proof.
  intros [W [Hg HM]]. unfold model_of. replace (match kw_W0 q with Some w => Some w | None => kw_phi0 q end) with (Some (lm_phi0 m)).
  2: { destruct W as [W|[W1 W2]]; [now rewrite W|now rewrite W1 W2]. }
  destruct (kw_M q) as [M|]; [destruct HM as [E1 [E2 E3]]|destruct HM as [E1 [E2 E3]]]; destruct m as [w g M' r b]; cbn [lm_phi0 lm_g lm_M lm_r lm_one] in *; subst; f_equal.
  f_equal. unfold size_of, asked_size in *. destruct (kw_rt q), (kw_rv q), (kw_rh q), (kw_rm q), (kw_r0 q), (kw_rc q); now symmetry.
Qed.
(* star i is star i of the sample, displaced by d, with identifier i + 1 *)
Definition is_sample (k : catalog) (l : list (six R * R)) (d : six R) : Prop :=
  singles k (List.length l) /\
  forall i p m, nth_error l i = Some (p, m) ->
    star_at k i = mkStar (mk6 (sx p + sx d) (sy p + sy d) (sz p + sz d) (svx p + svx d) (svy p + svy d) (svz p + svz d)) m (Z.of_nat i + 1) 0 1%Z.
Lemma sample_is k l d : stars_of k l d -> is_sample k l d.
Proof. intros [A H]. split; [exact A|]. intros i p m Hp. rewrite (H i p m Hp). unfold plus6. f_equal. lia. Qed.
(* the density centre of a sample *)
Definition sample_centre (l : list (six R * R)) (p : six R) : Prop := default_density_centre (map snd l) (sampled l) p.

(* the stars and their arrays *)
Lemma arrays_of k l : stars_of k l zero6 -> p_m (c_ph (g_c k)) = map snd l /\ p_s (c_ph (g_c k)) = sampled l.
Proof.
  intros [[[[L1 [L2 [L3 [L4 [L5 L6]]]]] [LM _]] _] H].
  assert (V : forall i, (i < List.length l)%nat -> exists p m, nth_error l i = Some (p, m) /\ star_at k i = mkStar p m (Z.of_nat (S i)) 0 1%Z).
  { intros i Hi. destruct (nth_error l i) as [[p m]|] eqn:E; [|apply nth_error_None in E; lia]. exists p, m. split; [reflexivity|]. rewrite (H i p m E). now rewrite plus6_0. }
  assert (Q : forall (f : six R -> R) (a : list R), List.length a = List.length l ->
            (forall i, (i < List.length l)%nat -> f (w_s (star_at k i)) = nth i a 0) -> a = map (fun p => f (fst p)) l).
  { intros f a La Ha. apply (nth_ext _ _ 0 0); [now rewrite map_length|]. intros i Hi. rewrite La in Hi. destruct (V i Hi) as [p [m [E1 E2]]].
    rewrite <- (Ha i Hi), E2. cbn [w_s]. rewrite (ProofsRecipes.nth_map' (fun p => f (fst p)) 0 (p, m) Hi). now rewrite (nth_error_nth _ _ (p, m) E1). }
  split.
  - apply (nth_ext _ _ 0 0); [now rewrite map_length|]. intros i Hi. rewrite LM in Hi. destruct (V i Hi) as [p [m [E1 E2]]].
    assert (E3 := f_equal w_m E2). unfold star_at in E3. cbn [w_m] in E3. rewrite E3.
    rewrite (ProofsRecipes.nth_map' snd 0 (p, m) Hi). now rewrite (nth_error_nth _ _ (p, m) E1).
  - destruct (p_s (c_ph (g_c k))) as [a b c d e f] eqn:ES. unfold sampled. cbn [sx sy sz svx svy svz] in L1, L2, L3, L4, L5, L6.
    f_equal; [apply (Q (@sx R))|apply (Q (@sy R))|apply (Q (@sz R))|apply (Q (@svx R))|apply (Q (@svy R))|apply (Q (@svz R))]; try assumption;
      intros i Hi; unfold star_at; cbn [w_s]; rewrite ES; reflexivity.
Qed.

(* where the sample is put: its own centre at rest at the density centre, or its coordinates unchanged *)
Definition put_about (o : option osys) (p : six R) : six R :=
  match o with Some Ocentre => mk6 (- sx p) (- sy p) (- sz p) (- svx p) (- svy p) (- svz p) | _ => zero6 end.
Lemma sample_ready (G : galpy) (smp : sampler) q m N u :
  asks_for q m -> asks_number q (lm_M m) N -> (1 <= N)%nat -> List.length (smp m N) = N ->
  exists k p, sample_limepy G smp q = Ok k /\ sample_centre (smp m N) p /\
    let k1 := set_cluster k (set_units (Some u) (g_c k)) in
    stars_of k1 (smp m N) zero6 /\ c_units (g_c k1) = Some u /\ c_origin (g_c k1) = Some Ocluster /\ p_t (c_ph (g_c k1)) = 0 /\ p_g (c_ph (g_c k1)) = zero6 /\
    p_c (c_ph (g_c k1)) = p /\ c_sc (g_c k1) = mkSc 1 1 1 1 1 1 1 solar_ro solar_vo /\ populated (g_c k1).
Proof.
  intros HA HC HN HL. destruct (@sample_model_ok G smp m N HL HN) as [k [E [A [_ [O [T [Gz [D [SC P]]]]]]]]].
  destruct (arrays_of k _ A) as [E1 E2]. rewrite E1 E2 in D.
  exists k, (p_c (c_ph (g_c k))). split.
  - unfold sample_limepy. rewrite (asked_model q m HA). cbn [bind]. unfold star_count. rewrite (floor_count _ N HC). exact E.
  - split; [exact D|]. cbv zeta. split; [exact (set_units_stars (Some u) A)|].
    split; [reflexivity|]. split; [exact O|]. split; [exact T|]. split; [exact Gz|]. split; [reflexivity|]. split; [exact SC|exact P].
Qed.
Lemma about_zero o p : displacement o p zero6 = put_about o p.
Proof. now destruct o as [[]|]. Qed.
Lemma sampled_number (k : catalog) l d N : stars_of k l d -> List.length l = N -> (1 <= N)%nat -> Nat.eqb (g_ntot k) 0 = false.
Proof. intros [[_ [B _]] _] L H. rewrite B L. apply Nat.eqb_neq. lia. Qed.

(* C92: without an orbit, load_cluster('limepy', ...) gives the stars limepy sampled from the model the keywords ask for, in the
   number they ask for, at time zero, in the units and about the origin asked for, with the density centre of the sample recorded *)
Theorem C92_sample_loaded :
  forall (G : galpy) (smp : sampler) (u : usys) (o : option osys) (q : lime_kw) (m : lime) (N : nat),
    linear u -> o <> Some Osky -> asks_for q m -> asks_number q (lm_M m) N -> (1 <= N)%nat -> List.length (smp m N) = N ->
    exists k p, load_limepy G smp (Some u) o q None None = Ok k /\ sample_centre (smp m N) p /\ is_sample k (smp m N) (put_about o p) /\
      c_units (g_c k) = Some u /\ c_origin (g_c k) = Some (match o with Some w => w | None => Ocluster end) /\ p_t (c_ph (g_c k)) = 0 /\
      p_c (c_ph (g_c k)) = p /\ p_g (c_ph (g_c k)) = zero6.
Proof.
  intros G smp u o q m N L F HA HC HN HL. destruct (sample_ready G smp q m N u HA HC HN HL) as [k [p [E [D [A [U [O [T [Gz [C [SC P]]]]]]]]]]].
  set (k1 := set_cluster k (set_units (Some u) (g_c k))) in *.
  destruct (@moved_ok G k1 _ u o A U L O F) as [B [U2 [O2 [T2 [C2 [G2 [SC2 _]]]]]]]. cbv zeta in *.
  rewrite C Gz about_zero in B.
  assert (EK : g_c k1 = set_units (Some u) (g_c k)) by reflexivity. rewrite EK in B, U2, O2, T2, C2, G2, SC2. rewrite EK in T, C, Gz.
  unfold load_limepy, get_limepy. rewrite E. cbn [bind].
  assert (NT : Nat.eqb (g_ntot k) 0 = false) by exact (sampled_number k1 _ _ N A HL HN). rewrite NT.
  set (c := move_to G o (set_units (Some u) (g_c k))) in *. clearbody c.
  destruct (@finish_plain G o c) as [c' [E' SK]].
  { intros Eo. subst o. split; [exact O2|]. rewrite U2. intros X. injection X as X. subst u. now apply L. }
  rewrite E'. cbn [bind]. destruct (skel_eq_fields SK) as [F1 [F2 [_ [F4 [F5 [F6 [_ [_ F9]]]]]]]].
  exists (set_cluster k c'), p. split; [reflexivity|]. split; [exact D|]. split.
  - apply sample_is. change (set_cluster k c') with (set_cluster (set_cluster k1 c) c'). apply stars_stay; [exact B| | |exact F9|exact F4]; now rewrite F5.
  - change (g_c (set_cluster k c')) with c'. rewrite F1 F2 F5 U2 O2 T2 C2 G2. split; [reflexivity|]. split; [now destruct o|]. split; [exact T|]. split; [exact C|exact Gz].
Qed.
Print Assumptions C92_sample_loaded.
Lemma limepy_with_orbit (G : galpy) (smp : sampler) u (o : option osys) (q : lime_kw) (m : lime) (N : nat) (orb : gorbit) f :
  linear u -> o <> Some Osky -> asks_for q m -> asks_number q (lm_M m) N -> (1 <= N)%nat -> List.length (smp m N) = N ->
  exists k p, get_limepy G smp (Some u) o q (Some orb) f = Ok k /\ sample_centre (smp m N) p /\ stars_of k (smp m N) (put_about o p) /\
    p_m (c_ph (g_c k)) = map snd (smp m N) /\ p_s (c_ph (g_c k)) = add6 (sampled (smp m N)) (put_about o p) /\ p_c (c_ph (g_c k)) = p /\
    p_t (c_ph (g_c k)) = 0 /\ c_units (g_c k) = Some u /\ c_origin (g_c k) = Some (match o with Some w => w | None => Ocluster end) /\
    c_sc (g_c k) = mkSc 1 1 1 1 1 1 1 solar_ro solar_vo /\ populated (g_c k).
Proof.
  intros L F HA HC HN HL.
  destruct (sample_ready G smp q m N u HA HC HN HL) as [k [p [E [D [A [U [O [T [Gz [C [SC P]]]]]]]]]]].
  set (k1 := set_cluster k (set_units (Some u) (g_c k))) in *.
  destruct (@moved_ok G k1 _ u o A U L O F) as [B [U2 [O2 [T2 [C2 [G2 [SC2 [M2 [S2 [I2 N2]]]]]]]]]]. cbv zeta in *.
  destruct (arrays_of k1 _ A) as [A1 A2]. rewrite A1 in M2. rewrite A2 in S2.
  rewrite C Gz about_zero in B. rewrite C Gz about_zero in S2.
  assert (EK : g_c k1 = set_units (Some u) (g_c k)) by reflexivity. rewrite EK in B, U2, O2, T2, C2, G2, SC2, M2, S2, I2, N2. rewrite EK in T, C, Gz, SC, P.
  unfold get_limepy. rewrite E. cbn [bind].
  assert (NT : Nat.eqb (g_ntot k) 0 = false) by exact (sampled_number k1 _ _ N A HL HN). rewrite NT.
  set (c := move_to G o (set_units (Some u) (g_c k))) in *. clearbody c.
  assert (PL : plain c). { unfold plain. rewrite U2. intros X. injection X as X. subst u. now apply L. }
  destruct (@finish_orbit G o orb f c) as [c' [E' SK]]; [intros X; subst o; exact O2|exact PL|].
  rewrite E'. cbn [bind]. destruct (skel_eq_fields SK) as [F1 [F2 [_ [F4 [F5 [F6 [_ [_ F9]]]]]]]].
  destruct (add_orbit_plain G (orb ((p_t (c_ph c) / 1000) / time_in_Gyr G solar_ro solar_vo)) (Some Ukpckms) None PL) as [H1 [H2 [H3 [H4 [H5 [H6 [H7 [_ [H9 H10]]]]]]]]].
  cbv zeta in *. set (c1 := add_orbit G _ _ _ c) in *. clearbody c1.
  exists (set_cluster k c'), p. split; [reflexivity|]. split; [exact D|]. split.
  { change (set_cluster k c') with (set_cluster (set_cluster k1 c) c'). apply stars_stay; [exact B|now rewrite F5|now rewrite F5|change (g_c (set_cluster k1 c)) with c; congruence|change (g_c (set_cluster k1 c)) with c; congruence]. }
  change (g_c (set_cluster k c')) with c'. unfold populated. rewrite F1 F2 F5 F6 H1 H2 H5 H6 H7 H9 (H10 eq_refl) M2 S2 C2 T2 U2 O2 SC2.
  split; [reflexivity|]. split; [reflexivity|]. split; [exact C|]. split; [exact T|]. split; [reflexivity|]. split; [now destruct o|]. split; [exact SC|].
  unfold add6, vadd, sampled. cbn [sx]. destruct P as [P1 _]. rewrite <- EK, A1 in P1. split; [exact P1|].
  intros X. apply map_eq_nil, map_eq_nil in X. now rewrite X in P1.
Qed.
(* C92: with a galpy orbit, in pc and km/s, the cluster is put where the orbit is at time zero, the sample about it *)
Theorem C92_sample_on_orbit :
  forall (G : galpy) (smp : sampler) (o : option osys) (q : lime_kw) (m : lime) (N : nat) (orb : gorbit) (f : option text),
    o <> Some Osky -> o <> Some Ogalaxy -> asks_for q m -> asks_number q (lm_M m) N -> (1 <= N)%nat -> List.length (smp m N) = N ->
    good_scales G (mkSc 1 1 1 1 1 1 1 solar_ro solar_vo) -> time_in_Gyr G solar_ro solar_vo <> 0 ->
    exists k p, load_limepy G smp (Some Upckms) o q (Some orb) f = Ok k /\ sample_centre (smp m N) p /\ is_sample k (smp m N) (put_about o p) /\
      c_units (g_c k) = Some Upckms /\ c_origin (g_c k) = Some (match o with Some w => w | None => Ocluster end) /\ p_t (c_ph (g_c k)) = 0 /\
      p_c (c_ph (g_c k)) = p /\ on_orbit G (c_sc (g_c k)) Upckms orb 0 (p_g (c_ph (g_c k))).
Proof.
  intros G smp o q m N orb f F Fg HA HC HN HL GS TG.
  assert (L : linear Upckms) by discriminate.
  destruct (limepy_with_orbit G smp Upckms o q m N orb f L F HA HC HN HL) as [k [p [E [D [A [M [S2 [C [T [U [O [SC P]]]]]]]]]]]].
  unfold load_limepy. rewrite E. cbn [bind].
  assert (OO : c_origin (g_c k) <> Some Osky).
  { rewrite O. destruct o as [[]|]; try discriminate; now elim F. }
  assert (GS' : good_scales G (c_sc (g_c k))) by now rewrite SC.
  destruct (@load_orbit_ok G orb (g_c k) Upckms (c_origin (g_c k)) GS' TG U (or_introl eq_refl) eq_refl OO P) as [d [c2 [E2 [On [Dn [Q1 [Q2 [Q3 [Q4 [Q5 [Q6 [Q7 [Q8 [Q9 [Q10 _]]]]]]]]]]]]]]].
  cbv zeta in *. rewrite E2. cbn [bind].
  set (gg := put_at G orb Upckms (g_c k)) in *.
  assert (AB : about_orbit (c_origin (g_c k)) gg (p_c (c_ph (g_c k))) (p_s (c_ph (g_c k))) = sampled (smp m N)).
  { rewrite O C S2. set (s := sampled (smp m N)). destruct o as [[]|]; try (now elim F); try (now elim Fg); cbn [about_orbit put_about].
    - rewrite seen_sub6. destruct s as [s1 s2 s3 s4 s5 s6], p as [p1 p2 p3 p4 p5 p6]. unfold sub6, add6, vsub, vadd. cbn [sx sy sz svx svy svz]. rewrite !map_map.
      f_equal; erewrite map_ext; try apply map_id; intros; cbn beta; lra.
    - apply add6_0.
    - apply add6_0. }
  rewrite AB in Dn, Q3. rewrite M in Dn.
  assert (Ed : d = p). { unfold sample_centre, default_density_centre in D. unfold density_of in Dn. congruence. } subst d.
  exists (set_cluster k c2), p. split; [reflexivity|]. split; [exact D|]. split.
  - apply sample_is. apply stars_stay; [exact A|now rewrite Q4| |exact Q8|exact Q9]. rewrite Q3 O S2.
    destruct o as [[]|]; try reflexivity. cbn [put_about]. rewrite seen_sub6 sub6_add6 Ed. apply add6_ext. unfold minus6, zero6. cbn [sx sy sz svx svy svz]. f_equal; lra.
  - change (g_c (set_cluster k c2)) with c2. rewrite Q6 Q7 Q5 Ed Q1 Q10 U O T. split; [reflexivity|]. split; [reflexivity|]. split; [reflexivity|]. split; [reflexivity|].
    rewrite T in On. apply On. now left.
Qed.
Print Assumptions C92_sample_on_orbit.
(* finding: about the Galaxy, the stars stay at the coordinates of the sample, although the cluster is recorded on the orbit: the
   change of origin comes before the orbit is known *)
Theorem C92_galaxy_orbit_refuted :
  forall (G : galpy) (smp : sampler) (q : lime_kw) (m : lime) (N : nat) (orb : gorbit) (f : option text),
    asks_for q m -> asks_number q (lm_M m) N -> (1 <= N)%nat -> List.length (smp m N) = N ->
    good_scales G (mkSc 1 1 1 1 1 1 1 solar_ro solar_vo) -> time_in_Gyr G solar_ro solar_vo <> 0 ->
    exists k, load_limepy G smp (Some Upckms) (Some Ogalaxy) q (Some orb) f = Ok k /\ c_units (g_c k) = Some Upckms /\ c_origin (g_c k) = Some Ogalaxy /\
      on_orbit G (c_sc (g_c k)) Upckms orb 0 (p_g (c_ph (g_c k))) /\ is_sample k (smp m N) zero6 /\
      (p_g (c_ph (g_c k)) <> zero6 -> ~ is_sample k (smp m N) (p_g (c_ph (g_c k)))).
Proof.
  intros G smp q m N orb f HA HC HN HL GS TG.
  assert (L : linear Upckms) by discriminate. assert (F : Some Ogalaxy <> Some Osky) by discriminate.
  destruct (limepy_with_orbit G smp Upckms (Some Ogalaxy) q m N orb f L F HA HC HN HL) as [k [p [E [D [A [M [S2 [C [T [U [O [SC P]]]]]]]]]]]].
  unfold load_limepy. rewrite E. cbn [bind].
  assert (GS' : good_scales G (c_sc (g_c k))) by now rewrite SC.
  destruct (@load_orbit_ok G orb (g_c k) Upckms (Some Ogalaxy) GS' TG U (or_introl eq_refl) O F P) as [d [c2 [E2 [On [Dn [Q1 [Q2 [Q3 [Q4 [Q5 [Q6 [Q7 [Q8 [Q9 [Q10 _]]]]]]]]]]]]]]].
  cbv zeta in *. rewrite E2. cbn [bind].
  assert (IS : is_sample (set_cluster k c2) (smp m N) zero6) by (apply sample_is; apply stars_stay; [exact A|now rewrite Q4|now rewrite Q3|exact Q8|exact Q9]).
  exists (set_cluster k c2). split; [reflexivity|]. change (g_c (set_cluster k c2)) with c2. rewrite Q6 Q7 Q1 Q10 U O. split; [reflexivity|]. split; [reflexivity|].
  split; [rewrite T in On; apply On; now left|]. split; [exact IS|]. intros NZ [_ X]. destruct IS as [_ Y].
  destruct (smp m N) as [|[a b] l] eqn:EL; [cbn in HL; lia|].
  specialize (X 0%nat a b eq_refl). specialize (Y 0%nat a b eq_refl). rewrite X in Y. apply (f_equal w_s) in Y. cbn [w_s] in Y. apply NZ.
  set (g := put_at G orb Upckms (g_c k)) in *. clearbody g. destruct g as [g1 g2 g3 g4 g5 g6], a as [a1 a2 a3 a4 a5 a6]. unfold zero6 in *. cbn [sx sy sz svx svy svz] in Y.
  injection Y as Y1 Y2 Y3 Y4 Y5 Y6. f_equal; lra.
Qed.
Print Assumptions C92_galaxy_orbit_refuted.
(* finding: an orbit file cannot be used: whatever it holds, loading fails *)
Theorem C92_orbit_file_refuted :
  forall (G : galpy) (smp : sampler) (u : usys) (o : option osys) (q : lime_kw) (m : lime) (N : nat) (f : text),
    asks_for q m -> asks_number q (lm_M m) N -> (1 <= N)%nat -> List.length (smp m N) = N ->
    load_limepy G smp (Some u) o q None (Some f) = Raise.
Proof.
  intros G smp u o q m N f HA HC HN HL. destruct (sample_ready G smp q m N u HA HC HN HL) as [k [p [E [D [A _]]]]].
  unfold load_limepy, get_limepy. rewrite E. cbn [bind].
  assert (NT : Nat.eqb (g_ntot k) 0 = false) by exact (sampled_number (set_cluster k (set_units (Some u) (g_c k))) _ _ N A HL HN). now rewrite NT.
Qed.
Print Assumptions C92_orbit_file_refuted.
(* C92: without a central potential nothing is made *)
Theorem C92_no_potential :
  forall (G : galpy) (smp : sampler) (u : option usys) (o : option osys) (q : lime_kw) (orb : option gorbit) (f : option text),
    kw_W0 q = None -> kw_phi0 q = None -> load_limepy G smp u o q orb f = Raise.
Proof. intros G smp u o q orb f A B. unfold load_limepy, get_limepy, sample_limepy, model_of. now rewrite A B. Qed.
Print Assumptions C92_no_potential.

(* ---------------------------------------------------------------- C93: clusters by name *)
(* r is the first of the list with the property *)
Definition first_with {A : Type} (P : A -> Prop) (l : list A) (r : A) : Prop := exists a b, l = a ++ r :: b /\ P r /\ forall x, In x a -> ~ P x.
Lemma first_find {A : Type} (P : A -> Prop) (p : A -> bool) l r : (forall x, p x = true <-> P x) -> first_with P l r -> find p l = Some r.
Proof.
  intros Hp [a [b [E [Hr Ha]]]]. subst l. induction a as [|x a IH]; cbn [app find].
  - now rewrite (proj2 (Hp r) Hr).
  - destruct (p x) eqn:Ex; [exfalso; apply (Ha x (or_introl eq_refl)); now apply Hp|]. apply IH. intros y Hy. apply Ha. now right.
Qed.
Lemma none_find {A : Type} (P : A -> Prop) (p : A -> bool) l : (forall x, p x = true <-> P x) -> (forall x, In x l -> ~ P x) -> find p l = None.
Proof. intros Hp H. induction l as [|x l IH]; [reflexivity|]. cbn [find]. destruct (p x) eqn:Ex; [exfalso; apply (H x (or_introl eq_refl)); now apply Hp|]. apply IH. intros y Hy. apply H. now right. Qed.
Lemma deboer_test n (r : drow) : String.eqb (dr_name r) n = true <-> dr_name r = n.
Proof. apply String.eqb_eq. Qed.
(* a point in kpc and km/s, in pc and km/s *)
Definition in_pckms (p : six R) : six R := mk6 (1000 * sx p) (1000 * sy p) (1000 * sz p) (svx p) (svy p) (svz p).
(* where the sample of a cluster at g, with centre offset p, is put *)
Definition put_in_galaxy (o : option osys) (p g : six R) : six R :=
  match o with Some Ocentre => mk6 (- sx p) (- sy p) (- sz p) (- svx p) (- svy p) (- svz p) | Some Ogalaxy => g | _ => zero6 end.
(* the catalogue is a sample of the model m with N stars, on the orbit p, about the origin o *)
Definition model_on_orbit (smp : sampler) (m : lime) (N : nat) (p : six R) (o : option osys) (k : catalog) : Prop :=
  exists d, sample_centre (smp m N) d /\ is_sample k (smp m N) (put_in_galaxy o d (in_pckms p)) /\ c_units (g_c k) = Some Upckms /\
    c_origin (g_c k) = Some (match o with Some w => w | None => Ocluster end) /\ p_t (c_ph (g_c k)) = 0 /\ p_c (c_ph (g_c k)) = d /\ p_g (c_ph (g_c k)) = in_pckms p.
Lemma named_on_orbit (G : galpy) (smp : sampler) named d h name s mbar N0 o n m N p :
  o <> Some Osky -> (1 <= N)%nat -> List.length (smp m N) = N -> named n = Some p ->
  get_cluster G smp named d h name s mbar N0 = bind (sample_model G smp m N) (on_its_orbit G named n) ->
  exists k, get_named G smp named d h name s mbar N0 o = Ok k /\ model_on_orbit smp m N p o k.
Proof.
  intros F HN HL Hp HG. destruct (@sample_model_ok G smp m N HL HN) as [k [E [A [_ [O [T [Gz [D [SC P]]]]]]]]].
  destruct (arrays_of k _ A) as [E1 E2]. rewrite E1 E2 in D.
  unfold get_named. rewrite HG E. cbn [bind]. unfold on_its_orbit. rewrite Hp. cbn [bind].
  set (c0 := set_units (Some Upckms) (g_c k)).
  assert (P0 : plain c0) by discriminate.
  assert (PG : p_g (c_ph (add_orbit G p (Some Ukpckms) None c0)) = in_pckms p).
  { destruct p as [x y z vx vy vz]. unfold add_orbit, c0, set_units, in_pckms. cbn [c_units c_sc]. destruct (ousys_eq_dec (Some Ukpckms) (Some Upckms)) as [X|X]; [discriminate|].
    cbn [orbit_to_kpckms orbit_of_kpckms six_times six_over set_ph c_ph p_g c_units sx sy sz svx svy svz]. unfold six_times. cbn [sx sy sz svx svy svz]. f_equal; lra. }
  destruct (add_orbit_plain G p (Some Ukpckms) None P0) as [H1 [H2 [H3 [H4 [H5 [H6 [H7 [_ [H9 H10]]]]]]]]]. cbv zeta in *.
  set (c1 := add_orbit G p (Some Ukpckms) None c0) in *. clearbody c1.
  set (k1 := set_cluster k c1).
  assert (A1 : stars_of k1 (smp m N) zero6) by (apply stars_stay; [exact A|exact H1|exact H2|exact H3|exact H4]).
  assert (U1 : c_units (g_c k1) = Some Upckms) by exact H5.
  assert (O1 : c_origin (g_c k1) = Some Ocluster) by (change (g_c k1) with c1; rewrite H6; exact O).
  assert (L : linear Upckms) by discriminate.
  destruct (@moved_ok G k1 _ Upckms o A1 U1 L O1 F) as [B [U2 [O2 [T2 [C2 [G2 [SC2 _]]]]]]]. cbv zeta in *.
  change (g_c k1) with c1. change (g_c k1) with c1 in B, U2, O2, T2, C2, G2, SC2.
  assert (NT : Nat.eqb (g_ntot k1) 0 = false) by exact (sampled_number k1 _ _ N A1 HL HN). rewrite NT.
  set (c := move_to G o c1) in *. clearbody c.
  destruct (@finish_plain G o c) as [c' [E' SK]].
  { intros Eo. subst o. split; [exact O2|]. rewrite U2. discriminate. }
  rewrite E'. cbn [bind]. destruct (skel_eq_fields SK) as [F1 [F2 [_ [F4 [F5 [F6 [_ [_ F9]]]]]]]].
  eexists. split; [reflexivity|]. exists (p_c (c_ph (g_c k))). split; [exact D|].
  assert (EC : p_c (c_ph c1) = p_c (c_ph (g_c k))) by exact H9.
  split.
  - apply sample_is. change (set_cluster k1 c') with (set_cluster (set_cluster k1 c) c').
    apply stars_stay; [rewrite EC PG in B; exact B| | |exact F9|exact F4]; now rewrite F5.
  - change (g_c (set_cluster k1 c')) with c'. rewrite F1 F2 F5 U2 O2 T2 C2 G2 EC PG (H10 eq_refl). split; [reflexivity|]. split; [now destruct o|]. split; [exact T|]. split; reflexivity.
Qed.
(* the model de Boer et al. fit to a cluster *)
Definition fitted (r : drow) : lime := mkLime (dr_W r) (dr_g r) (dr_M r) (LRt (dr_rt r)) false.

(* C93: a cluster listed by de Boer et al. under its name in capitals: mass over mean mass stars of their fit, on its orbit *)
Theorem C93_listed_name :
  forall (G : galpy) (smp : sampler) (named : string -> option (six R)) (d : list drow) (h : list hrow) (name : string) (s : source)
      (mbar : R) (N0 : option R) (o : option osys) (r : drow) (N : nat) (p : six R),
    s = Sdefault \/ s = Sdeboer -> o <> Some Osky -> first_with (fun x => dr_name x = upper name) d r -> named (upper name) = Some p ->
    floor_of (dr_M r / mbar) N -> (1 <= N)%nat -> List.length (smp (fitted r) N) = N ->
    exists k, get_named G smp named d h name s mbar N0 o = Ok k /\ model_on_orbit smp (fitted r) N p o k.
Proof.
  intros G smp named d h name s mbar N0 o r N p HS F HR HP HC HN HL. apply (named_on_orbit G smp named d h name s mbar N0 o (upper name)); try assumption.
  assert (E : deboer_row d (upper name) = Some r) by (apply (first_find _ _ _ _ (deboer_test (upper name)) HR)).
  unfold get_cluster. destruct HS as [HS|HS]; subst s; rewrite E; unfold deboer_cluster; rewrite E; unfold star_count; now rewrite (floor_count _ N HC).
Qed.
Print Assumptions C93_listed_name.
(* C93: or listed by Harris under that name, and by de Boer et al. under the other name Harris gives *)
Theorem C93_other_name :
  forall (G : galpy) (smp : sampler) (named : string -> option (six R)) (d : list drow) (h : list hrow) (name : string) (s : source)
      (mbar : R) (N0 : option R) (o : option osys) (w : hrow) (n : string) (r : drow) (N : nat) (p : six R),
    s = Sdefault \/ s = Sdeboer -> o <> Some Osky -> (forall x, In x d -> dr_name x <> upper name) ->
    (first_with (fun x => hr_1 x = upper name) h w /\ n = hr_2 w \/
     (forall x, In x h -> hr_1 x <> upper name) /\ first_with (fun x => hr_2 x = upper name) h w /\ n = hr_1 w) ->
    first_with (fun x => dr_name x = n) d r -> named n = Some p ->
    floor_of (dr_M r / mbar) N -> (1 <= N)%nat -> List.length (smp (fitted r) N) = N ->
    exists k, get_named G smp named d h name s mbar N0 o = Ok k /\ model_on_orbit smp (fitted r) N p o k.
Proof.
  intros G smp named d h name s mbar N0 o w n r N p HS F ND HW HR HP HC HN HL. apply (named_on_orbit G smp named d h name s mbar N0 o n); try assumption.
  assert (E0 : deboer_row d (upper name) = None) by (apply (none_find _ _ _ (deboer_test (upper name)) ND)).
  assert (E : deboer_row d n = Some r) by (apply (first_find _ _ _ _ (deboer_test n) HR)).
  unfold get_cluster. destruct HW as [[W1 W2]|[W0 [W1 W2]]].
  - assert (E1 : by_first h (upper name) = Some w) by (apply (first_find (fun x => hr_1 x = upper name)); [intros x; apply String.eqb_eq|exact W1]). subst n.
    destruct HS as [HS|HS]; subst s; rewrite E0 E1; unfold deboer_cluster; rewrite E; unfold star_count; now rewrite (floor_count _ N HC).
  - assert (E1 : by_first h (upper name) = None) by (apply (none_find (fun x => hr_1 x = upper name)); [intros x; apply String.eqb_eq|exact W0]).
    assert (E2 : by_second h (upper name) = Some w) by (apply (first_find (fun x => hr_2 x = upper name)); [intros x; apply String.eqb_eq|exact W1]). subst n.
    destruct HS as [HS|HS]; subst s; rewrite E0 E1 E2; unfold deboer_cluster; rewrite E; unfold star_count; now rewrite (floor_count _ N HC).
Qed.
Print Assumptions C93_other_name.
(* C93: asked for Harris: a King model with the potential tabulated for the ratio of tidal to core radius, with N stars if N is given *)
Theorem C93_harris :
  forall (G : galpy) (smp : sampler) (named : string -> option (six R)) (d : list drow) (h : list hrow) (name : string)
      (mbar : R) (N0 : option R) (o : option osys) (w : hrow) (N : nat) (p : six R),
    o <> Some Osky -> first_with (fun x => hr_1 x = upper name \/ hr_2 x = upper name) h w -> named (upper name) = Some p ->
    100471 / 100000 <= hr_rt w / hr_rc w <= 227097 / 10 -> floor_of (match N0 with Some x => x | None => hr_M w / mbar end) N -> (1 <= N)%nat ->
    (forall W, List.length (smp (mkLime W 1 (hr_M w) (LRt (hr_rt w)) false) N) = N) ->
    exists k W, get_named G smp named d h name Sharris mbar N0 o = Ok k /\ on_table conc_grid w0_grid (hr_rt w / hr_rc w) W /\
      model_on_orbit smp (mkLime W 1 (hr_M w) (LRt (hr_rt w)) false) N p o k.
Proof.
  intros G smp named d h name mbar N0 o w N p F HW HP HC HM HN HL.
  assert (PY : 0 < hr_rt w / hr_rc w) by lra.
  destruct (C91_concentration_and_back (log10 (hr_rt w / hr_rc w)) (hr_rt w / hr_rc w) (log_ten _ PY) HC) as [W [EW [_ [TW _]]]].
  destruct (named_on_orbit G smp named d h name Sharris mbar N0 o (upper name) (mkLime W 1 (hr_M w) (LRt (hr_rt w)) false) N p F HN (HL W) HP) as [k [E M]].
  2: { exists k, W. now repeat split. }
  assert (E : by_either h (upper name) = Some w).
  { apply (first_find (fun x => hr_1 x = upper name \/ hr_2 x = upper name)); [|exact HW]. intros x. rewrite Bool.orb_true_iff !String.eqb_eq. reflexivity. }
  unfold get_cluster. rewrite E. unfold harris_cluster. rewrite E EW. cbn [bind]. unfold star_count. now rewrite (floor_count _ N HM).
Qed.
Print Assumptions C93_harris.
(* finding: by default a cluster that de Boer et al. do not list is not taken from Harris: loading fails *)
Theorem C93_default_harris_refuted :
  forall (G : galpy) (smp : sampler) (named : string -> option (six R)) (d : list drow) (h : list hrow) (name : string) (s : source)
      (mbar : R) (N0 : option R) (o : option osys),
    s = Sdefault \/ s = Sdeboer -> (forall x, In x d -> dr_name x <> upper name) ->
    (forall w, In w h -> hr_1 w = upper name -> forall x, In x d -> dr_name x <> hr_2 w) ->
    (forall w, In w h -> hr_2 w = upper name -> forall x, In x d -> dr_name x <> hr_1 w) ->
    get_named G smp named d h name s mbar N0 o = Raise.
Proof.
  intros G smp named d h name s mbar N0 o HS ND H1 H2. unfold get_named.
  assert (X : get_cluster G smp named d h name s mbar N0 = Raise); [|now rewrite X].
  assert (E0 : forall n, (forall x, In x d -> dr_name x <> n) -> deboer_row d n = None) by (intros n Hn; apply (none_find _ _ _ (deboer_test n) Hn)).
  unfold get_cluster. destruct HS as [HS|HS]; subst s; rewrite (E0 _ ND).
  all: destruct (by_first h (upper name)) as [w|] eqn:E1.
  1, 3: apply find_some in E1; destruct E1 as [I1 Q1]; apply String.eqb_eq in Q1; unfold deboer_cluster; now rewrite (E0 _ (H1 w I1 Q1)).
  all: destruct (by_second h (upper name)) as [w|] eqn:E2; [|reflexivity].
  all: apply find_some in E2; destruct E2 as [I2 Q2]; apply String.eqb_eq in Q2; unfold deboer_cluster; now rewrite (E0 _ (H2 w I2 Q2)).
Qed.
Print Assumptions C93_default_harris_refuted.
(* finding: the name is put in capitals and the tables are not, so a cluster whose name in the table has a lower-case letter is not
   found by that name: an empty cluster is given, or loading fails *)
Theorem C93_lower_case_refuted :
  forall (G : galpy) (smp : sampler) (named : string -> option (six R)) (d : list drow) (h : list hrow) (w : hrow) (name : string) (mbar : R) (N0 : option R) (o : option osys),
    In w h -> hr_2 w = name -> upper name <> name ->
    (forall x, In x d -> dr_name x <> upper name) -> (forall x, In x h -> hr_1 x <> upper name /\ hr_2 x <> upper name) ->
    (exists k, get_named G smp named d h name Sharris mbar N0 o = Ok k /\ g_ntot k = 0%nat) /\
    get_named G smp named d h name Sdefault mbar N0 o = Raise.
Proof.
  intros G smp named d h w name mbar N0 o _ _ _ ND H. split.
  - unfold get_named, get_cluster.
    assert (E : by_either h (upper name) = None).
    { apply (none_find (fun x => hr_1 x = upper name \/ hr_2 x = upper name)). { intros x. rewrite Bool.orb_true_iff !String.eqb_eq. reflexivity. }
      intros x Hx [Q|Q]; destruct (H x Hx) as [A B]; [exact (A Q)|exact (B Q)]. }
    rewrite E. cbn [bind]. change (g_ntot empty_cluster) with 0%nat. cbn [Nat.eqb]. eexists. split; [reflexivity|reflexivity].
  - apply C93_default_harris_refuted; [now left|exact ND| |]; intros x Hx Q; destruct (H x Hx) as [A B]; [now elim (A Q)|now elim (B Q)].
Qed.
Print Assumptions C93_lower_case_refuted.

(* the hypotheses are met: two stars of a King model of mass 2 *)
Definition two_stars : sampler := fun m n => if Nat.eqb n 2 then [(mk6 1 0 0 0 1 0, 1); (mk6 (-1) 0 0 0 (-1) 0, 1)] else repeat (zero6, 1) n.
Definition two_kw : lime_kw := mkLK (Some 5) None 1 (Some 2) (Some 10) None (Some 3) None None None 1 None.
Example C92_hypotheses_met :
  asks_for two_kw (mkLime 5 1 2 (LRt 10) false) /\ asks_number two_kw 2 2 /\ (forall m n, List.length (two_stars m n) = n) /\
  good_scales unit_galpy (mkSc 1 1 1 1 1 1 1 solar_ro solar_vo) /\ time_in_Gyr unit_galpy solar_ro solar_vo <> 0 /\
  (exists k, load_limepy unit_galpy two_stars (Some Upckms) (Some Ogalaxy) two_kw (Some circle) None = Ok k /\ sx (p_g (c_ph (g_c k))) = 3000 /\
     w_s (star_at k 0) = mk6 1 0 0 0 1 0).
Proof.
  assert (A : asks_for two_kw (mkLime 5 1 2 (LRt 10) false)) by (repeat split; now left).
  assert (B : asks_number two_kw 2 2) by (unfold asks_number, floor_of, two_kw; cbn; lra).
  assert (C : forall m n, List.length (two_stars m n) = n).
  { intros m n. unfold two_stars. destruct (Nat.eqb n 2) eqn:E; [apply Nat.eqb_eq in E; now subst|apply repeat_length]. }
  assert (D : good_scales unit_galpy (mkSc 1 1 1 1 1 1 1 solar_ro solar_vo)) by (unfold good_scales, solar_vo, solar_ro; cbn [zmbar rbar vbar tbar ro vo unit_galpy time_in_Gyr mass_in_msol velocity_in_kpcGyr]; do 8 (split; [intros X; lra|]); intros X; lra).
  assert (E : time_in_Gyr unit_galpy solar_ro solar_vo <> 0) by (cbn; lra).
  do 5 (split; [assumption|]).
  destruct (C92_galaxy_orbit_refuted unit_galpy two_stars two_kw (mkLime 5 1 2 (LRt 10) false) 2 circle None A B (le_S 1 1 (le_n 1)) (C _ _) D E) as [k [Ek [U [_ [O [[_ I] _]]]]]].
  exists k. split; [exact Ek|]. split.
  - destruct O as [tau [Q P]]. unfold same_q in Q. cbv [unit_size in_Myr unit_galpy time_in_Gyr] in Q. assert (tau = 0) by lra. subst tau.
    destruct P as [P1 _]. unfold same_q, circle in P1. cbv [unit_size in_pc] in P1. cbn [sx] in P1. rewrite cos_0 in P1. lra.
  - rewrite (I 0%nat (mk6 1 0 0 0 1 0) 1 eq_refl). cbn [w_s sx sy sz svx svy svz zero6]. f_equal; lra.
Qed.
Definition demo_deboer : list drow := [mkDR "NGC104" 7 1 100 2; mkDR "NGC288" 5 1 90 2].
Definition demo_harris : list hrow := [mkHR "NGC104" "47Tuc" 2 1 4 60; mkHR "NGC288" "-" 2 1 4 60; mkHR "PAL5" "-" 3 1 4 30].
Definition demo_named : string -> option (six R) := fun n => if String.eqb n "NGC104" then Some (mk6 2 3 (-3) 100 50 20) else if String.eqb n "PAL5" then Some (mk6 8 0 16 0 0 0) else None.
Example C93_hypotheses_met :
  first_with (fun x => dr_name x = upper "ngc104") demo_deboer (mkDR "NGC104" 7 1 100 2) /\ floor_of (2 / 1) 2 /\
  first_with (fun x => hr_1 x = upper "Pal5" \/ hr_2 x = upper "Pal5") demo_harris (mkHR "PAL5" "-" 3 1 4 30) /\ 100471 / 100000 <= 30 / 1 <= 227097 / 10 /\
  (exists k, get_named unit_galpy two_stars demo_named demo_deboer demo_harris "ngc104" Sdefault 1 None (Some Ogalaxy) = Ok k /\ w_s (star_at k 0) = mk6 2001 3000 (-3000) 100 51 20) /\
  get_named unit_galpy two_stars demo_named demo_deboer demo_harris "Pal5" Sdefault 1 None (Some Ocluster) = Raise /\
  (exists k, get_named unit_galpy two_stars demo_named demo_deboer demo_harris "47Tuc" Sharris 1 None (Some Ocluster) = Ok k /\ g_ntot k = 0%nat).
Proof.
  assert (A : first_with (fun x => dr_name x = upper "ngc104") demo_deboer (mkDR "NGC104" 7 1 100 2)) by (exists [], [mkDR "NGC288" 5 1 90 2]; now repeat split).
  assert (B : floor_of (2 / 1) 2) by (unfold floor_of; cbn; lra).
  assert (C : forall m n, List.length (two_stars m n) = n).
  { intros m n. unfold two_stars. destruct (Nat.eqb n 2) eqn:E; [apply Nat.eqb_eq in E; now subst|apply repeat_length]. }
  split; [exact A|]. split; [exact B|]. split.
  { exists [mkHR "NGC104" "47Tuc" 2 1 4 60; mkHR "NGC288" "-" 2 1 4 60], []. split; [reflexivity|]. split; [now left|]. intros x [X|[X|[]]] [Y|Y]; subst x; discriminate. }
  split; [lra|]. split.
  { destruct (C93_listed_name unit_galpy two_stars demo_named demo_deboer demo_harris "ngc104" Sdefault 1 None (Some Ogalaxy) _ 2 (mk6 2 3 (-3) 100 50 20) (or_introl eq_refl) ltac:(discriminate) A eq_refl B (le_S 1 1 (le_n 1)) (C _ _))
      as [k [E [d [_ [[_ I] _]]]]].
    exists k. split; [exact E|]. rewrite (I 0%nat (mk6 1 0 0 0 1 0) 1 eq_refl). cbn [w_s sx sy sz svx svy svz put_in_galaxy in_pckms]. f_equal; lra. }
  split.
  - apply C93_default_harris_refuted; [now left| | |].
    + intros x [X|[X|[]]]; subst x; discriminate.
    + intros w [X|[X|[X|[]]]]; subst w; cbn [hr_1 hr_2]; intros Y; try discriminate. intros x [Z|[Z|[]]]; subst x; discriminate.
    + intros w [X|[X|[X|[]]]]; subst w; cbn [hr_1 hr_2]; intros Y; discriminate.
  - apply (C93_lower_case_refuted unit_galpy two_stars demo_named demo_deboer demo_harris (mkHR "NGC104" "47Tuc" 2 1 4 60) "47Tuc" 1 None (Some Ocluster)); [now left|reflexivity|discriminate| |].
    + intros x [X|[X|[]]]; subst x; discriminate.
    + intros x [X|[X|[X|[]]]]; subst x; split; discriminate.
Qed.
