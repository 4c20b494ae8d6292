(* Reading a snapshot. *)
From Coq Require Import String Ascii.
From Verif Require Import Base ModelCluster ModelOps ModelRecipes ModelCoords ModelCentre ModelStars SpecStars ModelLoad SpecLoad
  ProofsRecipes ProofsStars ProofsStars2 ProofsUnits ProofsFrame ProofsSubset2 ProofsLoad.
Set Implicit Arguments.
Unset Strict Implicit.
Open Scope string_scope. Open Scope list_scope. Open Scope R_scope.

(* what add_stars leaves alone *)
Lemma add_stars_keeps a sort an proj k k' : add_stars 0 a sort an proj k = Ok k' ->
  c_units (g_c k) <> Some Uradec ->
  p_t (c_ph (g_c k')) = p_t (c_ph (g_c k)) /\ p_c (c_ph (g_c k')) = p_c (c_ph (g_c k)) /\ p_g (c_ph (g_c k')) = p_g (c_ph (g_c k)) /\
  c_sc (g_c k') = c_sc (g_c k) /\ c_sky (g_c k') = c_sky (g_c k) /\ g_sse k' = g_sse k /\ g_bse k' = g_bse k.
Proof.
  move=> E U. unfold add_stars in E. cbn [Nat.eqb bind] in E.
  match type of E with Ok ?x = _ => have E' : x = k' by congruence end. subst k'. clear E.
  set k2 := add_single_rows _ _ _ _ _ _ _.
  have U2 : c_units (g_c k2) = c_units (g_c k) by [].
  set k3 := put_columns k2 _. have U3 : c_units (g_c k3) = c_units (g_c k) by [].
  have -> : add_sky_rows (map6 (expand (npmax a)) (a_s a)) (g_c k3) = g_c k3.
  { rewrite /add_sky_rows U3. destruct (c_units (g_c k)) as [[]|] => //. }
  cbn [set_counts set_cluster g_c g_sse g_bse].
  destruct an; [|by []].
  have [E1 [E2 [E3 [E4 [E5 [E6 E7]]]]]] := analyze_ph sort proj (g_c k3). by rewrite E1 E6 E7.
Qed.

(* columns *)
Definition col_is (names : list string) (nums : list nat) (w : nat) (rows : list (list R)) (s : string) (o : option (list R)) : Prop :=
  (o = None /\ ~ In s names) \/ (exists k, stands_for names nums s k /\ (k < w)%nat /\ o = Some (map (fun r => nth k r 0) rows)).
Lemma named_ok names nums w rows s : Forall (fun r => length r = w) rows ->
  (In s names -> exists k, stands_for names nums s k /\ (k < w)%nat) ->
  exists o, named (Mat rows) names nums s = Ok o /\ col_is names nums w rows s o.
Proof.
  move=> W H. destruct (in_dec string_dec s names) as [I|N].
  - have [k [S K]] := H I. eexists. split; [exact (stands_named W K S)|]. right. by exists k.
  - exists None. split; [by apply absent_named|by left].
Qed.
Lemma col_quantity names nums w rows s o d i : col_is names nums w rows s o -> (i < length rows)%nat ->
  quantity names nums rows s d i (value 0 (or_scalar d o) i).
Proof.
  move=> [[-> N]|[k [S [K ->]]]] H; [by left|right]. exists k. split => //=.
  symmetry. by apply (@nth_map' _ _ (fun r => nth k r 0)).
Qed.
Lemma col_sized names nums w rows s o d : col_is names nums w rows s o -> arg_sized (length rows) (or_scalar d o).
Proof. move=> [[-> _]|[k [_ [_ ->]]]] //=. by rewrite map_length. Qed.
Lemma col_named_array names nums w rows s o d : col_is names nums w rows s o -> In s names -> is_array (or_scalar d o) = true.
Proof. move=> [[_ N]|[k [_ [_ ->]]]] //. Qed.

Lemma int_part_Z z : Int_part (IZR z) = z.
Proof.
  have [B1 B2] := base_Int_part (IZR z).
  have L1 : (Int_part (IZR z) <= z)%Z by apply le_IZR. have L2 : (z < Int_part (IZR z) + 1)%Z by apply lt_IZR; rewrite plus_IZR; lra. lia.
Qed.
Lemma read_columns_ok names nums w rows : Forall (fun r => length r = w) rows -> columns_fit names nums w -> (2 <= length rows)%nat ->
  exists a kw, read_columns (Mat rows) names nums = Ok (a, kw) /\ describes_stars a (length rows) /\
    col_is names nums w rows "kw" kw /\
    (forall i st, (i < length rows)%nat -> is_given a i st -> (a_id a = None -> w_id st = Z.of_nat i) -> row_star names nums rows i st) /\
    (a_id a = None -> ~ In "id" names).
Proof.
  move=> W [F [s0 [I0 N0]]] L2.
  have G s : In s ("kw" :: star_names) -> exists o, named (Mat rows) names nums s = Ok o /\ col_is names nums w rows s o.
  { move=> I. apply named_ok => // I2. by apply F. }
  have [m [Em Cm]] := G "m" ltac:(cbn; tauto). have [x [Ex Cx]] := G "x" ltac:(cbn; tauto).
  have [y [Ey Cy]] := G "y" ltac:(cbn; tauto). have [z [Ez Cz]] := G "z" ltac:(cbn; tauto).
  have [vx [Evx Cvx]] := G "vx" ltac:(cbn; tauto). have [vy [Evy Cvy]] := G "vy" ltac:(cbn; tauto).
  have [vz [Evz Cvz]] := G "vz" ltac:(cbn; tauto). have [id [Eid Cid]] := G "id" ltac:(cbn; tauto).
  have [kw [Ekw Ckw]] := G "kw" ltac:(cbn; tauto).
  unfold read_columns. rewrite Em. cbn [bind]. rewrite Ex. cbn [bind]. rewrite Ey. cbn [bind]. rewrite Ez. cbn [bind].
  rewrite Evx. cbn [bind]. rewrite Evy. cbn [bind]. rewrite Evz. cbn [bind]. rewrite Eid. cbn [bind]. rewrite Ekw. cbn [bind].
  eexists. exists kw. split; [reflexivity|].
  have ID : id = None -> ~ In "id" names.
  { move=> E. case: Cid => [[_ N]|[k [_ [_ Q]]]] //. congruence. }
  split; [|split; [exact Ckw|split]].
  - rewrite /describes_stars; cbn [a_s a_m a_id a_m0 a_npop]. split; [lia|].
    split; [by split; [|split; [|split; [|split; [|split]]]]; eapply col_sized; eassumption|].
    split; [by eapply col_sized; eassumption|].
    split. { destruct id as [l|] => //=. rewrite map_length. case: Cid => [[]|[k [_ [_ [->]]]]] //. by rewrite map_length. }
    split => //. split => //. right.
    have A s o d : col_is names nums w rows s o -> s = s0 -> is_array (or_scalar d o) = true by move=> C Q; apply (col_named_array d C); rewrite Q.
    rewrite /six_array /opt_array; cbn [sx sy sz svx svy svz].
    move: I0; cbn [In star_names]. move=> [Q|[Q|[Q|[Q|[Q|[Q|[Q|[Q|//]]]]]]]].
    + rewrite (A _ _ 1 Cm Q). by rewrite !orb_true_r.
    + by rewrite (A _ _ 0 Cx Q).
    + rewrite (A _ _ 0 Cy Q). by rewrite !orb_true_r.
    + rewrite (A _ _ 0 Cz Q). by rewrite !orb_true_r.
    + rewrite (A _ _ 0 Cvx Q). by rewrite !orb_true_r.
    + rewrite (A _ _ 0 Cvy Q). by rewrite !orb_true_r.
    + rewrite (A _ _ 0 Cvz Q). by rewrite !orb_true_r.
    + destruct id as [l|]; [by rewrite /= !orb_true_r|]. case: (ID eq_refl). by rewrite Q.
  - move=> i st Hi [GS [GM [G0 [GP GI]]]] DI. cbn [a_s a_m a_id a_m0 a_npop] in GS, GM, G0, GP, GI, DI.
    rewrite /row_star GS GM G0 GP; cbn zeta; cbn [map6 sx sy sz svx svy svz value_or].
    split; [exact (col_quantity 1 Cm Hi)|]. split; [exact (col_quantity 0 Cx Hi)|]. split; [exact (col_quantity 0 Cy Hi)|].
    split; [exact (col_quantity 0 Cz Hi)|]. split; [exact (col_quantity 0 Cvx Hi)|]. split; [exact (col_quantity 0 Cvy Hi)|].
    split; [exact (col_quantity 0 Cvz Hi)|]. split.
    { move=> N. apply DI. case: Cid => [[-> _]|[k [S _]]] //. by case: (N (stands_in S)). }
    split; [|by split].
    move=> k zz S Q. case: Cid => [[_ N]|[k' [S' [K' E']]]]; [by case: (N (stands_in S))|].
    have KK := stands_unique S S'. subst k'. rewrite (GI (Array (map Int_part (map (fun r => nth k r 0) rows)))); [by rewrite E'|].
    cbn [value]. rewrite (@nth_map' _ _ Int_part _ _ 0%Z 0) ?map_length //.
    rewrite (@nth_map' _ _ (fun r => nth k r 0) _ _ 0 []) // Q. apply int_part_Z.
  - destruct id => // _. by apply ID.
Qed.

(* the default centre of density of a cluster with stars *)
Lemma skel_rorder c o oo : skel (set_rorder c o oo) = skel c. Proof. by []. Qed.
Section WithGalpy.
Variable G : galpy.
Lemma find_centre_default_ok c : c_units c <> Some Uamuse -> particles c <> [] ->
  exists p c1, harfst zero6 100 (1/10) None 100 (particles c) = Some p /\ skel c1 = skel c /\
    find_centre_default G c = Ok (set_centre false p c1).
Proof.
  move=> U N. have [p P] : exists p, harfst zero6 100 (1/10) None 100 (particles c) = Some p.
  { rewrite /harfst. destruct (particles c) as [|b l] => //. eexists. reflexivity. }
  exists p. 
  have E : match c_units c with Some Uamuse => to_pckms G c | _ => c end = c by destruct (c_units c) as [[]|].
  have F : find_centre_of_density G default_centre c = Ok (Some p, analyze true true c).
  { rewrite /find_centre_of_density; cbv zeta. rewrite E /default_centre; cbn [ca_method ca_indx pick_rows ca_start ca_nsphere ca_rmin ca_rmax ca_nmax].
    by rewrite P return_same. }
  exists (return_cluster G (save_cluster c) (analyze true true c)). split => //. split.
  - rewrite /return_cluster /save_cluster; cbn [sv_units sv_origin sv_rorder sv_rorder_origin].
    have [_ [_ [_ [E4 [E5 _]]]]] := analyze_ph true true c. rewrite E4.
    destruct (ousys_eq_dec (c_units c) (c_units c)) => //. rewrite E5. destruct (oosys_eq_dec (c_origin c) (c_origin c)) => //.
    by rewrite skel_analyze skel_rorder skel_analyze.
  - rewrite /find_centre_default /method_find_centre /find_centre; cbv zeta. rewrite E.
    cbn [ca_indx default_centre]. rewrite -/default_centre F. done.
Qed.

(* units in which positions are lengths *)
Definition plain (c : cluster) : Prop := c_units c <> Some Uradec.
Lemma to_cluster_plain s c : plain c -> c_origin c = Some Ogalaxy ->
  skel (to_cluster s c) = skel (set_stars c (sub6 (p_s (c_ph c)) (p_g (c_ph c))) (Some Ocluster)).
Proof. move=> P O. rewrite /to_cluster O. destruct (c_units c) as [[]|] eqn:U => //; try (by rewrite skel_analyze); by case: P. Qed.
Lemma to_centre_plain s c : plain c -> c_origin c = Some Ocluster ->
  skel (to_centre s c) = skel (set_stars c (sub6 (p_s (c_ph c)) (p_c (c_ph c))) (Some Ocentre)).
Proof. move=> P O. rewrite /to_centre O. destruct (c_units c) as [[]|] eqn:U => //; try (by rewrite skel_analyze); by case: P. Qed.
Lemma to_galaxy_plain s c : plain c -> c_origin c = Some Ocentre ->
  skel (to_galaxy G s c) = skel (set_stars c (add6 (add6 (p_s (c_ph c)) (p_c (c_ph c))) (p_g (c_ph c))) (Some Ogalaxy)).
Proof.
  move=> P O. rewrite /to_galaxy O.
  have E : skel (to_cluster false c) = skel (set_stars c (add6 (p_s (c_ph c)) (p_c (c_ph c))) (Some Ocluster)).
  { rewrite /to_cluster O. destruct (c_units c) as [[]|] eqn:U => //; try (by rewrite skel_analyze); by case: P. }
  have -> : match c_units c with
    | Some Uradec => analyze s true (from_radec G (to_sky_radec c))
    | _ => analyze s true (set_stars (to_cluster false c) (add6 (p_s (c_ph (to_cluster false c))) (p_g (c_ph (to_cluster false c)))) (Some Ogalaxy))
    end = analyze s true (set_stars (to_cluster false c) (add6 (p_s (c_ph (to_cluster false c))) (p_g (c_ph (to_cluster false c)))) (Some Ogalaxy)).
  { destruct (c_units c) as [[]|] eqn:U => //; by case: P. }
  rewrite skel_analyze (skel_set_stars _ _ E) (skel_ph E). done.
Qed.
Lemma sub_add6 s d : add6 (sub6 s d) d = s.
Proof.
  destruct s. rewrite /add6 /sub6 /vadd /vsub /=. f_equal; rewrite map_map -[RHS]map_id; apply map_ext => x; lra.
Qed.
(* the same stars in the same units and origin; centres may have been set *)
Definition same_stars (c c' : cluster) : Prop :=
  p_t (c_ph c') = p_t (c_ph c) /\ p_m (c_ph c') = p_m (c_ph c) /\ p_s (c_ph c') = p_s (c_ph c) /\ c_id c' = c_id c /\
  c_nb c' = c_nb c /\ c_units c' = c_units c /\ c_origin c' = c_origin c /\ c_sc c' = c_sc c /\ c_sky c' = c_sky c.
Lemma same_skel c c' : skel c' = skel c -> same_stars c c'.
Proof. move=> /skel_eq_fields [A [B [C [D [E [F [H [I J]]]]]]]]. rewrite /same_stars A B D E F I J. tauto. Qed.
Lemma same_trans a b c : same_stars a b -> same_stars b c -> same_stars a c.
Proof. rewrite /same_stars. move=> [A [B [C [D [E [F [H [I J]]]]]]]] [-> [-> [-> [-> [-> [-> [-> [-> ->]]]]]]]]. tauto. Qed.
Lemma same_set_centres c a b : same_stars c (set_centres c a b).
Proof. by []. Qed.
Lemma same_set_centre c r p : same_stars c (set_centre r p c).
Proof. rewrite /set_centre. destruct (c_origin c) as [[]|]; try (destruct (_ || _); try destruct (six_eqb _ _)); try apply same_set_centres; by []. Qed.
Lemma same_particles c c' : same_stars c c' -> particles c' = particles c.
Proof. rewrite /particles. by move=> [_ [-> [-> _]]]. Qed.

Lemma centre_found c : c_units c <> Some Uamuse -> particles c <> [] -> exists c', find_centre_default G c = Ok c' /\ same_stars c c'.
Proof.
  move=> U N. have [p [c1 [_ [S ->]]]] := find_centre_default_ok U N. eexists. split; [reflexivity|].
  apply same_trans with c1; [by apply same_skel|apply same_set_centre].
Qed.
Definition populated (c : cluster) : Prop := p_m (c_ph c) <> [] /\ sx (p_s (c_ph c)) <> [].
Lemma populated_particles c : populated c -> particles c <> [].
Proof. rewrite /populated /particles /rows6. move=> [A B]; destruct (p_m (c_ph c)), (sx (p_s (c_ph c))) => //. Qed.
Lemma populated_cluster c : plain c -> c_origin c = Some Ogalaxy -> populated c -> populated (to_cluster false c).
Proof.
  move=> P O [A B]. rewrite /populated (skel_ph (to_cluster_plain false P O)); cbn [set_stars c_ph p_m p_s sub6 sx]. split => // E.
  apply map_eq_nil in E. done.
Qed.
(* to_cluster, find_centre, to_centre, to_galaxy bring the stars back *)
Lemma galaxy_tour c sort : plain c -> c_units c <> Some Uamuse -> c_origin c = Some Ogalaxy -> populated c ->
  exists c2, find_centre_default G (to_cluster false c) = Ok c2 /\ same_stars c (to_galaxy G true (to_centre sort c2)) /\
    p_g (c_ph (to_galaxy G true (to_centre sort c2))) = p_g (c_ph c).
Proof.
  move=> P U O N. have N1 := populated_particles (populated_cluster P O N). have E1 := to_cluster_plain false P O.
  have [A1 [B1 [_ [D1 [P1 [F1 [_ [I1 J1]]]]]]]] := skel_eq_fields E1.
  set c1 := to_cluster false c in E1 A1 B1 D1 P1 F1 I1 J1 N1 |- *.
  cbn [set_stars c_units c_origin c_nb c_ph c_sc c_sky c_id] in A1, B1, D1, P1, F1, I1, J1.
  have U1 : c_units c1 <> Some Uamuse by rewrite A1.
  have [p [c1' [_ [S1 ->]]]] := find_centre_default_ok U1 N1. eexists; split; [reflexivity|].
  have [A2 [B2 [_ [D2 [P2 [F2 [_ [I2 J2]]]]]]]] := skel_eq_fields S1.
  have E2 : set_centre false p c1' = set_centres c1' p (p_g (c_ph c1')) by rewrite /set_centre B2 B1.
  rewrite E2. set c2 := set_centres _ _ _.
  have Q2 : c_units c2 = c_units c by rewrite /c2 /= A2 A1.
  have P2' : plain c2 by rewrite /plain Q2.
  have O2 : c_origin c2 = Some Ocluster by rewrite /c2 /= B2 B1.
  have E3 := to_centre_plain sort P2' O2. set c3 := to_centre sort c2 in E3 |- *.
  have [A3 [B3 [_ [D3 [P3 [F3 [_ [I3 J3]]]]]]]] := skel_eq_fields E3.
  cbn [set_stars c_units c_origin c_nb c_ph c_sc c_sky c_id] in A3, B3, D3, P3, F3, I3, J3.
  have P3' : plain c3 by rewrite /plain A3 Q2.
  have E4 := to_galaxy_plain true P3' B3. set c4 := to_galaxy G true c3 in E4 |- *.
  have [A4 [B4 [_ [D4 [P4 [F4 [_ [I4 J4]]]]]]]] := skel_eq_fields E4.
  cbn [set_stars c_units c_origin c_nb c_ph c_sc c_sky c_id] in A4, B4, D4, P4, F4, I4, J4.
  rewrite /same_stars A4 B4 D4 P4 F4 I4 J4. cbn [p_t p_m p_s p_c p_g]. rewrite A3 D3 P3 F3 I3 J3. cbn [p_t p_m p_s p_c p_g].
  rewrite /c2 /set_centres; cbn [set_ph c_units c_origin c_nb c_ph c_sc c_sky c_id p_t p_m p_s p_c p_g].
  rewrite A2 D2 P2 F2 I2 J2 A1 D1 P1 F1 I1 J1. cbn [p_t p_m p_s p_c p_g].
  rewrite sub_add6 sub_add6. rewrite O. tauto.
Qed.
(* without an orbit file *)
Lemma centre_snapshot_ok rd o adv c : plain c -> c_units c <> Some Uamuse -> c_origin c = l_origin o -> populated c ->
  exists c', centre_snapshot G rd o None adv c = Ok (c', None) /\ same_stars c c'.
Proof.
  move=> P U O N. rewrite /centre_snapshot.
  have CF : exists c', bind (if l_analyze o then bind (find_centre_default G c) (fun c' => Ok (analyze (l_sort o) (l_proj o) c')) else Ok c)
      (fun c' => Ok (c', None : option text)) = Ok (c', None) /\ same_stars c c'.
  { destruct (l_analyze o); [|by exists c].
    have [c' [-> S]] := centre_found U (populated_particles N). cbn [bind]. eexists. split; [reflexivity|].
    apply (same_trans S). apply same_skel. apply skel_analyze. }
  destruct (l_origin o) as [[]|]; try exact CF; try (by exists c). clear CF.
  have [c1 [-> S1]] := centre_found U (populated_particles N). cbn [bind fst snd].
  destruct (l_analyze o); [|by exists c1].
  have [_ [M1 [X1 [_ [_ [U1 [O1 _]]]]]]] := S1.
  have P' : plain c1 by rewrite /plain U1. have U' : c_units c1 <> Some Uamuse by rewrite U1.
  have O' : c_origin c1 = Some Ogalaxy by rewrite O1. have N' : populated c1 by rewrite /populated M1 X1.
  have [c2 [-> [S2 _]]] := galaxy_tour (l_sort o) P' U' O' N'. cbn [bind]. eexists. split; [reflexivity|]. exact (same_trans S1 S2).
Qed.
End WithGalpy.
