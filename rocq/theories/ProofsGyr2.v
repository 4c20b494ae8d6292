(* The gyrfalcON reader: stars, centre, series of records. *)
From Coq Require Import String Ascii.
From Verif Require Import Base ModelCluster ModelOps ModelRecipes ModelCoords ModelCentre ModelStars SpecStars ModelLoad SpecLoad
  ProofsRecipes ProofsStars ProofsStars2 ProofsUnits ProofsFrame ProofsLoad ProofsLoad2 ProofsLoad3 ProofsLoad4 ModelGyr SpecGyr ProofsGyr.
Set Implicit Arguments.
Unset Strict Implicit.
Open Scope string_scope. Open Scope list_scope. Open Scope R_scope.

Lemma col_nth rows k i : (i < length rows)%nat -> nth i (col rows k) 0 = nth k (nth i rows []) 0.
Proof. move=> H. by rewrite /col (@nth_map' _ _ (fun r => nth k r 0) _ _ 0 []). Qed.
Lemma gyr_args_describe first rows : rows <> [] -> describes_stars (gyr_args first rows) (length rows).
Proof.
  move=> NE. rewrite /describes_stars /six_sized /opt_sized /arg_sized /gyr_args /col; cbn [a_s a_m a_id a_m0 a_npop sx sy sz svx svy svz].
  rewrite !map_length seq_length. split; [destruct rows => //=; lia|]. repeat split. by right.
Qed.
Lemma gyr_given first rows i st : (i < length rows)%nat -> is_given (gyr_args first rows) i st ->
  nemo_star first rows zero6 i st.
Proof.
  move=> Hi [A [B [C [D E]]]]. rewrite /nemo_star B C D A. cbn [gyr_args a_s a_m a_m0 a_npop map6 value value_or sx sy sz svx svy svz zero6].
  rewrite !col_nth // !Rminus_0_r. have -> := E _ eq_refl. cbn [value].
  rewrite (@nth_map' _ _ (fun j => Z.of_nat (j + first)) _ _ 0%Z 0%nat) ?seq_length // seq_nth //.
  rewrite /map6; cbn [value sx sy sz svx svy svz]. by rewrite !col_nth.
Qed.

Section WithGalpy.
Variable G : galpy.
Lemma nemo_added first rows proj t u o ro_ vo_ : rows <> [] -> u <> Some Uradec ->
  exists k, add_stars 0 (gyr_args first rows) false true proj (init_catalog (init_cluster t u o ro_ vo_)) = Ok k /\
    (forall c', same_stars (g_c k) c' -> stars_of_nemo first rows zero6 (set_cluster k c')) /\
    stars_of_nemo first rows zero6 k /\
    c_units (g_c k) = u /\ c_origin (g_c k) = o /\ p_t (c_ph (g_c k)) = t /\ p_g (c_ph (g_c k)) = zero6 /\ p_c (c_ph (g_c k)) = zero6 /\
    c_sc (g_c k) = mkSc 1 1 1 1 1 1 1 ro_ vo_ /\ populated (g_c k).
Proof.
  move=> NE NU. set k0 := init_catalog (init_cluster t u o ro_ vo_). have A0 : aligned k0 0 by [].
  have [k [E2 [AL [_ [GV [NT [_ [NB [_ [U [O CO]]]]]]]]]]] := add_singles_rows false true proj (gyr_args_describe first NE) A0.
  have [T [PC [PG [SC [SK [SS _]]]]]] := add_stars_keeps E2 NU. exists k. split => //.
  have ST : stars_of_nemo first rows zero6 k.
  { split => //. split; [by rewrite NT|]. split; [by rewrite NB|]. move=> i Hi. apply gyr_given => //. exact (GV i Hi). }
  split.
  { move=> c' [Q1 [Q2 [Q3 [Q4 [Q5 _]]]]]. move: ST. rewrite /stars_of_nemo /aligned /star_at; cbn [set_cluster g_c g_m0 g_npop g_ntot].
    by rewrite Q2 Q3 Q4 Q5. }
  split => //. split; [by rewrite U|]. split; [by rewrite O|]. split; [by rewrite T|]. split; [by rewrite PG|]. split; [by rewrite PC|].
  split; [by rewrite SC|].
  have Lr : (0 < length rows)%nat by destruct rows => //=; lia.
  move: AL. rewrite /aligned /six_length /populated. move=> [[Lx _] [Lm _]]. split => N; [rewrite N in Lm; cbn in Lm; lia|rewrite N in Lx; cbn in Lx; lia].
Qed.

Lemma to_cluster_stay s c : c_origin c = Some Ocluster -> to_cluster s c = c.
Proof. move=> O. by rewrite /to_cluster O. Qed.
Lemma to_cluster_of_centre s c : plain c -> c_origin c = Some Ocentre ->
  skel (to_cluster s c) = skel (set_stars c (add6 (p_s (c_ph c)) (p_c (c_ph c))) (Some Ocluster)).
Proof. move=> P O. rewrite /to_cluster O. destruct (c_units c) as [[]|] eqn:U => //; try (by rewrite skel_analyze); by case: P. Qed.
(* find_centre, to_centre from origin cluster *)
Lemma centre_step c sort : plain c -> c_units c <> Some Uamuse -> c_origin c = Some Ocluster -> populated c ->
  exists p c2, find_centre_default G c = Ok c2 /\ skel (to_centre sort c2) =
    skel (set_stars (set_centres c p (p_g (c_ph c))) (sub6 (p_s (c_ph c)) p) (Some Ocentre)).
Proof.
  move=> P U O N. have [p [c1 [_ [S1 ->]]]] := find_centre_default_ok G U (populated_particles N).
  have [A1 [B1 _]] := skel_eq_fields S1. exists p. eexists; split; [reflexivity|].
  have E2 : set_centre false p c1 = set_centres c1 p (p_g (c_ph c1)) by rewrite /set_centre B1 O.
  rewrite E2. set c2 := set_centres c1 p (p_g (c_ph c1)).
  have Q2 : c_units c2 = c_units c by rewrite /c2 /= A1.
  have P2' : plain c2 by rewrite /plain Q2.
  have O2 : c_origin c2 = Some Ocluster by rewrite /c2 /= B1.
  rewrite (to_centre_plain sort P2' O2). rewrite /c2. move: S1. rewrite /skel. case=> *. destruct c1, c. cbn in *. subst. done.
Qed.
Lemma cluster_tour c sort : plain c -> c_units c <> Some Uamuse -> c_origin c = Some Ocluster -> populated c ->
  exists c2, find_centre_default G (to_cluster false c) = Ok c2 /\
    let c3 := to_origin G (Oreq Ocluster) true (to_centre sort c2) in same_stars c c3 /\ p_g (c_ph c3) = p_g (c_ph c).
Proof.
  move=> P U O N. rewrite (to_cluster_stay false O). have [p [c2 [E S]]] := centre_step sort P U O N. exists c2. split => //. cbv zeta.
  set c3 := to_centre sort c2 in S |- *. have [A3 [B3 [_ [D3 [P3 [F3 [_ [I3 J3]]]]]]]] := skel_eq_fields S.
  cbn [set_stars set_centres set_ph c_units c_origin c_nb c_ph c_sc c_sky c_id p_t p_m p_s p_c p_g] in A3, B3, D3, P3, F3, I3, J3.
  have P' : plain c3 by rewrite /plain A3.
  have X := to_cluster_of_centre true P' B3. rewrite /to_origin B3. 
  have [A4 [B4 [_ [D4 [P4 [F4 [_ [I4 J4]]]]]]]] := skel_eq_fields (eq_trans (skel_analyze true true _) X).
  cbn [set_stars c_units c_origin c_nb c_ph c_sc c_sky c_id p_t p_m p_s p_c p_g] in A4, B4, D4, P4, F4, I4, J4.
  rewrite /same_stars A4 B4 D4 P4 F4 I4 J4; cbn [p_t p_m p_s p_c p_g]. rewrite A3 D3 P3 F3 I3 J3; cbn [p_t p_m p_s p_c p_g].
  rewrite sub_add6 O. tauto.
Qed.
Lemma galaxy_tour2 c sort : plain c -> c_units c <> Some Uamuse -> c_origin c = Some Ogalaxy -> populated c ->
  exists c2, find_centre_default G (to_cluster false c) = Ok c2 /\
    let c3 := to_origin G (Oreq Ogalaxy) true (to_centre sort c2) in same_stars c c3 /\ p_g (c_ph c3) = p_g (c_ph c).
Proof.
  move=> P U O N. have PP := to_cluster_plain false P O. have [A1 [B1 [_ [D1 [P1 [F1 [_ [I1 J1]]]]]]]] := skel_eq_fields PP.
  cbn [set_stars c_units c_origin c_nb c_ph c_sc c_sky c_id p_t p_m p_s p_c p_g] in A1, B1, D1, P1, F1, I1, J1.
  have PC : plain (to_cluster false c) by rewrite /plain A1. have UC : c_units (to_cluster false c) <> Some Uamuse by rewrite A1.
  have [p [c2' [E' S']]] := centre_step sort PC UC B1 (populated_cluster P O N).
  have [c2 [E [S Q]]] := galaxy_tour G sort P U O N. rewrite E in E'. case: E' => E'. subst c2'. exists c2. split => //. cbv zeta.
  have [_ [B3 _]] := skel_eq_fields S'. cbn [set_stars c_origin] in B3. rewrite /to_origin B3.
  have X := skel_analyze true true (to_galaxy G true (to_centre sort c2)). split; [exact (same_trans S (same_skel X))|]. by rewrite (skel_ph X).
Qed.
(* the reader with origin centre: the density centre is subtracted *)
Lemma centre_tour c sort : plain c -> c_units c <> Some Uamuse -> c_origin c = Some Ocentre -> populated c -> p_c (c_ph c) = zero6 ->
  exists c2 p, find_centre_default G (to_cluster false c) = Ok c2 /\
    same_stars (set_stars c (sub6 (p_s (c_ph c)) p) (Some Ocentre)) (to_origin G (Oreq Ocentre) true (to_centre sort c2)).
Proof.
  move=> P U O N Z. have PP := to_cluster_of_centre false P O. have [A1 [B1 [_ [D1 [P1 [F1 [_ [I1 J1]]]]]]]] := skel_eq_fields PP.
  cbn [set_stars c_units c_origin c_nb c_ph c_sc c_sky c_id p_t p_m p_s p_c p_g] in A1, B1, D1, P1, F1, I1, J1.
  rewrite Z add6_0 in P1.
  have PC : plain (to_cluster false c) by rewrite /plain A1. have UC : c_units (to_cluster false c) <> Some Uamuse by rewrite A1.
  have NC : populated (to_cluster false c) by rewrite /populated P1.
  have [p [c2 [E S]]] := centre_step sort PC UC B1 NC. exists c2, p. split => //.
  set c3 := to_centre sort c2 in S |- *. have [A3 [B3 [_ [D3 [P3 [F3 [_ [I3 J3]]]]]]]] := skel_eq_fields S.
  cbn [set_stars set_centres set_ph c_units c_origin c_nb c_ph c_sc c_sky c_id p_t p_m p_s p_c p_g] in A3, B3, D3, P3, F3, I3, J3.
  rewrite /to_origin B3. have K : to_centre true c3 = c3 by rewrite /to_centre B3. rewrite K.
  have [A4 [B4 [_ [D4 [P4 [F4 [_ [I4 J4]]]]]]]] := skel_eq_fields (skel_analyze true true c3).
  rewrite /same_stars A4 B4 D4 P4 F4 I4 J4 A3 B3 D3 P3 F3 I3 J3 A1 D1 P1 F1 I1 J1. cbn. tauto.
Qed.
End WithGalpy.
