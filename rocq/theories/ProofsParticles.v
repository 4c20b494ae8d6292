(* Proofs for clusters from galpy Orbits and AMUSE particles. *)
From Verif Require Import Base ModelCluster ModelOps ModelConv ModelRecipes ModelCoords ModelCentre ModelStars ModelOutput SpecUnits SpecStars ModelLoad SpecLoad
  ProofsRecipes ProofsStars ProofsStars2 ProofsUnits ProofsFrame ProofsSubset2 ProofsLoad ProofsLoad2 ProofsGorbit ModelParticles SpecParticles.
Set Implicit Arguments.
Unset Strict Implicit.
Open Scope R_scope.

Definition array_args (s : six (list R)) (m : list R) (id : list Z) : star_args :=
  mkArgs (six_arrays s) (Some (Array m)) (Some (Array id)) None None.
Lemma arrays_described n s m id : six_length s n -> length m = n -> length id = n -> (1 <= n)%nat ->
  describes_stars (array_args s m id) n.
Proof.
  move=> [L1 [L2 [L3 [L4 [L5 L6]]]]] LM LI Hn.
  rewrite /describes_stars /array_args /six_arrays /six_sized /opt_sized /arg_sized /six_array /is_array /map6; cbn [a_s a_m a_id a_m0 a_npop sx sy sz svx svy svz].
  split; [exact Hn|]. split; [by do 5 (split; [by []|])|]. split; [by []|]. split; [by []|]. split; [by []|]. split; [by []|]. by right.
Qed.
Lemma arrays_added n s m id sort proj u o ro_ vo_ : six_length s n -> length m = n -> length id = n -> (1 <= n)%nat -> u <> Some Uradec ->
  exists k, add_stars 0 (array_args s m id) sort true proj (init_catalog (init_cluster 0 u o ro_ vo_)) = Ok k /\
    aligned k n /\ g_ntot k = n /\ c_nb (g_c k) = 0%nat /\
    (forall i, (i < n)%nat -> star_at k i = mkStar (map6 (fun l => nth i l 0) s) (nth i m 0) (nth i id 0%Z) 0 1%Z) /\
    c_units (g_c k) = u /\ c_origin (g_c k) = o /\ populated (g_c k) /\ p_t (c_ph (g_c k)) = 0 /\ p_g (c_ph (g_c k)) = zero6 /\ p_c (c_ph (g_c k)) = zero6 /\
    c_sc (g_c k) = mkSc 1 1 1 1 1 1 1 ro_ vo_.
Proof.
  move=> LS LM LI Hn NU. have D := arrays_described LS LM LI Hn. set k0 := init_catalog (init_cluster 0 u o ro_ vo_).
  have A0 : aligned k0 0 by [].
  have [k [E2 [AL [_ [IG [NT [_ [NB [_ [U [O CO]]]]]]]]]]] := add_singles_rows sort true proj D A0.
  exists k. split; [exact E2|]. split; [exact AL|]. split; [exact NT|]. split; [by rewrite NB|]. split.
  { move=> i Hi. have := IG i Hi. rewrite Nat.add_0_l => G0. move: G0 => [W1 [W2 [W3 [W4 W5]]]].
    destruct (star_at k i) as [ws wm wi w0 wp] eqn:ES. cbn [w_s w_m w_id w_m0 w_npop] in W1, W2, W3, W4, W5.
    have W5' := W5 _ eq_refl. cbn in W2, W3, W4, W5'. rewrite W1 W2 W3 W4 W5'. by []. }
  split; [by rewrite U|]. split; [by rewrite O|]. split.
  { move: AL. rewrite /aligned /six_length /populated. move=> [[Lx _] [Lm _]]. split => N; [rewrite N in Lm; cbn in Lm; lia|rewrite N in Lx; cbn in Lx; lia]. }
  have [T [PC [PG [SC _]]]] := add_stars_keeps E2 NU. by rewrite T PC PG SC.
Qed.
Lemma set_cluster_star k c' i : p_m (c_ph c') = p_m (c_ph (g_c k)) -> p_s (c_ph c') = p_s (c_ph (g_c k)) -> c_id c' = c_id (g_c k) ->
  star_at (set_cluster k c') i = star_at k i.
Proof. move=> E1 E2 E3. rewrite /star_at. cbn [set_cluster g_c g_m0 g_npop]. by rewrite E1 E2 E3. Qed.
Lemma set_cluster_aligned k c' n : aligned k n -> p_m (c_ph c') = p_m (c_ph (g_c k)) -> p_s (c_ph c') = p_s (c_ph (g_c k)) -> c_id c' = c_id (g_c k) ->
  aligned (set_cluster k c') n.
Proof. move=> H E1 E2 E3. move: H. rewrite /aligned. cbn [set_cluster g_c g_m0 g_npop]. by rewrite E1 E2 E3. Qed.

Section WithGalpy.
Variable G : galpy.
Definition centred (o : option osys) (c c' : cluster) : Prop :=
  match o with
  | Some Ogalaxy => density_of (p_m (c_ph c)) (p_s (c_ph c)) = Some (p_g (c_ph c'))
  | Some Ocluster => density_of (p_m (c_ph c)) (p_s (c_ph c)) = Some (p_c (c_ph c')) /\ p_g (c_ph c') = p_g (c_ph c)
  | _ => p_g (c_ph c') = p_g (c_ph c) /\ p_c (c_ph c') = p_c (c_ph c)
  end.
Lemma found_once c : c_units c <> Some Uamuse -> populated c -> (c_origin c = Some Ogalaxy -> p_g (c_ph c) = zero6) ->
  c_origin c <> None -> c_origin c <> Some Osky ->
  exists c', find_centre_default G c = Ok c' /\ same_stars c c' /\ centred (c_origin c) c c'.
Proof.
  move=> U N G0 NO NS. have [p [c1 [D [S ->]]]] := find_centre_default_ok G U (populated_particles N). eexists; split; [reflexivity|].
  have [A1 [B1 [_ [D1 [P1 [F1 [_ [I1 J1]]]]]]]] := skel_eq_fields S.
  split; [apply same_trans with c1; [by apply same_skel|apply same_set_centre]|].
  rewrite /centred /set_centre B1. destruct (c_origin c) as [[]|] eqn:O => //.
  - by rewrite P1.
  - cbn [set_centres set_ph c_ph p_c p_g]. rewrite P1. by split.
  - have -> : six_eqb (p_g (c_ph c1)) zero6 = true.
    { rewrite P1 (G0 eq_refl) /six_eqb /zero6; cbn [sx sy sz svx svy svz]. rewrite /Reqb. by destruct (Req_EM_T 0 0). }
    by [].
Qed.
Lemma analyzed (b : bool) s pr c : same_stars c (if b then analyze s pr c else c) /\ c_ph (if b then analyze s pr c else c) = c_ph c.
Proof.
  destruct b; [|by []]. have [E _] := analyze_ph s pr c. split; [apply same_skel; apply skel_analyze|exact E].
Qed.
Lemma centre_orbits_ok o c : c_origin c = l_origin o -> populated c -> plain c -> c_units c <> Some Uamuse -> p_g (c_ph c) = zero6 ->
  exists c', centre_orbits G o None c = Ok c' /\ same_stars c c' /\ centred (l_origin o) c c'.
Proof.
  move=> O N P U G0. rewrite /centre_orbits. have [OO|[OO|[FC|OG]]] : l_origin o = None \/ l_origin o = Some Osky \/ (l_origin o = Some Ocluster \/ l_origin o = Some Ocentre) \/ l_origin o = Some Ogalaxy.
  { destruct (l_origin o) as [[]|]; tauto. }
  - rewrite OO. by exists c.
  - rewrite OO. by exists c.
  - have [c1 [E [S C]]] : exists c', find_centre_default G c = Ok c' /\ same_stars c c' /\ centred (c_origin c) c c'.
    { apply found_once => //; rewrite O; case: FC => ->; discriminate. }
    rewrite E. cbn [bind]. have [S2 P2] := analyzed (l_analyze o) (l_sort o) (l_proj o) c1. rewrite O in C.
    exists (if l_analyze o then analyze (l_sort o) (l_proj o) c1 else c1). split; [by case: FC => ->|]. split; [exact (same_trans S S2)|].
    move: C. rewrite /centred P2. by case: FC => ->.
  - rewrite OG. have [c1 [E [S C]]] : exists c', find_centre_default G c = Ok c' /\ same_stars c c' /\ centred (c_origin c) c c'.
    { apply found_once => //; rewrite O OG; discriminate. }
    rewrite O OG /centred in C. rewrite E. cbn [bind]. destruct (l_analyze o); [|by exists c1].
    have [_ [M1 [X1 [_ [_ [U1 [O1 _]]]]]]] := S.
    have P' : plain c1 by rewrite /plain U1. have U' : c_units c1 <> Some Uamuse by rewrite U1.
    have O' : c_origin c1 = Some Ogalaxy by rewrite O1 O. have N' : populated c1 by rewrite /populated M1 X1.
    have [c3 [-> [S2 PG2]]] := galaxy_tour G (l_sort o) P' U' O' N'. cbn [bind]. eexists. split; [reflexivity|]. split; [exact (same_trans S S2)|].
    rewrite /centred PG2. exact C.
Qed.
Lemma centre_amuse_ok o c : c_origin c = l_origin o -> populated c -> plain c -> c_units c <> Some Uamuse -> p_g (c_ph c) = zero6 ->
  exists c', centre_amuse G o None c = Ok c' /\ same_stars c c' /\ centred (l_origin o) c c'.
Proof.
  move=> O N P U G0. rewrite /centre_amuse. have [OO|[OO|[FC|OG]]] : l_origin o = None \/ l_origin o = Some Osky \/ (l_origin o = Some Ocluster \/ l_origin o = Some Ocentre) \/ l_origin o = Some Ogalaxy.
  { destruct (l_origin o) as [[]|]; tauto. }
  - rewrite OO. by exists c.
  - rewrite OO. by exists c.
  - have [c1 [E [S C]]] : exists c', find_centre_default G c = Ok c' /\ same_stars c c' /\ centred (c_origin c) c c'.
    { apply found_once => //; rewrite O; case: FC => ->; discriminate. }
    rewrite E. cbn [bind]. have [S2 P2] := analyzed (l_analyze o) (l_sort o) (l_proj o) c1. rewrite O in C.
    exists (if l_analyze o then analyze (l_sort o) (l_proj o) c1 else c1). split; [by case: FC => ->|]. split; [exact (same_trans S S2)|].
    move: C. rewrite /centred P2. by case: FC => ->.
  - rewrite OG. have [c1 [E [S C]]] : exists c', find_centre_default G c = Ok c' /\ same_stars c c' /\ centred (c_origin c) c c'.
    { apply found_once => //; rewrite O OG; discriminate. }
    rewrite O OG /centred in C. rewrite E. cbn [bind]. destruct (l_analyze o); [|by exists c1].
    have [_ [M1 [X1 [_ [_ [U1 [O1 _]]]]]]] := S.
    have P' : plain c1 by rewrite /plain U1. have U' : c_units c1 <> Some Uamuse by rewrite U1.
    have O' : c_origin c1 = Some Ogalaxy by rewrite O1 O. have N' : populated c1 by rewrite /populated M1 X1.
    rewrite O'.
    have [c3 [-> [S2 PG2]]] := galaxy_tour G (l_sort o) P' U' O' N'. cbn [bind]. eexists. split; [reflexivity|].
    have OC : exists w, c_origin (to_centre (l_sort o) c3) = Some w.
    { have [Q _] : (c_origin (to_galaxy G true (to_centre (l_sort o) c3)) = Some Ogalaxy) /\ True by (split => //; have [_ [_ [_ [_ [_ [_ [X _]]]]]]] := S2; rewrite X).
      destruct (c_origin (to_centre (l_sort o) c3)) as [w|] eqn:E3; [by exists w|]. exfalso. move: Q. rewrite /to_galaxy E3. by rewrite E3. }
    have [w OW] := OC. rewrite /to_origin OW. have [E3 _] := analyze_ph true true (to_galaxy G true (to_centre (l_sort o) c3)).
    split. { apply same_trans with c1; [exact S|]. apply same_trans with (to_galaxy G true (to_centre (l_sort o) c3)); [exact S2|]. apply same_skel. apply skel_analyze. }
    rewrite /centred E3 PG2. exact C.
Qed.
End WithGalpy.
