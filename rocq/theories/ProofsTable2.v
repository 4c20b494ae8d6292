(* Proofs for clusters from tables: the stars. *)
From Coq Require Import String Ascii.
From Verif Require Import Base ModelCluster ModelOps ModelConv ModelRecipes ModelCoords ModelCentre ModelStars SpecUnits SpecStars ModelLoad SpecLoad
  ProofsRecipes ProofsStars ProofsStars2 ProofsUnits ProofsFrame ProofsSubset2 ProofsLoad ProofsLoad2 ProofsLoad3 ProofsLoad4 ModelTable SpecTable ProofsTable ProofsGorbit.
Set Implicit Arguments.
Unset Strict Implicit.
Open Scope string_scope. Open Scope list_scope. Open Scope R_scope.

Lemma numbers_reals c l : numbers c l -> reals c = l.
Proof. destruct c; by move=> ->. Qed.
Definition table_args (h : six tcol) (hm : option tcol) (id : option (list Z)) : star_args :=
  mkArgs (map6 (fun c => Array (reals c)) h) (option_map (fun c => Array (reals c)) hm) (option_map Array id) None None.
Lemma args_described n h hm hid s m id : columns_are n h hm hid s m id -> (1 <= n)%nat ->
  describes_stars (table_args h hm id) n /\
  (forall j, (j < n)%nat -> forall w, is_given (table_args h hm id) j w -> w_s w = map6 (fun l => nth j l 0) s /\
     w_m w = match m with Some l => nth j l 0 | None => 1 end /\ w_m0 w = 0 /\ w_npop w = 1%Z /\ (forall l, id = Some l -> w_id w = nth j l 0%Z)).
Proof.
  move=> [[N1 [N2 [N3 [N4 [N5 N6]]]]] [[L1 [L2 [L3 [L4 [L5 L6]]]]] [HM HI]]] Hn.
  have E1 := numbers_reals N1. have E2 := numbers_reals N2. have E3 := numbers_reals N3. have E4 := numbers_reals N4. have E5 := numbers_reals N5. have E6 := numbers_reals N6.
  split.
  - rewrite /describes_stars /table_args /six_sized /opt_sized /arg_sized /six_array /is_array /map6; cbn [a_s a_m a_id a_m0 a_npop sx sy sz svx svy svz orb].
    rewrite E1 E2 E3 E4 E5 E6. split; [exact Hn|]. split; [by do 5 (split; [by []|])|].
    split. { destruct hm as [c|], m as [l|] => //=. case: HM => Q <-. by rewrite (numbers_reals Q). }
    split. { destruct hid as [[c|c]|], id as [l|] => //=. by case: HI. }
    split; [by []|]. split; [by []|]. by right.
  - move=> j Hj w [W1 [W2 [W3 [W4 W5]]]]. move: W1 W2 W3 W4 W5. rewrite /table_args /value_or /value /map6; cbn [a_s a_m a_id a_m0 a_npop sx sy sz svx svy svz].
    rewrite E1 E2 E3 E4 E5 E6 => W1 W2 W3 W4 W5. split; [exact W1|]. split. { rewrite W2. destruct hm as [c|], m as [l|] => //=. case: HM => Q _. by rewrite (numbers_reals Q). }
    split; [exact W3|]. split; [exact W4|]. move=> l El. rewrite El in W5. exact (W5 (Array l) eq_refl).
Qed.
Lemma whole_ids n h hm hid s m id : columns_are n h hm hid s m id ->
  (match hid with None => Ok None | Some c => bind (whole c) (fun l => Ok (Some (Array l))) end) = Ok (option_map Array id).
Proof. move=> [_ [_ [_ HI]]]. destruct hid as [[c|c]|], id as [l|] => //=. by case: HI => -> _. Qed.

Lemma holds_ext k n s m id c' : holds_columns k n s m id -> p_m (c_ph c') = p_m (c_ph (g_c k)) -> p_s (c_ph c') = p_s (c_ph (g_c k)) ->
  c_id c' = c_id (g_c k) -> c_nb c' = c_nb (g_c k) -> holds_columns (set_cluster k c') n s m id.
Proof.
  move=> H E1 E2 E3 E4. move: H. rewrite /holds_columns /aligned /star_at. cbn [set_cluster g_c g_m0 g_npop g_ntot g_sse]. by rewrite E1 E2 E3 E4.
Qed.
Lemma table_added n h hm hid s m id proj u o ro_ vo_ : columns_are n h hm hid s m id -> (1 <= n)%nat ->
  exists k, add_stars 0 (table_args h hm id) false true proj (init_catalog (init_cluster 0 u o ro_ vo_)) = Ok k /\
    holds_columns k n s m id /\ c_units (g_c k) = u /\ c_origin (g_c k) = o /\ populated (g_c k) /\ (u <> Some Uradec -> p_t (c_ph (g_c k)) = 0 /\ p_g (c_ph (g_c k)) = zero6 /\ p_c (c_ph (g_c k)) = zero6).
Proof.
  move=> C Hn. have [D GV] := args_described C Hn. set k0 := init_catalog (init_cluster 0 u o ro_ vo_).
  have A0 : aligned k0 0 by [].
  have [k [E2 [AL [_ [IG [NT [_ [NB [_ [U [O CO]]]]]]]]]]] := add_singles_rows false true proj D A0.
  exists k. split; [exact E2|].
  have IDS : id = None -> c_id (g_c k) = map (Z.add 0) (zrange n).
  { move=> N. have := f_equal t_id CO. rewrite /columns_of /app_columns /single_part /default_tail /table_args N. cbn. by rewrite Nat.sub_0_r. }
  split.
  - split; [exact AL|]. split; [exact NT|]. split; [by rewrite NB|]. move=> i Hi. have := IG i Hi. rewrite Nat.add_0_l => G0. have [Q1 [Q2 [Q3 [Q4 Q5]]]] := GV i Hi _ G0.
    destruct (star_at k i) as [ws wm wi w0 wp] eqn:ES. cbn [w_s w_m w_id w_m0 w_npop] in Q1, Q2, Q3, Q4, Q5. rewrite Q1 Q2 Q3 Q4. congr (mkStar _ _ _ _ _).
    destruct id as [l|]; [exact (Q5 l eq_refl)|]. have := f_equal w_id ES. rewrite /star_at; cbn [w_id]. rewrite (IDS eq_refl) => <-.
    rewrite /zrange map_map. rewrite (@nth_map' _ _ (fun x => (0 + Z.of_nat x)%Z) _ _ 0%Z 0%nat) ?seq_length // seq_nth //.
  - split; [by rewrite U|]. split; [by rewrite O|]. split.
    { move: AL. rewrite /aligned /six_length /populated. move=> [[Lx _] [Lm _]]. split => N; [rewrite N in Lm; cbn in Lm; lia|rewrite N in Lx; cbn in Lx; lia]. }
    move=> NU. have [T [PC [PG _]]] := add_stars_keeps E2 NU. by rewrite T PC PG.
Qed.

Section WithGalpy.
Variable G : galpy.
(* what happens after the stars are in, without an orbit file *)
Lemma centre_table_ok rd o adv c : c_origin c = l_origin o -> populated c ->
  (l_origin o = Some Ogalaxy -> plain c /\ c_units c <> Some Uamuse /\ p_g (c_ph c) = zero6) ->
  exists c', centre_table G rd o None adv c = Ok (c', None) /\ same_stars c c' /\
    (l_origin o = Some Ogalaxy -> density_of (p_m (c_ph c)) (p_s (c_ph c)) = Some (p_g (c_ph c'))) /\
    (l_origin o <> Some Ogalaxy -> p_g (c_ph c') = p_g (c_ph c) /\ p_c (c_ph c') = p_c (c_ph c)).
Proof.
  move=> O N H. rewrite /centre_table. destruct (l_origin o) as [[]|] eqn:OO.
  - destruct (l_analyze o); eexists; (split; [reflexivity|]).
    + have [E1 [E2 [E3 [E4 [E5 [E6 E7]]]]]] := analyze_ph (l_sort o) (l_proj o) c. split; [apply same_skel; apply skel_analyze|]. split; [by []|]. by rewrite E1.
    + by [].
  - destruct (l_analyze o); eexists; (split; [reflexivity|]).
    + have [E1 [E2 [E3 [E4 [E5 [E6 E7]]]]]] := analyze_ph (l_sort o) (l_proj o) c. split; [apply same_skel; apply skel_analyze|]. split; [by []|]. by rewrite E1.
    + by [].
  - have [P [U G0]] := H eq_refl. have [p [c1 [D [S ->]]]] := find_centre_default_ok G U (populated_particles N). cbn [bind fst snd].
    have [A1 [B1 [_ [D1 [P1 [F1 [_ [I1 J1]]]]]]]] := skel_eq_fields S.
    have S1 : same_stars c (set_centre false p c1) by apply same_trans with c1; [by apply same_skel|apply same_set_centre].
    have PG : p_g (c_ph (set_centre false p c1)) = p.
    { rewrite /set_centre B1 O. have -> : six_eqb (p_g (c_ph c1)) zero6 = true.
      { rewrite P1 G0 /six_eqb /zero6; cbn [sx sy sz svx svy svz]. rewrite /Reqb. by destruct (Req_EM_T 0 0). }
      by []. }
    move: (set_centre false p c1) S1 PG => c2 S1 PG.
    destruct (l_analyze o).
    + have [_ [M1 [X1 [_ [_ [U1 [O1 _]]]]]]] := S1.
      have P' : plain c2 by rewrite /plain U1. have U' : c_units c2 <> Some Uamuse by rewrite U1.
      have O' : c_origin c2 = Some Ogalaxy by rewrite O1. have N' : populated c2 by rewrite /populated M1 X1.
      have [c3 [-> [S2 PG2]]] := galaxy_tour G (l_sort o) P' U' O' N'. cbn [bind]. eexists. split; [reflexivity|]. split; [exact (same_trans S1 S2)|].
      split; [|by []]. move=> _. rewrite PG2 PG. exact D.
    + exists c2. split; [by []|]. split; [exact S1|]. split; [|by []]. move=> _. rewrite PG. exact D.
  - by exists c.
  - by exists c.
Qed.
Lemma build_table_ok rd o adv n h hm hid s m id : columns_are n h hm hid s m id -> (1 <= n)%nat ->
  (l_origin o = Some Ogalaxy -> l_units o <> Some Uradec /\ l_units o <> Some Uamuse) ->
  exists v, build_table G rd o None adv (mkCC h hm hid) = Ok v /\ holds_columns (v_cat v) n s m id /\
    c_units (g_c (v_cat v)) = l_units o /\ c_origin (g_c (v_cat v)) = l_origin o /\ v_set v = l_set o /\ v_units v = l_units o /\ v_origin v = l_origin o /\
    (l_units o <> Some Uradec -> p_t (c_ph (g_c (v_cat v))) = 0) /\
    (l_origin o = Some Ogalaxy -> density_of (p_m (c_ph (g_c (v_cat v)))) (p_s (c_ph (g_c (v_cat v)))) = Some (p_g (c_ph (g_c (v_cat v))))) /\
    (l_origin o <> Some Ogalaxy -> l_units o <> Some Uradec -> p_g (c_ph (g_c (v_cat v))) = zero6 /\ p_c (c_ph (g_c (v_cat v))) = zero6).
Proof.
  move=> C Hn H. rewrite /build_table; cbn [h_id h_s h_m]. rewrite (whole_ids C); cbn [bind].
  have [k [E [HC [U [O [P Z0]]]]]] := table_added (l_proj o) (l_units o) (l_origin o) (l_ro o) (l_vo o) C Hn.
  rewrite /table_args in E. rewrite E; cbn [bind].
  have HG : l_origin o = Some Ogalaxy -> plain (g_c k) /\ c_units (g_c k) <> Some Uamuse /\ p_g (c_ph (g_c k)) = zero6.
  { move=> OG. have [H1 H2] := H OG. rewrite /plain U. split; [by []|]. split; [by []|]. by case: (Z0 H1) => _ []. }
  have [c' [-> [S [Dn Kp]]]] := centre_table_ok rd adv O P HG. cbn [bind fst snd]. eexists. split; [reflexivity|].
  have [ST [S2 [S3 [S4 [S5 [SU [SO _]]]]]]] := S. cbn [v_cat v_set v_units v_origin set_cluster g_c].
  split; [by apply holds_ext|]. split; [by rewrite SU|]. split; [by rewrite SO|]. split; [by []|]. split; [by []|]. split; [by []|].
  split. { move=> NU. rewrite ST. by case: (Z0 NU). }
  split. { move=> OG. rewrite S2 S3. exact (Dn OG). }
  move=> OG NU. have [-> ->] := Kp OG. by case: (Z0 NU) => _ [-> ->].
Qed.
(* with an orbit file *)
Lemma centre_table_orbit rd o adv c f l t p og u : c_units c = Some u -> u <> Uradec -> u <> Uamuse -> c_origin c = l_origin o -> populated c ->
  l_origin o = Some og -> og <> Osky -> q_units (l_orbit o) = None \/ q_units (l_orbit o) = Some u ->
  nth_error f (line_number (o_nsnap (l_set o)) adv) = Some l -> orbit_line rd (q_cols (l_orbit o)) l t p ->
  exists c', centre_table G rd o (Some f) adv c = Ok (c', Some (skipn (line_number (o_nsnap (l_set o)) adv + 1) f)) /\
    p_m (c_ph c') = p_m (c_ph c) /\ p_s (c_ph c') = p_s (c_ph c) /\ c_id c' = c_id c /\ c_nb c' = c_nb c /\ c_units c' = c_units c /\ c_origin c' = c_origin c /\
    p_g (c_ph c') = p /\ (q_time (l_orbit o) = true -> p_t (c_ph c') = t).
Proof.
  move=> U NR NA O N OG OS QU F L. have GO c' := get_cluster_orbit_ok G c' F L. rewrite /centre_table.
  have AO : forall c1, same_stars c c1 -> let c0 := add_orbit G p (q_units (l_orbit o)) (if q_time (l_orbit o) then Some t else None) c1 in
    p_m (c_ph c0) = p_m (c_ph c) /\ p_s (c_ph c0) = p_s (c_ph c) /\ c_id c0 = c_id c /\ c_nb c0 = c_nb c /\ c_units c0 = c_units c /\ c_origin c0 = c_origin c /\
    p_g (c_ph c0) = p /\ (q_time (l_orbit o) = true -> p_t (c_ph c0) = t).
  { move=> c1 [_ [M1 [X1 [I1 [B1 [U1 [O1 _]]]]]]]. have P1 : plain c1 by rewrite /plain U1 U; congruence.
    have [M0 [X0 [I0 [B0 [U0 [O0 _]]]]]] := add_orbit_plain G p (q_units (l_orbit o)) (if q_time (l_orbit o) then Some t else None) P1.
    cbv zeta. rewrite M0 X0 I0 B0 U0 O0. do 6 (split; [by []|]).
    have E : p_g (c_ph (add_orbit G p (q_units (l_orbit o)) (if q_time (l_orbit o) then Some t else None) c1)) = p /\
      (forall t0, (if q_time (l_orbit o) then Some t else None) = Some t0 -> p_t (c_ph (add_orbit G p (q_units (l_orbit o)) (if q_time (l_orbit o) then Some t else None) c1)) = t0).
    { case: QU => ->; [exact (add_orbit_none G p _ c1)|]. apply (@add_orbit_same G p _ c1 u). by rewrite U1. }
    case: E => -> E. split; [by []|]. move=> Q. apply E. by rewrite Q. }
  have CF : exists c', bind (get_cluster_orbit G rd (l_orbit o) (o_nsnap (l_set o)) adv f (if l_analyze o then analyze (l_sort o) (l_proj o) c else c)) (fun r => Ok (fst r, Some (snd r))) =
      Ok (c', Some (skipn (line_number (o_nsnap (l_set o)) adv + 1) f)) /\
    p_m (c_ph c') = p_m (c_ph c) /\ p_s (c_ph c') = p_s (c_ph c) /\ c_id c' = c_id c /\ c_nb c' = c_nb c /\ c_units c' = c_units c /\ c_origin c' = c_origin c /\
    p_g (c_ph c') = p /\ (q_time (l_orbit o) = true -> p_t (c_ph c') = t).
  { rewrite GO; cbn [bind fst snd]. eexists. split; [reflexivity|]. apply AO. destruct (l_analyze o); [apply same_skel; apply skel_analyze|by []]. }
  rewrite OG in O |- *. destruct og; try exact CF; last by case: OS.
  clear CF. rewrite GO; cbn [bind fst snd]. have := AO c ltac:(by []). cbv zeta. move: (add_orbit _ _ _ _ c) => c0 [M0 [X0 [I0 [B0 [U0 [O0 [PG PT]]]]]]].
  destruct (l_analyze o); [|by exists c0].
  have P' : plain c0 by rewrite /plain U0 U; congruence. have U' : c_units c0 <> Some Uamuse by rewrite U0 U; congruence.
  have O' : c_origin c0 = Some Ogalaxy by rewrite O0. have N' : populated c0 by rewrite /populated M0 X0.
  have [c2 [-> [S2 G2]]] := galaxy_tour G (l_sort o) P' U' O' N'. cbn [bind]. eexists. split; [reflexivity|].
  have [ST [S3 [S4 [S5 [S6 [SU [SO _]]]]]]] := S2. rewrite S3 S4 S5 S6 SU SO G2 ST M0 X0 I0 B0 U0 O0. by do 7 (split; [by []|]).
Qed.
End WithGalpy.
