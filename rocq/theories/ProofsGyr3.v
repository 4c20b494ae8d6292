(* The gyrfalcON reader as a whole. *)
From Coq Require Import String Ascii.
From Verif Require Import Base ModelCluster ModelOps ModelRecipes ModelCoords ModelCentre ModelStars SpecStars ModelLoad SpecLoad
  ProofsRecipes ProofsStars ProofsStars2 ProofsUnits ProofsFrame ProofsLoad ProofsLoad2 ProofsLoad3 ProofsLoad4 ProofsLoad5 ModelGyr SpecGyr ProofsGyr ProofsGyr2.
Set Implicit Arguments.
Unset Strict Implicit.
Open Scope string_scope. Open Scope list_scope. Open Scope R_scope.

Section WithGalpy.
Variable G : galpy.
(* the part after the orbit or the first find_centre *)
Definition settle_gyr (o : load_opts) (r : cluster * option text) : result (cluster * option text) :=
  if l_analyze o
  then match l_origin o with
       | Some og => bind (find_centre_default G (to_cluster false (fst r))) (fun c2 =>
                    Ok (to_origin G (Oreq og) true (to_centre (l_sort o) c2), snd r))
       | None => bind (find_centre_default G (fst r)) (fun c2 => Ok (analyze (l_sort o) (l_proj o) c2, snd r))
       end
  else Ok r.
Lemma find_centre_keeps_g c c' : c_units c <> Some Uamuse -> populated c -> c_origin c = None -> find_centre_default G c = Ok c' -> p_g (c_ph c') = p_g (c_ph c).
Proof.
  move=> U N O E. have [p [c1 [_ [S E']]]] := find_centre_default_ok G U (populated_particles N). rewrite E' in E. case: E => <-.
  have [_ [B _]] := skel_eq_fields S. rewrite /set_centre B O. cbn. by rewrite (skel_ph S).
Qed.
Lemma settle_ok o c r : plain c -> c_units c <> Some Uamuse -> c_origin c = l_origin o -> kept_origin (l_origin o) -> populated c ->
  exists c', settle_gyr o (c, r) = Ok (c', r) /\ same_stars c c' /\ p_g (c_ph c') = p_g (c_ph c).
Proof.
  move=> P U O K N. rewrite /settle_gyr; cbn [fst snd]. destruct (l_analyze o); [|by exists c]. case: K => [K|[K|K]]; rewrite K; rewrite K in O.
  - have [c2 [E S]] := centre_found G U (populated_particles N). rewrite E; cbn [bind]. eexists. split; [reflexivity|].
    have X := skel_analyze (l_sort o) (l_proj o) c2. split; [exact (same_trans S (same_skel X))|]. rewrite (skel_ph X). by apply find_centre_keeps_g.
  - have [c2 [E [S Q]]] := cluster_tour G (l_sort o) P U O N. rewrite E; cbn [bind]. eexists. split; [reflexivity|]. by split.
  - have [c2 [E [S Q]]] := galaxy_tour2 G (l_sort o) P U O N. rewrite E; cbn [bind]. eexists. split; [reflexivity|]. by split.
Qed.
Lemma centre_gyr_ok rd o adv c : plain c -> c_units c <> Some Uamuse -> c_origin c = l_origin o -> kept_origin (l_origin o) -> populated c ->
  exists c', centre_gyr G rd o None adv c = Ok (c', None) /\ same_stars c c'.
Proof.
  move=> P U O K N. have [c1 [E1 S1]] := centre_found G U (populated_particles N).
  have [_ [M1 [X1 [_ [_ [U1 [O1 _]]]]]]] := S1.
  have P' : plain c1 by rewrite /plain U1. have U' : c_units c1 <> Some Uamuse by rewrite U1.
  have O' : c_origin c1 = l_origin o by rewrite O1. have N' : populated c1 by rewrite /populated M1 X1.
  have [c' [E2 [S2 _]]] := settle_ok None P' U' O' K N'.
  rewrite /centre_gyr E1; cbn [bind]. rewrite -/(settle_gyr o (c1, None)) E2. exists c'. split => //. exact (same_trans S1 S2).
Qed.
Lemma centre_gyr_orbit rd o adv c f l t p : plain c -> c_units c <> Some Uamuse -> c_origin c = l_origin o -> kept_origin (l_origin o) -> populated c ->
  nth_error f (line_number (o_nsnap (l_set o)) adv) = Some l -> orbit_line rd (q_cols (l_orbit o)) l t p ->
  let c0 := add_orbit G p (q_units (l_orbit o)) (if q_time (l_orbit o) then Some t else None) c in
  exists c', centre_gyr G rd o (Some f) adv c = Ok (c', Some (skipn (line_number (o_nsnap (l_set o)) adv + 1) f)) /\
    same_stars c0 c' /\ p_g (c_ph c') = p_g (c_ph c0).
Proof.
  move=> P U O K N F L. cbv zeta.
  have [M0 [X0 [I0 [B0 [U0 [O0 _]]]]]] := add_orbit_plain G p (q_units (l_orbit o)) (if q_time (l_orbit o) then Some t else None) P.
  set c0 := add_orbit _ _ _ _ _ in M0 X0 I0 B0 U0 O0 |- *.
  have P' : plain c0 by rewrite /plain U0. have U' : c_units c0 <> Some Uamuse by rewrite U0.
  have O' : c_origin c0 = l_origin o by rewrite O0. have N' : populated c0 by rewrite /populated M0 X0.
  rewrite /centre_gyr (get_cluster_orbit_ok G c F L). cbn [bind fst snd]. rewrite -/c0.
  have [c' [E2 S2]] := settle_ok (Some (skipn (line_number (o_nsnap (l_set o)) adv + 1) f)) P' U' O' K N'.
  rewrite -/(settle_gyr o (c0, _)) E2. by exists c'.
Qed.
Lemma centre_gyr_centre rd o adv c : plain c -> c_units c <> Some Uamuse -> c_origin c = l_origin o -> l_origin o = Some Ocentre -> l_analyze o = true ->
  populated c -> p_c (c_ph c) = zero6 ->
  exists c' p, centre_gyr G rd o None adv c = Ok (c', None) /\ same_stars (set_stars c (sub6 (p_s (c_ph c)) p) (Some Ocentre)) c'.
Proof.
  move=> P U O K A N Z. have [p0 [c1 [_ [S0 E1]]]] := find_centre_default_ok G U (populated_particles N).
  have [A1 [B1 [_ [D1 [P1 [F1 [_ [I1 J1]]]]]]]] := skel_eq_fields S0.
  have E0 : set_centre false p0 c1 = c1 by rewrite /set_centre B1 O K. rewrite E0 in E1.
  have P' : plain c1 by rewrite /plain A1. have U' : c_units c1 <> Some Uamuse by rewrite A1.
  have O' : c_origin c1 = Some Ocentre by rewrite B1 O. have N' : populated c1 by rewrite /populated P1.
  have Z' : p_c (c_ph c1) = zero6 by rewrite P1.
  have [c2 [p [E2 S2]]] := centre_tour G (l_sort o) P' U' O' N' Z'.
  rewrite /centre_gyr E1; cbn [bind fst snd]. rewrite A K E2; cbn [bind]. exists (to_origin G (Oreq Ocentre) true (to_centre (l_sort o) c2)), p. split => //.
  move: S2. rewrite /same_stars; cbn [set_stars c_ph p_t p_m p_s c_id c_nb c_units c_origin c_sc c_sky].
  by rewrite A1 D1 P1 F1 I1 J1.
Qed.

Lemma extras_ok g rows : rows <> [] -> extras g (Z.of_nat (length rows)) rows = extras_of g rows.
Proof. move=> NE. rewrite /extras. have -> : Z.ltb 0 (Z.of_nat (length rows)) = true by apply Z.ltb_lt; destruct rows => //=; lia. by destruct g. Qed.
Lemma build_ok rd o adv first t rows : rows <> [] -> l_units o <> Some Uradec -> l_units o <> Some Uamuse -> kept_origin (l_origin o) ->
  exists v, build_gyr G rd o None adv first t (Z.of_nat (length rows)) rows = Ok v /\
    nemo_loaded first rows t (l_units o) (l_origin o) (l_set o) v /\ v_orbit v = None.
Proof.
  move=> NE U1 U2 K. rewrite /build_gyr. have -> : Z.ltb 0 (Z.of_nat (length rows)) = true by apply Z.ltb_lt; destruct rows => //=; lia.
  have [k [E [R [_ [U [O [T [_ [_ [SC N]]]]]]]]]] := nemo_added first (l_proj o) t (l_origin o) (l_ro o) (l_vo o) NE U1.
  rewrite E; cbn [bind]. have P : plain (g_c k) by rewrite /plain U. have U' : c_units (g_c k) <> Some Uamuse by rewrite U.
  have [c' [-> S]] := centre_gyr_ok rd adv P U' O K N. cbn [bind fst snd]. eexists. split; [reflexivity|].
  have [ST [_ [_ [_ [_ [SU [SO _]]]]]]] := S. rewrite /nemo_loaded; cbn [v_cat v_set v_units v_origin v_orbit set_cluster g_c].
  rewrite SU SO ST U O T. split => //. split => //. by apply R.
Qed.
Lemma build_orbit rd o adv first t rows f l t' p : rows <> [] -> l_units o <> Some Uradec -> l_units o <> Some Uamuse -> kept_origin (l_origin o) ->
  nth_error f (line_number (o_nsnap (l_set o)) adv) = Some l -> orbit_line rd (q_cols (l_orbit o)) l t' p ->
  exists v, build_gyr G rd o (Some f) adv first t (Z.of_nat (length rows)) rows = Ok v /\
    stars_of_nemo first rows zero6 (v_cat v) /\ c_units (g_c (v_cat v)) = l_units o /\ c_origin (g_c (v_cat v)) = l_origin o /\
    v_set v = l_set o /\ v_units v = l_units o /\ v_origin v = l_origin o /\
    v_orbit v = Some (skipn (line_number (o_nsnap (l_set o)) adv + 1) f) /\
    exists c0, c_units c0 = l_units o /\ p_t (c_ph c0) = t /\ c_sc c0 = mkSc 1 1 1 1 1 1 1 (l_ro o) (l_vo o) /\
      let c1 := add_orbit G p (q_units (l_orbit o)) (if q_time (l_orbit o) then Some t' else None) c0 in
      p_g (c_ph (g_c (v_cat v))) = p_g (c_ph c1) /\ p_t (c_ph (g_c (v_cat v))) = p_t (c_ph c1).
Proof.
  move=> NE U1 U2 K F L. rewrite /build_gyr. have -> : Z.ltb 0 (Z.of_nat (length rows)) = true by apply Z.ltb_lt; destruct rows => //=; lia.
  have [k [E [R [_ [U [O [T [_ [_ [SC N]]]]]]]]]] := nemo_added first (l_proj o) t (l_origin o) (l_ro o) (l_vo o) NE U1.
  rewrite E; cbn [bind]. have P : plain (g_c k) by rewrite /plain U. have U' : c_units (g_c k) <> Some Uamuse by rewrite U.
  have [c' [-> [S PG]]] := centre_gyr_orbit P U' O K N F L. cbn [bind fst snd]. eexists. split; [reflexivity|].
  have [M0 [X0 [I0 [B0 [U0 [O0 [S0 [K0 [PC0 T0]]]]]]]]] := add_orbit_plain G p (q_units (l_orbit o)) (if q_time (l_orbit o) then Some t' else None) P.
  have [ST [S2 [S3 [S4 [S5 [SU [SO [S6 S7]]]]]]]] := S. cbn [v_cat v_set v_units v_origin v_orbit set_cluster g_c].
  split.
  { set c2 := set_ph c' (mkP (p_t (c_ph (g_c k))) (p_m (c_ph c')) (p_s (c_ph c')) (p_c (c_ph c')) (p_g (c_ph c'))) (c_units c').
    have := R c2. rewrite /stars_of_nemo /aligned /star_at. cbn [set_cluster g_c g_m0 g_npop g_ntot g_sse].
    rewrite /c2; cbn [set_ph c_ph c_id c_nb p_m p_s]. apply.
    rewrite /same_stars; cbn [set_ph c_ph c_id c_nb p_m p_s p_t c_units c_origin c_sc c_sky].
    rewrite S2 S3 S4 S5 SU SO S6 S7 M0 X0 I0 B0 U0 O0 S0 K0. tauto. }
  rewrite SU SO U0 O0 U O. do 6 (split; [done|]). exists (g_c k). by rewrite U T SC PG ST.
Qed.

(* one record *)
Lemma record_read rd o g adv t rows f rest : nemo_record rd (o_skip (l_set o)) g t rows f ->
  l_units o <> Some Uradec -> l_units o <> Some Uamuse -> kept_origin (l_origin o) ->
  exists v, get_gyrfalcon G rd o g None adv (f ++ rest) = Ok (mkNemo v (Some rest) (extras_of g rows)) /\
    nemo_loaded 1 rows t (l_units o) (l_origin o) (l_set o) v /\ v_orbit v = None.
Proof.
  move=> Rc U1 U2 K. have NE : rows <> [] by case: Rc => [h [d [_ [_ [NE _]]]]].
  have [over [r [H D]]] := gyr_record rest Rc. rewrite /get_gyrfalcon H; cbn [bind]. rewrite Nat2Z.id D; cbn [bind fst snd].
  have [v [-> [L V]]] := build_ok rd adv 1 t NE U1 U2 K. cbn [bind]. exists v. by rewrite extras_ok.
Qed.
Lemma record_read_orbit rd o g adv t rows f rest fo l t' p : nemo_record rd (o_skip (l_set o)) g t rows f ->
  l_units o <> Some Uradec -> l_units o <> Some Uamuse -> kept_origin (l_origin o) ->
  nth_error fo (line_number (o_nsnap (l_set o)) adv) = Some l -> orbit_line rd (q_cols (l_orbit o)) l t' p ->
  exists v, get_gyrfalcon G rd o g (Some fo) adv (f ++ rest) = Ok (mkNemo v (Some rest) (extras_of g rows)) /\
    stars_of_nemo 1 rows zero6 (v_cat v) /\ c_units (g_c (v_cat v)) = l_units o /\ c_origin (g_c (v_cat v)) = l_origin o /\
    v_set v = l_set o /\ v_units v = l_units o /\ v_origin v = l_origin o /\
    v_orbit v = Some (skipn (line_number (o_nsnap (l_set o)) adv + 1) fo) /\
    exists c0, c_units c0 = l_units o /\ p_t (c_ph c0) = t /\ c_sc c0 = mkSc 1 1 1 1 1 1 1 (l_ro o) (l_vo o) /\
      let c1 := add_orbit G p (q_units (l_orbit o)) (if q_time (l_orbit o) then Some t' else None) c0 in
      p_g (c_ph (g_c (v_cat v))) = p_g (c_ph c1) /\ p_t (c_ph (g_c (v_cat v))) = p_t (c_ph c1).
Proof.
  move=> Rc U1 U2 K F L. have NE : rows <> [] by case: Rc => [h [d [_ [_ [NE _]]]]].
  have [over [r [H D]]] := gyr_record rest Rc. rewrite /get_gyrfalcon H; cbn [bind]. rewrite Nat2Z.id D; cbn [bind fst snd].
  have [v [-> Q]] := build_orbit 1 t NE U1 U2 K F L. cbn [bind]. exists v. by rewrite extras_ok.
Qed.
End WithGalpy.
