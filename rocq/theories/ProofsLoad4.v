(* add_orbit in other units; the whole snapshot reader. *)
From Coq Require Import String Ascii.
From Verif Require Import Base ModelCluster ModelOps ModelConv ModelRecipes ModelCoords ModelCentre ModelStars SpecUnits SpecStars ModelLoad SpecLoad
  ProofsRecipes ProofsStars ProofsStars2 ProofsUnits ProofsFrame ProofsSubset2 ProofsLoad ProofsLoad2 ProofsLoad3.
Set Implicit Arguments.
Unset Strict Implicit.
Open Scope string_scope. Open Scope list_scope. Open Scope R_scope.

Section WithGalpy.
Variable G : galpy.

Lemma add_orbit_same p t c u : c_units c = Some u ->
  p_g (c_ph (add_orbit G p (Some u) t c)) = p /\ (forall t0, t = Some t0 -> p_t (c_ph (add_orbit G p (Some u) t c)) = t0).
Proof.
  move=> U. rewrite /add_orbit U. destruct (ousys_eq_dec (Some u) (Some u)) => //.
  split; destruct u => //; by move=> t0 ->.
Qed.
Lemma add_orbit_none p t c : 
  p_g (c_ph (add_orbit G p None t c)) = p /\ (forall t0, t = Some t0 -> p_t (c_ph (add_orbit G p None t c)) = t0).
Proof. rewrite /add_orbit. split; destruct (c_units c) as [[]|] => //; by move=> t0 ->. Qed.
Lemma add_orbit_point p t c u v : good_scales G (c_sc c) -> c_units c = Some v -> orbit_source u -> orbit_target v ->
  same_6 (unit_size G (c_sc c) u) (unit_size G (c_sc c) v) p (p_g (c_ph (add_orbit G p (Some u) t c))) /\
  (u <> Unbody -> forall t0, t = Some t0 ->
     same_q (in_Myr (unit_size G (c_sc c) u)) (in_Myr (unit_size G (c_sc c) v)) t0 (p_t (c_ph (add_orbit G p (Some u) t c)))).
Proof.
  move=> [S1 [S2 [S3 [S4 [S5 [S6 [S7 [S8 S9]]]]]]]] U A B.
  have K : kms_in_pcmyr <> 0 by rewrite /kms_in_pcmyr; lra.
  have K2 : kms = kms_in_pcmyr by rewrite /kms /kms_in_pcmyr; lra.
  rewrite /add_orbit U. destruct (ousys_eq_dec (Some u) (Some v)) as [E|E].
  - case: E => E. subst u. split; [destruct v => //; by rewrite /same_6 /same_q|]. move=> _ t0 ->. destruct v => //.
  - destruct p as [x y z vx vy vz], v; try (by case: B => [|[|[|]]]);
    destruct u; try (by case: A => [|[|[|[|[|]]]]]); try (by case: E);
    rewrite /same_6 /same_q; cbn [orbit_to_kpckms orbit_of_kpckms six_times six_over set_ph c_ph p_g p_t sx sy sz svx svy svz]; cbv [unit_size in_pc in_kms in_Myr];
    rewrite ?K2. all: (split; [repeat (split; [by field|]); by field|]); move=> N t0 ->; cbn; try (by case: N); rewrite ?K2; try by field.
Qed.

(* the catalogue that comes out of add_stars *)
Lemma rows_added names nums w rows proj t u o ro_ vo_ : Forall (fun r => length r = w) rows -> columns_fit names nums w -> (2 <= length rows)%nat ->
  u <> Some Uradec ->
  exists a kw k, read_columns (Mat rows) names nums = Ok (a, kw) /\
    add_stars 0 a false true proj (init_catalog (init_cluster t u o ro_ vo_)) = Ok k /\
    (forall c', same_stars (g_c k) c' -> stars_are_rows names nums rows (set_cluster (set_kw kw k) c')) /\
    c_units (g_c k) = u /\ c_origin (g_c k) = o /\ p_t (c_ph (g_c k)) = t /\ p_g (c_ph (g_c k)) = zero6 /\
    c_sc (g_c k) = mkSc 1 1 1 1 1 1 1 ro_ vo_ /\ populated (g_c k).
Proof.
  move=> W F L2 NU. have [a [kw [E [D [K [RS ID]]]]]] := read_columns_ok W F L2.
  set k0 := init_catalog (init_cluster t u o ro_ vo_).
  have A0 : aligned k0 0 by [].
  have [k [E2 [AL [_ [GV [NT [_ [NB [_ [U [O CO]]]]]]]]]]] := add_singles_rows false true proj D A0.
  have [T [PC [PG [SC [SK [SS _]]]]]] := add_stars_keeps E2 NU.
  exists a, kw, k. split => //. split => //.
  have IDS : a_id a = None -> c_id (g_c k) = map (Z.add 0) (zrange (length rows)).
  { move=> N. have := f_equal t_id CO. rewrite /columns_of /app_columns /single_part /default_tail N. cbn. by rewrite Nat.sub_0_r. }
  split.
  - move=> c' [Q1 [Q2 [Q3 [Q4 [Q5 _]]]]].
    have KK : g_m0 (set_kw kw k) = g_m0 k /\ g_npop (set_kw kw k) = g_npop k /\ g_ntot (set_kw kw k) = g_ntot k by destruct kw.
    have [K1 [K2 K3]] := KK.
    split; [|split; [|split; [|split; [|split]]]].
    + move: AL. rewrite /aligned; cbn [set_cluster g_c g_m0 g_npop]. by rewrite Q2 Q3 Q4 K1 K2.
    + cbn [set_cluster g_ntot]. by rewrite K3 NT.
    + cbn [set_cluster g_c]. by rewrite Q5 NB.
    + move=> i Hi. have -> : star_at (set_cluster (set_kw kw k) c') i = star_at k (0 + i).
      { rewrite /star_at; cbn [set_cluster g_c g_m0 g_npop Nat.add]. by rewrite Q2 Q3 Q4 K1 K2. }
      apply RS => //; [by apply GV|]. move=> N. rewrite /star_at; cbn [w_id Nat.add]. rewrite (IDS N).
      rewrite /zrange map_map. rewrite (@nth_map' _ _ (fun x => (0 + Z.of_nat x)%Z) _ _ 0%Z 0%nat) ?seq_length // seq_nth //.
    + move=> N. cbn [set_cluster g_sse]. case: K => [[-> _]|[j [S _]]]; [by rewrite /set_kw SS|]. case: N. exact (stands_in S).
    + move=> j S. cbn [set_cluster g_sse]. case: K => [[_ N]|[j' [S' [_ ->]]]]; [case: N; exact (stands_in S)|].
      by rewrite (stands_unique S S').
  - split; [by rewrite U|]. split; [by rewrite O|]. split; [by rewrite T|]. split; [by rewrite PG|]. split; [by rewrite SC|].
    move: AL. rewrite /aligned /six_length /populated. move=> [[Lx _] [Lm _]]. split => N; [rewrite N in Lm; cbn in Lm; lia|rewrite N in Lx; cbn in Lx; lia].
Qed.

(* what is known of a cluster read from a table *)
Definition reads (o : load_opts) (rows : list (list R)) (v : loaded) : Prop :=
  loaded_from (l_names o) (l_nums o) rows (l_units o) (l_origin o) (l_set o) v.
Lemma set_kw_g kw k : g_c (set_kw kw k) = g_c k. Proof. by destruct kw. Qed.
Lemma snapshot_read rd d o filename f rows w adv :
  finds d (l_set o) filename f -> file_holds rd (o_skip (l_set o)) f rows w -> (2 <= w)%nat -> (2 <= length rows)%nat ->
  columns_fit (l_names o) (l_nums o) w -> l_units o <> Some Uradec -> l_units o <> Some Uamuse ->
  exists v, get_snapshot G rd d o filename None adv = Ok v /\ reads o rows v /\ v_orbit v = None /\ p_t (c_ph (g_c (v_cat v))) = l_tphys o.
Proof.
  move=> FF FH W2 L2 CF U1 U2. rewrite /get_snapshot (finds_file FF) (loadtxt_ok FH W2).
  have [_ [_ [_ [_ [_ W]]]]] := FH. have -> : Nat.leb (length rows) 1 = false by apply Nat.leb_gt; lia. cbn [bind].
  have [a [kw [k [E1 [E2 [R [U [O [T [_ [SC N]]]]]]]]]]] := rows_added (l_proj o) (l_tphys o) (l_origin o) (l_ro o) (l_vo o) W CF L2 U1.
  rewrite /build_snapshot E1; cbn [bind fst snd]. rewrite E2; cbn [bind]. rewrite set_kw_g.
  have P : plain (g_c k) by rewrite /plain U. have U' : c_units (g_c k) <> Some Uamuse by rewrite U.
  have [c' [-> S]] := centre_snapshot_ok G rd adv P U' O N. cbn [bind fst snd]. eexists. split; [reflexivity|].
  have [ST [_ [_ [_ [_ [SU [SO _]]]]]]] := S. rewrite /reads /loaded_from; cbn [v_cat v_set v_units v_origin v_orbit set_cluster g_c].
  rewrite SU SO ST U O T. split => //. split => //. by apply R.
Qed.
Lemma snapshot_read_orbit rd d o filename f rows w adv og fo l t p :
  finds d (l_set o) filename f -> file_holds rd (o_skip (l_set o)) f rows w -> (2 <= w)%nat -> (2 <= length rows)%nat ->
  columns_fit (l_names o) (l_nums o) w -> l_units o <> Some Uradec -> l_units o <> Some Uamuse ->
  l_origin o = Some og -> og <> Osky ->
  nth_error fo (line_number (o_nsnap (l_set o)) adv) = Some l -> orbit_line rd (q_cols (l_orbit o)) l t p ->
  exists v, get_snapshot G rd d o filename (Some fo) adv = Ok v /\ reads o rows v /\
    v_orbit v = Some (skipn (line_number (o_nsnap (l_set o)) adv + 1) fo) /\
    exists c0, c_units c0 = l_units o /\ p_t (c_ph c0) = l_tphys o /\ c_sc c0 = mkSc 1 1 1 1 1 1 1 (l_ro o) (l_vo o) /\
      let c1 := add_orbit G p (q_units (l_orbit o)) (if q_time (l_orbit o) then Some t else None) c0 in
      p_g (c_ph (g_c (v_cat v))) = p_g (c_ph c1) /\ p_t (c_ph (g_c (v_cat v))) = p_t (c_ph c1).
Proof.
  move=> FF FH W2 L2 CF U1 U2 OG OS NL OL. rewrite /get_snapshot (finds_file FF) (loadtxt_ok FH W2).
  have [_ [_ [_ [_ [_ W]]]]] := FH. have -> : Nat.leb (length rows) 1 = false by apply Nat.leb_gt; lia. cbn [bind].
  have [a [kw [k [E1 [E2 [R [U [O [T [_ [SC N]]]]]]]]]]] := rows_added (l_proj o) (l_tphys o) (l_origin o) (l_ro o) (l_vo o) W CF L2 U1.
  rewrite /build_snapshot E1; cbn [bind fst snd]. rewrite E2; cbn [bind]. rewrite set_kw_g.
  have P : plain (g_c k) by rewrite /plain U. have U' : c_units (g_c k) <> Some Uamuse by rewrite U.
  have X : exists og, l_origin o = Some og /\ og <> Osky by exists og.
  have [c' [-> [S PG]]] := centre_snapshot_orbit G P U' O N X NL OL. cbn [bind fst snd]. eexists. split; [reflexivity|].
  have [M0 [X0 [I0 [B0 [U0 [O0 [S0 [K0 [PC0 T0]]]]]]]]] := add_orbit_plain G p (q_units (l_orbit o)) (if q_time (l_orbit o) then Some t else None) P.
  have [ST [S2 [S3 [S4 [S5 [SU [SO [S6 S7]]]]]]]] := S. rewrite /reads /loaded_from; cbn [v_cat v_set v_units v_origin v_orbit set_cluster g_c].
  rewrite SU SO ST U0 O0 U O. split.
  { split => //. set c2 := set_centres (set_ph c' (mkP (p_t (c_ph (g_c k))) (p_m (c_ph c')) (p_s (c_ph c')) (p_c (c_ph c')) (p_g (c_ph c'))) (c_units c')) (p_c (c_ph c')) (p_g (c_ph c')).
    have := R c2. rewrite /stars_are_rows /aligned /star_at. cbn [set_cluster g_c g_m0 g_npop g_ntot g_sse].
    rewrite /c2; cbn [set_centres set_ph c_ph c_id c_nb p_m p_s]. apply.
    rewrite /same_stars; cbn [set_centres set_ph c_ph c_id c_nb p_m p_s p_t c_units c_origin c_sc c_sky].
    rewrite S2 S3 S4 S5 SU SO S6 S7 M0 X0 I0 B0 U0 O0 S0 K0. tauto. }
  split => //. exists (g_c k). by rewrite U T SC PG.
Qed.
End WithGalpy.
