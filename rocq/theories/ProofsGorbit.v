(* Proofs for clusters on galpy orbits. *)
From Coq Require Import String Ascii.
From Verif Require Import Base ModelCluster ModelOps ModelConv ModelRecipes ModelCoords ModelCentre ModelStars SpecUnits SpecFrame SpecStars ModelLoad SpecLoad ModelOutput
  ProofsRecipes ProofsStars ProofsStars2 ProofsUnits ProofsFrame ProofsSubset2 ProofsLoad ProofsLoad2 ProofsLoad3 ProofsLoad4 ProofsLoad5 ModelGorbit SpecGorbit.
Set Implicit Arguments.
Unset Strict Implicit.
Open Scope string_scope. Open Scope list_scope. Open Scope R_scope.

Section WithGalpy.
Variable G : galpy.

Ltac six := rewrite /plus6 /minus6 /zero6 /=; f_equal; lra.
Lemma seen_sub6 d s : seen_from d s = sub6 s d.
Proof. by []. Qed.
Lemma about_reorigin p o : flat o -> about_orbit (Some o) (p_g p) (p_c p) (p_s p) = reorigin p o Ocluster.
Proof.
  move=> F. destruct o; cbn [about_orbit]; last by case: F.
  - rewrite seen_sub6 sub6_add6 /reorigin. apply add6_ext. rewrite /shift_of. destruct (p_g p), (p_c p). six.
  - by rewrite reorigin_id.
  - rewrite seen_sub6 sub6_add6 /reorigin. apply add6_ext. rewrite /shift_of. destruct (p_g p). six.
Qed.
Lemma particles_eq c d : p_m (c_ph c) = p_m (c_ph d) -> p_s (c_ph c) = p_s (c_ph d) -> particles c = particles d.
Proof. by rewrite /particles => -> ->. Qed.
Definition density_of (m : list R) (s : six (list R)) : option (six R) :=
  harfst zero6 100 (1/10) None 100 (zip_with mkPart m (rows6 s)).
Lemma sx_length_sub s d : length (sx (sub6 s d)) = length (sx s).
Proof. by rewrite /sub6 /vsub; cbn [sx]; rewrite map_length. Qed.
Lemma sx_add_nil s d : sx s <> [] -> sx (add6 s d) <> [].
Proof. rewrite /add6 /vadd; cbn [sx] => N E. by apply map_eq_nil in E. Qed.
Lemma return_keep_skel c c0 u o : c_units c = Some u -> linear u -> c_origin c = Some Ocluster -> c_units c0 = Some u -> c_origin c0 = Some o -> flat o ->
  skel (return_cluster G (save_cluster c0) c) = skel (set_stars c (reorigin (c_ph c) Ocluster o) (Some o)).
Proof.
  move=> U L O U0 O0 F. rewrite /return_cluster /save_cluster; cbn [sv_units sv_origin sv_rorder sv_rorder_origin].
  rewrite skel_analyze skel_rorder U U0 O0. destruct (ousys_eq_dec (Some u) (Some u)) => //. rewrite O.
  destruct (oosys_eq_dec (Some Ocluster) (Some o)) as [E|E].
  - have E' : o = Ocluster by congruence. subst o. by rewrite reorigin_id set_stars_same.
  - cbn [oreq_of]. apply: to_origin_flat U L O _ F. by [].
Qed.
Lemma recentre_some c u o : c_units c = Some u -> linear u -> u <> Uamuse -> c_origin c = Some o -> flat o -> populated c ->
  exists p c', bind (find_centre_default G (to_cluster false c)) (fun c2 => Ok (return_cluster G (save_cluster c) c2)) = Ok c' /\
    density_of (p_m (c_ph c)) (about_orbit (Some o) (p_g (c_ph c)) (p_c (c_ph c)) (p_s (c_ph c))) = Some p /\
    skel c' = skel (set_stars (set_centres c p (p_g (c_ph c)))
      (match o with Ocentre => seen_from p (about_orbit (Some o) (p_g (c_ph c)) (p_c (c_ph c)) (p_s (c_ph c))) | _ => p_s (c_ph c) end) (Some o)).
Proof.
  move=> U L A O F N. have E1 := to_cluster_flat false U L O F. rewrite -(about_reorigin _ F) in E1.
  set s1 := about_orbit _ _ _ _ in E1 |- *.
  have [A1 [B1 [_ [D1 [P1 [F1 [_ [I1 J1]]]]]]]] := skel_eq_fields E1.
  cbn [set_stars c_units c_origin c_nb c_ph c_sc c_sky c_id] in A1, B1, D1, P1, F1, I1, J1.
  have E1' := E1. move: (to_cluster false c) A1 B1 D1 P1 F1 I1 J1 E1 E1' => c1 A1 B1 D1 P1 F1 I1 J1 E1 E1'.
  have U1 : c_units c1 <> Some Uamuse by rewrite A1 U; congruence.
  have S1 : sx s1 <> [].
  { rewrite /s1 (about_reorigin _ F) /reorigin. apply sx_add_nil. by case: N. }
  have N1 : particles c1 <> [].
  { apply populated_particles. rewrite /populated P1; cbn [p_m p_s]. split => //. by case: N. }
  have [p [c1' [H [S2 ->]]]] := find_centre_default_ok G U1 N1. cbn [bind]. exists p. eexists; split; [reflexivity|].
  split. { rewrite -H /density_of /particles P1. by []. }
  have [A2 [B2 [_ [D2 [P2 [F2 [_ [I2 J2]]]]]]]] := skel_eq_fields S2.
  have E2 : set_centre false p c1' = set_centres c1' p (p_g (c_ph c1')) by rewrite /set_centre B2 B1.
  rewrite E2.
  have U3 : c_units (set_centres c1' p (p_g (c_ph c1'))) = Some u by rewrite /set_centres; cbn [set_ph c_units]; rewrite A2 A1 U.
  have O3 : c_origin (set_centres c1' p (p_g (c_ph c1'))) = Some Ocluster by rewrite /set_centres; cbn [set_ph c_origin]; rewrite B2 B1.
  rewrite (return_keep_skel U3 L O3 U O F).
  have SK : skel c1' = skel (set_stars c s1 (Some Ocluster)) by rewrite S2 E1.
  have X : skel (set_stars (set_centres c1' p (p_g (c_ph c1'))) (reorigin (c_ph (set_centres c1' p (p_g (c_ph c1')))) Ocluster o) (Some o)) =
     skel (set_stars (set_centres c1' p (p_g (c_ph c1'))) (match o with Ocentre => seen_from p s1 | _ => p_s (c_ph c) end) (Some o)).
  { do 2 f_equal. rewrite /set_centres; cbn [set_ph c_ph]. rewrite /reorigin /shift_of; cbn [p_s p_g p_c]. rewrite P2 P1; cbn [p_s p_g].
    destruct o => //.
    - rewrite seen_sub6 sub6_add6. apply add6_ext. destruct (p_g (c_ph c)), p. six.
    - rewrite /s1 /about_orbit minus6_self. exact (add6_0 _).
    - have -> : minus6 (p_g (c_ph c)) zero6 = p_g (c_ph c) by destruct (p_g (c_ph c)); six. rewrite /s1 /about_orbit seen_sub6. apply sub_add6. }
  rewrite X. move: SK. move: (match o with Ocentre => _ | _ => _ end) => s2. clear. move=> SK.
  destruct c1' as [u1 o1 b1 n1 ph1 sc1 bi1 der1 sky1 id1], c as [u0 o0 b0 n0 ph0 sc0 bi0 der0 sky0 id0].
  move: SK. rewrite /skel /set_der /set_stars /set_centres /set_ph; cbn. case. intros. subst. cbn. by [].
Qed.
Lemma recentre_none c u : c_units c = Some u -> u <> Uamuse -> c_origin c = None -> populated c ->
  exists p c', find_centre_default G c = Ok c' /\ density_of (p_m (c_ph c)) (p_s (c_ph c)) = Some p /\ skel c' = skel (set_centres c p (p_g (c_ph c))).
Proof.
  move=> U A O N. have U1 : c_units c <> Some Uamuse by rewrite U; congruence.
  have [p [c1 [H [S ->]]]] := find_centre_default_ok G U1 (populated_particles N). exists p. eexists; split; [reflexivity|]. split => //.
  have [_ [B2 [_ [_ [P2 _]]]]] := skel_eq_fields S. rewrite /set_centre B2 O. move: S. clear.
  destruct c1 as [u1 o1 b1 n1 ph1 sc1 bi1 der1 sky1 id1], c as [u0 o0 b0 n0 ph0 sc0 bi0 der0 sky0 id0].
  rewrite /skel /set_der /set_centres /set_ph; cbn. case. intros. subst. by [].
Qed.

(* where the orbit is put *)
Definition followed (u : usys) (s : scales) : Prop := u = Upckms \/ u = Unbody \/ (u = Ugalpy /\ ro s = 8 /\ vo s = 220 /\ time_in_Gyr G 8 220 = time_in_Gyr G solar_ro solar_vo).
Lemma add_orbit_none_skel p c : plain c -> skel (add_orbit G p None None c) = skel (set_ph c (mkP (p_t (c_ph c)) (p_m (c_ph c)) (p_s (c_ph c)) (p_c (c_ph c)) p) (c_units c)).
Proof. rewrite /plain /add_orbit => P. destruct (c_units c) as [[]|] eqn:U => //; try (by case: P). Qed.
Definition put_at (orb : gorbit) (u : usys) (c : cluster) : six R :=
  match u with
  | Upckms => let p := orb (p_t (c_ph c) / 1000 / time_in_Gyr G solar_ro solar_vo) in mk6 (sx p * 1000) (sy p * 1000) (sz p * 1000) (svx p) (svy p) (svz p)
  | Unbody => let p := orb (p_t (c_ph c) * tbar (c_sc c) / 1000 / time_in_Gyr G solar_ro solar_vo) in
      mk6 (sx p * 1000 / rbar (c_sc c)) (sy p * 1000 / rbar (c_sc c)) (sz p * 1000 / rbar (c_sc c)) (svx p / vbar (c_sc c)) (svy p / vbar (c_sc c)) (svz p / vbar (c_sc c))
  | _ => let p := orb (p_t (c_ph c)) in mk6 (sx p / 8) (sy p / 8) (sz p / 8) (svx p / 220) (svy p / 220) (svz p / 220)
  end.
Lemma place_ok orb c u : good_scales G (c_sc c) -> time_in_Gyr G solar_ro solar_vo <> 0 -> c_units c = Some u ->
  u = Upckms \/ u = Unbody \/ u = Ugalpy ->
  place_orbit G orb c = Ok (add_orbit G (put_at orb u c) None None c) /\ (followed u (c_sc c) -> on_orbit G (c_sc c) u orb (p_t (c_ph c)) (put_at orb u c)).
Proof.
  move=> GS T U C. have [S1 [S2 [S3 [S4 [S5 [S6 [S7 [S8 S9]]]]]]]] := GS. rewrite /place_orbit U. destruct C as [C|[C|C]]; subst u; (split; [reflexivity|]); rewrite /put_at.
  - move=> _. exists (p_t (c_ph c) / 1000 / time_in_Gyr G solar_ro solar_vo). rewrite /same_6 /same_q; cbv [unit_size in_pc in_kms in_Myr]; cbn [sx sy sz svx svy svz]. split; [by field|].
    do 5 (split; [ring|]); ring.
  - move=> _. exists (p_t (c_ph c) * tbar (c_sc c) / 1000 / time_in_Gyr G solar_ro solar_vo). rewrite /same_6 /same_q; cbv [unit_size in_pc in_kms in_Myr]; cbn [sx sy sz svx svy svz].
    split; [by field|]. do 5 (split; [by field|]); by field.
  - intros [E|[E|[_ [R1 [R2 R3]]]]]; [discriminate E|discriminate E|]. exists (p_t (c_ph c)). rewrite /same_6 /same_q; cbv [unit_size in_pc in_kms in_Myr]; cbn [sx sy sz svx svy svz]. rewrite R1 R2 R3.
    split; [by []|]. do 5 (split; [by field|]); by field.
Qed.
Lemma load_orbit_ok orb c u o : good_scales G (c_sc c) -> time_in_Gyr G solar_ro solar_vo <> 0 -> c_units c = Some u ->
  u = Upckms \/ u = Unbody \/ u = Ugalpy -> c_origin c = o -> o <> Some Osky -> populated c ->
  let g := put_at orb u c in exists d c', load_orbit G orb c = Ok c' /\ 
    (followed u (c_sc c) -> on_orbit G (c_sc c) u orb (p_t (c_ph c)) g) /\
    density_of (p_m (c_ph c)) (about_orbit o g (p_c (c_ph c)) (p_s (c_ph c))) = Some d /\
    (p_g (c_ph c') = g /\ p_c (c_ph c') = d /\
     p_s (c_ph c') = match o with Some Ocentre => seen_from d (about_orbit o g (p_c (c_ph c)) (p_s (c_ph c))) | _ => p_s (c_ph c) end /\
     p_m (c_ph c') = p_m (c_ph c) /\ p_t (c_ph c') = p_t (c_ph c) /\ c_units c' = c_units c /\ c_origin c' = c_origin c /\ c_id c' = c_id c /\
     c_nb c' = c_nb c /\ c_sc c' = c_sc c /\ c_sky c' = c_sky c).
Proof.
  move=> GS T U C O OS N. have [E1 On] := place_ok orb GS T U C. cbv zeta. move: (put_at orb u c) E1 On => g E1 On.
  have [c1 E1'] : exists c1, c1 = add_orbit G g None None c by eexists. rewrite -E1' in E1.
  have P : plain c by rewrite /plain U; destruct C as [C|[C|C]]; subst u; discriminate.
  have L : linear u by destruct C as [C|[C|C]]; subst u; discriminate. have A : u <> Uamuse by destruct C as [C|[C|C]]; subst u; discriminate.
  have SK := add_orbit_none_skel g P. rewrite -E1' in SK.
  have [A1 [B1 [_ [D1 [P1 [F1 [_ [I1 J1]]]]]]]] := skel_eq_fields SK.
  cbn [set_ph c_units c_origin c_nb c_ph c_sc c_sky c_id] in A1, B1, D1, P1, F1, I1, J1.
  rewrite /load_orbit E1; cbn [bind]. cbv zeta. clear E1 E1' SK.
  have N1 : populated c1 by rewrite /populated P1. rewrite U in A1.
  destruct o as [o|].
  - have FO : flat o by move=> E; apply OS; rewrite E.
    have B1' : c_origin c1 = Some o by rewrite B1 O. rewrite B1'.
    have [p [c' [E [D S]]]] := recentre_some A1 L A B1' FO N1. exists p, c'. split; [exact E|]. split; [exact On|].
    rewrite P1 in D; cbn [p_m p_s p_g p_c] in D. split; [exact D|].
    have [A2 [B2 [_ [D2 [P2 [F2 [_ [I2 J2]]]]]]]] := skel_eq_fields S. rewrite A2 B2 D2 P2 F2 I2 J2.
    rewrite /set_stars /set_centres; cbn [set_ph c_units c_origin c_nb c_ph c_sc c_sky c_id p_t p_m p_s p_c p_g].
    rewrite P1; cbn [p_t p_m p_s p_c p_g]. rewrite A1 U O D1 F1 I1 J1. do 2 (split; [by []|]). split; [by destruct o|]. by do 7 (split; [by []|]).
  - have B1' : c_origin c1 = None by rewrite B1 O. rewrite B1'.
    have [p [c' [E [D S]]]] := recentre_none A1 A B1' N1. exists p, c'. split; [exact E|]. split; [exact On|].
    rewrite P1 in D; cbn [p_m p_s p_g p_c] in D. split; [exact D|].
    have [A2 [B2 [_ [D2 [P2 [F2 [_ [I2 J2]]]]]]]] := skel_eq_fields S. rewrite A2 B2 D2 P2 F2 I2 J2.
    rewrite /set_centres; cbn [set_ph c_units c_origin c_nb c_ph c_sc c_sky c_id p_t p_m p_s p_c p_g].
    rewrite P1; cbn [p_t p_m p_s p_c p_g]. rewrite A1 B1 U O D1 F1 I1 J1. by do 9 (split; [by []|]).
Qed.

Lemma stars_ext names nums rows k c' : stars_are_rows names nums rows k -> p_m (c_ph c') = p_m (c_ph (g_c k)) -> p_s (c_ph c') = p_s (c_ph (g_c k)) ->
  c_id c' = c_id (g_c k) -> c_nb c' = c_nb (g_c k) -> stars_are_rows names nums rows (set_cluster k c').
Proof.
  move=> H E1 E2 E3 E4. move: H. rewrite /stars_are_rows /aligned /star_at. cbn [set_cluster g_c g_m0 g_npop g_ntot g_sse]. by rewrite E1 E2 E3 E4.
Qed.
Lemma rows_populated names nums rows k : stars_are_rows names nums rows k -> (1 <= length rows)%nat -> populated (g_c k).
Proof.
  move=> [AL _] L. move: AL. rewrite /aligned /six_length /populated. move=> [[Lx _] [Lm _]].
  split => N; [rewrite N in Lm; cbn in Lm; lia|rewrite N in Lx; cbn in Lx; lia].
Qed.
Lemma snapshot_scales rd d o filename f rows w adv :
  finds d (l_set o) filename f -> file_holds rd (o_skip (l_set o)) f rows w -> (2 <= w)%nat -> (2 <= length rows)%nat ->
  columns_fit (l_names o) (l_nums o) w -> l_units o <> Some Uradec -> l_units o <> Some Uamuse ->
  exists v, get_snapshot G rd d o filename None adv = Ok v /\ reads o rows v /\ v_orbit v = None /\ p_t (c_ph (g_c (v_cat v))) = l_tphys o /\
    c_sc (g_c (v_cat v)) = mkSc 1 1 1 1 1 1 1 (l_ro o) (l_vo o).
Proof.
  move=> FF FH W2 L2 CF U1 U2. rewrite /get_snapshot (finds_file FF) (loadtxt_ok FH W2).
  have [_ [_ [_ [_ [_ W]]]]] := FH. have -> : Nat.leb (length rows) 1 = false by apply Nat.leb_gt; lia. cbn [bind].
  have [a [kw [k [E1 [E2 [R [U [O [T [_ [SC N]]]]]]]]]]] := rows_added (l_proj o) (l_tphys o) (l_origin o) (l_ro o) (l_vo o) W CF L2 U1.
  rewrite /build_snapshot E1; cbn [bind fst snd]. rewrite E2; cbn [bind]. rewrite set_kw_g.
  have P : plain (g_c k) by rewrite /plain U. have U' : c_units (g_c k) <> Some Uamuse by rewrite U.
  have [c' [-> S]] := centre_snapshot_ok G rd adv P U' O N. cbn [bind fst snd]. eexists. split; [reflexivity|].
  have [ST [_ [_ [_ [_ [SU [SO [SS _]]]]]]]] := S. rewrite /reads /loaded_from; cbn [v_cat v_set v_units v_origin v_orbit set_cluster g_c].
  rewrite SU SO ST SS U O T SC. split; [split; [by apply R|by []]|by []].
Qed.

(* lines 293-334 for a cluster whose units have no branch *)
Lemma other_units orb c u : c_units c = Some u -> u = Upcmyr \/ u = Ukpcgyr \/ u = UWD -> place_orbit G orb c = Ok c.
Proof. move=> U C. rewrite /place_orbit U. by destruct C as [C|[C|C]]; subst u. Qed.
(* a point taken over without changing units is off the orbit *)
Lemma off_orbit orb s u t (k : R) g : time_in_Gyr G solar_ro solar_vo <> 0 -> (forall tau, sx (orb tau) <> 0) ->
  (forall tau, same_q (1000 * time_in_Gyr G solar_ro solar_vo) (in_Myr (unit_size G s u)) tau t -> sx g * k = sx (orb tau)) ->
  k * 1000 <> in_pc (unit_size G s u) -> ~ on_orbit G s u orb t g.
Proof.
  move=> T X H K [tau [Q [P _]]]. have := H tau Q => E. move: P. rewrite /same_q. change (in_pc (unit_size G s Ukpckms)) with 1000. rewrite -E => P.
  have NX := X tau. have NG : sx g <> 0. { move=> Z0. apply NX. by rewrite -E Z0 Rmult_0_l. }
  apply K. apply (Rmult_eq_reg_l (sx g)) => //. by rewrite -Rmult_assoc.
Qed.
End WithGalpy.
