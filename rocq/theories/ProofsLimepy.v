(* Proofs for clusters sampled from limepy models. *)
From Coq Require Import String Ascii.
From Verif Require Import Base ModelCluster ModelOps ModelConv ModelRecipes ModelCoords ModelCentre ModelStars ModelOutput SpecUnits SpecFrame SpecStars ModelLoad SpecLoad ModelGorbit SpecGorbit
  ProofsRecipes ProofsStars ProofsStars2 ProofsUnits ProofsFrame ProofsSubset2 ProofsLoad ProofsLoad2 ProofsLoad3 ProofsLoad4 ProofsGorbit ModelParticles SpecParticles ProofsParticles ProofsParticles2 ModelLimepy.
Set Implicit Arguments.
Unset Strict Implicit.
Open Scope string_scope. Open Scope list_scope. Open Scope R_scope.

Lemma sampled_length l : six_length (sampled l) (length l).
Proof. rewrite /six_length /sampled; cbn [sx sy sz svx svy svz]. by rewrite !map_length. Qed.
Lemma sampled_nth l i p : nth_error l i = Some p -> map6 (fun q => nth i q 0) (sampled l) = fst p.
Proof.
  move=> H. have Hi : (i < length l)%nat by apply nth_error_Some; rewrite H.
  rewrite /sampled /map6; cbn [sx sy sz svx svy svz].
  rewrite !(@nth_map' _ _ _ l i 0 p Hi) (nth_error_nth _ _ p H). by case: (fst p).
Qed.
(* the i-th star of a catalogue is the i-th of a sample, displaced *)
Definition stars_of (k : catalog) (l : list (six R * R)) (d : six R) : Prop :=
  (SpecStars.aligned k (length l) /\ g_ntot k = length l /\ c_nb (g_c k) = 0%nat) /\
  forall i p m, nth_error l i = Some (p, m) -> star_at k i = mkStar (plus6 p d) m (Z.of_nat (S i)) 0 1%Z.
Lemma plus6_0 p : plus6 p zero6 = p.
Proof. destruct p; rewrite /plus6 /zero6; cbn. f_equal; lra. Qed.
Lemma plus6_plus6 p a b : plus6 (plus6 p a) b = plus6 p (plus6 a b).
Proof. destruct p; rewrite /plus6; cbn. f_equal; lra. Qed.
Lemma star_moved k c' d l i p m : stars_of k l d -> forall e, p_m (c_ph c') = p_m (c_ph (g_c k)) -> p_s (c_ph c') = add6 (p_s (c_ph (g_c k))) e -> c_id c' = c_id (g_c k) ->
  nth_error l i = Some (p, m) -> star_at (set_cluster k c') i = mkStar (plus6 p (plus6 d e)) m (Z.of_nat (S i)) 0 1%Z.
Proof.
  move=> [[[[L1 [L2 [L3 [L4 [L5 L6]]]]] LR] _] H] e E1 E2 E3 Hp. have := H i p m Hp. rewrite /star_at; cbn [set_cluster g_c g_m0 g_npop]. rewrite E1 E2 E3.
  have Hi : (i < length l)%nat by apply nth_error_Some; rewrite Hp.
  move=> Q. have P1 := f_equal w_s Q. have P2 := f_equal w_m Q. have P3 := f_equal w_id Q. have P4 := f_equal w_m0 Q. have P5 := f_equal w_npop Q. clear Q.
  cbn [w_s w_m w_id w_m0 w_npop] in P1, P2, P3, P4, P5. rewrite P2 P3 P4 P5. congr (mkStar _ _ _ _ _). rewrite -plus6_plus6 -P1.
  rewrite /map6 /add6 /vadd /plus6; cbn [sx sy sz svx svy svz].
  rewrite !(@nth_map' _ _ (fun a => a + _) _ i 0 0); [by rewrite L1|by rewrite L2|by rewrite L3|by rewrite L4|by rewrite L5|by rewrite L6|by []].
Qed.
Lemma stars_moved k c' d l e : stars_of k l d -> p_m (c_ph c') = p_m (c_ph (g_c k)) -> p_s (c_ph c') = add6 (p_s (c_ph (g_c k))) e -> c_id c' = c_id (g_c k) ->
  c_nb c' = c_nb (g_c k) -> stars_of (set_cluster k c') l (plus6 d e).
Proof.
  move=> H E1 E2 E3 E4. split; [|move=> i p m; exact (star_moved H E1 E2 E3)]. have [[A [B C]] _] := H. split; [|split; [exact B|cbn [set_cluster g_c]; by rewrite E4]].
  move: A. rewrite /SpecStars.aligned /six_length; cbn [set_cluster g_c g_m0 g_npop]. rewrite E1 E2 E3. rewrite /add6 /vadd; cbn [sx sy sz svx svy svz]. by rewrite !map_length.
Qed.
Section WithGalpy.
Variable G : galpy.
Variable smp : sampler.
Lemma sample_model_ok m N : length (smp m N) = N -> (1 <= N)%nat ->
  exists k, sample_model G smp m N = Ok k /\ stars_of k (smp m N) zero6 /\ c_units (g_c k) = None /\ c_origin (g_c k) = Some Ocluster /\
    p_t (c_ph (g_c k)) = 0 /\ p_g (c_ph (g_c k)) = zero6 /\ density_of (p_m (c_ph (g_c k))) (p_s (c_ph (g_c k))) = Some (p_c (c_ph (g_c k))) /\
    c_sc (g_c k) = mkSc 1 1 1 1 1 1 1 solar_ro solar_vo /\ populated (g_c k).
Proof.
  move=> L HN. set l := smp m N in L |- *.
  have LM : length (map snd l) = length l by rewrite map_length. have LI : length (from_one N) = length l by rewrite from_one_length L.
  have NR : (None : option usys) <> Some Uradec by [].
  have HN' : (1 <= length l)%nat by rewrite L.
  have [k [E [AL [NT [NB [ST [U [O [P [T [G0 [C0 SC]]]]]]]]]]]] := @arrays_added (length l) _ _ _ true false None (Some Ocluster) solar_ro solar_vo (sampled_length l) LM LI HN' NR.
  rewrite /sample_model. rewrite /array_args in E. rewrite -/l E. cbn [bind].
  have [c' [-> [[S1 [S2 [S3 [S4 [S5 [S6 [S7 [S8 S9]]]]]]]] C]]] : exists c', find_centre_default G (g_c k) = Ok c' /\ same_stars (g_c k) c' /\ centred (c_origin (g_c k)) (g_c k) c'.
  { apply found_once; rewrite ?U ?O //. }
  cbn [bind]. eexists; split; [reflexivity|]. rewrite O /centred in C. case: C => C1 C2.
  split. { split; [split; [by apply set_cluster_aligned|]; split; [exact NT|]; cbn [set_cluster g_c]; by rewrite S5|].
    move=> i p a Hp. have Hi : (i < length l)%nat by apply nth_error_Some; rewrite Hp.
    rewrite set_cluster_star // (ST i Hi) (sampled_nth Hp) plus6_0. rewrite from_one_nth; [by rewrite -L|].
    by rewrite (@nth_map' _ _ snd l i 0 (p, a) Hi) (nth_error_nth _ _ (p, a) Hp). }
  cbn [set_cluster g_c]. rewrite S6 S7 S1 S8 S2 S3 U O T SC C2 G0. do 6 (split; [by []|]). rewrite /populated S2 S3. exact P.
Qed.
Lemma move_to_ok u o c : c_units c = Some u -> linear u -> c_origin c = Some Ocluster -> o <> Some Osky ->
  let w := match o with None => Ocluster | Some w => w end in
  skel (move_to G o c) = skel (set_stars c (reorigin (c_ph c) Ocluster w) (Some w)).
Proof.
  move=> U L O F w. rewrite /move_to O /oosys_eqb. destruct (oosys_eq_dec (Some Ocluster) o) as [E|E].
  - subst o. by rewrite /w reorigin_id set_stars_same.
  - destruct o as [v|]; cbn [as_request].
    + apply (@to_origin_flat G true c u Ocluster v U L O); [by []|]. rewrite /flat. congruence.
    + by rewrite /to_origin O skel_analyze /w reorigin_id set_stars_same.
Qed.
Lemma finish_plain o c : (o = Some Ogalaxy -> c_origin c = Some Ogalaxy /\ c_units c <> Some Uradec) ->
  exists c', finish G o None None c = Ok c' /\ skel c' = skel c.
Proof.
  move=> H. rewrite /finish. cbn [bind]. eexists; split; [reflexivity|]. rewrite skel_analyze /oosys_eqb. destruct (oosys_eq_dec o (Some Ogalaxy)) as [E|E] => //.
  have [O U] := H E. rewrite /to_galaxy O. destruct (c_units c) as [[]|] => //; try (by rewrite skel_analyze); by case: U.
Qed.
Lemma finish_orbit o orb f c : (o = Some Ogalaxy -> c_origin c = Some Ogalaxy) -> plain c ->
  exists c', finish G o (Some orb) f c = Ok c' /\ skel c' = skel (add_orbit G (orb ((p_t (c_ph c) / 1000) / time_in_Gyr G solar_ro solar_vo)) (Some Ukpckms) None c).
Proof.
  move=> H P. rewrite /finish. cbn [bind]. set c1 := add_orbit _ _ _ _ _. eexists; split; [reflexivity|].
  have [_ [_ [_ [_ [U1 [O1 _]]]]]] := add_orbit_plain G (orb ((p_t (c_ph c) / 1000) / time_in_Gyr G solar_ro solar_vo)) (Some Ukpckms) None P.
  rewrite -/c1 in U1 O1. clearbody c1. rewrite skel_analyze /oosys_eqb. destruct (oosys_eq_dec o (Some Ogalaxy)) as [E|E] => //.
  have O := H E. rewrite /to_galaxy O1 O. rewrite /plain in P. destruct (c_units c1) as [[]|] => //; try (by rewrite skel_analyze); by case: P; rewrite -U1.
Qed.
(* how the stars move when the origin does *)
Definition displacement (o : option osys) (c g : six R) : six R :=
  match o with
  | Some Ocentre => mk6 (- sx c) (- sy c) (- sz c) (- svx c) (- svy c) (- svz c)
  | Some Ogalaxy => g
  | _ => zero6
  end.
Lemma reorigin_moved p o : o <> Some Osky ->
  reorigin p Ocluster (match o with None => Ocluster | Some w => w end) = add6 (p_s p) (displacement o (p_c p) (p_g p)).
Proof.
  move=> F. rewrite /reorigin. congr (add6 _ _). destruct p as [t m s [c1 c2 c3 c4 c5 c6] [g1 g2 g3 g4 g5 g6]].
  destruct o as [[]|]; cbn [displacement]; try by case: F.
  all: rewrite /shift_of /minus6 /plus6 /zero6; cbn [p_c p_g sx sy sz svx svy svz]; f_equal; lra.
Qed.
Lemma moved_ok k l u o : stars_of k l zero6 -> c_units (g_c k) = Some u -> linear u -> c_origin (g_c k) = Some Ocluster -> o <> Some Osky ->
  let c := move_to G o (g_c k) in
  stars_of (set_cluster k c) l (displacement o (p_c (c_ph (g_c k))) (p_g (c_ph (g_c k)))) /\
  (c_units c = Some u /\ c_origin c = Some (match o with None => Ocluster | Some w => w end) /\ p_t (c_ph c) = p_t (c_ph (g_c k)) /\
   p_c (c_ph c) = p_c (c_ph (g_c k)) /\ p_g (c_ph c) = p_g (c_ph (g_c k)) /\ c_sc c = c_sc (g_c k) /\ p_m (c_ph c) = p_m (c_ph (g_c k)) /\
   p_s (c_ph c) = add6 (p_s (c_ph (g_c k))) (displacement o (p_c (c_ph (g_c k))) (p_g (c_ph (g_c k)))) /\ c_id c = c_id (g_c k) /\ c_nb c = c_nb (g_c k)).
Proof.
  move=> H U L O F c. have SK := @move_to_ok u o (g_c k) U L O F. cbv zeta in SK. rewrite -/c in SK. clearbody c.
  have [F1 [F2 [_ [F4 [F5 [F6 [_ [_ F9]]]]]]]] := skel_eq_fields SK. rewrite (reorigin_moved (c_ph (g_c k)) F) in F5.
  cbn [set_stars c_units c_origin c_nb c_ph c_sc c_id] in F1, F2, F4, F5, F6, F9.
  have M1 : p_m (c_ph c) = p_m (c_ph (g_c k)) by rewrite F5. have M2 := f_equal p_s F5. cbn [p_s] in M2.
  split.
  - have Q := @stars_moved k c zero6 l _ H M1 M2 F9 F4. move: Q. rewrite (_ : plus6 zero6 _ = displacement o (p_c (c_ph (g_c k))) (p_g (c_ph (g_c k)))) //.
    destruct (displacement _ _ _) as [a1 a2 a3 a4 a5 a6]. rewrite /plus6 /zero6; cbn [sx sy sz svx svy svz]. f_equal; lra.
  - rewrite F1 F2 F4 F6 F9 M1 M2 F5. cbn [p_t p_c p_g]. by repeat split.
Qed.
(* stars that stay *)
Lemma stars_stay k l d c' : stars_of k l d -> p_m (c_ph c') = p_m (c_ph (g_c k)) -> p_s (c_ph c') = p_s (c_ph (g_c k)) -> c_id c' = c_id (g_c k) ->
  c_nb c' = c_nb (g_c k) -> stars_of (set_cluster k c') l d.
Proof.
  move=> [[A [B C]] H] E1 E2 E3 E4. split; [split; [by apply set_cluster_aligned|]; split; [exact B|]; cbn [set_cluster g_c]; by rewrite E4|].
  move=> i p m Hp. rewrite set_cluster_star //. by apply H.
Qed.
Lemma set_units_stars k l d u : stars_of k l d -> stars_of (set_cluster k (set_units u (g_c k))) l d.
Proof. move=> H. by apply stars_stay. Qed.
End WithGalpy.
