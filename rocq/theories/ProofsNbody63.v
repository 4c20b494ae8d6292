(* Clusters read from NBODY6 files. *)
From Coq Require Import String Ascii.
From Coq Require Import Init.Byte.
From Verif Require Import Base ModelCluster ModelOps ModelRecipes ModelCoords ModelCentre ModelStars SpecStars ModelLoad SpecLoad
  ProofsRecipes ProofsRecipes3 ProofsStars ProofsStars2 ProofsUnits ProofsFrame ProofsLoad ProofsLoad2 ProofsLoad3 ProofsLoad4 ModelNbody6 SpecNbody6 ProofsNbody6 ProofsNbody62.
Set Implicit Arguments.
Unset Strict Implicit.
Open Scope string_scope. Open Scope list_scope. Open Scope R_scope.

Lemma add_stars_bin a sort an proj k k' : add_stars 0 a sort an proj k = Ok k' -> c_units (g_c k) <> Some Uradec ->
  c_bin (g_c k') = c_bin (g_c k).
Proof.
  move=> E U. unfold add_stars in E. cbn [Nat.eqb bind] in E.
  match type of E with Ok ?x = _ => have E' : x = k' by congruence end. subst k'. clear E.
  set k2 := add_single_rows _ _ _ _ _ _ _.
  have U2 : c_units (g_c k2) = c_units (g_c k) by [].
  set k3 := put_columns k2 _. have U3 : c_units (g_c k3) = c_units (g_c k) by [].
  have -> : add_sky_rows (map6 (expand (npmax a)) (a_s a)) (g_c k3) = g_c k3.
  { rewrite /add_sky_rows U3. destruct (c_units (g_c k)) as [[]|] => //. }
  cbn [set_counts set_cluster g_c g_sse g_bse]. destruct an; [|by []].
  exact (f_equal c_bin (skel_analyze sort proj (g_c k3))).
Qed.
Lemma describes_out sc ps : ps <> [] -> describes_stars (out_args (read_record sc ps)) (length ps).
Proof.
  move=> NE. rewrite /describes_stars /six_sized /out_args /read_record /map6; cbn [a_s a_m a_id a_m0 a_npop sx sy sz svx svy svz o3_s o3_m o3_id opt_sized arg_sized].
  rewrite !map_length. split; [by destruct ps => //=; lia|]. repeat split. by right.
Qed.
Lemma nth_of {A B} (f : A -> B) l i d p : nth_error l i = Some p -> nth i (map f l) d = f p.
Proof. move=> N. apply nth_error_nth. by rewrite nth_error_map N. Qed.
(* adding the stars of one record to those of others *)
Lemma add_record k sc ps qs : ps <> [] -> stars_are qs k -> c_units (g_c k) <> Some Uradec ->
  exists k', add_stars 0 (out_args (read_record sc ps)) true true false k = Ok k' /\ stars_are (qs ++ ps) k' /\
    p_t (c_ph (g_c k')) = p_t (c_ph (g_c k)) /\ p_c (c_ph (g_c k')) = p_c (c_ph (g_c k)) /\ p_g (c_ph (g_c k')) = p_g (c_ph (g_c k)) /\
    c_sc (g_c k') = c_sc (g_c k) /\ g_sse k' = g_sse k /\ g_bse k' = g_bse k /\ c_bin (g_c k') = c_bin (g_c k) /\
    c_units (g_c k') = c_units (g_c k) /\ c_origin (g_c k') = c_origin (g_c k).
Proof.
  move=> NE [AL [NT P]] U. have [k' [E [AL' [OLD [NEW [NT' [_ [_ [_ [U' [O' _]]]]]]]]]]] := add_singles_rows true true false (describes_out sc NE) AL.
  have [T [PC [PG [SC [_ [SS BS]]]]]] := add_stars_keeps E U. have BN := add_stars_bin E U. exists k'. split => //. split; [|by repeat split].
  split; [by rewrite app_length|]. split; [by rewrite app_length|]. move=> i p N.
  destruct (Nat.lt_ge_cases i (length qs)) as [L|L].
  - rewrite nth_error_app1 // in N. rewrite /particle_at (OLD i L). by apply P.
  - rewrite nth_error_app2 // in N. have B : (i - length qs < length ps)%nat by apply nth_error_Some; rewrite N.
    have [W1 [W2 [_ [_ W5]]]] := NEW (i - length qs)%nat B. have -> : i = (length qs + (i - length qs))%nat by lia.
    rewrite /particle_at W1 W2. have -> := W5 _ eq_refl. rewrite /out_args /read_record /map6; cbn [a_s a_m a_id sx sy sz svx svy svz o3_s o3_m o3_id value value_or].
    rewrite !(nth_of _ _ N). split; [by []|]. split; [by destruct (pt_s p)|by []].
Qed.
Lemma stars_none t u o a b : stars_are [] (init_catalog (init_cluster t u o a b)).
Proof. split; [by repeat split|]. split; [by []|]. by case. Qed.

Lemma al_ok l i : (i < length l)%nat -> al l i = Ok (nth i l 0).
Proof. move=> L. rewrite /al. by rewrite (nth_error_nth' l 0 L). Qed.
Section WithGalpy.
Variable G : galpy.
Lemma scale_ok sc ps k : (18 <= length sc)%nat -> ps <> [] ->
  scale_nbody6 (read_record sc ps) k = Ok (let v i := nth i sc 0 in
    add_nbody6 (v 2%nat) (v 6%nat) (v 7%nat) (v 8%nat) (v 3%nat) (v 11%nat) (v 10%nat) (length ps) (count_of (v 1%nat)) k).
Proof.
  move=> L NE. rewrite /scale_nbody6; cbn [read_record o3_n o3_a]. have -> : Z.ltb 0 (count ps) = true by apply Z.ltb_lt; rewrite /count; destruct ps => //=; lia.
  rewrite !al_ok; try lia. cbn [bind]. by rewrite count_nat.
Qed.
Lemma three_halves x : 0 < x -> Rpower x (3/2) = sqrt (x ^ 3).
Proof.
  move=> P. have E : Rpower x (3/2) * Rpower x (3/2) = x ^ 3.
  { rewrite -Rpower_plus. have -> : 3/2 + 3/2 = INR 3 by rewrite /=; lra. by rewrite Rpower_pow. }
  rewrite -E sqrt_square //. apply Rlt_le, exp_pos.
Qed.
Lemma scaled_add sc ps t a b : let v i := nth i sc 0 in let k := init_catalog (init_cluster t (Some Unbody) (Some Ocluster) a b) in
  let k' := add_nbody6 (v 2%nat) (v 6%nat) (v 7%nat) (v 8%nat) (v 3%nat) (v 11%nat) (v 10%nat) ps (count_of (v 1%nat)) k in
  t = v 0%nat -> stars_are [] k' /\ scaled_by sc k' /\ c_units (g_c k') = Some Unbody /\ c_origin (g_c k') = Some Ocluster /\ p_g (c_ph (g_c k')) = mk6 0 0 0 0 0 0 /\
    g_sse k' = init_sse /\ g_bse k' = init_bse /\ c_bin (g_c k') = mkB [] [] [] [].
Proof.
  move=> v k k' T. split. { split; [by repeat split|]. split; [by []|]. by case. }
  split; [|by repeat split]. have PP := PI_RGT_0. rewrite /scaled_by; cbn zeta. do 8 (split; [by []|]).
  rewrite /k' /add_nbody6; cbn [g_c c_sc rbar_su rbar_au tbar_days]. rewrite /pc_to_cm /au_to_cm /rsun_to_cm -/(v 2%nat) -/(v 3%nat).
  split; [field; lra|]. split; [field; lra|]. move=> P2 P3.
  have -> : 1296000 / (2 * PI) * (149597870700 * 100) / (149597870700 * 100) * v 2%nat = v 2%nat * (1296000 / (2 * PI)) by field; lra.
  have -> : v 2%nat * 1296000 / (2 * PI) = v 2%nat * (1296000 / (2 * PI)) by field; lra.
  have Q : 0 < v 2%nat * (1296000 / (2 * PI)) by apply Rmult_lt_0_compat => //; apply Rdiv_lt_0_compat; lra.
  rewrite rpow_pos // three_halves // sqrt_div //. apply pow_le; lra.
Qed.

(* what the later steps leave alone *)
Definition base (qs : list particle) (sc : list R) (g : six R) (k : catalog) : Prop :=
  stars_are qs k /\ scaled_by sc k /\ c_units (g_c k) = Some Unbody /\ c_origin (g_c k) = Some Ocluster /\ p_g (c_ph (g_c k)) = g.
Definition fresh (k : catalog) : Prop := g_sse k = init_sse /\ g_bse k = init_bse /\ c_bin (g_c k) = mkB [] [] [] [].
Lemma orbit_bin p k : c_bin (add_orbit G p None None (g_c k)) = c_bin (g_c k) .
Proof. rewrite /add_orbit. by destruct (c_units (g_c k)) as [[]|]. Qed.
Lemma binaries_ok D bsc bps f rest sc k : out33_record D bsc bps f -> (bps <> [] -> (6 <= length bsc)%nat) -> base [] sc (mk6 0 0 0 0 0 0) k -> fresh k ->
  exists k', binaries_nbody6 G D (Some (f ++ rest)) k = Ok (k', Some rest) /\ base bps sc (orbit_of bsc bps) k' /\ fresh k'.
Proof.
  move=> RC L B F. rewrite /binaries_nbody6 (get_out33_ok rest RC). cbn [bind].
  destruct bps as [|q bps]; [by exists k|]. have -> : Z.ltb 0 (o3_n (read_record bsc (q :: bps))) = true by apply Z.ltb_lt; cbn; lia.
  have [S [SC [U [O PG]]]] := B. have UR : c_units (g_c k) <> Some Uradec by rewrite U.
  have NE : q :: bps <> [] by []. have [k1 [-> [S1 [T1 [PC1 [PG1 [SC1 [E1 [B1 [Q1 [U1 O1]]]]]]]]]]] := add_record bsc NE S UR. cbn [bind].
  have L' := L NE. cbn [read_record o3_a]. rewrite !al_ok; try lia. cbn [bind].
  set p := mk6 _ _ _ _ _ _. have PL : plain (g_c k1) by rewrite /plain U1 U.
  have [M0 [X0 [I0 [N0 [U0 [O0 [S0 [K0 [PC0 T0]]]]]]]]] := add_orbit_plain G p None None PL.
  have [PG0 _] := add_orbit_none G p None (g_c k1). have BN := orbit_bin p k1. set c1 := add_orbit G p None None (g_c k1) in M0 X0 I0 N0 U0 O0 S0 K0 PC0 T0 PG0 BN *.
  eexists. split; [reflexivity|]. have [F1 [F2 F3]] := F. split.
  - split; [|split; [|split; [|split]]]; cbn [set_cluster g_c]; try congruence.
    + move: S1. rewrite /stars_are /aligned /particle_at /star_at. cbn [set_cluster g_c g_m0 g_npop g_ntot app]. by rewrite M0 X0 I0.
    + move: SC. rewrite /scaled_by. cbn [set_cluster g_c]. by rewrite S0 PC0 (T0 eq_refl) SC1 PC1 T1.
    + exact PG0.
  - rewrite /fresh; cbn [set_cluster g_sse g_bse g_c]. rewrite BN. by rewrite E1 B1 Q1.
Qed.
Lemma evolve_ok rd bs ss f82 r82 f83 r83 k : section (binary_line rd) rd bs f82 -> section (single_line rd) rd ss f83 -> ss <> [] -> fresh k ->
  exists k', evolve_nbody6 rd (Some (f82 ++ r82)) (Some (f83 ++ r83)) k = Ok (k', Some r82, Some r83) /\
    (forall z, z_bin z = bs -> z_sin z = ss -> evolved z k') /\ e_logl (g_sse k') = prefixes (map pair_log bs) ++ map y_l ss /\
    e_lum (g_sse k') = map (Rpower 10) (e_logl (g_sse k')) /\
    (forall qs sc g, base qs sc g k -> base qs sc g k') /\ g_ntot k' = g_ntot k.
Proof.
  move=> A B NE [F1 [F2 F3]]. rewrite /evolve_nbody6 (get_se_ok r82 r83 A B NE). cbn [bind].
  set s := sins ss (bins bs se0). have [W1 [W2 [W3 [W4 W5]]]] := sins_fields ss (bins bs se0). have [V1 [V2 [V3 V4]]] := bins_fields bs se0. have V5 := bins_zl0 bs.
  rewrite -/s in W1 W2 W3 W4 W5. rewrite V1 in W1. rewrite V3 in W3. rewrite V4 in W4. rewrite V5 in W5. cbn [se0 w_bin w_kw w_r app] in W1, W3, W4.
  rewrite /add_sse; cbn [bind]. rewrite /add_bse; cbn [g_bse g_c]. rewrite F1 F2 F3. cbn [b_semi b_pb b_m1 b_m2 app].
  have NP : forall (h : R -> R -> R) (l l' : list R), length l = length l' -> np2 h l l' = Ok (zip_with h l l').
  { move=> h l l' L. rewrite /np2. by rewrite L Nat.eqb_refl. }
  rewrite W1. rewrite NP; [by rewrite !map_length|]. cbn [bind]. rewrite NP; [by rewrite zip_with_length !map_length ?Nat.min_id|]. cbn [bind].
  eexists. split; [reflexivity|]. split; [|split; [|split; [|split]]].
  - move=> z ZB ZS. rewrite /evolved ZB ZS /joined; cbn [g_sse g_c g_bse e_kw e_logr c_nb c_sc c_bin f_id1 f_id2 f_kw1 f_kw2 f_kcm f_ecc f_logl1 f_logl2 f_logr1 f_logr2 b_pb b_semi b_m1 b_m2 init_sse init_bse app].
    rewrite W3 W4 map_length. by repeat split.
  - cbn [g_sse e_logl init_sse app]. exact W5.
  - by [].
  - move=> qs sc g [S [SC [U [O PG]]]]. by [].
  - by [].
Qed.
Lemma base_analyze qs sc g k s p : base qs sc g k -> base qs sc g (set_cluster k (analyze s p (g_c k))).
Proof.
  move=> [S [SC [U [O PG]]]]. have K := skel_analyze s p (g_c k). have PH := f_equal c_ph K. have PI := f_equal c_id K. have PS := f_equal c_sc K.
  cbn [skel set_der c_ph c_id c_sc] in PH, PI, PS. have PU := f_equal c_units K. have PO := f_equal c_origin K. cbn [skel set_der c_units c_origin] in PU, PO.
  rewrite /base /stars_are /aligned /particle_at /star_at /scaled_by. cbn [set_cluster g_c g_m0 g_npop g_ntot]. by rewrite PH PI PS PU PO.
Qed.
Lemma evolved_analyze z k s p : evolved z k -> evolved z (set_cluster k (analyze s p (g_c k))).
Proof.
  have K := skel_analyze s p (g_c k). have PB := f_equal c_bin K. have PS := f_equal c_sc K. have PN := f_equal c_nb K. cbn [skel set_der c_bin c_sc c_nb] in PB, PS, PN.
  rewrite /evolved. cbn [set_cluster g_c g_sse g_bse]. by rewrite PB PS PN.
Qed.
(* one record of every file *)
Lemma get_nbody6_ok D rd o adv has33 hasse z f3 f33 f82 f83 r3 r33 r82 r83 : snap_records D rd has33 hasse z f3 f33 f82 f83 ->
  exists k, get_nbody6 G D rd o (f3 ++ r3) (given has33 (f33 ++ r33)) (given hasse (f82 ++ r82)) (given hasse (f83 ++ r83)) None adv =
      Ok (mkN6 k r3 (given has33 r33) (given hasse r82) (given hasse r83) None) /\ snap_loaded hasse z k /\
    (hasse = true -> e_logl (g_sse k) = prefixes (map pair_log (z_bin z)) ++ map y_l (z_sin z) /\ e_lum (g_sse k) = map (Rpower 10) (e_logl (g_sse k))).
Proof.
  move=> [L [NE [R3 [R33 RS]]]]. rewrite /get_nbody6 (get_out3_ok r3 R3). cbn [bind]. rewrite (@al_ok _ 0); [cbn; lia|]. cbn [bind].
  rewrite (scale_ok _ L NE). cbn [bind]. cbn [read_record o3_n o3_a].
  have -> : Z.ltb 0 (count (z_ps z)) = true by apply Z.ltb_lt; rewrite /count; destruct (z_ps z) => //=; lia.
  have [S1 [C1 [U1 [O1 [P1 [E1 [B1 Q1]]]]]]] := @scaled_add (z_sc z) (length (z_ps z)) (nth 0 (z_sc z) 0) (j_ro o) (j_vo o) eq_refl.
  set k1 := add_nbody6 _ _ _ _ _ _ _ _ _ _ in S1 C1 U1 O1 P1 E1 B1 Q1 *.
  have K1 : base [] (z_sc z) (mk6 0 0 0 0 0 0) k1 by exact (conj S1 (conj C1 (conj U1 (conj O1 P1)))).
  have K2 : fresh k1 by exact (conj E1 (conj B1 Q1)).
  have [k2 [E2 [B2 F2]]] : exists k2, binaries_nbody6 G D (given has33 (f33 ++ r33)) k1 = Ok (k2, given has33 r33) /\ base (z_bps z) (z_sc z) (orbit_of (z_bsc z) (z_bps z)) k2 /\ fresh k2.
  { destruct has33.
    - have [RB LB] := R33. exact (binaries_ok r33 RB LB K1 K2).
    - exists k1. rewrite R33. split; [reflexivity|]. split; [exact K1|exact K2]. }
  rewrite E2. cbn [bind]. have [S2 [C2 [U2 [O2 P2]]]] := B2. have UR : c_units (g_c k2) <> Some Uradec by rewrite U2.
  have [k3 [E3 [S3 [T3 [PC3 [PG3 [SC3 [SS3 [BS3 [Q3 [U3 O3]]]]]]]]]]] := add_record (z_sc z) NE S2 UR.
  rewrite E3. cbn [bind].
  have B3 : base (z_bps z ++ z_ps z) (z_sc z) (orbit_of (z_bsc z) (z_bps z)) k3.
  { split; [exact S3|]. split; [|by rewrite U3 O3 PG3]. move: C2. by rewrite /scaled_by SC3 T3 PC3. }
  have F3 : fresh k3 by rewrite /fresh SS3 BS3 Q3.
  have [k4 [E4 [B4 X4]]] : exists k4, evolve_nbody6 rd (given hasse (f82 ++ r82)) (given hasse (f83 ++ r83)) k3 = Ok (k4, given hasse r82, given hasse r83) /\
    base (z_bps z ++ z_ps z) (z_sc z) (orbit_of (z_bsc z) (z_bps z)) k4 /\
    (if hasse then evolved z k4 /\ e_logl (g_sse k4) = prefixes (map pair_log (z_bin z)) ++ map y_l (z_sin z) /\ e_lum (g_sse k4) = map (Rpower 10) (e_logl (g_sse k4))
     else g_sse k4 = init_sse /\ g_bse k4 = init_bse).
  { destruct hasse; [|by exists k3; split => //; split => //; split; apply F3].
    have [RB [RC RN]] := RS. have [k4 [E4 [V4 [V5 [V6 [V7 _]]]]]] := evolve_ok r82 r83 RB RC RN F3. exists k4. split; [exact E4|]. split; [exact (V7 _ _ _ B3)|].
    split; [exact (V4 z eq_refl eq_refl)|by split]. }
  rewrite E4. cbn [bind].
  set k5 := if (j_analyze o && Nat.ltb 0 (g_ntot k4))%bool then set_cluster k4 (analyze (j_sort o) false (g_c k4)) else k4. exists k5. split; [reflexivity|].
  have B5 : base (z_bps z ++ z_ps z) (z_sc z) (orbit_of (z_bsc z) (z_bps z)) k5 by rewrite /k5; destruct (j_analyze o && Nat.ltb 0 (g_ntot k4))%bool => //; apply base_analyze.
  have X5 : g_sse k5 = g_sse k4 /\ g_bse k5 = g_bse k4 by rewrite /k5; destruct (j_analyze o && Nat.ltb 0 (g_ntot k4))%bool.
  have [X6 X7] := X5. rewrite /snap_loaded X6 X7. have [S5 [C5 [U5 [O5 P5]]]] := B5. split.
  - split; [exact S5|]. split; [exact C5|]. split; [exact U5|]. split; [exact O5|]. split; [exact P5|].
    destruct hasse; [|exact X4]. have [V _] := X4. rewrite /k5; destruct (j_analyze o && Nat.ltb 0 (g_ntot k4))%bool => //. by apply evolved_analyze.
  - move=> H. rewrite H in X4. apply X4.
Qed.
End WithGalpy.
