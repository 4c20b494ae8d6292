(* Series of NBODY6 records, ends of files, Kepler's third law. *)
From Coq Require Import String Ascii.
From Coq Require Import Init.Byte.
From Verif Require Import Base ModelCluster ModelOps ModelRecipes ModelCoords ModelCentre ModelStars SpecStars ModelLoad SpecLoad
  ProofsRecipes ProofsStars ProofsStars2 ProofsUnits ProofsFrame ProofsLoad ProofsLoad2 ProofsLoad3 ProofsLoad4 ModelNbody6 SpecNbody6 ProofsNbody6 ProofsNbody62 ProofsNbody63.
Set Implicit Arguments.
Unset Strict Implicit.
Open Scope string_scope. Open Scope list_scope. Open Scope R_scope.
Lemma records_cons A (recs : nat -> list A) a n : records recs a (S n) = recs a ++ records recs (S a) n. Proof. by []. Qed.
Section WithGalpy.
Variable G : galpy.
Lemma many_nbody6 D rd ol oa has33 hasse zs f3 f33 f82 f83 t3 t33 t82 t83 m :
  (forall j, (j <= m)%nat -> snap_records D rd has33 hasse (zs j) (f3 j) (f33 j) (f82 j) (f83 j)) ->
  forall k, (k <= m)%nat ->
  exists v w, load_nbody6 G D rd ol (records f3 0 (S m) ++ t3) (given has33 (records f33 0 (S m) ++ t33)) (given hasse (records f82 0 (S m) ++ t82))
      (given hasse (records f83 0 (S m) ++ t83)) None = Ok v /\
    advance_nbody6_times G D rd oa k v = Ok w /\ snap_loaded hasse (zs k) (x_cat w) /\
    w = mkN6 (x_cat w) (records f3 (S k) (m - k) ++ t3) (given has33 (records f33 (S k) (m - k) ++ t33)) (given hasse (records f82 (S k) (m - k) ++ t82))
      (given hasse (records f83 (S k) (m - k) ++ t83)) None.
Proof.
  move=> H. elim=> [|k IH] Hk.
  - rewrite !records_cons -!app_assoc. have [c [E [L _]]] := get_nbody6_ok G ol false (records f3 1 m ++ t3) (records f33 1 m ++ t33) (records f82 1 m ++ t82) (records f83 1 m ++ t83) (H 0%nat Hk).
    rewrite /load_nbody6 E. eexists. eexists. split; [reflexivity|]. split; [reflexivity|]. cbn [x_cat]. split; [exact L|]. by rewrite Nat.sub_0_r.
  - have [v [w [E1 [E2 [_ E3]]]]] := IH ltac:(lia). exists v.
    have EM : (m - k = S (m - S k))%nat by lia. rewrite EM !records_cons -!app_assoc in E3.
    have [c [E [L _]]] := get_nbody6_ok G oa true (records f3 (S (S k)) (m - S k) ++ t3) (records f33 (S (S k)) (m - S k) ++ t33) (records f82 (S (S k)) (m - S k) ++ t82) (records f83 (S (S k)) (m - S k) ++ t83) (H (S k) Hk).
    eexists. split; [exact E1|]. split; [cbn [advance_nbody6_times]; rewrite E2; cbn [bind]; rewrite /advance_nbody6 E3; cbn [x_out3 x_out33 x_82 x_83 x_ofile]; exact E|].
    cbn [x_cat]. by split.
Qed.
Lemma end_nbody6 D rd o adv has33 : exists v, get_nbody6 G D rd o [] (given has33 []) None None None adv = Ok v /\ g_ntot (x_cat v) = 0%nat /\ p_m (c_ph (g_c (x_cat v))) = [].
Proof.
  rewrite /get_nbody6. cbn [get_out3 read_int bind no_out o3_n o3_a al repeat nth_error scale_nbody6 Z.ltb Z.compare].
  have -> : binaries_nbody6 G D (given has33 []) (init_catalog (init_cluster 0 (Some Unbody) (Some Ocluster) (j_ro o) (j_vo o))) =
    Ok (init_catalog (init_cluster 0 (Some Unbody) (Some Ocluster) (j_ro o) (j_vo o)), given has33 []) by destruct has33.
  cbn [bind evolve_nbody6 g_ntot init_catalog Nat.ltb Nat.leb]. rewrite andb_false_r. eexists. split; [reflexivity|]. by split.
Qed.
Lemma end_nbody6_se D rd o adv has33 f83 ofile : get_nbody6 G D rd o [] (given has33 []) (Some []) (Some f83) ofile adv = Raise.
Proof.
  rewrite /get_nbody6. cbn [get_out3 read_int bind no_out o3_n o3_a al repeat nth_error scale_nbody6 Z.ltb Z.compare].
  have -> : binaries_nbody6 G D (given has33 []) (init_catalog (init_cluster 0 (Some Unbody) (Some Ocluster) (j_ro o) (j_vo o))) =
    Ok (init_catalog (init_cluster 0 (Some Unbody) (Some Ocluster) (j_ro o) (j_vo o)), given has33 []) by destruct has33.
  by [].
Qed.
(* an orbit file: line nsnap for load_cluster, the next line for advance_cluster *)
Lemma orbit_nbody6 D rd o adv f3 f33 f82 f83 fo v t p : get_nbody6 G D rd o f3 f33 f82 f83 None adv = Ok v ->
  c_units (g_c (x_cat v)) = Some Unbody ->
  orbit_at rd (q_cols (j_orbit o)) fo (line_number (j_nsnap o) adv) t p -> q_units (j_orbit o) = None \/ q_units (j_orbit o) = Some Unbody ->
  exists c, get_nbody6 G D rd o f3 f33 f82 f83 (Some fo) adv =
    Ok (mkN6 (set_cluster (x_cat v) c) (x_out3 v) (x_out33 v) (x_82 v) (x_83 v) (Some (skipn (line_number (j_nsnap o) adv + 1) fo))) /\
    p_g (c_ph c) = p /\ p_t (c_ph c) = (if q_time (j_orbit o) then t else p_t (c_ph (g_c (x_cat v)))) /\
    p_m (c_ph c) = p_m (c_ph (g_c (x_cat v))) /\ p_s (c_ph c) = p_s (c_ph (g_c (x_cat v))) /\ c_id c = c_id (g_c (x_cat v)) /\ c_sc c = c_sc (g_c (x_cat v)) /\
    p_c (c_ph c) = p_c (c_ph (g_c (x_cat v))).
Proof.
  move=> E U [l [N L]] Q. rewrite /get_nbody6 in E |- *.
  destruct (get_out3 D f3) as [[s out3']|]; [|discriminate E]; cbn [bind] in E |- *. destruct (al (o3_a s) 0) as [t0|]; [|discriminate E]; cbn [bind] in E |- *.
  destruct (scale_nbody6 _ _) as [k1|]; [|discriminate E]; cbn [bind] in E |- *. destruct (binaries_nbody6 _ _ _ _) as [[k2 out33']|]; [|discriminate E]; cbn [bind] in E |- *.
  match type of E with context [bind ?x _] => destruct x as [k3|] end; [|discriminate E]; cbn [bind] in E |- *.
  destruct (evolve_nbody6 _ _ _ _) as [[[k4 a] b]|]; [|discriminate E]; cbn [bind] in E |- *.
  match type of E with Ok ?x = _ => have E' : x = v by congruence end. subst v. cbn [x_cat x_out3 x_out33 x_82 x_83] in U |- *.
  set k5 := (if (j_analyze o && Nat.ltb 0 (g_ntot k4))%bool then _ else _) in U |- *.
  rewrite (get_cluster_orbit_ok G (g_c k5) N L). cbn [bind fst snd]. eexists. split; [reflexivity|].
  have PL : plain (g_c k5) by rewrite /plain U.
  set tt := if q_time (j_orbit o) then Some t else None.
  have [M0 [X0 [I0 [N0 [U0 [O0 [S0 [K0 [PC0 T0]]]]]]]]] := add_orbit_plain G p (q_units (j_orbit o)) tt PL.
  have [PG PT] : p_g (c_ph (add_orbit G p (q_units (j_orbit o)) tt (g_c k5))) = p /\ (forall t0, tt = Some t0 -> p_t (c_ph (add_orbit G p (q_units (j_orbit o)) tt (g_c k5))) = t0).
  { case: Q => ->; [exact (add_orbit_none G p tt (g_c k5))|exact (add_orbit_same G p tt U)]. }
  split; [exact PG|]. split; [|by rewrite M0 X0 I0 S0 PC0]. rewrite /tt in PT T0 *. destruct (q_time (j_orbit o)); [by apply PT|by apply T0].
Qed.
End WithGalpy.

(* marks that differ *)
Lemma out3_marks D a n model nrun nk b f rest : ints D [a; n; model; nrun; nk; b] f -> a <> b -> get_out3 D (f ++ rest) = Raise.
Proof.
  move=> I NE. have [f1 [R1 I1]] := ints_cons_inv I. have [f2 [R2 I2]] := ints_cons_inv I1. have [f3 [R3 I3]] := ints_cons_inv I2.
  have [f4 [R4 I4]] := ints_cons_inv I3. have [f5 [R5 I5]] := ints_cons_inv I4. have [f6 [R6 I6]] := ints_cons_inv I5.
  rewrite /get_out3 R1; cbn [fst snd bind]. rewrite R2; cbn [fst snd bind]. rewrite R3; cbn [fst snd bind]. rewrite R4; cbn [fst snd bind]. rewrite R5; cbn [fst snd bind]. rewrite R6; cbn [fst snd bind].
  by destruct (Z.eqb_spec a b).
Qed.
Lemma data_marks D sc ps a b b1 b2 b3 b4 b5 b6 b7 rest : a <> b ->
  ints D [a] b1 -> reals D sc b2 -> reals D (map pt_m ps) b3 ->
  reals D (flat_map (fun p => [sx (pt_s p); sy (pt_s p); sz (pt_s p)]) ps) b4 ->
  reals D (flat_map (fun p => [svx (pt_s p); svy (pt_s p); svz (pt_s p)]) ps) b5 ->
  ints D (map pt_id ps) b6 -> ints D [b] b7 ->
  read_data D (count ps) (count sc) ((b1 ++ b2 ++ b3 ++ b4 ++ b5 ++ b6 ++ b7) ++ rest) = Raise.
Proof.
  move=> NE I1 I2 I3 I4 I5 I6 I7. rewrite /read_data -!app_assoc. rewrite (read_one _ I1); cbn [bind fst snd].
  rewrite !count_nat. rewrite (read_reals _ I2); cbn [bind fst snd].
  have L1 : length ps = length (map pt_m ps) by rewrite map_length. rewrite {1}L1 (read_reals _ I3); cbn [bind fst snd].
  rewrite (read_threes _ I4); cbn [bind fst snd]. rewrite (read_threes _ I5); cbn [bind fst snd].
  have L2 : length ps = length (map pt_id ps) by rewrite map_length. rewrite {1}L2 (read_ints _ I6); cbn [bind fst snd].
  rewrite (read_one _ I7); cbn [bind fst snd]. by destruct (Z.eqb_spec a b).
Qed.

Lemma out3_header D a n model nrun nk f rest : ints D [a; n; model; nrun; nk; a] f -> get_out3 D (f ++ rest) = read_data D n nk rest.
Proof.
  move=> H. rewrite /get_out3.
  have [h1 [E1 H1]] := ints_cons_inv H. have [h2 [E2 H2]] := ints_cons_inv H1. have [h3 [E3 H3]] := ints_cons_inv H2.
  have [h4 [E4 H4]] := ints_cons_inv H3. have [h5 [E5 H5]] := ints_cons_inv H4.
  rewrite E1; cbn [snd]. rewrite E2; cbn [bind snd]. rewrite E3; cbn [bind snd]. rewrite E4; cbn [bind snd]. rewrite E5; cbn [bind snd].
  rewrite (read_one _ H5); cbn [bind fst snd]. by rewrite Z.eqb_refl.
Qed.
(* the footer left in fort.83 *)
Lemma short_header rd f (l : line) : (length l <= 2)%nat -> se_header rd (l :: f) = Raise.
Proof. move=> L. rewrite /se_header; cbn [readline]. rewrite /int_at /word_at. by have -> := proj2 (nth_error_None l 2) L. Qed.
Lemma se_header_raises rd f82 f83 : se_header rd f83 = Raise -> get_nbody6se rd f82 f83 = Raise.
Proof.
  move=> H. rewrite /get_nbody6se. destruct (se_header rd f82) as [h|] => //; cbn [bind].
  match goal with |- bind ?x _ = _ => destruct x as [[[f d] s]|] => // end. cbn [bind]. by rewrite H.
Qed.
Lemma se_left rd bs f82 r82 h e r83 e' s : section (binary_line rd) rd bs f82 -> header_line rd 0 h -> footer e ->
  get_nbody6se rd (f82 ++ r82) ([h; e] ++ r83) = Ok (r82, e' :: r83, s) -> e' = e.
Proof.
  move=> A H F. have B : section (single_line rd) rd [] [h; e] by exists h, [], e; split => //; split => //; split => //; constructor.
  move: A B => [h2 [data [e2 [-> [H2 [F2 E2]]]]]] _. rewrite /get_nbody6se. cbn [app]. rewrite (se_header_ok _ H2); cbn [bind fst snd].
  match goal with |- bind ?x _ = _ -> _ => destruct x as [[[f d] s0]|] => // end. cbn [bind]. rewrite (se_header_ok _ H); cbn [bind fst snd Z.of_nat Z.to_nat se_loop].
  rewrite /se_footer. destruct (word_at d 0) => //; cbn [bind]. destruct (String.eqb _ _); cbn [bind readline fst snd]; [congruence|].
  move=> E. have : length r83 = length (e' :: r83) by congruence. cbn; lia.
Qed.
(* Kepler *)
Lemma kepler_scales x z a p m1 m2 : 0 < x -> 0 < z ->
  kepler (a * 695700000 / 149597870700) (p / 365.25) m1 m2 <->
  kepler (a / (x * (648000 / PI * 149597870700) / 695700000)) (p / (365.25 * sqrt ((x * (648000 / PI)) ^ 3 / z))) (m1 / z) (m2 / z).
Proof.
  move=> X Z0. rewrite /kepler. have PP := PI_RGT_0. set u := x * (648000 / PI).
  have U : 0 < u by apply Rmult_lt_0_compat => //; apply Rdiv_lt_0_compat; lra.
  have U3 : 0 < u ^ 3 by apply pow_lt. set w := sqrt (u ^ 3 / z).
  have W : w ^ 2 = u ^ 3 / z by rewrite /w pow2_sqrt //; apply Rlt_le, Rdiv_lt_0_compat.
  have W0 : 0 < w by apply sqrt_lt_R0, Rdiv_lt_0_compat.
  have -> : x * (648000 / PI * 149597870700) / 695700000 = u * 149597870700 / 695700000 by rewrite /u; field; lra.
  have E1 : (p / (365.25 * w)) ^ 2 * (m1 / z + m2 / z) = (p / 365.25) ^ 2 * (m1 + m2) / u ^ 3.
  { have -> : (p / (365.25 * w)) ^ 2 = (p / 365.25) ^ 2 / w ^ 2 by field; lra. rewrite W. field. by repeat split; lra. }
  have E2 : (a / (u * 149597870700 / 695700000)) ^ 3 = (a * 695700000 / 149597870700) ^ 3 / u ^ 3 by field; lra.
  rewrite E1 E2. split=> [->|E] //. have := f_equal (Rmult (u ^ 3)) E. have -> : forall y, u ^ 3 * (y / u ^ 3) = y by move=> y; field; lra.
  by have -> : forall y, u ^ 3 * (y / u ^ 3) = y by move=> y; field; lra.
Qed.
