(* Stellar evolution of NBODY6++ clusters. *)
From Coq Require Import String Ascii.
From Coq Require Import Init.Byte.
From Verif Require Import Base ModelCluster ModelOps ModelRecipes ModelEnergy ModelCoords ModelCentre ModelStars SpecStars ModelLoad SpecLoad
  ProofsRecipes ProofsRecipes2 ProofsRecipes3 ProofsStars ProofsStars2 ProofsStars5 ProofsUnits ProofsFrame ProofsEnergy ProofsLoad ProofsLoad2 ProofsLoad3 ProofsLoad4 ModelNbody6 SpecNbody6 ProofsNbody6 ProofsNbody62 ProofsNbody63
  ModelNbody6pp SpecNbody6pp ProofsNbody6pp ProofsNbody6pp2 ProofsNbody6pp3 ProofsNbody6pp4.
Set Implicit Arguments.
Unset Strict Implicit.
Open Scope string_scope. Open Scope list_scope. Open Scope R_scope.

Lemma many_length bs f : length (many bs f) = length bs.
Proof. rewrite /many. destruct (Nat.leb 14 (length bs)); by rewrite ?map_length ?repeat_length. Qed.
Lemma zip_sum (a b : list R) i : length a = length b -> (i < length a)%nat -> nth i (zip_with Rplus a b) 0 = nth i a 0 + nth i b 0.
Proof. move=> L Hi. rewrite (nth_zip_with _ 0 0 0) //. congruence. Qed.
(* what the two files add *)
Definition pp_light (bs : list (Z * Z * binrow)) (ss : list (Z * sinrow)) (k : catalog) : Prop :=
  let nb := length bs in
  f_logl1 (g_bse k) = many bs r_l1 /\ f_logl2 (g_bse k) = many bs r_l2 /\ f_logr1 (g_bse k) = many bs r_r1 /\ f_logr2 (g_bse k) = many bs r_r2 /\
  (forall i, (i < nb)%nat -> nth i (e_logl (g_sse k)) 0 = nth i (many bs r_l1) 0 + nth i (many bs r_l2) 0 /\ nth i (e_logr (g_sse k)) 0 = nth i (many bs r_r1) 0 + nth i (many bs r_r2) 0) /\
  (forall a y, In (a, y) ss -> nth (object_of nb a) (e_logl (g_sse k)) 0 = IZR (truncate (y_l y))) /\
  length (e_logl (g_sse k)) = (nb + length ss)%nat /\ e_lum (g_sse k) = map (Rpower 10) (e_logl (g_sse k)).
Lemma evolve_pp_ok rd bs ss f82 f83 k : ev_file (bev_line rd) rd bs f82 -> ev_file (sev_line rd) rd ss f83 -> (2 <= length ss)%nat ->
  addressed (length bs) (map fst ss) (length ss) -> fresh k ->
  exists k', evolve_pp rd (2 * length bs + length ss) (length bs) f82 f83 k = Ok k' /\ pp_evolved bs ss k' /\ pp_light bs ss k' /\
    c_ph (g_c k') = c_ph (g_c k) /\ c_sc (g_c k') = c_sc (g_c k) /\ c_units (g_c k') = c_units (g_c k) /\ c_origin (g_c k') = c_origin (g_c k) /\ c_id (g_c k') = c_id (g_c k) /\
    g_m0 k' = g_m0 k /\ g_npop k' = g_npop k /\ g_ntot k' = g_ntot k.
Proof.
  move=> F82 F83 N2 AD [FR1 [FR2 FR3]]. rewrite /evolve_pp (get_bev_ok F82) (get_sev_ok F83). have -> : Nat.leb 2 (length ss) = true by apply Nat.leb_le. cbn [bind]. cbv zeta.
  have -> : (2 * length bs + length ss - length bs = length bs + length ss)%nat by lia.
  set nb := length bs. set ns := length ss in N2 AD *.
  cbn [bev_of sev_of be_arg1 be_arg2 be_kw1 be_kw2 be_kwb be_l1 be_l2 be_r1 be_r2 be_id1 be_id2 be_ecc be_pb be_semi be_m1 be_m2 se_arg se_kw se_l se_r].
  have EA : (if Nat.ltb 0 nb then map (fun a => a - Z.of_nat nb - 1)%Z (skipn (2 * nb) (alternate (map (fun b => fst (fst b)) bs) (map (fun b => snd (fst b)) bs) ++ map fst ss))
     else map (fun a => a - 1)%Z (alternate (map (fun b => fst (fst b)) bs) (map (fun b => snd (fst b)) bs) ++ map fst ss)) = their_args nb (map fst ss).
  { rewrite /their_args. rewrite skip_pairs ?map_length //. destruct (Nat.ltb_spec 0 nb) => //. have -> : bs = [] by apply length_zero_iff_nil; rewrite -/nb; lia. done. }
  rewrite EA. rewrite skipn_map !skip_pairs ?map_length ?many_length //.
  have LZ : length (map IZR (zip_with Z.max (map r_kw1 (map snd bs)) (map r_kw2 (map snd bs)))) = nb by rewrite map_length zip_with_length !map_length Nat.min_id.
  have LK : length (map IZR (map y_kw (map snd ss))) = ns by rewrite !map_length.
  have LS (g h : binrow -> R) : length (zip_with Rplus (many bs g) (many bs h)) = nb by rewrite zip_with_length !many_length Nat.min_id.
  have LL : length (map IZR (map (fun y => truncate (y_l y)) (map snd ss))) = ns by rewrite !map_length.
  have LR : length (map y_r (map snd ss)) = ns by rewrite !map_length.
  have [kws [E1 [L1 [P1 Q1]]]] := fill_ok AD N2 LZ LK. rewrite E1. cbn [bind]. clear E1.
  have [zls [E2 [L2 [P2 Q2]]]] := fill_ok AD N2 (LS r_l1 r_l2) LL. rewrite E2. cbn [bind]. clear E2.
  have [rs [E3 [L3 [P3 Q3]]]] := fill_ok AD N2 (LS r_r1 r_r2) LR. rewrite E3. cbn [bind]. clear E3.
  rewrite /add_sse; cbn [bind g_c]. rewrite /add_bse; cbn [g_bse g_c]. rewrite FR1 FR2 FR3. cbn [b_semi b_pb b_m1 b_m2 app].
  have NP : forall (h : R -> R -> R) (l l' : list R), length l = length l' -> np2 h l l' = Ok (zip_with h l l').
  { move=> h l l' L. rewrite /np2. by rewrite L Nat.eqb_refl. }
  rewrite NP; [by rewrite !map_length|]. cbn [bind]. rewrite NP; [by rewrite zip_with_length !map_length ?Nat.min_id|]. cbn [bind].
  have IN a y : In (a, y) ss -> exists j, nth_error (map fst ss) j = Some a /\ nth_error (map snd ss) j = Some y.
  { move=> /(In_nth_error ss) [j J]. exists j. by rewrite !nth_error_map J. }
  eexists. split; [reflexivity|]. cbn [g_c c_ph c_sc c_units c_origin c_id g_m0 g_npop g_ntot]. split; [|split; [|by []]].
  - rewrite /pp_evolved; cbv zeta. cbn [g_sse g_c g_bse e_kw e_logr c_nb c_sc c_bin f_id1 f_id2 f_kw1 f_kw2 f_kcm f_ecc b_pb b_semi b_m1 b_m2 init_sse init_bse app].
    split; [exact L1|]. split; [exact L3|]. split.
    { move=> i a1 a2 r N. have Hi : (i < nb)%nat by apply nth_error_Some; rewrite N. rewrite (P1 i Hi).
      have N' : nth_error (map snd bs) i = Some r by rewrite nth_error_map N.
      rewrite (@nth_map' _ _ IZR _ i 0 0%Z); [by rewrite map_length in LZ; rewrite LZ|]. rewrite (nth_zip_with _ 0%Z 0%Z 0%Z) ?map_length //. by rewrite !(nth_of _ 0%Z N'). }
    split.
    { move=> a y H. have [j [J1 J2]] := IN a y H. rewrite (Q1 j a J1) (Q3 j a J1). rewrite map_map. by rewrite (nth_of _ 0 J2) (nth_of _ 0 J2). }
    rewrite !map_map !map_length. by repeat split.
  - rewrite /pp_light; cbv zeta. cbn [g_sse g_c g_bse e_kw e_logr e_logl e_lum f_logl1 f_logl2 f_logr1 f_logr2 init_sse init_bse app].
    do 4 (split; [by []|]). split; [|split; [|by split]].
    + move=> i Hi. rewrite (P2 i Hi) (P3 i Hi). by rewrite !zip_sum ?many_length.
    + move=> a y H. have [j [J1 J2]] := IN a y H. rewrite (Q2 j a J1) map_map. by rewrite (nth_of _ 0 J2).
Qed.

Lemma conf_evolved sc pairs singles k k' : c_ph (g_c k') = c_ph (g_c k) -> c_sc (g_c k') = c_sc (g_c k) -> c_units (g_c k') = c_units (g_c k) -> c_origin (g_c k') = c_origin (g_c k) ->
  c_id (g_c k') = c_id (g_c k) -> g_m0 k' = g_m0 k -> g_npop k' = g_npop k -> g_ntot k' = g_ntot k -> conf_cat sc pairs singles k -> conf_cat sc pairs singles k'.
Proof. move=> PH PS PU PO PI M0 NP NT. rewrite /conf_cat /aligned /pair_at /particle_at /star_at /scaled_by. by rewrite PH PI PS PU PO M0 NP NT. Qed.
Lemma pp_evolved_analyze bs ss k s p : pp_evolved bs ss k -> pp_evolved bs ss (set_cluster k (analyze s p (g_c k))).
Proof.
  have K := skel_analyze s p (g_c k). have PB := f_equal c_bin K. have PS := f_equal c_sc K. have PN := f_equal c_nb K. cbn [skel set_der c_bin c_sc c_nb] in PB, PS, PN.
  rewrite /pp_evolved. cbn [set_cluster g_c g_sse g_bse]. by rewrite PB PS PN.
Qed.
Section WithGalpy.
Variable G : galpy.
Lemma get_pp_evolved D rd o ns wdir sc pairs singles phi f rest adv bs ss f82 f83 : conf3_record D sc (listed pairs singles) phi f -> (18 <= length sc)%nat ->
  nth 1 sc 0 = INR (length pairs) -> listed pairs singles <> [] -> ev_file (bev_line rd) rd bs f82 -> ev_file (sev_line rd) rd ss f83 ->
  length bs = length pairs -> length ss = length singles -> (2 <= length ss)%nat -> addressed (length bs) (map fst ss) (length ss) ->
  exists v, get_nbody6pp G D rd o ns wdir (Some (f ++ rest)) (Some f82) (Some f83) None adv = Ok v /\ conf_loaded sc pairs singles v /\ pp_evolved bs ss (u_cat v) /\ pp_light bs ss (u_cat v) /\
    u_nsnap v = int_n ns.
Proof.
  move=> [mark RC] L NB NE F82 F83 LB LS N2 AD. have [zs [IZ [LZ EC]]] := conf3_marks_ok rest RC NE. rewrite Z.eqb_refl in EC.
  rewrite /get_nbody6pp EC. cbn [bind]. have A0 : al (o3_a (v_out (conf_read sc (listed pairs singles) zs))) 0 = Ok (nth 0 sc 0) by apply al_ok; cbn; lia.
  have A1 : al (o3_a (v_out (conf_read sc (listed pairs singles) zs))) 1 = Ok (nth 1 sc 0) by apply al_ok; cbn; lia.
  rewrite A0. cbn [bind].
  have [k2 [po [E [PO [CC [B2 [NS F2]]]]]]] := @fill_pp_ok sc pairs singles zs (nth 0 sc 0) (h_ro o) (h_vo o) L NB NE eq_refl LZ.
  rewrite E. cbn [bind]. rewrite A1. cbn [bind].
  have -> : o3_n (v_out (conf_read sc (listed pairs singles) zs)) = count (listed pairs singles) by exact (count_y (listed pairs singles)).
  have -> : Z.ltb 0 (count (listed pairs singles)) = true by apply Z.ltb_lt; rewrite /count; move: NE; destruct (listed pairs singles) => //=; lia.
  rewrite NB count_INR count_nat listed_length -LB -LS. have [k3 [-> [V3 [W3 [I1 [I2 [I3 [I4 [I5 [I6 [I7 I8]]]]]]]]]]] := evolve_pp_ok F82 F83 N2 AD F2. cbn [bind].
  have CC3 := conf_evolved I1 I2 I3 I4 I5 I6 I7 I8 CC.
  have KK : kinetic k2 = kinetic k3 by rewrite /kinetic I1.
  set k4 := (if (h_analyze o && Nat.ltb 0 (g_ntot k3))%bool then _ else _).
  have CC4 : conf_cat sc pairs singles k4 by rewrite /k4; destruct (h_analyze o && Nat.ltb 0 (g_ntot k3))%bool => //; apply conf_analyze.
  have KK4 : kinetic k3 = kinetic k4 by rewrite /k4; destruct (h_analyze o && Nat.ltb 0 (g_ntot k3))%bool => //; rewrite kinetic_analyze.
  have V4 : pp_evolved bs ss k4 by rewrite /k4; destruct (h_analyze o && Nat.ltb 0 (g_ntot k3))%bool => //; apply pp_evolved_analyze.
  have W4 : pp_light bs ss k4 by rewrite /k4; destruct (h_analyze o && Nat.ltb 0 (g_ntot k3))%bool.
  eexists. split; [reflexivity|]. cbn [u_cat u_nsnap]. split; [|by []].
  have [AL [NT [PA [SI [SC [U [O PG]]]]]]] := CC4. rewrite /conf_loaded; cbn [u_cat u_rhos u_energy].
  split; [exact AL|]. split; [exact NT|]. split; [exact PA|]. split; [exact SI|]. split; [exact SC|]. split; [exact U|]. split; [exact O|]. split; [exact PG|].
  split; [reflexivity|]. eexists. split; [reflexivity|]. rewrite /add_energies; cbn [e_kin]. rewrite KK KK4. exact (kinetic_rows AL).
Qed.
(* one single star *)
Lemma evolve_one rd n nb bs s f82 f83 k : ev_file (bev_line rd) rd bs f82 -> ev_file (sev_line rd) rd [s] f83 -> evolve_pp rd n nb f82 f83 k = Raise.
Proof. move=> F82 F83. by rewrite /evolve_pp (get_bev_ok F82) (get_sev_ok F83). Qed.
End WithGalpy.
