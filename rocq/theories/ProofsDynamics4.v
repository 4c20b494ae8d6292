(* Proofs: relaxation times. *)
From Verif Require Import Base ModelCluster ModelOps ModelConv ModelEnergy ModelRecipes ModelLagrange ModelDynamics.
From Verif Require Import SpecUnits SpecFrame SpecConv SpecOrder SpecRecipes SpecEnergy SpecLagrange SpecSubset SpecProfiles SpecDynamics.
From Verif Require Import ProofsUnits ProofsConv ProofsFrame ProofsOrder ProofsSort ProofsSees ProofsEnergy ProofsEnergyUnits ProofsRecipes ProofsRecipes2 ProofsLagrange ProofsSubset2 ProofsProfiles ProofsProfiles5 ProofsDynamics ProofsDynamics2.
Set Implicit Arguments. Unset Strict Implicit.

Section WithGalpy.
Variable G : galpy.

Lemma to_pckms_units c u : c_units c = Some u -> to_units G (Ureq Upckms) c = to_pckms G c.
Proof. by move=> H; rewrite /to_units H. Qed.
Lemma to_centre_origin c u : ready G c u Ogalaxy -> to_origin G (Oreq Ocentre) true c = to_centre true c.
Proof.
  move=> [HS [Hu [Hl [Ho Hf]]]]. rewrite /to_origin Ho /to_centre Ho Hu. destruct u; try (by case: Hl); by rewrite analyze_idem.
Qed.
(* the frame in pc and km/s, as a history of requests *)
Lemma pc_frame_run c u o : ready G c u o ->
  let c1 := to_pckms G (if off_centre c then to_centre true c else c) in
  exists ops, Forall flat_op ops /\ c1 = run G ops c /\ analyze true true c1 = c1 /\
    sees G c c1 /\ ready G c1 Upckms (work_origin o) /\ norms c1 /\ viewed c c1 (unit_size G (c_sc c) u) (unit_size G (c_sc c) Upckms).
Proof.
  move=> HR. have [HS [Hu [Hl [Ho Hf]]]] := HR. cbn zeta.
  have [S1 R1] := centred true HR. cbn zeta in S1, R1. have [_ [Hu1 _]] := R1.
  set X := if off_centre c then to_centre true c else c in S1 R1 Hu1 *.
  have I : In Upckms [Ugalpy; Upckms] by right; left.
  have [A1 [A2 [A3 A4]]] := in_units HR S1 (ex_intro _ u R1) I. rewrite (to_pckms_units Hu1) in A1 A2 A3 A4.
  exists ((if off_centre c then [OpOrigin Ocentre true] else []) ++ [OpUnits Upckms]).
  split.
  { destruct (off_centre c); repeat constructor; discriminate. }
  split.
  { rewrite -(to_pckms_units Hu1) /X. destruct (off_centre c) eqn:E; cbn; [|done].
    have Hg : ready G c u Ogalaxy.
    { rewrite /off_centre Ho in E. destruct o; try exact HR; try discriminate E; by case: Hf. }
    by rewrite (to_centre_origin Hg). }
  split; [by rewrite /to_pckms /analyze_if_units Hu1 analyze_idem|]. by split.
Qed.

Lemma sizes_pc c : unit_size G (c_sc c) Upckms = mkSize 1 1 1 1. Proof. done. Qed.

Section PcFrame.
Variables (c c1 : cluster) (u : usys) (o : osys).
Hypothesis HR : ready G c u o.
Hypothesis HP : positive_scales G (c_sc c).
Hypothesis HL : SpecFrame.aligned c.
Hypothesis V : viewed c c1 (unit_size G (c_sc c) u) (unit_size G (c_sc c) Upckms).
Hypothesis N : norms c1.

Lemma pc_sizes : sizes G c = unit_size G (c_sc c) u.
Proof. have [_ [Hu _]] := HR. by rewrite /sizes Hu. Qed.
Lemma pc_masses : p_m (c_ph c1) = map (sun_mass G c) (stars c).
Proof.
  have L := vw_n V. rewrite /nstars in L. apply (nth_ext _ _ 0 0); [by rewrite map_length seq_length|].
  move=> i Hi. rewrite L in Hi. rewrite nth_map_seq //. have M := vw_mass V Hi. rewrite /mass in M. rewrite sizes_pc /= Rmult_1_r in M.
  by rewrite M /sun_mass pc_sizes.
Qed.
Lemma pc_radius (p : bool) i : (i < nstars c)%nat -> nth i (if p then d_rpro (c_der c1) else d_r (c_der c1)) 0 = pc_distance G p c i.
Proof.
  move=> Hi. have [_ [Hu [Hl _]]] := HR. have [P1 _] := size_positive HP Hl.
  rewrite norms_radius //; [exact (vw_al V HL)|by rewrite (vw_n V)|].
  have D := viewed_distance p V (Rlt_le _ _ P1) ltac:(rewrite sizes_pc /=; lra) HL Hi. rewrite sizes_pc /= Rmult_1_r in D.
  by rewrite D /pc_distance pc_sizes.
Qed.
Lemma pc_speed (p : bool) i : (i < nstars c)%nat -> nth i (if p then d_vpro (c_der c1) else d_v (c_der c1)) 0 = kms_speed G p c i.
Proof.
  move=> Hi. have [_ [Hu [Hl _]]] := HR. have [_ [P1 _]] := size_positive HP Hl.
  rewrite norms_speed //; [exact (vw_al V HL)|by rewrite (vw_n V)|].
  have D := viewed_speed p V (Rlt_le _ _ P1) ltac:(rewrite sizes_pc /=; lra) HL Hi. rewrite sizes_pc /= Rmult_1_r in D.
  by rewrite D /kms_speed pc_sizes.
Qed.
Lemma pc_radii (p : bool) : (if p then d_rpro (c_der c1) else d_r (c_der c1)) = map (pc_distance G p c) (stars c).
Proof.
  have [L _] := norms_length p N (vw_al V HL). rewrite (vw_n V) in L.
  apply (nth_ext _ _ 0 0); [by rewrite map_length seq_length|].
  move=> i. rewrite L => Hi. rewrite nth_map_seq //. exact: pc_radius.
Qed.
Lemma pc_speeds (p : bool) : (if p then d_vpro (c_der c1) else d_v (c_der c1)) = map (kms_speed G p c) (stars c).
Proof.
  have [_ L] := norms_length p N (vw_al V HL). rewrite (vw_n V) in L.
  apply (nth_ext _ _ 0 0); [by rewrite map_length seq_length|].
  move=> i. rewrite L => Hi. rewrite nth_map_seq //. exact: pc_speed.
Qed.
Lemma sun_masses_nonneg : nonneg (p_m (c_ph c)) -> nonneg (map (sun_mass G c) (stars c)).
Proof.
  move=> H x /in_map_iff [i [<- /in_seq Hi]]. have [_ [Hu [Hl _]]] := HR. have [_ [_ P]] := size_positive HP Hl.
  rewrite /sun_mass pc_sizes. have : 0 <= mass c i by apply H, nth_In; rewrite -/(nstars c); lia. nra.
Qed.
Lemma sun_total : total_mass G c = sumR (p_m (c_ph c)) * in_Msun (sizes G c).
Proof.
  rewrite /total_mass -pc_masses. have M := vw_sum V. rewrite sizes_pc /= Rmult_1_r in M. by rewrite M pc_sizes.
Qed.
Lemma sun_total_pos : 0 < sumR (p_m (c_ph c)) -> 0 < total_mass G c.
Proof.
  move=> H. have [_ [Hu [Hl _]]] := HR. have [_ [_ P]] := size_positive HP Hl. rewrite sun_total pc_sizes. exact: Rmult_lt_0_compat.
Qed.
End PcFrame.

Lemma pc_half (p : bool) c u o : ready G c u o -> positive_scales G (c_sc c) -> SpecFrame.aligned c -> well_sorted p c ->
  (p = true -> c_origin c <> Some Ogalaxy) -> nonneg (p_m (c_ph c)) -> 0 < sumR (p_m (c_ph c)) ->
  let c1 := to_pckms G (if off_centre c then to_centre true c else c) in
  exists h, (if p then d_rmpro (c_der c1) else d_rm (c_der c1)) = Some h /\
    is_fraction_radius (1/2) (map (pc_distance G p c) (stars c)) (map (sun_mass G c) (stars c)) h.
Proof.
  move=> HR HP HL HW Hp Hm Hs. have [HS [Hu [Hl [Ho Hf]]]] := HR. cbn zeta.
  have [ops [F [E [A [S1 [R1 [N V]]]]]]] := pc_frame_run HR.
  set c1 := to_pckms G _ in E A S1 R1 N V *.
  have VO : vord c1 by rewrite E; exact (vord_run HP HR F (settled_vord Ho HW)).
  have [_ [Hu1 [_ [Ho1 _]]]] := R1.
  have [ro [rp [D SO]]] := vord_settled Ho1 A VO.
  have PR := @pc_radii c c1 u o HR HP HL V N. have PM := @pc_masses c c1 u o HR V.
  have RL : rlist c1 = map (pc_distance G false c) (stars c) by rewrite -(PR false) D.
  have RP : rprolist c1 = map (pc_distance G true c) (stars c) by rewrite -(PR true) D.
  have Len : forall q, length (map (pc_distance G q c) (stars c)) = length (map (sun_mass G c) (stars c)) by move=> q; rewrite !map_length.
  have Tot := @sun_total_pos c c1 u o HR HP V Hs. rewrite /total_mass in Tot.
  have Ne : map (sun_mass G c) (stars c) <> [] by move=> E0; rewrite E0 in Tot; cbn in Tot; lra.
  have Nn := @sun_masses_nonneg c u o HR HP Hm.
  have H12 : 0 < 1/2 <= 1 by lra.
  destruct p.
  - have [_ [_ HW2]] := HW. have [rp' [W1 W2]] := HW2 eq_refl.
    have [_ [_ [_ [_ [_ [_ K]]]]]] := S1.
    have [|K1 _] := K _ W1.
    { rewrite /proorder_ok -distances_2d_eq. destruct W2 as [W2 _]. by rewrite (Permutation_length W2) seq_length. }
    have Sorted : sorted_order rp' (map (pc_distance G true c) (stars c)).
    { have [P1 _] := size_positive HP Hl. have X := sorted_order_scale P1 W2.
      rewrite (@distances_2d_own true c HL (Hp eq_refl) eq_refl) /own_distances map_map in X.
      rewrite /pc_distance /sizes Hu. exact X. }
    have [d [D1 D2]] := frac_radius_correct (Len true) Ne Nn Tot H12 Sorted.
    exists d. split=> //. rewrite D in K1 |- *. cbn [der_of d_rproorder d_rmpro] in K1 |- *. case: K1 => ->. by rewrite RP PM.
  - have Sorted : sorted_order ro (map (pc_distance G false c) (stars c)) by rewrite -RL -distances_eq.
    have [d [D1 D2]] := frac_radius_correct (Len false) Ne Nn Tot H12 Sorted.
    exists d. split=> //. rewrite D. cbn [der_of d_rm]. by rewrite RL PM.
Qed.

Lemma relax_frame_eq c : analyze true true c = c -> relax_frame G c = to_pckms G (if off_centre c then to_centre true c else c).
Proof. move=> A. by rewrite /relax_frame sortstars_settled. Qed.

Lemma half_in_range r w d : is_fraction_radius (1/2) r w d -> In d r. Proof. by move=> [? _]. Qed.

Lemma sqrt_cube h : 0 <= h -> sqrt (h ^ 3) = h * sqrt h.
Proof.
  move=> H. have -> : h ^ 3 = (h * h) * h by ring. rewrite sqrt_mult; [nra|done|]. by rewrite sqrt_square.
Qed.
Lemma crossing_eq : pckms_in_Myr = crossing_Myr.
Proof. rewrite /pckms_in_Myr /crossing_Myr. field. Qed.
Lemma pc_distance_nonneg p c u o i : ready G c u o -> positive_scales G (c_sc c) -> 0 <= pc_distance G p c i.
Proof.
  move=> [_ [Hu [Hl _]]] HP. have [P1 _] := size_positive HP Hl. rewrite /pc_distance /sizes Hu own_distance6.
  apply Rmult_le_pos; [|lra]. rewrite /radius6. destruct p; exact: sqrt_pos.
Qed.

Lemma spitzer_form gamma N M h : 0 < N -> 0 < M -> 0 <= h -> ln (gamma * N) <> 0 ->
  138 / 1000 * sqrt M * (h * sqrt h) / (M / N * sqrt (4302 / 1000000) * ln (gamma * N)) * pckms_in_Myr = spitzer_half_mass gamma N M h.
Proof.
  move=> HN HM Hh HL. rewrite /spitzer_half_mass -crossing_eq. f_equal. rewrite /G_pc.
  have S1 : 0 < sqrt (4302 / 1000000) by apply sqrt_lt_R0; lra. have S2 : 0 < sqrt M by exact: sqrt_lt_R0.
  have E : sqrt (h ^ 3 / (4302 / 1000000 * M)) = h * sqrt h / (sqrt (4302 / 1000000) * sqrt M).
  { rewrite sqrt_div; [exact: pow_le|apply Rmult_lt_0_compat; lra|]. rewrite sqrt_mult; [lra|lra|]. by rewrite sqrt_cube. }
  rewrite E. have E2 : M = sqrt M * sqrt M by rewrite sqrt_sqrt //; lra.
  rewrite {2}E2. move: (sqrt M) S2 {E E2} => s S2. move: (sqrt (4302/1000000)) S1 => g S1. field.
  repeat split; lra || exact HL.
Qed.

Theorem half_mass_relaxation gamma (p : bool) c u o : ready G c u o -> positive_scales G (c_sc c) -> SpecFrame.aligned c -> well_sorted p c ->
  (p = true -> c_origin c <> Some Ogalaxy) -> nonneg (p_m (c_ph c)) -> 0 < sumR (p_m (c_ph c)) -> ln (gamma * INR (nstars c)) <> 0 ->
  exists h t c', half_mass_relaxation_time G gamma p c = Ok (Some t, c') /\ restored c c' /\
    is_fraction_radius (1/2) (map (pc_distance G p c) (stars c)) (map (sun_mass G c) (stars c)) h /\
    t * in_Myr (sizes G c) = spitzer_half_mass gamma (INR (nstars c)) (total_mass G c) h.
Proof.
  move=> HR HP HL HW Hp Hm Hs Hln. have [HS [Hu [Hl [Ho Hf]]]] := HR. have HA : analyze true true c = c by destruct HW.
  have [h [H1 H2]] := pc_half HR HP HL HW Hp Hm Hs.
  have [ops [F [E [A [S1 [R1 [N V]]]]]]] := pc_frame_run HR. cbn zeta in H1.
  have B := bracket_sees HR S1 HA. cbn zeta in B.
  rewrite -(relax_frame_eq HA) in H1 E A S1 R1 N V B. rewrite /half_mass_relaxation_time.
  have PM := @pc_masses c _ u o HR V. have Tot := @sun_total_pos c _ u o HR HP V Hs.
  have [_ [Hu1 _]] := R1.
  move: (relax_frame G c) H1 N V B PM Hu1 {E A S1 R1} => c1 H1 N V B PM Hu1.
  cbn zeta. rewrite H1.
  set c' := return_cluster G (save_cluster c) c1 in B *.
  have Ln : length (p_m (c_ph c1)) = nstars c by exact (vw_n V).
  have EM : sumR (p_m (c_ph c1)) = total_mass G c by rewrite PM.
  have Eg : get_grav c1 = 4302 / 1000000 by rewrite /get_grav Hu1.
  rewrite Ln EM Eg.
  have Nz : (nstars c <> 0)%nat by move=> E0; move: Tot; rewrite /total_mass /stars E0 /=; lra.
  have Np : 0 < INR (nstars c) by apply lt_0_INR; lia.
  have -> : Reqb (INR (nstars c)) 0 = false by apply Reqb_false; lra.
  have Sg : 0 < sqrt (4302 / 1000000) by apply sqrt_lt_R0; lra.
  have -> : Reqb (total_mass G c / INR (nstars c) * sqrt (4302 / 1000000) * ln (gamma * INR (nstars c))) 0 = false.
  { apply Reqb_false. apply Rmult_integral_contrapositive_currified => //. apply Rmult_integral_contrapositive_currified; [|lra].
    have := Rdiv_lt_0_compat _ _ Tot Np. lra. }
  have Hh : 0 <= h.
  { have I := half_in_range H2. apply in_map_iff in I. destruct I as [i [<- _]]. exact (pc_distance_nonneg p i HR HP). }
  eexists h, _, c'. split; [reflexivity|]. split; [exact B|]. split=> //.
  destruct B as [_ [B2 [_ [_ [B5 _]]]]].
  rewrite (@time_correct G c' Upckms u); [by rewrite B5|by rewrite B2|discriminate|exact Hl|].
  rewrite B5 /sizes Hu /rsc. rewrite spitzer_form //.
  have NZ := unit_size_nz u HS. destruct NZ as [NZ _]. change (in_Myr (unit_size G (c_sc c) Upckms)) with 1. field. exact NZ.
Qed.

(* ---------------------------------------------------------------- the relaxation time at the half-mass radius *)
Theorem local_relaxation gamma (p : bool) c u o : ready G c u o -> positive_scales G (c_sc c) -> SpecFrame.aligned c -> well_sorted p c ->
  (p = true -> c_origin c <> Some Ogalaxy) -> nonneg (p_m (c_ph c)) -> 0 < sumR (p_m (c_ph c)) -> ln (gamma * INR (nstars c)) <> 0 ->
  exists h, is_fraction_radius (1/2) (map (pc_distance G p c) (stars c)) (map (sun_mass G c) (stars c)) h /\
  exists t c', relaxation_time G None gamma p c = Ok (t, c') /\ restored c c' /\
    (0 < h -> exists x, t = Some x /\
      let l := filter (fun i => Rleb (pc_distance G p c i) h) (stars c) in
      x * in_Myr (sizes G c) = spitzer_local gamma (INR (nstars c)) (average (map (sun_mass G c) l))
        (INR (length l) / (4 / 3 * PI * h ^ 3)) (average (map (fun i => kms_speed G p c i ^ 2) (stars c)))).
Proof.
  move=> HR HP HL HW Hp Hm Hs Hln. have [HS [Hu [Hl [Ho Hf]]]] := HR. have HA : analyze true true c = c by destruct HW.
  have [h [H1 H2]] := pc_half HR HP HL HW Hp Hm Hs.
  have [ops [F [E [A [S1 [R1 [N V]]]]]]] := pc_frame_run HR. cbn zeta in H1.
  have B := bracket_sees HR S1 HA. cbn zeta in B.
  rewrite -(relax_frame_eq HA) in H1 E A S1 R1 N V B. rewrite /relaxation_time.
  have PM := @pc_masses c _ u o HR V. have Tot := @sun_total_pos c _ u o HR HP V Hs.
  have PR := @pc_radii c _ u o HR HP HL V N p. have PS := @pc_speeds c _ u o HR HP HL V N p.
  have [_ [Hu1 _]] := R1.
  move: (relax_frame G c) H1 N V B PM PR PS Hu1 {E A S1 R1} => c1 H1 N V B PM PR PS Hu1.
  exists h. split=> //. cbn zeta. rewrite H1.
  set c' := return_cluster G (save_cluster c) c1 in B *.
  have Ln : length (p_m (c_ph c1)) = nstars c by exact (vw_n V).
  have Eg : get_grav c1 = 4302 / 1000000 by rewrite /get_grav Hu1.
  rewrite PR PS Ln Eg PM !map_map.
  set l := filter (fun i => Rleb (pc_distance G p c i) h) (stars c).
  have Sel : select (map (fun x => Rleb (pc_distance G p c x) h) (stars c)) (map (sun_mass G c) (stars c)) = map (sun_mass G c) l.
  { rewrite select_map. f_equal. rewrite /l. clear. induction (stars c) as [|a k IH] => //=. by rewrite IH. }
  have Cnt : count (map (fun x => Rleb (pc_distance G p c x) h) (stars c)) = length l.
  { rewrite /count /l. clear. induction (stars c) as [|a k IH] => //=. destruct (Rleb (pc_distance G p c a) h) => /=; by rewrite IH. }
  rewrite Sel Cnt.
  eexists _, c'. split; [reflexivity|]. split; [exact B|]. move=> Hh.
  have P := PI_RGT_0. have H3 : 0 < h ^ 3 by apply pow_lt.
  have Vol : 0 < 4 * PI * h ^ 3 / 3 by nra.
  have -> : Reqb (4 * PI * h ^ 3 / 3) 0 = false by apply Reqb_false; lra.
  (* half of the mass lies within h *)
  have Half : 1 / 2 * total_mass G c <= sumR (map (sun_mass G c) l).
  { have [_ [W _]] := H2. rewrite /weight_within in W.
    have X : forall k, map snd (filter (fun q => Rleb (fst q) h) (combine (map (pc_distance G p c) k) (map (sun_mass G c) k))) =
        map (sun_mass G c) (filter (fun i => Rleb (pc_distance G p c i) h) k).
    { clear. induction k as [|a k IH] => //=. destruct (Rleb (pc_distance G p c a) h) => /=; by rewrite IH. }
    rewrite X in W. exact W. }
  have Nl : (length l <> 0)%nat.
  { move=> E0. have E1 : l = [] by destruct l. rewrite E1 /= in Half. lra. }
  have Lp : 0 < INR (length l) by apply lt_0_INR; lia.
  have Mb : 0 < average (map (sun_mass G c) l).
  { rewrite /average map_length. apply Rdiv_lt_0_compat => //. lra. }
  have Rho : 0 < INR (length l) / (4 * PI * h ^ 3 / 3) by apply Rdiv_lt_0_compat.
  change (np_mean (map (sun_mass G c) l)) with (average (map (sun_mass G c) l)).
  have -> : Reqb (154 / 10 * (4302 / 1000000) ^ 2 * average (map (sun_mass G c) l) ^ 2 * (INR (length l) / (4 * PI * h ^ 3 / 3)) * ln (gamma * INR (nstars c))) 0 = false.
  { apply Reqb_false. apply Rmult_integral_contrapositive_currified => //.
    have := pow_lt _ 2 Mb. move=> ?. apply Rgt_not_eq. repeat apply Rmult_lt_0_compat => //; lra. }
  eexists. split; [reflexivity|]. cbn zeta.
  destruct B as [_ [B2 [_ [_ [B5 _]]]]].
  rewrite (@time_correct G c' Upckms u); [by rewrite B5|by rewrite B2|discriminate|exact Hl|].
  rewrite B5 /sizes Hu /rsc. change (in_Myr (unit_size G (c_sc c) Upckms)) with 1.
  change (np_mean (map (fun x => kms_speed G p c x ^ 2) (stars c))) with (average (map (fun i => kms_speed G p c i ^ 2) (stars c))).
  set v2 := average (map (fun i => kms_speed G p c i ^ 2) (stars c)).
  have V2 : 0 <= v2.
  { rewrite /v2 /average. apply Rmult_le_pos.
    - apply sumR_nonneg => a /in_map_iff [i [<- _]]. exact: pow2_ge_0.
    - have Nz : (nstars c <> 0)%nat by move=> E0; move: Tot; rewrite /total_mass /stars E0 /=; lra.
      left. apply Rinv_0_lt_compat. rewrite map_length seq_length. apply lt_0_INR. lia. }
  have SQ : v2 * sqrt v2 = sqrt v2 ^ 3 by rewrite -{1}(sqrt_sqrt v2 V2); ring.
  rewrite SQ /spitzer_local -crossing_eq.
  have -> : 4 * PI * h ^ 3 / 3 = 4 / 3 * PI * h ^ 3 by field.
  have NZ := unit_size_nz u HS. destruct NZ as [NZ _]. rewrite /G_pc. field. repeat split; try lra; try exact NZ; try exact Hln.
Qed.
End WithGalpy.
