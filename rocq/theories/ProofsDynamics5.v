(* Proofs: N-body scales. *)
From Verif Require Import Base ModelCluster ModelOps ModelConv ModelEnergy ModelRecipes ModelLagrange ModelDynamics.
From Verif Require Import SpecUnits SpecFrame SpecConv SpecOrder SpecRecipes SpecEnergy SpecLagrange SpecSubset SpecProfiles SpecDynamics.
From Verif Require Import ProofsUnits ProofsConv ProofsFrame ProofsOrder ProofsPot ProofsSort ProofsSees ProofsEnergy ProofsVirial ProofsEnergyUnits ProofsVR ProofsRecipes ProofsRecipes2 ProofsLagrange ProofsSubset2 ProofsProfiles ProofsProfiles5 ProofsDynamics ProofsDynamics2 ProofsDynamics4.
Set Implicit Arguments. Unset Strict Implicit.

Lemma scales_consistent z r : 0 < z -> 0 < r ->
  let v := 6557 / 100000 * sqrt (z / r) in let t := r / (1023 / 1000 * v) in nbody_scales z r v t.
Proof.
  move=> Hz Hr v t. have Q : 0 < z / r by apply Rdiv_lt_0_compat.
  have S : 0 < sqrt (z / r) by apply sqrt_lt_R0. have Hv : 0 < v by rewrite /v; lra.
  have Ht : 0 < t by rewrite /t; apply Rdiv_lt_0_compat; lra.
  have V2 : v ^ 2 * r = (6557 / 100000) ^ 2 * z.
  { rewrite /v. have -> : (6557 / 100000 * sqrt (z / r)) ^ 2 = (6557 / 100000) ^ 2 * (sqrt (z / r) * sqrt (z / r)) by ring.
    rewrite sqrt_sqrt; [lra|]. field. lra. }
  have TV : t * (v * kms_in_pcmyr) = (kms_in_pcmyr / (1023 / 1000)) * r by rewrite /t; field; lra.
  do 4 (split; [done|]). rewrite /close_to V2 TV /G_pc /kms_in_pcmyr. split.
  - rewrite (Rabs_right (4302 / 1000000 * z)); [lra|]. rewrite Rabs_left1; lra.
  - rewrite (Rabs_right r); [lra|]. rewrite Rabs_left1; lra.
Qed.

Lemma inverse_positive l ps : pair_set (length l) ps -> (2 <= length l)%nat -> separated l -> (forall a, In a l -> 0 < fm a) ->
  0 < inverse_distance l ps.
Proof.
  move=> [ND PS] L SP PM. rewrite /inverse_distance.
  have T : forall i j, In (i, j) ps -> 0 < fm (nth i l star0) * fm (nth j l star0) / sqrt (dist2 (nth i l star0) (nth j l star0)).
  { move=> i j I. apply PS in I. apply Rdiv_lt_0_compat.
    - apply Rmult_lt_0_compat; apply PM, nth_In; lia.
    - apply sqrt_lt_R0. have D := SP i j ltac:(lia) ltac:(lia) ltac:(lia). have : 0 <= dist2 (nth i l star0) (nth j l star0) by apply dist2_nonneg. lra. }
  have I01 : In (0%nat, 1%nat) ps by apply PS; lia. clear ND PS.
  destruct ps as [|[i j] ps] => //. cbn [map sumR fold_right]. rewrite -/(sumR _).
  have P1 := T i j (or_introl eq_refl). cbn zeta. apply Rplus_lt_le_0_compat; [exact P1|]. apply sumR_nonneg.
  move=> a H. apply in_map_iff in H. destruct H as [[i' j'] [<- I]]. apply Rlt_le, T. by right.
Qed.

Section WithGalpy.
Variable G : galpy.

Lemma restored_sees c d : (exists u o, ready G c u o) -> restored c d -> sees G c d.
Proof.
  move=> [u [o [HS [Hu [Hl [Ho Hf]]]]]] [E1 [E2 [E3 [E4 [E5 [E6 [E7 E8]]]]]]].
  split; [by rewrite /galactic_view /origin_shift E1 E2 E3 E5|]. split; [exists u, o; by rewrite /ready E2 E3 E5|].
  do 4 (split; [done|]). move=> rp. rewrite /proorder_ok /rprolist E1 E4. by split.
Qed.

(* bodies seen from the frame of pc and km/s *)
Definition shift_pc (p : bool) (c : cluster) (k : R) : R * R * R :=
  let s (a b : R) := - (match c_origin c with Some Ogalaxy => a + b | _ => 0 end * k) in
  let g := p_g (c_ph c) in let o := p_c (c_ph c) in
  (s (sx g) (sx o), s (sy g) (sy o), if p then 0 else s (sz g) (sz o)).
Lemma pc_bodies (p : bool) c c1 u o : ready G c u o -> SpecFrame.aligned c ->
  viewed c c1 (unit_size G (c_sc c) u) (unit_size G (c_sc c) Upckms) ->
  bodies_seen p c1 = map (translate (shift_pc p c (in_pc (sizes G c)))) (sun_bodies G p c).
Proof.
  move=> HR HA V. have [HS [Hu [Hl [Ho Hf]]]] := HR. have PS := pc_sizes HR.
  rewrite /sun_bodies /bodies_seen /bodies -/(nstars c1) -/(nstars c) (vw_n V) !map_map.
  apply map_ext_in => i /in_seq [_ Hi]. rewrite PS.
  have M := vw_mass V Hi. have S := vw_star V HA Hi. rewrite sizes_pc in M S. cbn [in_Msun in_pc in_kms view6] in M.
  have X := f_equal (@sx _) S. have Y := f_equal (@sy _) S. have Zz := f_equal (@sz _) S.
  rewrite /view6 /star_row /own_star /map6 in X Y Zz. cbn [sx sy sz in_pc] in X, Y, Zz. rewrite /mass in M.
  rewrite /body /in_plane /translate /dilate /shift_pc. cbn [fx fy fz fm].
  f_equal; destruct (c_origin c) as [[]|]; destruct p; lra.
Qed.
Lemma sun_length p c : length (sun_bodies G p c) = nstars c.
Proof. by rewrite /sun_bodies map_length seen_length. Qed.
Lemma sun_fm p c : map fm (sun_bodies G p c) = map (sun_mass G c) (stars c).
Proof. rewrite /sun_bodies /bodies_seen /bodies !map_map. apply map_ext => i. rewrite /sun_mass /mass. cbn. ring. Qed.

Theorem nbody_scale (p : bool) c u o ps : ready G c u o -> positive_scales G (c_sc c) -> SpecFrame.aligned c ->
  analyze true true c = c -> pair_set (nstars c) ps -> (2 <= nstars c)%nat -> (forall m, In m (p_m (c_ph c)) -> 0 < m) ->
  separated (bodies_seen p c) ->
  exists z r v t c', reset_nbody_scale G true true true p false c = Ok ((z, r, v, t), c') /\ restored c c' /\
    z = total_mass G c /\ r = virial_pc (sun_bodies G p c) ps /\ nbody_scales z r v t.
Proof.
  move=> HR HP HL HA HPS H2 HM HSep. have [HS [Hu [Hl [Ho Hf]]]] := HR.
  have [ops [F [E [A [S1 [R1 [N V]]]]]]] := pc_frame_run HR. cbn zeta in E.
  rewrite /reset_nbody_scale. cbv iota. rewrite /scale_frame. cbn zeta.
  move: (to_pckms G (if off_centre c then to_centre true c else c)) A S1 R1 V {N E} => c1 A S1 R1 V.
  have PM := @pc_masses G c c1 u o HR V.
  have L1 := vw_n V. have PS1 : pair_set (nstars c1) ps by rewrite L1.
  pose proof (@virial_radius_spec G p true c1 Upckms (work_origin o) ps R1 (vw_al V HL) A PS1) as VS.
  destruct (virial_radius G p true c1) as [rv c2]. destruct VS as [Erv Rs].
  have B := bracket_sees HR (sees_trans S1 (restored_sees (ex_intro _ _ (ex_intro _ _ R1)) Rs)) HA. cbn zeta in B.
  have [P1 [P2 P3]] := size_positive HP Hl.
  have Er : rv = virial_pc (sun_bodies G p c) ps.
  { rewrite Erv /virial_pc PM (sun_fm p). do 2 f_equal. rewrite (pc_bodies p HR HL V) inverse_translate //.
    move=> i j I. rewrite sun_length. apply HPS in I. lia. }
  have PB : forall a, In a (sun_bodies G p c) -> 0 < fm a.
  { move=> a I. have : In (fm a) (map fm (sun_bodies G p c)) by apply in_map. rewrite sun_fm => /in_map_iff [i [<- /in_seq Hi]].
    rewrite /sun_mass (pc_sizes HR). apply Rmult_lt_0_compat => //. apply HM, nth_In. rewrite -/(nstars c). lia. }
  have ID : 0 < inverse_distance (sun_bodies G p c) ps.
  { apply inverse_positive => //; [by rewrite sun_length|by rewrite sun_length|].
    rewrite /sun_bodies (pc_sizes HR). apply separated_dilate; [exact P1|exact HSep]. }
  have TM : 0 < total_mass G c.
  { rewrite /total_mass -(sun_fm p). have Ln := sun_length p c. destruct (sun_bodies G p c) as [|a l]; [cbn in Ln; lia|].
    cbn [map sumR fold_right]. rewrite -/(sumR _). apply Rplus_lt_le_0_compat; [apply PB; by left|]. apply sumR_nonneg.
    move=> x /in_map_iff [b [<- I]]. apply Rlt_le, PB. by right. }
  have EM : sumR (p_m (c_ph c1)) = total_mass G c by rewrite PM.
  have RP : 0 < rv.
  { rewrite Er /virial_pc (sun_fm p) -/(total_mass G c). apply Rdiv_lt_0_compat; [by apply pow_lt|lra]. }
  rewrite EM. do 5 eexists. split; [reflexivity|]. split; [exact B|]. split; [done|]. split; [exact Er|]. exact (scales_consistent TM RP).
Qed.

(* with the half-mass radius in place of the virial radius: four thirds of it *)
Theorem nbody_scale_half (p : bool) c u o : ready G c u o -> positive_scales G (c_sc c) -> SpecFrame.aligned c ->
  well_sorted false c -> nonneg (p_m (c_ph c)) -> 0 < sumR (p_m (c_ph c)) ->
  exists h, is_fraction_radius (1/2) (map (pc_distance G false c) (stars c)) (map (sun_mass G c) (stars c)) h /\
  exists v t c', reset_nbody_scale G true true false p false c = Ok ((total_mass G c, 4 / 3 * h, v, t), c') /\ restored c c' /\
    (0 < h -> nbody_scales (total_mass G c) (4 / 3 * h) v t).
Proof.
  move=> HR HP HL HW Hm Hs. have HA : analyze true true c = c by destruct HW.
  have [h [H1 H2]] := pc_half HR HP HL HW (fun E => match diff_false_true E with end) Hm Hs. cbn zeta in H1.
  have [ops [F [E [A [S1 [R1 [N V]]]]]]] := pc_frame_run HR.
  have B := bracket_sees HR S1 HA. cbn zeta in B.
  exists h. split=> //. rewrite /reset_nbody_scale /scale_frame. cbn zeta. cbv iota.
  move: (to_pckms G (if off_centre c then to_centre true c else c)) H1 V B {N E A S1 R1} => c1 H1 V B. cbv iota in H1. rewrite H1.
  have EM : sumR (p_m (c_ph c1)) = total_mass G c by rewrite (@pc_masses G c c1 u o HR V).
  rewrite EM. have -> : 4 * h / 3 = 4 / 3 * h by field. do 3 eexists. split; [reflexivity|]. split; [exact B|].
  move=> Hh. apply scales_consistent; [exact (@sun_total_pos G c c1 u o HR HP V Hs)|lra].
Qed.

(* a keyword of virial_radius cannot be passed on *)
Lemma nbody_scale_repeated p c : reset_nbody_scale G true true true p true c = Raise. Proof. done. Qed.

(* ---------------------------------------------------------------- units after the new scales *)
Lemma set_scales_ready c u o z r v t : ready G c u o -> nbody_scales z r v t ->
  ready G (set_sc c (set_scales (c_sc c) (z, r, v, t))) u o.
Proof.
  move=> [HS [Hu [Hl [Ho Hf]]]] [Pz [Pr [Pv [Pt _]]]]. split; [|by split].
  move: HS. rewrite /good_scales /set_sc /set_scales. cbn. intuition lra.
Qed.
Theorem unit_mass (p : bool) c u o z r v t c' : ready G c u o -> positive_scales G (c_sc c) -> u <> Unbody ->
  restored c c' -> z = total_mass G c -> nbody_scales z r v t ->
  let d := to_units G (Ureq Unbody) (set_sc c' (set_scales (c_sc c') (z, r, v, t))) in
  sumR (p_m (c_ph d)) = 1 /\ c_units d = Some Unbody.
Proof.
  move=> HR HP Nu [E1 [E2 [E3 [E4 [E5 [E6 [E7 E8]]]]]]] Ez NS. have [HS [Hu [Hl [Ho Hf]]]] := HR. cbn zeta.
  have HR' : ready G c' u o by rewrite /ready E2 E3 E5.
  have R1 := set_scales_ready HR' NS. have [HS1 [Hu1 [Hl1 [Ho1 Hf1]]]] := R1.
  have L : linear Unbody by discriminate.
  have [K1 [K2 [K3 [K4 [K5 [K6 _]]]]]] := skel_eq_fields (to_units_lin HS1 Hu1 Hl1 L).
  move: (to_units G (Ureq Unbody) _) K1 K2 K5 => d K1 K2 K5. cbn in K1.
  split=> //. have [Pz _] := NS.
  have Ep : c_ph d = rescale (unit_size G (set_scales (c_sc c') (z, r, v, t)) u) (unit_size G (set_scales (c_sc c') (z, r, v, t)) Unbody) (c_ph c') by assumption.
  rewrite Ep. cbn [rescale p_m]. 
  have Em : forall ka kb l, sumR (map (rsc ka kb) l) = sumR l * (ka / kb).
  { move=> ka kb l. rewrite -sumR_map_mul. f_equal. }
  rewrite Em E1. 
  have Z1 : in_Msun (unit_size G (set_scales (c_sc c') (z, r, v, t)) Unbody) = z by [].
  have Z2 : in_Msun (unit_size G (set_scales (c_sc c') (z, r, v, t)) u) = in_Msun (sizes G c).
  { rewrite (pc_sizes HR) -E5. destruct u => //. }
  rewrite Z1 Z2.
  have ET : z = sumR (p_m (c_ph c)) * in_Msun (sizes G c).
  { rewrite Ez. have [ops [F [E [A [S1 [RR [N V]]]]]]] := pc_frame_run HR. exact (@sun_total G c _ u o HR V). }
  rewrite {1}/Rdiv -Rmult_assoc -ET. field. lra.
Qed.
Lemma analyze_set_der sort p c : analyze sort p c = set_der c (c_der (analyze sort p c)).
Proof.
  destruct c as [u o b nb ph sc bi sk d id]. rewrite /analyze /analyze_fracs /sortstars. destruct sort.
  - cbn. destruct (d_rorder d) as [r|]; [destruct (_ && _)|]; cbn; by destruct (if p then _ else _).
  - cbn. by destruct (d_rorder d), (d_rproorder d).
Qed.
Lemma settled_cong c c' : analyze true true c = c -> c_ph c' = c_ph c -> c_origin c' = c_origin c -> c_der c' = c_der c -> analyze true true c' = c'.
Proof.
  move=> A E1 E3 E4. rewrite analyze_set_der. have <- : c_der c' = c_der (analyze true true c'); [|by destruct c'].
  rewrite (@analyze_der_cong true true c' c) // ?E1 // A. exact E4.
Qed.
Lemma virial_dilate k m l ps : 0 < k -> 0 < m -> (forall i j, In (i, j) ps -> (i < length l)%nat /\ (j < length l)%nat) ->
  virial_pc (map (dilate k m) l) ps = k * virial_pc l ps.
Proof.
  move=> Hk Hm I. rewrite /virial_pc.
  have -> : sumR (map fm (map (dilate k m) l)) = m * sumR (map fm l).
  { clear. induction l as [|a l IH]; cbn in *; [ring|rewrite IH; ring]. }
  have -> : inverse_distance (map (dilate k m) l) ps = m ^ 2 / k * inverse_distance l ps.
  { rewrite /inverse_distance Rmult_comm -sumR_map_mul map_map. f_equal. apply map_ext_in => [[i j] Hij]. have [H1 H2] := I _ _ Hij.
    rewrite !(@nth_map_in _ _ _ _ _ star0) //.
    set a := nth i l star0. set b := nth j l star0.
    have -> : dist2 (dilate k m a) (dilate k m b) = (k * k) * dist2 a b by rewrite /dist2 /=; ring.
    rewrite sqrt_mult; [nra|exact: dist2_nonneg|]. rewrite sqrt_square; [lra|]. cbn [fm dilate].
    set r := sqrt _. destruct (Req_dec r 0) as [->|Hr]; [by rewrite Rmult_0_r /Rdiv Rinv_0; ring|]. field. lra. }
  set d := inverse_distance l ps. set w := sumR (map fm l). destruct (Req_dec d 0) as [->|Hd].
  - by rewrite !Rmult_0_r /Rdiv Rinv_0; ring.
  - field. lra.
Qed.
Lemma settled_units c u u' o : ready G c u o -> linear u' -> analyze true true c = c ->
  analyze true true (to_units G (Ureq u') c) = to_units G (Ureq u') c.
Proof.
  move=> [HS [Hu [Hl [Ho Hf]]]] Hl' A. destruct (to_units_full_eq HS Hu Hl Hl') as [-> | ->] => //. by rewrite analyze_idem.
Qed.
Theorem unit_virial (p full : bool) c u o z r v t c' ps : ready G c u o -> positive_scales G (c_sc c) -> u <> Unbody ->
  SpecFrame.aligned c -> analyze true true c = c -> pair_set (nstars c) ps -> (forall m, In m (p_m (c_ph c)) -> 0 < m) ->
  restored c c' -> r = virial_pc (sun_bodies G p c) ps -> nbody_scales z r v t ->
  fst (virial_radius G p full (to_units G (Ureq Unbody) (set_sc c' (set_scales (c_sc c') (z, r, v, t))))) = 1.
Proof.
  move=> HR HP Nu HL HA HPS HM [E1 [E2 [E3 [E4 [E5 [E6 [E7 E8]]]]]]] Er NS. have [HS [Hu [Hl [Ho Hf]]]] := HR.
  have HR' : ready G c' u o by rewrite /ready E2 E3 E5.
  have R1 := set_scales_ready HR' NS. have [HS1 [Hu1 [Hl1 [Ho1 Hf1]]]] := R1.
  set X := set_sc c' (set_scales (c_sc c') (z, r, v, t)) in R1 HS1 Hu1 Ho1 *.
  have L : linear Unbody by discriminate.
  have AX : analyze true true X = X by exact (@settled_cong c X HA E1 E3 E4).
  have PX : positive_scales G (c_sc X).
  { move: HP. rewrite -E5. have [Pz [Pr [Pv [Pt _]]]] := NS. rewrite /positive_scales /X /set_sc /set_scales. cbn. intuition. }
  have LX : SpecFrame.aligned X by rewrite /SpecFrame.aligned; change (c_ph X) with (c_ph c'); rewrite E1.
  have MX : forall k, (k < nstars X)%nat -> 0 < mass X k.
  { move=> k. rewrite /nstars /mass. change (c_ph X) with (c_ph c'). rewrite E1 => Hk. by apply HM, nth_In. }
  have [V1 [V2 [V3 _]]] := to_units_view R1 L.
  have AD := settled_units R1 L AX.
  have F := skel_eq_fields (to_units_lin HS1 Hu1 Hl1 L). destruct F as [_ [_ [_ [_ [F5 _]]]]]. cbn in F5.
  have SP : same_physics (unit_size G (c_sc X) u) (unit_size G (c_sc X) Unbody) (c_ph X) (c_ph (to_units G (Ureq Unbody) X)).
  { rewrite F5. apply rescale_same. exact (unit_size_nz Unbody HS1). }
  have U := virial_radius_units p full R1 V2 V3 PX LX SP AX AD MX.
  have PSX : pair_set (nstars X) ps by rewrite /nstars; change (c_ph X) with (c_ph c'); rewrite E1.
  pose proof (@virial_radius_spec G p full X u o ps R1 LX AX PSX) as VS.
  destruct (virial_radius G p full X) as [rv cc]. destruct VS as [Erv _]. cbn [fst] in U.
  have EB : bodies_seen p X = bodies_seen p c.
  { rewrite /bodies_seen /bodies /body. change (c_ph X) with (c_ph c'). by rewrite E1. }
  have EV : rv = virial_pc (bodies_seen p c) ps.
  { rewrite Erv EB /virial_pc. change (c_ph X) with (c_ph c'). rewrite E1. do 2 f_equal. f_equal.
    rewrite /bodies_seen /bodies !map_map. cbn [fm in_plane body]. apply (nth_ext _ _ 0 0); [by rewrite map_length seq_length|].
    move=> i Hi. by rewrite nth_map_seq. }
  have [P1 [P2 P3]] := size_positive HP Hl.
  have ER : r = rv * in_pc (unit_size G (c_sc X) u).
  { have -> : in_pc (unit_size G (c_sc X) u) = in_pc (unit_size G (c_sc c) u) by rewrite -E5; destruct u.
    rewrite Er /sun_bodies (pc_sizes HR) virial_dilate //; [|by rewrite -EV Rmult_comm].
    move=> i j I. apply HPS in I. rewrite seen_length. lia. }
  have Zr : in_pc (unit_size G (c_sc X) Unbody) = r by [].
  rewrite Zr -ER in U. have [_ [Pr _]] := NS. apply (Rmult_eq_reg_r r); lra.
Qed.
(* in N-body units, the stars change their physical mass *)
Theorem rescaled_mass c o z r v t c' : ready G c Unbody o -> restored c c' -> z = total_mass G c ->
  total_mass G (set_sc c' (set_scales (c_sc c') (z, r, v, t))) = sumR (p_m (c_ph c)) * total_mass G c.
Proof.
  move=> HR [E1 [E2 [E3 [E4 [E5 [E6 [E7 E8]]]]]]] Ez. have [HS [Hu [Hl [Ho Hf]]]] := HR.
  rewrite {1}/total_mass /stars /nstars.
  change (p_m (c_ph (set_sc c' (set_scales (c_sc c') (z, r, v, t))))) with (p_m (c_ph c')). rewrite E1 -/(nstars c).
  have -> : map (sun_mass G (set_sc c' (set_scales (c_sc c') (z, r, v, t)))) (seq 0 (nstars c)) = map (fun i => nth i (p_m (c_ph c)) 0 * z) (seq 0 (nstars c)).
  { apply map_ext => i. rewrite /sun_mass /mass /sizes. change (c_units (set_sc c' (set_scales (c_sc c') (z, r, v, t)))) with (c_units c').
    rewrite E2 Hu. change (c_ph (set_sc c' (set_scales (c_sc c') (z, r, v, t)))) with (c_ph c'). by rewrite E1. }
  rewrite -Ez. rewrite -sumR_map_mul. f_equal. apply (nth_ext _ _ 0 0); [by rewrite !map_length seq_length|].
  move=> i. rewrite map_length seq_length => Hi. rewrite nth_map_seq // (@nth_map' _ _ _ (p_m (c_ph c)) i 0 0) //.
Qed.
End WithGalpy.
