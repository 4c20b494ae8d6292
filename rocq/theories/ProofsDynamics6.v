(* Proofs: rotation. *)
From Verif Require Import Base ModelCluster ModelOps ModelConv ModelEnergy ModelRecipes ModelCoords ModelLagrange ModelDynamics.
From Verif Require Import SpecUnits SpecFrame SpecConv SpecOrder SpecRecipes SpecEnergy SpecLagrange SpecSubset SpecProfiles SpecDynamics.
From Verif Require Import ProofsUnits ProofsFrame ProofsSees ProofsEnergy ProofsRecipes ProofsRecipes2 ProofsLagrange ProofsSubset2 ProofsProfiles ProofsCoords ProofsDynamics ProofsDynamics2 ProofsDynamics5.
Set Implicit Arguments. Unset Strict Implicit.

Lemma six_eta (p : six R) : mk6 (sx p) (sy p) (sz p) (svx p) (svy p) (svz p) = p. Proof. by destruct p. Qed.

Theorem rotate_star_ok qrot d p : rotated qrot d p (rotate_star qrot d p).
Proof.
  have [A B] := azimuth p. rewrite /rotate_star /rect_to_cyl_vec /rect_to_cyl /cyl_to_rect /cyl_to_rect_vec. rewrite -/(cylrad p).
  set ph := atan2 (sy p) (sx p) in A B *. have P1 := cs1 ph. set r := cylrad p in A B *. have R0 : 0 <= r by exact: cylrad_nn.
  set vr := svx p * cos ph + svy p * sin ph. set vt := - svx p * sin ph + svy p * cos ph.
  have SP : spin p = r * vt by rewrite /spin -A -B /vt; ring.
  have OP : outward p = r * vr by rewrite /outward -A -B /vr; ring.
  have Keep : mk6 (r * cos ph) (r * sin ph) (sz p) (vr * cos ph - vt * sin ph) (vr * sin ph + vt * cos ph) (svz p) = p.
  { rewrite -[RHS]six_eta. f_equal; try lra; rewrite /vr /vt.
    - have -> : (svx p * cos ph + svy p * sin ph) * cos ph - (- svx p * sin ph + svy p * cos ph) * sin ph = svx p * (sin ph * sin ph + cos ph * cos ph) by ring.
      rewrite P1. ring.
    - have -> : (svx p * cos ph + svy p * sin ph) * sin ph + (- svx p * sin ph + svy p * cos ph) * cos ph = svy p * (sin ph * sin ph + cos ph * cos ph) by ring.
      rewrite P1. ring. }
  split.
  - move=> H. have -> : Rltb d qrot = false by apply Rltb_false; lra. by rewrite Bool.andb_false_r.
  - move=> H. have -> : Rltb d qrot = true by apply Rltb_spec. rewrite Bool.andb_true_r.
    destruct (Rltb vt 0) eqn:E.
    + apply Rltb_spec in E. have -> : sqrt (vt * vt) = - vt.
      { have -> : vt * vt = (- vt) * (- vt) by ring. rewrite sqrt_square //. lra. }
      have S1 : spin (mk6 (r * cos ph) (r * sin ph) (sz p) (vr * cos ph - - vt * sin ph) (vr * sin ph + - vt * cos ph) (svz p)) = - spin p.
      { rewrite SP /spin. cbn [sx sy svx svy].
        have -> : r * cos ph * (vr * sin ph + - vt * cos ph) - r * sin ph * (vr * cos ph - - vt * sin ph) = - (r * vt) * (sin ph * sin ph + cos ph * cos ph) by ring.
        rewrite P1. ring. }
      split.
      * rewrite S1. symmetry. apply Rabs_left1. rewrite SP. nra.
      * right. split; [by split; [exact A|split; [exact B|]]|]. split=> //. split; [|split=> //].
        { cbn [svx svy]. have V1 : svx p = vr * cos ph - vt * sin ph by have := f_equal (@svx R) Keep. have V2 : svy p = vr * sin ph + vt * cos ph by have := f_equal (@svy R) Keep.
          rewrite {1}V1 {1}V2.
          have -> : (vr * cos ph - - vt * sin ph) ^ 2 + (vr * sin ph + - vt * cos ph) ^ 2 = (vr ^ 2 + vt ^ 2) * (sin ph * sin ph + cos ph * cos ph) by ring.
          have -> : (vr * cos ph - vt * sin ph) ^ 2 + (vr * sin ph + vt * cos ph) ^ 2 = (vr ^ 2 + vt ^ 2) * (sin ph * sin ph + cos ph * cos ph) by ring. by []. }
        { rewrite OP /outward. cbn [sx sy svx svy].
          have -> : r * cos ph * (vr * cos ph - - vt * sin ph) + r * sin ph * (vr * sin ph + - vt * cos ph) = r * vr * (sin ph * sin ph + cos ph * cos ph) by ring.
          rewrite P1. ring. }
    + apply Rltb_false in E. rewrite Keep. split; [|by left]. symmetry. apply Rabs_right. rewrite SP. nra.
Qed.
Lemma rotated_place qrot d p q : rotated qrot d p q -> same_place p q /\ svz q = svz p /\ svx q ^ 2 + svy q ^ 2 = svx p ^ 2 + svy p ^ 2 /\ outward q = outward p.
Proof.
  move=> [K1 K2]. destruct (Rlt_le_dec d qrot) as [L|L].
  - have [_ [->|C]] := K2 L; [by rewrite /same_place|]. rewrite /counter_turned in C. tauto.
  - by rewrite K1 // /same_place.
Qed.

Lemma rows_nth s i n : length (sx s) = n -> (i < n)%nat -> nth i (rows6 s) zero6 = map6 (fun l => nth i l 0) s.
Proof. move=> L H. rewrite /rows6 L. by rewrite nth_map_seq. Qed.
Lemma rows_length s : length (rows6 s) = length (sx s). Proof. by rewrite /rows6 map_length seq_length. Qed.
Lemma unstack_nth l i : (i < length l)%nat -> map6 (fun k => nth i k 0) (unstack6 l) = nth i l zero6.
Proof.
  move=> H. rewrite /unstack6 /map6. cbn [sx sy sz svx svy svz].
  rewrite !(@nth_map' _ _ _ l i 0 zero6) //. by destruct (nth i l zero6).
Qed.

Section WithGalpy.
Variable G : galpy.

Definition rotated_stars (qrot : R) (draws : list R) (c : cluster) : six (list R) :=
  unstack6 (zip_with (rotate_star qrot) draws (rows6 (p_s (c_ph c)))).
Lemma rotated_row qrot draws c i : SpecFrame.aligned c -> length draws = nstars c -> (i < nstars c)%nat ->
  map6 (fun k => nth i k 0) (rotated_stars qrot draws c) = rotate_star qrot (nth i draws 0) (star_row c i).
Proof.
  move=> [A1 _] L Hi. have LR : length (rows6 (p_s (c_ph c))) = nstars c by rewrite rows_length A1.
  rewrite /rotated_stars unstack_nth; [by rewrite zip_with_length LR L Nat.min_id|].
  rewrite (@nth_zip_with _ _ _ _ draws _ i 0 zero6); [lia|lia|]. by rewrite (rows_nth A1).
Qed.
Lemma rotated_lengths qrot draws c : SpecFrame.aligned c -> length draws = nstars c -> length (zip_with (rotate_star qrot) draws (rows6 (p_s (c_ph c)))) = nstars c.
Proof. move=> [A1 _] L. by rewrite zip_with_length rows_length A1 L Nat.min_id. Qed.

(* the same distances and speeds *)
Lemma norm3_rows (x y z x' y' z' : list R) n : length x = n -> length y = n -> length z = n -> length x' = n -> length y' = n -> length z' = n ->
  (forall i, (i < n)%nat -> nth i x' 0 ^ 2 + nth i y' 0 ^ 2 + nth i z' 0 ^ 2 = nth i x 0 ^ 2 + nth i y 0 ^ 2 + nth i z 0 ^ 2) ->
  norm3 x' y' z' = norm3 x y z.
Proof.
  move=> L1 L2 L3 L4 L5 L6 E. apply (nth_ext _ _ 0 0); [rewrite !norm3_length; lia|]. move=> i. rewrite norm3_length; [lia|lia|]. move=> Hi.
  rewrite !norm3_nth; try lia. f_equal. apply E. lia.
Qed.
Lemma norm2_rows (x y x' y' : list R) n : length x = n -> length y = n -> length x' = n -> length y' = n ->
  (forall i, (i < n)%nat -> nth i x' 0 ^ 2 + nth i y' 0 ^ 2 = nth i x 0 ^ 2 + nth i y 0 ^ 2) -> norm2 x' y' = norm2 x y.
Proof.
  move=> L1 L2 L3 L4 E. have K1 : length (norm2 x' y') = n by rewrite /norm2 zip_with_length; lia.
  have K2 : length (norm2 x y) = n by rewrite /norm2 zip_with_length; lia.
  apply (nth_ext _ _ 0 0); [congruence|]. move=> i. rewrite K1 => Hi.
  rewrite !norm2_nth; try lia. f_equal. apply E. lia.
Qed.

Theorem rotation_ok qrot draws c u o : ready G c u o -> o <> Ogalaxy -> SpecFrame.aligned c -> analyze true true c = c -> length draws = nstars c ->
  let c' := add_rotation_method G qrot draws c in
  (forall i, (i < nstars c)%nat -> rotated qrot (nth i draws 0) (star_row c i) (star_row c' i)) /\
  SpecFrame.aligned c' /\ p_m (c_ph c') = p_m (c_ph c) /\ p_g (c_ph c') = p_g (c_ph c) /\ p_c (c_ph c') = p_c (c_ph c) /\
  p_t (c_ph c') = p_t (c_ph c) /\ c_units c' = c_units c /\ c_origin c' = c_origin c /\ c_id c' = c_id c /\ c_sc c' = c_sc c /\
  c_der c' = c_der c /\ analyze true true c' = c'.
Proof.
  move=> HR No HL HA HD. have [HS [Hu [Hl [Ho Hf]]]] := HR. cbn zeta.
  rewrite /add_rotation_method /add_rotation.
  have -> : off_centre c = false by rewrite /off_centre Ho; destruct o => //; by case: Hf.
  rewrite return_same HA -/(rotated_stars qrot draws c). have [A1 [A2 [A3 [A4 [A5 A6]]]]] := HL.
  have RL := rotated_lengths qrot HL HD.
  have Rot : forall i, (i < nstars c)%nat -> rotated qrot (nth i draws 0) (star_row c i) (map6 (fun k => nth i k 0) (rotated_stars qrot draws c)).
  { move=> i Hi. rewrite rotated_row //. exact: rotate_star_ok. }
  have Lens : length (sx (rotated_stars qrot draws c)) = nstars c /\ length (sy (rotated_stars qrot draws c)) = nstars c /\
    length (sz (rotated_stars qrot draws c)) = nstars c /\ length (svx (rotated_stars qrot draws c)) = nstars c /\
    length (svy (rotated_stars qrot draws c)) = nstars c /\ length (svz (rotated_stars qrot draws c)) = nstars c.
  { rewrite /rotated_stars /unstack6. cbn [sx sy sz svx svy svz]. by rewrite !map_length RL. }
  move: (rotated_stars qrot draws c) Rot Lens => s Rot [L1 [L2 [L3 [L4 [L5 L6]]]]].
  have Al : SpecFrame.aligned (set_stars c s (c_origin c)) by rewrite /SpecFrame.aligned; repeat split.
  split; [exact Rot|]. split; [exact Al|]. do 9 (split; [reflexivity|]).
  (* derived data *)
  have E3 : sx s = sx (p_s (c_ph c)) /\ sy s = sy (p_s (c_ph c)) /\ sz s = sz (p_s (c_ph c)).
  { have P : forall i, (i < nstars c)%nat -> same_place (star_row c i) (map6 (fun k => nth i k 0) s).
    { move=> i Hi. exact (proj1 (rotated_place (Rot i Hi))). }
    repeat split; apply (nth_ext _ _ 0 0); rewrite ?L1 ?L2 ?L3 // => i Hi; have [P1 [P2 P3]] := P i Hi; assumption. }
  have [Ex [Ey Ez]] := E3.
  have V : forall i, (i < nstars c)%nat -> nth i (svz s) 0 = nth i (svz (p_s (c_ph c))) 0 /\
      nth i (svx s) 0 ^ 2 + nth i (svy s) 0 ^ 2 = nth i (svx (p_s (c_ph c))) 0 ^ 2 + nth i (svy (p_s (c_ph c))) 0 ^ 2.
  { move=> i Hi. have [_ [P1 [P2 _]]] := rotated_place (Rot i Hi). by split. }
  have N3 : norm3 (svx s) (svy s) (svz s) = norm3 (svx (p_s (c_ph c))) (svy (p_s (c_ph c))) (svz (p_s (c_ph c))).
  { apply (@norm3_rows _ _ _ _ _ _ (nstars c)) => // i Hi. have [P1 P2] := V i Hi. by rewrite P2 P1. }
  have N2 : norm2 (svx s) (svy s) = norm2 (svx (p_s (c_ph c))) (svy (p_s (c_ph c))).
  { apply (@norm2_rows _ _ _ _ (nstars c)) => // i Hi. by have [P1 P2] := V i Hi. }
  have AR : analyze_radii (set_stars c s (c_origin c)) = set_stars (analyze_radii c) s (c_origin c).
  { rewrite /analyze_radii /set_stars /set_der /set_ph. cbn. by rewrite Ex Ey Ez N3 N2. }
  have DD : c_der (analyze true true (set_stars c s (c_origin c))) = c_der c.
  { rewrite -[in RHS]HA. rewrite /analyze AR /analyze_fracs /sortstars.
    have -> : c_origin c = c_origin (analyze_radii c) by [].
    move: (analyze_radii c) => [u' o' b nb ph sc bi sk d id]. cbn.
    destruct (d_rorder d) as [r|]; [destruct (oosys_eqb _ _ && _)|]; cbn; (destruct (d_rproorder d); [destruct (oosys_eqb _ _ && _)|]); reflexivity. }
  rewrite analyze_set_der DD. by destruct c.
Qed.

(* in the galactic frame the coordinates returned are those seen from the centre *)
Theorem rotation_galaxy qrot draws c u : ready G c u Ogalaxy -> SpecFrame.aligned c -> analyze true true c = c -> length draws = nstars c ->
  let c' := add_rotation_method G qrot draws c in c_origin c' = Some Ogalaxy /\
  (forall i, (i < nstars c)%nat -> rotated qrot (nth i draws 0) (own_star c i) (star_row c' i)).
Proof.
  move=> HR HL HA HD. have [HS [Hu [Hl [Ho Hf]]]] := HR. cbn zeta.
  have [S1 R1] := centred true HR. cbn zeta in S1, R1.
  have V := seen_viewed HR S1 R1 eq_refl.
  rewrite /add_rotation_method /add_rotation.
  move: (if off_centre c then to_centre true c else c) S1 R1 V => c1 S1 R1 V.
  have B := bracket_sees HR S1 HA. cbn zeta in B. destruct B as [_ [_ [B3 _]]].
  rewrite -/(rotated_stars qrot draws c1).
  split; [by rewrite -Ho -B3|]. move=> i Hi.
  change (star_row _ i) with (map6 (fun k => nth i k 0) (rotated_stars qrot draws c1)).
  rewrite rotated_row; [exact (vw_al V HL)|by rewrite (vw_n V)|by rewrite (vw_n V)|].
  have E := vw_star V HL Hi. have NZ := unit_size_nz u HS. destruct NZ as [_ [_ [N3 N4]]].
  have -> : star_row c1 i = own_star c i.
  { have X := f_equal (@sx _) E. have Y := f_equal (@sy _) E. have Zz := f_equal (@sz _) E.
    have VX := f_equal (@svx _) E. have VY := f_equal (@svy _) E. have VZ := f_equal (@svz _) E.
    rewrite /view6 in X Y Zz VX VY VZ. cbn [sx sy sz svx svy svz] in X, Y, Zz, VX, VY, VZ.
    rewrite -[LHS]six_eta -[RHS]six_eta. f_equal; (apply (Rmult_eq_reg_r (in_pc (unit_size G (c_sc c) u))); [assumption|exact N3]) ||
      (apply (Rmult_eq_reg_r (in_kms (unit_size G (c_sc c) u))); [assumption|exact N4]). }
  exact: rotate_star_ok.
Qed.
End WithGalpy.
