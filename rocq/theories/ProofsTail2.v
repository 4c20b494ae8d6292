(* Proofs: the tail frame of a cluster. *)
From Verif Require Import Base ModelCluster ModelOps ModelConv ModelEnergy ModelRecipes ModelCoords ModelLagrange ModelTail.
From Verif Require Import SpecUnits SpecFrame SpecConv SpecOrder SpecRecipes SpecEnergy SpecLagrange SpecSubset SpecProfiles SpecDynamics SpecTail.
From Verif Require Import ProofsUnits ProofsFrame ProofsSees ProofsEnergy ProofsRecipes ProofsDynamics ProofsDynamics2 ProofsDynamics6 ProofsTail.
Set Implicit Arguments. Unset Strict Implicit.

Section WithGalpy.
Variable G : galpy.

(* the same units: the same orbit *)
Lemma view6_inj z (a b : six R) : in_pc z <> 0 -> in_kms z <> 0 -> view6 z a = view6 z b -> a = b.
Proof.
  move=> N3 N4 E. have X := f_equal (@sx _) E. have Y := f_equal (@sy _) E. have Zz := f_equal (@sz _) E.
  have VX := f_equal (@svx _) E. have VY := f_equal (@svy _) E. have VZ := f_equal (@svz _) E.
  rewrite /view6 in X Y Zz VX VY VZ. cbn [sx sy sz svx svy svz] in X, Y, Zz, VX, VY, VZ.
  rewrite -[LHS]six_eta -[RHS]six_eta. f_equal; (apply (Rmult_eq_reg_r (in_pc z)); [assumption|exact N3]) ||
      (apply (Rmult_eq_reg_r (in_kms z)); [assumption|exact N4]).
Qed.
Lemma sees_orbit c c1 u o o1 : ready G c u o -> sees G c c1 -> ready G c1 u o1 -> p_g (c_ph c1) = p_g (c_ph c) /\ p_c (c_ph c1) = p_c (c_ph c).
Proof.
  move=> [HS [Hu [Hl [Ho Hf]]]] [V [_ [Sc _]]] [_ [Hu1 _]]. rewrite /galactic_view Hu Hu1 Sc in V. cbn zeta in V.
  have [_ [_ [N3 N4]]] := unit_size_nz u HS.
  have E1 := f_equal p_g V. have E2 := f_equal p_c V. cbn [p_g p_c] in E1, E2.
  split; [exact (view6_inj N3 N4 E1)|exact (view6_inj N3 N4 E2)].
Qed.
Lemma tail_frame c u o : ready G c u o -> SpecFrame.aligned c -> analyze true true c = c ->
  let c1 := if off_centre c then to_centre false c else c in
  p_g (c_ph c1) = p_g (c_ph c) /\ restored c (return_cluster G (save_cluster c) c1) /\
  length (rows6 (p_s (c_ph c1))) = nstars c /\ forall i, (i < nstars c)%nat -> nth i (rows6 (p_s (c_ph c1))) zero6 = own_star c i.
Proof.
  move=> HR HL HA. have [HS [Hu [Hl [Ho Hf]]]] := HR. cbn zeta.
  have [S1 R1] := centred false HR. cbn zeta in S1, R1. have V := seen_viewed HR S1 R1 eq_refl.
  move: (if off_centre c then to_centre false c else c) S1 R1 V => c1 S1 R1 V.
  split; [exact (proj1 (sees_orbit HR S1 R1))|]. split; [exact (bracket_sees HR S1 HA)|].
  have AL := vw_al V HL. have LN : length (sx (p_s (c_ph c1))) = nstars c by rewrite (proj1 AL) -/(nstars c1) (vw_n V).
  split; [by rewrite rows_length|]. move=> i Hi. rewrite (rows_nth LN Hi).
  have [_ [_ [N3 N4]]] := unit_size_nz u HS. exact (view6_inj N3 N4 (vw_star V HL Hi)).
Qed.
Lemma rows_map_nth (f : six R -> six R) l i n : length l = n -> (i < n)%nat -> row (unstack6 (map f l)) i = f (nth i l zero6).
Proof.
  move=> L H. rewrite /row unstack_nth; [by rewrite map_length L|]. by rewrite (@nth_map' _ _ f l i zero6 zero6) // L.
Qed.

Lemma len3_zero x y z : len3 (x, y, z) = 0 -> np_norm (mk3 x y z) = 0.
Proof. by rewrite norm_dot. Qed.
Theorem to_tail_ok c u o : ready G c u o -> SpecFrame.aligned c -> analyze true true c = c ->
  let v := motion (p_g (c_ph c)) in 0 < len3 v -> -1 + 1 / 10 ^ 10 <= xcos v ->
  exists f s c', to_tail G c = (Some s, c') /\ restored c c' /\ is_rotation f /\ seen_under f c s /\
    (xcos v <= 1 - 1 / 10 ^ 10 \/ v = (len3 v, 0, 0) -> f v = (len3 v, 0, 0)) /\
    len3 (minus3 (f v) (len3 v, 0, 0)) <= 15 / 1000000 * len3 v.
Proof.
  move=> HR HL HA v LV XV. have [PG [RS [LN ST]]] := tail_frame HR HL HA.
  rewrite /to_tail. move: (if off_centre c then to_centre false c else c) PG RS LN ST => c1 PG RS LN ST. rewrite PG.
  have [m [E [M1 [M2 M3]]]] := rotate_ok LV XV. rewrite E. cbn [option_map].
  exists (turn m). eexists. eexists. split; [reflexivity|]. split; [exact RS|]. split; [exact M1|]. split.
  { move=> i Hi. rewrite (rows_map_nth (tail_row m) LN Hi) ST //. }
  split; [|exact M3]. move=> [D|D]; apply M2; [by left|right]. rewrite /v /motion in D. split; congruence.
Qed.
Theorem to_tail_anti c u o : ready G c u o -> SpecFrame.aligned c -> analyze true true c = c ->
  let v := motion (p_g (c_ph c)) in 0 < len3 v -> xcos v < -1 + 1 / 10 ^ 10 ->
  exists f s c', to_tail G c = (Some s, c') /\ restored c c' /\ is_mirror f /\ seen_under f c s.
Proof.
  move=> HR HL HA v LV XV. have [PG [RS [LN ST]]] := tail_frame HR HL HA.
  rewrite /to_tail. move: (if off_centre c then to_centre false c else c) PG RS LN ST => c1 PG RS LN ST. rewrite PG.
  have [m [E [M1 M2]]] := rotate_anti LV XV. rewrite E. cbn [option_map].
  exists (turn m). eexists. eexists. split; [reflexivity|]. split; [exact RS|]. split; [exact M1|].
  move=> i Hi. rewrite (rows_map_nth (tail_row m) LN Hi) ST //.
Qed.
Theorem to_tail_rest c u o : ready G c u o -> SpecFrame.aligned c -> analyze true true c = c ->
  motion (p_g (c_ph c)) = (0, 0, 0) -> exists c', to_tail G c = (None, c') /\ restored c c'.
Proof.
  move=> HR HL HA E. have [PG [RS _]] := tail_frame HR HL HA.
  rewrite /to_tail. move: (if off_centre c then to_centre false c else c) PG RS => c1 PG RS. rewrite PG.
  eexists. split; [|exact RS]. f_equal. rewrite /rotate_to.
  have -> : Reqb (np_norm (mk3 (svx (p_g (c_ph c))) (svy (p_g (c_ph c))) (svz (p_g (c_ph c))))) 0 = true; [|by []].
  apply Reqb_spec. rewrite norm_dot. cbn [v1 v2 v3]. rewrite -/(motion (p_g (c_ph c))) E /len3 /dot3. rewrite -[RHS]sqrt_0. f_equal. ring.
Qed.
End WithGalpy.
