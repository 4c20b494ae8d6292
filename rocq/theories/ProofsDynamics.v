(* Proofs: the stars of a cluster seen from a working frame in other units. *)
From Verif Require Import Base ModelCluster ModelOps ModelConv ModelEnergy ModelRecipes ModelLagrange ModelDynamics.
From Verif Require Import SpecUnits SpecFrame SpecOrder SpecRecipes SpecEnergy SpecLagrange SpecProfiles SpecDynamics.
From Verif Require Import ProofsUnits ProofsFrame ProofsSort ProofsSees ProofsEnergy ProofsEnergyUnits ProofsRecipes ProofsRecipes2 ProofsLagrange ProofsProfiles ProofsProfiles5.
Set Implicit Arguments. Unset Strict Implicit.

Lemma map_map_nth (f g : R -> R) l k i : map f l = map g k -> (i < length l)%nat -> f (nth i l 0) = g (nth i k 0).
Proof.
  move=> E H. have L : length l = length k by rewrite -(map_length f l) E map_length.
  have := f_equal (fun z => nth i z 0) E. cbn beta.
  rewrite (@nth_map' _ _ f l i 0 0) // (@nth_map' _ _ g k i 0 0) -?L //.
Qed.
Lemma map_map_length (f g : R -> R) l k : map f l = map g k -> length l = length k.
Proof. move=> E. by rewrite -(map_length f l) E map_length. Qed.

Section WithGalpy.
Variable G : galpy.

(* the working frame of a routine: the centre when the cluster is stored relative to the galaxy, else as stored *)
Definition work_origin (o : osys) : osys := match o with Ogalaxy => Ocentre | _ => o end.

Record viewed (c c2 : cluster) (ku kU : usize) : Prop := {
  vw_n : nstars c2 = nstars c;
  vw_al : SpecFrame.aligned c -> SpecFrame.aligned c2;
  vw_mass : forall i, (i < nstars c)%nat -> mass c2 i * in_Msun kU = mass c i * in_Msun ku;
  vw_sum : sumR (p_m (c_ph c2)) * in_Msun kU = sumR (p_m (c_ph c)) * in_Msun ku;
  vw_star : SpecFrame.aligned c -> forall i, (i < nstars c)%nat ->
     view6 kU (star_row c2 i) = view6 ku (own_star c i);
  vw_g : view6 kU (p_g (c_ph c2)) = view6 ku (p_g (c_ph c));
  vw_c : view6 kU (p_c (c_ph c2)) = view6 ku (p_c (c_ph c)) }.

Lemma seen_viewed c c2 u o U o2 : ready G c u o -> sees G c c2 -> ready G c2 U o2 -> o2 = work_origin o ->
  viewed c c2 (unit_size G (c_sc c) u) (unit_size G (c_sc c) U).
Proof.
  move=> [HS [Hu [Hl [Ho Hf]]]] [V [_ [Sc _]]] [HS2 [Hu2 [Hl2 [Ho2 Hf2]]]] E.
  rewrite /galactic_view Hu Hu2 Sc in V. set kU := unit_size _ _ U in V *. set ku := unit_size _ _ u in V *.
  cbn zeta in V.
  have Vm := f_equal p_m V. have Vg := f_equal p_g V. have Vc := f_equal p_c V. have Vs := f_equal p_s V.
  cbn [p_m p_g p_c p_s] in Vm, Vg, Vc, Vs.
  have X := f_equal (@sx _) Vs. have Y := f_equal (@sy _) Vs. have Zz := f_equal (@sz _) Vs.
  have VX := f_equal (@svx _) Vs. have VY := f_equal (@svy _) Vs. have VZ := f_equal (@svz _) Vs.
  cbn [sx sy sz svx svy svz] in X, Y, Zz, VX, VY, VZ.
  have L : nstars c2 = nstars c by exact (map_map_length Vm).
  have AL : SpecFrame.aligned c -> SpecFrame.aligned c2.
  { move=> [A1 [A2 [A3 [A4 [A5 A6]]]]]. rewrite /SpecFrame.aligned.
    rewrite (map_map_length X) (map_map_length Y) (map_map_length Zz) (map_map_length VX) (map_map_length VY) (map_map_length VZ) (map_map_length Vm).
    by repeat split. }
  constructor.
  - exact L.
  - exact AL.
  - move=> i Hi. apply (map_map_nth (f := fun a => a * in_Msun kU) (g := fun a => a * in_Msun ku) Vm). by rewrite -/(nstars c2) L.
  - rewrite -!sumR_map_mul. by rewrite Vm.
  - move=> A i Hi. have [A1 [A2 [A3 [A4 [A5 A6]]]]] := AL A. rewrite -L /nstars in Hi.
    have X' := map_map_nth X (eq_ind_r (fun z => (i < z)%nat) Hi A1).
    have Y' := map_map_nth Y (eq_ind_r (fun z => (i < z)%nat) Hi A2).
    have Z' := map_map_nth Zz (eq_ind_r (fun z => (i < z)%nat) Hi A3).
    have VX' := map_map_nth VX (eq_ind_r (fun z => (i < z)%nat) Hi A4).
    have VY' := map_map_nth VY (eq_ind_r (fun z => (i < z)%nat) Hi A5).
    have VZ' := map_map_nth VZ (eq_ind_r (fun z => (i < z)%nat) Hi A6).
    clear X Y Zz VX VY VZ Vs V Vm. cbn beta in *.
    have g1 := f_equal (@sx _) Vg. have g2 := f_equal (@sy _) Vg. have g3 := f_equal (@sz _) Vg.
    have g4 := f_equal (@svx _) Vg. have g5 := f_equal (@svy _) Vg. have g6 := f_equal (@svz _) Vg.
    have c1 := f_equal (@sx _) Vc. have c2' := f_equal (@sy _) Vc. have c3 := f_equal (@sz _) Vc.
    have c4 := f_equal (@svx _) Vc. have c5 := f_equal (@svy _) Vc. have c6 := f_equal (@svz _) Vc.
    rewrite /view6 in g1 g2 g3 g4 g5 g6 c1 c2' c3 c4 c5 c6. cbn [sx sy sz svx svy svz] in g1, g2, g3, g4, g5, g6, c1, c2', c3, c4, c5, c6.
    rewrite /origin_shift Ho2 Ho E in X' Y' Z' VX' VY' VZ'.
    rewrite /star_row /own_star Ho /view6 /map6. cbn [sx sy sz svx svy svz].
    destruct o; cbn [work_origin sx sy sz svx svy svz] in X', Y', Z', VX', VY', VZ'; try (by case: Hf); f_equal; lra.
  - exact Vg.
  - exact Vc.
Qed.

(* distances and speeds *)
Lemma sqrt_scale2 k a b : 0 <= k -> sqrt (a ^ 2 + b ^ 2) * k = sqrt ((a * k) ^ 2 + (b * k) ^ 2).
Proof.
  move=> K. have -> : (a * k) ^ 2 + (b * k) ^ 2 = (a ^ 2 + b ^ 2) * (k * k) by ring.
  rewrite sqrt_mult; [have := pow2_ge_0 a; have := pow2_ge_0 b; lra|nra|]. by rewrite sqrt_square.
Qed.
Lemma sqrt_scale3 k a b c : 0 <= k -> sqrt (a ^ 2 + b ^ 2 + c ^ 2) * k = sqrt ((a * k) ^ 2 + (b * k) ^ 2 + (c * k) ^ 2).
Proof.
  move=> K. have -> : (a * k) ^ 2 + (b * k) ^ 2 + (c * k) ^ 2 = (a ^ 2 + b ^ 2 + c ^ 2) * (k * k) by ring.
  rewrite sqrt_mult; [have := pow2_ge_0 a; have := pow2_ge_0 b; have := pow2_ge_0 c; lra|nra|]. by rewrite sqrt_square.
Qed.
Lemma own_distance6 p c i : own_distance p c i = radius6 p (own_star c i).
Proof.
  rewrite /own_distance /own_centre /radius6 /own_star. destruct (c_origin c) as [[]|]; destruct p; cbn [sx sy sz]; f_equal; ring.
Qed.
Lemma radius_view p k a : 0 <= in_pc k -> radius6 p a * in_pc k = radius6 p (view6 k a).
Proof. move=> K. rewrite /radius6 /view6. cbn [sx sy sz]. destruct p; [exact: sqrt_scale2|exact: sqrt_scale3]. Qed.
Lemma speed_view p k a : 0 <= in_kms k -> speed6 p a * in_kms k = speed6 p (view6 k a).
Proof. move=> K. rewrite /speed6 /view6. cbn [svx svy svz]. destruct p; [exact: sqrt_scale2|exact: sqrt_scale3]. Qed.

Lemma viewed_distance p c c2 ku kU i : viewed c c2 ku kU -> 0 <= in_pc ku -> 0 <= in_pc kU -> SpecFrame.aligned c -> (i < nstars c)%nat ->
  radius6 p (star_row c2 i) * in_pc kU = own_distance p c i * in_pc ku.
Proof. move=> V H1 H2 A Hi. by rewrite own_distance6 !radius_view // (vw_star V A Hi). Qed.
Lemma viewed_speed p c c2 ku kU i : viewed c c2 ku kU -> 0 <= in_kms ku -> 0 <= in_kms kU -> SpecFrame.aligned c -> (i < nstars c)%nat ->
  speed6 p (star_row c2 i) * in_kms kU = speed6 p (own_star c i) * in_kms ku.
Proof. move=> V H1 H2 A Hi. by rewrite !speed_view // (vw_star V A Hi). Qed.

Lemma norms_radius (p : bool) c i : norms c -> SpecFrame.aligned c -> (i < nstars c)%nat ->
  nth i (if p then d_rpro (c_der c) else d_r (c_der c)) 0 = radius6 p (star_row c i).
Proof.
  move=> [N1 [N2 _]] [A1 [A2 [A3 _]]] Hi. rewrite /nstars in Hi. rewrite /radius6 /star_row /map6. cbn [sx sy sz].
  destruct p; [rewrite N2 norm2_nth //; lia|rewrite N1 norm3_nth //; lia].
Qed.
Lemma norms_speed (p : bool) c i : norms c -> SpecFrame.aligned c -> (i < nstars c)%nat ->
  nth i (if p then d_vpro (c_der c) else d_v (c_der c)) 0 = speed6 p (star_row c i).
Proof.
  move=> [_ [_ [N1 N2]]] [A1 [A2 [A3 [A4 [A5 A6]]]]] Hi. rewrite /nstars in Hi. rewrite /speed6 /star_row /map6. cbn [svx svy svz].
  destruct p; [rewrite N2 norm2_nth //; lia|rewrite N1 norm3_nth //; lia].
Qed.
Lemma norms_length (p : bool) c : norms c -> SpecFrame.aligned c ->
  length (if p then d_rpro (c_der c) else d_r (c_der c)) = nstars c /\ length (if p then d_vpro (c_der c) else d_v (c_der c)) = nstars c.
Proof.
  move=> [N1 [N2 [N3 N4]]] [A1 [A2 [A3 [A4 [A5 A6]]]]]. rewrite /nstars.
  destruct p; [rewrite N2 N4 /norm2 !zip_with_length; lia|rewrite N1 N3 !norm3_length; lia].
Qed.
End WithGalpy.
