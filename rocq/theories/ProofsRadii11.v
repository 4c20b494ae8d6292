(* Proofs: when the isothermal core radius raises. *)
From Coq Require Import Sorted.
From Verif Require Import Base ModelCluster ModelOps ModelConv ModelEnergy ModelRecipes ModelStars ModelSubset ModelCoords ModelLagrange ModelProfiles ModelMassFunction ModelDynamics.
From Verif Require Import ModelTail ModelCentre ModelRadii.
From Verif Require Import SpecUnits SpecFrame SpecConv SpecOrder SpecRecipes SpecEnergy SpecSubset SpecLagrange SpecProfiles SpecDynamics SpecCentre SpecRadii.
From Verif Require Import ProofsUnits ProofsFrame ProofsSort ProofsOrder ProofsSees ProofsEnergy ProofsEnergyUnits ProofsVR ProofsLagrange ProofsProfiles ProofsDynamics ProofsDynamics2 ProofsDynamics4 ProofsRadii4 ProofsRadii5 ProofsRadii6.
Set Implicit Arguments. Unset Strict Implicit.

Lemma frac_some f r w o : w <> [] -> nonneg w -> 0 < sumR w -> 0 < f <= 1 -> Permutation o (seq 0 (length w)) ->
  exists d, frac_radius f w r (sumR w) o = Some d.
Proof.
  move=> Hne Hn Hpos [Hf0 Hf1] Hp.
  have Ho : o <> [] by move=> E; subst; apply Permutation_nil in Hp; destruct w.
  have Hthr : 0 < f * sumR w by apply Rmult_lt_0_compat.
  have [i Hi] : exists i, first_reaching o (cumsum_from 0 (take 0 w o)) (f * sumR w) = Some i.
  { apply first_reaching_some => //. rewrite take_perm_sum //. have : f * sumR w <= 1 * sumR w by apply Rmult_le_compat_r; lra. lra. }
  rewrite /frac_radius /cumsum Hi. by eexists.
Qed.

Section WithGalpy.
Variable G : galpy.

Lemma core_vord m (p : bool) c u o c1 : ready G c u o -> positive_scales G (c_sc c) -> well_sorted p c -> o = Ocentre \/ no_centre c = false ->
  core_frame G m c = Ok c1 -> vord c1.
Proof.
  move=> HR HP HW HC. have [HS [Hu [Hl [Ho Hf]]]] := HR. have [A0 [S0 [P0 [O0 V0]]]] := amuse_frame HR HP HW. rewrite /core_frame. cbn zeta in *.
  move: (match c_units c with Some Uamuse => to_pckms G c | _ => c end) A0 S0 P0 O0 V0 => c0 A0 S0 P0 O0 V0.
  have Nc : no_centre c0 = no_centre c by rewrite /no_centre P0.
  have [u0 [o0 [T1 [T2 [T3 [T4 T5]]]]]] := sees_ready S0. have FC : flat Ocentre by [].
  have V : vord (to_centre true c0).
  { have E : to_origin G (Oreq Ocentre) true c0 = to_centre true c0.
    { rewrite /to_origin T4. destruct (o0) eqn:Eo; [|by rewrite /to_centre T4; destruct (c_units c0) as [[]|]; rewrite ?analyze_idem|by rewrite /to_centre T4; destruct (c_units c0) as [[]|]; rewrite ?analyze_idem|by case: T5].
      by rewrite /to_centre T4 A0. }
    rewrite -E. exact (vord_origin T2 T3 T4 T5 FC V0). }
  rewrite Ho Nc. destruct o; [by move=> [<-]| | |by case: Hf].
  - destruct HC as [HC|HC]; [discriminate|]. rewrite HC => X. have <- : to_centre true c0 = c1 by congruence. exact V.
  - destruct HC as [HC|HC]; [discriminate|]. rewrite HC => X. have <- : to_centre true c0 = c1 by congruence. exact V.
Qed.

Lemma core_lagrange m (p : bool) mfrac c u o c1 : ready G c u o -> positive_scales G (c_sc c) -> analyze true true c = c -> SpecFrame.aligned c -> well_sorted p c ->
  o = Ocentre \/ no_centre c = false -> nonneg (p_m (c_ph c)) -> 0 < sumR (p_m (c_ph c)) -> 0 < mfrac <= 1 ->
  core_frame G m c = Ok c1 -> rlagrange_frac G mfrac p (to_pckms G c1) <> Raise.
Proof.
  move=> HR HP HA AL HW HC Hm Hs Hf E. have VO := core_vord HR HP HW HC E. have [c1' [U [E' [S1 [R1 [N1 [K1 [K2 EU]]]]]]]] := core_frame_ok m HR HA HC.
  have X : c1' = c1 by congruence. rewrite X {X E' c1'} in S1 R1 N1.
  have Sc : c_sc c1 = c_sc c by destruct S1 as [_ [_ [? _]]].
  have V := seen_central HR S1 R1.
  have Off : off_centre c1 = false by destruct R1 as [_ [_ [_ [Ho1 _]]]]; rewrite /off_centre Ho1.
  have PF := pc_frame_run R1. rewrite Off in PF. cbn zeta in PF. destruct PF as [ops [F [Er [A2 [S2 [R2 [N2 V2]]]]]]]. cbn [work_origin] in R2.
  have HP1 : positive_scales G (c_sc c1) by rewrite Sc.
  have VO2 : vord (to_pckms G c1) by rewrite Er; exact (vord_run HP1 R1 F VO).
  have S02 := sees_trans S1 S2. have R2' := R2.
  have V02 := seen_central HR S02 R2. have AL2 := ct_al V02 AL. have L2 := ct_n V02. have M2 := ct_mass V02. rewrite /nstars in L2.
  have [P1 [_ P3]] := size_positive HP (u := Upckms) ltac:(discriminate). have [Q1 [_ Q3]] : 0 < in_pc (sizes G c) /\ True /\ 0 < in_Msun (sizes G c).
  { have [_ [Hu [Hl _]]] := HR. rewrite /sizes Hu. have [? [_ ?]] := size_positive HP Hl. by split; [|split]. }
  have KP : kp c (to_pckms G c1) by destruct S02 as [_ [_ [_ [_ [_ [_ ?]]]]]].
  move: (to_pckms G c1) A2 VO2 R2 AL2 L2 M2 KP => c2 A2 VO2 R2 AL2 L2 M2 KP.
  have [_ [Hu2 [_ [Ho2 _]]]] := R2.
  have W2 := vord_well Ho2 A2 VO2.
  rewrite /rlagrange_frac. have -> : lagrange_frame G c2 = c2 by rewrite /lagrange_frame Hu2 Ho2 sortstars_settled.
  have [ro [rp [D SO]]] := vord_settled Ho2 A2 VO2.
  have Tot : d_mtot (c_der c2) = sumR (p_m (c_ph c2)) by rewrite D.
  have Em : map (fun a => a * in_Msun (unit_size G (c_sc c) Upckms)) (p_m (c_ph c2)) = map (fun a => a * in_Msun (sizes G c)) (p_m (c_ph c)).
  { apply (nth_ext _ _ 0 0); [by rewrite !map_length|]. move=> i. rewrite map_length => Hi. rewrite !ProofsRadii.nth_scale. apply M2. rewrite /nstars. lia. }
  have Sum : sumR (p_m (c_ph c2)) * in_Msun (unit_size G (c_sc c) Upckms) = sumR (p_m (c_ph c)) * in_Msun (sizes G c).
  { have := f_equal sumR Em. have X : forall k l, sumR (map (fun a => a * k) l) = sumR l * k. { move=> k l. induction l as [|a l IH]; [cbn; lra|]. cbn [map sumR fold_right]. rewrite -!/(sumR _) IH. lra. } by rewrite !X. }
  have Pos : 0 < sumR (p_m (c_ph c2)). { apply (Rmult_lt_reg_r (in_Msun (unit_size G (c_sc c) Upckms))) => //. rewrite Sum Rmult_0_l. by apply Rmult_lt_0_compat. }
  have Nn : nonneg (p_m (c_ph c2)).
  { move=> a Ha. have Ib : In (a * in_Msun (unit_size G (c_sc c) Upckms)) (map (fun a => a * in_Msun (sizes G c)) (p_m (c_ph c))) by rewrite -Em; apply (in_map (fun a => a * _)).
    apply in_map_iff in Ib as [b [Eb Ib]]. have B := Hm b Ib. apply (Rmult_le_reg_r (in_Msun (unit_size G (c_sc c) Upckms))) => //. rewrite Rmult_0_l -Eb. by apply Rmult_le_pos; [|lra]. }
  have Ne : p_m (c_ph c2) <> [] by move=> X; rewrite X in Pos; cbn in Pos; lra.
  have [A1 [A2' [A3' _]]] := AL2.
  have O : exists order, lagrange_order p c2 = Some order /\ Permutation order (seq 0 (length (p_m (c_ph c2)))).
  { rewrite /lagrange_order. destruct p.
    - have [_ [_ HW2]] := HW. have [rp' [W3 W4]] := HW2 eq_refl. destruct W4 as [W4 _].
      have Ld : length (distances_2d c) = length (p_m (c_ph c)). { have [B1 [B2 _]] := AL. rewrite /distances_2d map_length combine_length. lia. }
      have [|K _] := KP _ W3. { rewrite /proorder_ok -distances_2d_eq. by rewrite (Permutation_length W4) seq_length. }
      exists rp'. split=> //. rewrite L2 -Ld. exact W4.
    - have [_ [[o2 [W3 [W4 _]]] _]] := W2. exists o2. split=> //.
      have Ld : length (distances c2) = length (p_m (c_ph c2)). { rewrite /distances map_length !combine_length. lia. }
      rewrite -Ld. exact W4. }
  destruct O as [order [O1 O2]]. rewrite O1 Tot.
  have [d ->] := frac_some (lagrange_radii p c2) Ne Nn Pos Hf O2. discriminate.
Qed.

Theorem isothermal_full s u o (p : bool) mfrac : let c := g_c (y_k s) in
  ready G c u o -> weighed G p c -> measured s (nstars c) -> o = Ocentre \/ no_centre c = false -> 0 < mfrac <= 1 -> central_spread G p s ->
  exists lo mid hi rho, central_densities G p (nceil (1 / mfrac)) s lo mid hi rho /\
    let d := if p then 1 / 2 * nth 0 rho 0 else nth 0 rho 0 / 3 in
    match rcore_isothermal G mfrac p s with
    | Ok (r, s') => system_restored s s' /\ exists rc, r = Some rc /\ drops_to mid rho d (rc * in_pc (sizes G c))
    | Raise => forall i, (i < length rho)%nat -> d <= nth i rho 0
    end.
Proof.
  cbn zeta. move=> HR [HP [HW [Hm Hs]]] HM HC Hf SP. have HA := proj1 HW.
  have [lo [mid [hi [rho [T X]]]]] := @isothermal_core G s u o p mfrac HR HP HA HM HC (proj1 Hf) SP. exists lo, mid, hi, rho. split; [exact T|]. cbn zeta in X |- *.
  destruct (rcore_isothermal G mfrac p s) as [[r s']|]; [exact X|].
  have AL := ProofsRadii2.catalog_aligned (proj1 HM).
  destruct X as [[c1 [E1 E2]]|[X|X]]; [|exact X|].
  - exfalso. exact (core_lagrange HR HP HA AL HW HC Hm Hs Hf E1 E2).
  - move=> i Hi. exfalso. have X0 := X 0%nat ltac:(lia). destruct T as [_ [_ [_ [_ [Lr H]]]]].
    have [[B1 B2] [_ [_ [l [M Es]]]]] := H 0%nat ltac:(lia).
    have Ss : 0 <= sumR (map (sun_mass G (g_c (y_k s))) l).
    { have [_ [Hu [Hl _]]] := HR. have [_ [_ Q]] := size_positive HP Hl. apply sumR_nonneg => a /in_map_iff [j [<- _]]. rewrite /sun_mass /sizes Hu. apply Rmult_le_pos; [|lra]. by apply nth_nonneg. }
    have Sh : 0 < shell p (nth 0 lo 0) (nth 0 hi 0) by apply ProofsProfiles3.volume_pos; lra.
    rewrite -Es in Ss. have : 0 <= nth 0 rho 0 by apply (Rmult_le_reg_r (shell p (nth 0 lo 0) (nth 0 hi 0))) => //; lra. destruct p; lra.
Qed.
End WithGalpy.
