(* Proofs: the virial radius by critical density. *)
From Coq Require Import Sorted.
From Verif Require Import Base ModelCluster ModelOps ModelConv ModelEnergy ModelRecipes ModelStars ModelSubset ModelCoords ModelLagrange ModelProfiles ModelMassFunction ModelDynamics.
From Verif Require Import ModelTail ModelCentre ModelRadii.
From Verif Require Import SpecUnits SpecFrame SpecConv SpecOrder SpecRecipes SpecEnergy SpecLagrange SpecProfiles SpecDynamics SpecRadii.
From Verif Require Import ProofsUnits ProofsFrame ProofsConv ProofsOrder ProofsSort ProofsSees ProofsEnergy ProofsEnergyUnits ProofsVR ProofsRecipes ProofsRecipes2 ProofsLagrange ProofsProfiles ProofsProfiles5 ProofsDynamics ProofsDynamics2 ProofsDynamics3 ProofsDynamics4 ProofsTail3 ProofsRadii5 ProofsRadii6.
Set Implicit Arguments. Unset Strict Implicit.

Lemma all_some_spec {A} (l : list (option A)) : match all_some l with
  | Some k => l = map Some k
  | None => exists i, (i < length l)%nat /\ nth i l None = None end.
Proof.
  induction l as [|[a|] l IH] => //=.
  - destruct (all_some l) as [k|]; cbn [option_map].
    + by rewrite IH.
    + destruct IH as [i [I1 I2]]. exists (S i). split=> //. lia.
  - exists 0%nat. split=> //. lia.
Qed.
Lemma line_on r1 p1 r2 p2 d x : line_radius d r1 p1 r2 p2 = Some x -> on_line r1 p1 r2 p2 d x /\ r1 <> r2 /\ p1 <> p2.
Proof.
  rewrite /line_radius. cbn zeta. destruct (Reqb (r2 - r1) 0) eqn:E1 => //. apply Reqb_false in E1.
  destruct (Reqb _ 0) eqn:E2 => //. apply Reqb_false in E2. move=> [<-].
  have N : p2 - p1 <> 0 by move=> Z0; apply E2; rewrite Z0 /Rdiv Rmult_0_l.
  split; [|split; lra]. rewrite /on_line. field. split; lra.
Qed.
Lemma line_none r1 p1 r2 p2 d : line_radius d r1 p1 r2 p2 = None -> r1 = r2 \/ p1 = p2.
Proof.
  rewrite /line_radius. cbn zeta. destruct (Reqb (r2 - r1) 0) eqn:E1; [left; apply Reqb_spec in E1; lra|]. apply Reqb_false in E1.
  destruct (Reqb _ 0) eqn:E2 => //. right. apply Reqb_spec in E2.
  have : (p2 - p1) / (r2 - r1) * (r2 - r1) = p2 - p1 by field; lra. rewrite E2. lra.
Qed.

Lemma pi_43 r : r <> 0 -> 4 / 3 * PI * r ^ 3 <> 0.
Proof. move=> H. have := PI_RGT_0. have := pow_nonzero r 3 H. move=> A B. apply Rmult_integral_contrapositive_currified => //. lra. Qed.
Lemma sumR_firstn_map (f : nat -> R) l k : sumR (firstn k (map f l)) = sumR (map f (firstn k l)). Proof. by rewrite firstn_map. Qed.

Section Pure.
Variables (rho : R) (m r : list R) (order : list nat).
Hypotheses (No : order <> []) (Lr : forall i, In i order -> (i < length r)%nat).

Lemma critical_ok : match critical_radius rho m r order with
  | Some x => exists P, mean_densities (fun i => nth i r 0) (fun i => nth i m 0) order P /\ crosses (map (fun i => nth i r 0) order) P rho x
  | None => (exists i, In i order /\ nth i r 0 = 0) \/
      exists P k, mean_densities (fun i => nth i r 0) (fun i => nth i m 0) order P /\ (S k < length order)%nat /\
        (nth (nth k order 0%nat) r 0 = nth (nth (S k) order 0%nat) r 0 \/ nth k P 0 = nth (S k) P 0)
  end.
Proof.
  rewrite /critical_radius. cbn zeta. set D := zip_with enclosed_density _ _.
  have LD : length D = length order by rewrite /D zip_with_length /cumsum cumsum_length /take !map_length Nat.min_id.
  have ND : forall k, (k < length order)%nat -> nth k D None = enclosed_density (sumR (map (fun i => nth i m 0) (firstn (S k) order))) (nth (nth k order 0%nat) r 0).
  { move=> k Hk. rewrite /D (@nth_zip_with _ _ _ _ _ _ k 0 0 None) ?/cumsum ?cumsum_length ?/take ?map_length //.
    rewrite cumsum_nth ?map_length // Rplus_0_l sumR_firstn_map. by rewrite (@nth_map' _ _ _ order k 0 0%nat). }
  have AS := all_some_spec D. destruct (all_some D) as [P|].
  - have LP : length P = length order by rewrite -LD AS map_length.
    have NP : forall k, (k < length order)%nat -> nth (nth k order 0%nat) r 0 <> 0 /\
      nth k P 0 * (4 / 3 * PI * nth (nth k order 0%nat) r 0 ^ 3) = sumR (map (fun i => nth i m 0) (firstn (S k) order)).
    { move=> k Hk. have := ND k Hk. rewrite AS (@nth_map' _ _ Some P k None 0) ?LP // /enclosed_density.
      destruct (Reqb _ 0) eqn:E => // X. apply Reqb_false in E. split=> //. have {X} -> : nth k P 0 = sumR (map (fun i => nth i m 0) (firstn (S k) order)) / (4 / 3 * PI * nth (nth k order 0%nat) r 0 ^ 3) by congruence.
      field. split; [exact E|]. have := PI_RGT_0. lra. }
    have MD : mean_densities (fun i => nth i r 0) (fun i => nth i m 0) order P.
    { split=> // k Hk. exact (proj2 (NP k Hk)). }
    have NT : forall k, (k < length order)%nat -> nth k (take 0 r order) 0 = nth (nth k order 0%nat) r 0.
    { move=> k Hk. by rewrite /take (@nth_map' _ _ _ order k 0 0%nat). }
    have L0 : (0 < length order)%nat by destruct order => //=; lia.
    set dP := map (fun p => Rabs (p - rho)) P.
    have dN : dP <> [] by rewrite /dP; destruct P => //; cbn in LP; lia.
    have [A1 [A2 _]] := argmin_ok dN. rewrite /dP map_length LP -/dP in A1 A2.
    have A3 : forall j, (j < length order)%nat -> Rabs (nth (argmin dP) P 0 - rho) <= Rabs (nth j P 0 - rho).
    { move=> j Hj. have := A2 j Hj. rewrite /dP !(@nth_map' _ _ _ P _ 0 0) ?LP //. }
    move: (argmin dP) A1 A3 => k A1 A3 {A2}. rewrite LP.
    have ED : map (fun i => nth i r 0) order = take 0 r order by []. rewrite ED.
    destruct (Nat.eqb k (length order - 1) || Nat.eqb k 0) eqn:Ek.
    + exists P. split=> //. exists k. rewrite LP. split=> //. split=> //. left. split=> //.
      apply orb_true_iff in Ek. destruct Ek as [Ek|Ek]; apply Nat.eqb_eq in Ek; tauto.
    + apply orb_false_iff in Ek. destruct Ek as [Ek1 Ek2]. apply Nat.eqb_neq in Ek1. apply Nat.eqb_neq in Ek2.
      destruct (Reqb (nth k P 0) rho) eqn:Er.
      * apply Reqb_spec in Er. exists P. split=> //. exists k. rewrite LP. split=> //. split=> //. left. tauto.
      * apply Reqb_false in Er. destruct (Rltb (nth k P 0) rho) eqn:El.
        -- apply Rltb_spec in El. destruct (line_radius _ _ _ _ _) as [x|] eqn:LE.
           ++ exists P. split=> //. exists k. rewrite LP. split=> //. split=> //. right. left. split; [lia|]. split=> //. exact (proj1 (line_on LE)).
           ++ right. exists P, (k - 1)%nat. split=> //. replace (S (k - 1)) with k by lia. split=> //. have := line_none LE. rewrite !NT //; lia.
        -- apply Rltb_false in El. destruct (line_radius _ _ _ _ _) as [x|] eqn:LE.
           ++ exists P. split=> //. exists k. rewrite LP. split=> //. split=> //. right. right. split; [lia|]. split; [lra|]. exact (proj1 (line_on LE)).
           ++ right. exists P, k. split=> //. replace (S k) with (k + 1)%nat by lia. split; [lia|]. have := line_none LE. rewrite !NT //; lia.
  - left. destruct AS as [i [I1 I2]]. rewrite LD in I1. rewrite ND // /enclosed_density in I2. destruct (Reqb _ 0) eqn:E => //.
    apply Reqb_spec in E. exists (nth i order 0%nat). split=> //. exact: nth_In.
Qed.
End Pure.

(* densities that fall outwards *)
Lemma falling_ok r P rho x : length r = length P -> (forall k, (S k < length P)%nat -> nth (S k) P 0 < nth k P 0) ->
  crosses r P rho x -> crosses_falling r P rho x.
Proof.
  move=> L Dec [k [K1 [K2 K3]]]. destruct K3 as [[[K3|[K3|K3]] K4]|[[K3 [K4 K5]]|[K3 [K4 K5]]]].
  - right. exists k. split; [by left|]. by split.
  - right. exists k. split; [by right|]. by split.
  - destruct (Nat.eq_dec (S k) (length P)) as [E|N].
    { right. exists k. split; [right; lia|]. by split. }
    left. exists k. split; [lia|]. have D := Dec k ltac:(lia). split; [lra|]. rewrite K4. split; [rewrite K3; ring|].
    rewrite /Rmin /Rmax. destruct (Rle_dec _ _); lra.
  - have A := K2 (k - 1)%nat ltac:(lia). have D := Dec (k - 1)%nat ltac:(lia). replace (S (k - 1)) with k in D by lia.
    have B : rho <= nth (k - 1) P 0 by move: A; unfold Rabs; repeat destruct Rcase_abs; lra.
    left. exists (k - 1)%nat. replace (S (k - 1)) with k by lia. split; [lia|]. split; [lra|]. split=> //.
    rewrite /on_line in K5. have T : x = nth (k - 1) r 0 + (nth (k - 1) P 0 - rho) / (nth (k - 1) P 0 - nth k P 0) * (nth k r 0 - nth (k - 1) r 0).
    { apply (Rmult_eq_reg_r (nth (k - 1) P 0 - nth k P 0)); [|lra].
      transitivity ((x - nth (k - 1) r 0) * (nth (k - 1) P 0 - nth k P 0) + nth (k - 1) r 0 * (nth (k - 1) P 0 - nth k P 0)); [ring|]. rewrite K5. field. lra. }
    have Tt : 0 <= (nth (k - 1) P 0 - rho) / (nth (k - 1) P 0 - nth k P 0) <= 1.
    { split; [apply Rmult_le_pos; [lra|apply Rlt_le, Rinv_0_lt_compat; lra]|]. apply (Rmult_le_reg_r (nth (k - 1) P 0 - nth k P 0)); [lra|].
      rewrite /Rdiv Rmult_assoc Rinv_l; lra. }
    move: ((nth (k - 1) P 0 - rho) / (nth (k - 1) P 0 - nth k P 0)) T Tt => t T Tt. rewrite T /Rmin /Rmax. destruct (Rle_dec _ _); nra.
  - have A := K2 (k + 1)%nat ltac:(lia). have D := Dec k ltac:(lia). replace (S k) with (k + 1)%nat in D by lia.
    have B : nth (k + 1) P 0 <= rho by move: A; unfold Rabs; repeat destruct Rcase_abs; lra.
    left. exists k. replace (S k) with (k + 1)%nat by lia. split; [lia|]. split; [lra|]. split=> //.
    rewrite /on_line in K5. have T : x = nth k r 0 + (nth k P 0 - rho) / (nth k P 0 - nth (k + 1) P 0) * (nth (k + 1) r 0 - nth k r 0).
    { apply (Rmult_eq_reg_r (nth k P 0 - nth (k + 1) P 0)); [|lra].
      transitivity ((x - nth k r 0) * (nth k P 0 - nth (k + 1) P 0) + nth k r 0 * (nth k P 0 - nth (k + 1) P 0)); [ring|]. rewrite K5. field. lra. }
    have Tt : 0 <= (nth k P 0 - rho) / (nth k P 0 - nth (k + 1) P 0) <= 1.
    { split; [apply Rmult_le_pos; [lra|apply Rlt_le, Rinv_0_lt_compat; lra]|]. apply (Rmult_le_reg_r (nth k P 0 - nth (k + 1) P 0)); [lra|].
      rewrite /Rdiv Rmult_assoc Rinv_l; lra. }
    move: ((nth k P 0 - rho) / (nth k P 0 - nth (k + 1) P 0)) T Tt => t T Tt. rewrite T /Rmin /Rmax. destruct (Rle_dec _ _); nra.
Qed.

Section WithGalpy.
Variable G : galpy.

Lemma pc_order (p : bool) c u o : ready G c u o -> positive_scales G (c_sc c) -> SpecFrame.aligned c -> well_sorted p c ->
  (p = true -> c_origin c <> Some Ogalaxy) ->
  let c1 := relax_frame G c in
  sees G c c1 /\ p_m (c_ph c1) = map (sun_mass G c) (stars c) /\ lagrange_radii p c1 = map (pc_distance G p c) (stars c) /\
  exists order, lagrange_order p c1 = Some order /\ sorted_order order (map (pc_distance G p c) (stars c)).
Proof.
  move=> HR HP HL HW Hp. have [HS [Hu [Hl [Ho Hf]]]] := HR. cbn zeta. have HA : analyze true true c = c by destruct HW.
  rewrite (relax_frame_eq G HA).
  have [ops [F [E [A [S1 [R1 [N V]]]]]]] := pc_frame_run HR.
  set c1 := to_pckms G _ in E A S1 R1 N V *.
  have VO : vord c1 by rewrite E; exact (vord_run HP HR F (settled_vord Ho HW)).
  have [_ [Hu1 [_ [Ho1 _]]]] := R1.
  have [ro [rp [D SO]]] := vord_settled Ho1 A VO.
  have PR := @pc_radii G c c1 u o HR HP HL V N. have PM := @pc_masses G c c1 u o HR V.
  have RL : rlist c1 = map (pc_distance G false c) (stars c) by rewrite -(PR false) D.
  split=> //. split=> //. split; [exact (PR p)|].
  destruct p.
  - have [_ [_ HW2]] := HW. have [rp' [W1 W2]] := HW2 eq_refl.
    have [_ [_ [_ [_ [_ [_ K]]]]]] := S1.
    have [|K1 _] := K _ W1.
    { rewrite /proorder_ok -distances_2d_eq. destruct W2 as [W2 _]. by rewrite (Permutation_length W2) seq_length. }
    have Sorted : sorted_order rp' (map (pc_distance G true c) (stars c)).
    { have [P1 _] := size_positive HP Hl. have X := sorted_order_scale P1 W2.
      rewrite (@distances_2d_own true c HL (Hp eq_refl) eq_refl) /own_distances map_map in X.
      rewrite /pc_distance /sizes Hu. exact X. }
    by exists rp'.
  - exists ro. rewrite /lagrange_order D. split=> //. by rewrite -RL -distances_eq.
Qed.

Theorem critical_density_ok crit H Om overdens (p : bool) c u o : ready G c u o -> positive_scales G (c_sc c) -> SpecFrame.aligned c -> well_sorted p c ->
  (p = true -> c_origin c <> Some Ogalaxy) -> (0 < nstars c)%nat ->
  let rho := crit (vo (c_sc c)) (ro (c_sc c)) H * overdens in
  exists order rv c', sorted_order order (map (pc_distance G p c) (stars c)) /\
    virial_radius_critical_density G crit H Om overdens p c = Ok (rv, c') /\ restored c c' /\
    match rv with
    | Some x => exists P, mean_densities (pc_distance G p c) (sun_mass G c) order P /\
        crosses (map (pc_distance G p c) order) P rho (x * in_pc (sizes G c))
    | None => (exists i, (i < nstars c)%nat /\ pc_distance G p c i = 0) \/
        exists P k, mean_densities (pc_distance G p c) (sun_mass G c) order P /\ (S k < nstars c)%nat /\
          (pc_distance G p c (nth k order 0%nat) = pc_distance G p c (nth (S k) order 0%nat) \/ nth k P 0 = nth (S k) P 0)
    end.
Proof.
  move=> HR HP HL HW Hp H0. have [HS [Hu [Hl [Ho Hf]]]] := HR. cbn zeta. have HA : analyze true true c = c by destruct HW.
  have [S1 [PM [PR [order [O1 O2]]]]] := pc_order HR HP HL HW Hp. cbn zeta in *.
  have B := bracket_sees HR S1 HA. cbn zeta in B. rewrite /virial_radius_critical_density.
  have Sc : c_sc (relax_frame G c) = c_sc c by destruct S1 as [_ [_ [? _]]].
  cbn zeta. rewrite O1 Sc PM PR. have LS : length (stars c) = nstars c by rewrite /stars seq_length.
  have Lo : length order = nstars c by have [Pm _] := O2; rewrite (Permutation_length Pm) seq_length map_length LS.
  have In_o : forall i, In i order <-> (i < nstars c)%nat.
  { move=> i. have [Pm _] := O2. split; move=> Hi.
    - have := Permutation_in _ Pm Hi. rewrite map_length LS => /in_seq. lia.
    - apply (Permutation_in _ (Permutation_sym Pm)). rewrite map_length LS. apply in_seq. lia. }
  have No : order <> [] by move=> E0; rewrite E0 in Lo; cbn in Lo; lia.
  have Nth : forall (f : nat -> R) i, (i < nstars c)%nat -> nth i (map f (stars c)) 0 = f i by move=> f i Hi; rewrite /stars nth_map_seq.
  have CK := @critical_ok (crit (vo (c_sc c)) (ro (c_sc c)) H * overdens) (map (sun_mass G c) (stars c)) (map (pc_distance G p c) (stars c)) order No
    ltac:(by move=> i /In_o Hi; rewrite map_length LS).
  have MD : forall P, mean_densities (fun i => nth i (map (pc_distance G p c) (stars c)) 0) (fun i => nth i (map (sun_mass G c) (stars c)) 0) order P ->
    mean_densities (pc_distance G p c) (sun_mass G c) order P.
  { move=> P [L M]. split=> // k Hk. have X := M k Hk. rewrite Nth in X; [by apply In_o, nth_In|]. rewrite X. f_equal. apply map_ext_in => i Hi.
    apply Nth, In_o. rewrite -(firstn_skipn (S k) order). apply in_or_app. by left. }
  have Dm : map (fun i => nth i (map (pc_distance G p c) (stars c)) 0) order = map (pc_distance G p c) order by apply map_ext_in => i /In_o Hi; exact: Nth.
  rewrite Dm in CK. exists order. destruct order as [|o0 ot] eqn:EO => //. rewrite -EO in In_o Lo O2 MD CK *.
  move: (critical_radius _ _ _ order) CK => rv CK. eexists _, _. split=> //. split; [reflexivity|]. split; [exact B|].
  destruct rv as [x|]; cbn [option_map].
  - destruct CK as [P [C1 C2]]. exists P. split; [exact: MD|]. destruct B as [_ [B2 [_ [_ [B5 _]]]]].
    rewrite (@length_correct G _ Upckms u); [by rewrite B5|by rewrite B2|discriminate|exact Hl|]. rewrite B5 /sizes Hu /rsc.
    have [P1 _] := size_positive HP Hl. have -> : x * (in_pc (unit_size G (c_sc c) Upckms) / in_pc (unit_size G (c_sc c) u)) * in_pc (unit_size G (c_sc c) u) = x.
    { change (in_pc (unit_size G (c_sc c) Upckms)) with 1. field. lra. }
    exact C2.
  - destruct CK as [[i [C1 C2]]|[P [k [C1 [C2 C3]]]]].
    + left. exists i. apply In_o in C1. split=> //. by rewrite Nth in C2.
    + right. exists P, k. split; [exact: MD|]. rewrite Lo in C2. split=> //. rewrite !Nth in C3 => //; apply In_o, nth_In; lia.
Qed.
End WithGalpy.
