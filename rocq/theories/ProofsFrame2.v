From Coq Require Import Sorted.
From Verif Require Import Base ModelCluster ModelOps SpecUnits SpecFrame SpecOrder SpecBinUnits
  ProofsUnits ProofsFrame ProofsOrder ProofsSort ProofsBinUnits.
Set Implicit Arguments. Unset Strict Implicit.

Lemma run_commute G ops1 ops2 c u o : ready G c u o -> Forall flat_op ops1 -> Forall flat_op ops2 ->
  last_units ops1 u = last_units ops2 u -> last_origin ops1 o = last_origin ops2 o ->
  c_ph (run G ops1 c) = c_ph (run G ops2 c).
Proof.
  move=> HR H1 H2 E1 E2.
  have [V [R1 [S1 _]]] := run_view HR H1. have [V' [R1' [S1' _]]] := run_view HR H2.
  rewrite E1 E2 in R1. apply (view_inj R1 R1'); congruence.
Qed.

Lemma run_round_trip G ops c u o : ready G c u o -> Forall flat_op ops -> last_units ops u = u ->
  last_origin ops o = o -> c_ph (run G ops c) = c_ph c.
Proof. move=> HR HF E1 E2. by rewrite (@run_commute G ops [] c u o). Qed.

Lemma origin_rigid G sort c u o o' : ready G c u o -> flat o' ->
  let c' := to_origin G (Oreq o') sort c in
  p_t (c_ph c') = p_t (c_ph c) /\ p_m (c_ph c') = p_m (c_ph c) /\ c_id c' = c_id c /\
  forall comp : six (list R) -> list R,
    In comp [@sx (list R); @sy (list R); @sz (list R); @svx (list R); @svy (list R); @svz (list R)] ->
    length (comp (p_s (c_ph c'))) = length (comp (p_s (c_ph c))) /\
    forall i j, (i < length (comp (p_s (c_ph c))))%nat -> (j < length (comp (p_s (c_ph c))))%nat ->
      nth i (comp (p_s (c_ph c'))) 0 - nth j (comp (p_s (c_ph c'))) 0 =
      nth i (comp (p_s (c_ph c))) 0 - nth j (comp (p_s (c_ph c))) 0.
Proof.
  move=> HR Hf /=. have [_ [_ [_ [Hid [_ [_ [Ht [Hm [_ [_ Hs]]]]]]]]]] := @to_origin_view G sort c u o o' HR Hf.
  repeat split => //.
  - rewrite Hs /reorigin /add6. move: H => [<-|[<-|[<-|[<-|[<-|[<-|[]]]]]]] /=; by rewrite vadd_length.
  - rewrite Hs /reorigin /add6 => i j.
    have N : forall l k i, (i < length l)%nat -> nth i (vadd l k) 0 = nth i l 0 + k.
    { move=> l k n Hn. rewrite /vadd (nth_indep _ 0 (0 + k)) ?map_length //. by rewrite (map_nth (fun a => a + k)). }
    move: H => [<-|[<-|[<-|[<-|[<-|[<-|[]]]]]]] /= Hi Hj; rewrite !N //; lra.
Qed.

(* ------------------------------------------------ half mass *)
Lemma view_lengths G c d : galactic_view G c = galactic_view G d ->
  length (p_m (c_ph c)) = length (p_m (c_ph d)) /\
  length (sx (p_s (c_ph c))) = length (sx (p_s (c_ph d))) /\ length (sy (p_s (c_ph c))) = length (sy (p_s (c_ph d))) /\
  length (sz (p_s (c_ph c))) = length (sz (p_s (c_ph d))).
Proof.
  rewrite /galactic_view. case=> _ E1 E2 E3 E4 _ _ _ _ _.
  apply (f_equal (@length R)) in E1, E2, E3, E4. by rewrite !map_length in E1 E2 E3 E4.
Qed.

Lemma half_mass_after_history G ops c u o :
  positive_scales G (c_sc c) -> ready G c u o -> Forall flat_op ops -> d_rorder (c_der c) = None ->
  aligned c -> nonneg (p_m (c_ph c)) -> 0 < sumR (p_m (c_ph c)) ->
  let c' := analyze true true (run G ops c) in
  exists rm r10, d_rm (c_der c') = Some rm /\ d_r10 (c_der c') = Some r10 /\
    is_fraction_radius (1/2) (distances c') (p_m (c_ph c')) rm /\
    is_fraction_radius (1/10) (distances c') (p_m (c_ph c')) r10.
Proof.
  move=> HP HR HF Hn HA Hm Hs /=.
  have [V [[HS' [Hu' [Hl' [Ho' Hf']]]] [Hsc _]]] := run_view HR HF.
  set c1 := run G ops c in V HS' Hu' Hl' Ho' Hsc |- *.
  have [r [H1 H2]] := order_after_history HP HR HF Hn. rewrite -/c1 in H1 H2.
  have [ro [rp [K1 [K2 [K3 [K4 K5]]]]]] := analyze_sorted c1.
  rewrite K1 in H1. case: H1 => H1. subst ro.
  have A := analyze_settled K1 K2 K3 K4 K5. rewrite analyze_idem in A.
  have Eph : c_ph (analyze true true c1) = c_ph c1 by apply c_ph_analyze.
  (* masses are rescaled by a positive factor *)
  have [L0 [L1 [L2 L3]]] := view_lengths V.
  have [Q1 [Q2 [Q3 _]]] := HA.
  have [k [Hk Em]] : exists k, 0 < k /\ p_m (c_ph c1) = map (fun a => a * k) (p_m (c_ph c)).
  { have E : map (fun a => a * in_Msun (unit_size G (c_sc c) (last_units ops u))) (p_m (c_ph c1)) =
             map (fun a => a * in_Msun (unit_size G (c_sc c) u)) (p_m (c_ph c)).
    { move: V. have [_ [Hu _]] := HR. rewrite /galactic_view Hu Hu' Hsc. by case. }
    set z1 := in_Msun (unit_size G (c_sc c) (last_units ops u)) in E.
    set z := in_Msun (unit_size G (c_sc c) u) in E.
    have P : forall v, 0 < in_Msun (unit_size G (c_sc c) v).
    { move=> v. move: HP => [? [? [? [? [? [? [? [? ?]]]]]]]]; destruct v; rewrite /unit_size /wd_mass_in_msun /=; try lra. }
    have P1 : 0 < z1 by apply P. have P2 : 0 < z by apply P.
    exists (z / z1). split; [by apply Rdiv_lt_0_compat|].
    apply (map_inj (f := fun a => a * z1)); [move=> a b /Rmult_eq_reg_r; lra|].
    rewrite E map_map. apply map_ext => a. field; lra. }
  have Hne : p_m (c_ph c1) <> [].
  { move=> E. rewrite Em in E. destruct (p_m (c_ph c)) => //. simpl in Hs; lra. }
  have Hnn : nonneg (p_m (c_ph c1)).
  { rewrite Em => a /in_map_iff [b [<- Hb]]. have := Hm b Hb. nra. }
  have Hpos : 0 < sumR (p_m (c_ph c1)) by rewrite Em sumR_map_mul; apply Rmult_lt_0_compat.
  have Hlen : length (distances (analyze true true c1)) = length (p_m (c_ph c1)).
  { rewrite distances_eq /rlist Eph /norm3 !zip_with_length map_length L1 L2 L3 Q1 Q2 Q3 L0. lia. }
  have [d1 [D1 D1']] := frac_radius_correct (f := 1/2) Hlen Hne Hnn Hpos ltac:(lra) H2.
  have [d2 [D2 D2']] := frac_radius_correct (f := 1/10) Hlen Hne Hnn Hpos ltac:(lra) H2.
  exists d1, d2. rewrite Eph.
  rewrite A /der_of /= /rlist Eph. rewrite distances_eq /rlist Eph in D1 D2.
  by rewrite D1 D2.
Qed.

(* ------------------------------------------------ refutations *)
Definition w_galpy : galpy := mkG (fun _ _ => 1) (fun _ _ => 1) (fun _ _ => 1) (fun s => s) (fun s => s).
Definition w_phys : phys := mkP 0 [1; 1] (mk6 [1; 2] [0; 0] [0; 0] [0; 0] [0; 0] [0; 0]) zero6 (mk6 (-3) 0 0 0 0 0).
Definition w_cluster : cluster :=
  mkC (Some Upckms) (Some Ocluster) (Some (Bu Upckms)) 1 w_phys (mkSc 2 1 1 1 3 4 1 8 220) (mkB [1] [1] [1] [1])
      (mkSk nil6 zero6 zero6 None None None) empty_derived [1%Z; 2%Z].
Definition w_bin : cluster :=
  mkC (Some Upckms) (Some Ocluster) (Some Baudays) 1 w_phys (mkSc 2 1 1 1 3 4 1 8 220) (mkB [1] [1] [1] [1])
      (mkSk nil6 zero6 zero6 None None None) empty_derived [1%Z; 2%Z].

Lemma w_ready c : c_sc c = mkSc 2 1 1 1 3 4 1 8 220 -> c_units c = Some Upckms -> c_origin c = Some Ocluster ->
  ready w_galpy c Upckms Ocluster.
Proof. move=> H1 H2 H3. rewrite /ready /good_scales H1 H2 H3 /=. repeat split; try lra; discriminate. Qed.

Lemma sudays_mislabels : exists (c : cluster), c_bunits c = Some (Bu Upckms) /\ rbar_au (c_sc c) <> rbar_su (c_sc c) /\
    c_bunits (to_sudays c) = Some Bsudays /\ c_bin (to_sudays c) = c_bin c /\
    c_bin (to_audays (to_sudays c)) <> c_bin (to_audays c).
Proof. exists w_cluster. simpl. repeat split; try lra. case => H _ _ _. lra. Qed.

Lemma bracket_binaries_refuted :
  exists (G : galpy) (c0 : cluster) (u : usys) (o : osys) (ops : list op),
    ready G c0 u o /\ Forall flat_op ops /\ analyze true true c0 = c0 /\
    let c' := return_cluster G (save_cluster c0) (run G ops c0) in
    c_bunits c' <> c_bunits c0 /\ c_bin c' <> c_bin c0.
Proof.
  have I := analyze_idem w_bin.
  have [E1 [E2 [E3 [E4 [E5 [E6 [E7 [E8 E9]]]]]]]] := skel_eq_fields (skel_analyze true true w_bin).
  move: (analyze true true w_bin) I E1 E2 E3 E4 E5 E6 E7 E8 E9 => c0 I E1 E2 E3 E4 E5 E6 E7 E8 E9.
  have HR : ready w_galpy c0 Upckms Ocluster by apply w_ready; [rewrite E6|rewrite E1|rewrite E2].
  exists w_galpy, c0, Upckms, Ocluster, [OpUnits Unbody].
  split; [exact HR|]. split; [by repeat constructor|]. split; [exact I|].
  have [HS [Hu [Hl [Ho Hf]]]] := HR.
  have N : linear Unbody by [].
  have F := skel_eq_fields (to_units_lin HS Hu Hl N).
  rewrite /run. cbn [fold_left run1].
  move: (to_units w_galpy (Ureq Unbody) c0) F => c1 [F1 [F2 [F3 [F4 [F5 [F6 [F7 [F8 F9]]]]]]]].
  have B0 : bin_to_nbody c0 = set_bin c0 (mkB [1/4] [1/1] [1/2] [1/2]) (Some (Bu Unbody)).
  { rewrite /bin_to_nbody E3 E4 E7 E6 /=. by []. }
  rewrite /bin_after B0 in F1 F2 F3 F4 F6 F7. cbn in F1, F2, F3, F4, F6, F7.
  have HR1 : ready w_galpy c1 Unbody Ocluster.
  { rewrite /ready F1 F2 F6 Ho. split; [exact HS|]. by repeat split. }
  have [HS1 [Hu1 [Hl1 [Ho1 Hf1]]]] := HR1.
  have L : linear Upckms by [].
  have F' := skel_eq_fields (to_units_lin HS1 Hu1 Hl1 L).
  rewrite /return_cluster /save_cluster. cbn [sv_units sv_origin sv_rorder sv_rorder_origin]. rewrite Hu Ho.
  destruct (ousys_eq_dec (c_units c1) (Some Upckms)) as [X|X]; [by rewrite Hu1 in X|].
  cbn [ureq_of]. move: (to_units w_galpy (Ureq Upckms) c1) F' => c2 F'.
  cbn in F'. destruct F' as [F1' [F2' [F3' [F4' [F5' [F6' [F7' [F8' F9']]]]]]]].
  destruct (oosys_eq_dec (c_origin c2) (Some Ocluster)) as [Y|Y]; [|by case: Y; rewrite F2' F2 Ho].
  have [_ [_ [R3 [_ [_ [_ [R7 _]]]]]]] := skel_eq_fields (skel_analyze true true (set_rorder c2 (d_rorder (c_der c0)) (d_rorder_origin (c_der c0)))).
  rewrite R3 R7. cbn [set_rorder c_bunits c_bin set_der]. rewrite F3' F7' F3 F7 E3 E7.
  split; [discriminate|]. case=> H _ _ _. lra.
Qed.

Lemma sqrt_sq_pos a : 0 <= a -> sqrt (a * a) = a. Proof. exact: sqrt_square. Qed.

Lemma projected_order_refuted :
  exists (G : galpy) (c : cluster) (o' : osys),
    ready G c Upckms Ocluster /\ aligned c /\ flat o' /\ d_rproorder (c_der c) = None /\
    let c' := to_origin G (Oreq o') true (analyze true true c) in
    exists r, d_rproorder (c_der c') = Some r /\ ~ sorted_order r (distances_2d c').
Proof.
  exists w_galpy, w_cluster, Ogalaxy.
  have HR0 : ready w_galpy w_cluster Upckms Ocluster by apply w_ready.
  split; [exact HR0|]. split; [by rewrite /aligned /=|]. split; [by []|]. split; [by []|].
  set c0 := analyze true true w_cluster.
  have [E1 [E2 [E3 [E4 [E5 [E6 [E7 [E8 E9]]]]]]]] := skel_eq_fields (skel_analyze true true w_cluster).
  have HR : ready w_galpy c0 Upckms Ocluster by apply w_ready; [rewrite E6|rewrite E1|rewrite E2].
  have [HS [Hu [Hl [Ho Hf]]]] := HR.
  have P : d_rproorder (c_der c0) = Some (argsort (norm2 [1;2] [0;0])).
  { rewrite /c0 /analyze /analyze_fracs /sortstars /=. by []. }
  have PO : proorder_ok c0 (argsort (norm2 [1;2] [0;0])).
  { rewrite /proorder_ok argsort_length /rprolist E5 //. }
  have FG : flat Ogalaxy by [].
  have [K1 K2] := @kp_to_origin w_galpy true c0 Upckms Ocluster Ogalaxy Hu Hl Ho Hf FG _ P PO.
  exists (argsort (norm2 [1;2] [0;0])). split; [exact K1|].
  have [_ [_ [_ [_ [_ [_ [_ [_ [_ [_ Hs]]]]]]]]]] := @to_origin_view w_galpy true c0 Upckms Ocluster Ogalaxy HR FG.
  rewrite /distances_2d Hs E5 /reorigin /add6 /vadd /=.
  have -> : argsort (norm2 [1;2] [0;0]) = [0%nat; 1%nat].
  { have -> : norm2 [1;2] [0;0] = [1;2].
    { rewrite /norm2 /zip_with. f_equal; [|f_equal].
      - have -> : 1 ^ 2 + 0 ^ 2 = 1 * 1 by ring. rewrite sqrt_square; lra.
      - have -> : 2 ^ 2 + 0 ^ 2 = 2 * 2 by ring. rewrite sqrt_square; lra. }
    rewrite /argsort /sort_by. cbn [length seq fold_right insert_by nth].
    have -> : Rleb 1 2 = true by apply Rleb_spec; lra. by []. }
  move=> [_ HSS]. inversion HSS as [|? ? _ HF]; subst. inversion HF as [|? ? H _]; subst. move: H => /=.
  have -> : (1 + (-3 - 0)) * (1 + (-3 - 0)) + (0 + (0 - 0)) * (0 + (0 - 0)) = 2 * 2 by ring.
  have -> : (2 + (-3 - 0)) * (2 + (-3 - 0)) + (0 + (0 - 0)) * (0 + (0 - 0)) = 1 * 1 by ring.
  rewrite !sqrt_square; lra.
Qed.
