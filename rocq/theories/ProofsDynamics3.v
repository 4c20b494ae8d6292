(* Proofs: the tidal radius in pc. *)
From Verif Require Import Base ModelCluster ModelOps ModelConv ModelEnergy ModelRecipes ModelLagrange ModelDynamics.
From Verif Require Import SpecUnits SpecFrame SpecOrder SpecRecipes SpecEnergy SpecLagrange SpecSubset SpecProfiles SpecDynamics.
From Verif Require Import ProofsUnits ProofsConv ProofsFrame ProofsSort ProofsSees ProofsEnergy ProofsEnergyUnits ProofsRecipes ProofsRecipes2 ProofsLagrange ProofsSubset2 ProofsProfiles ProofsProfiles5 ProofsDynamics ProofsDynamics2.
Set Implicit Arguments. Unset Strict Implicit.

Section WithGalpy.
Variable G : galpy.

Lemma place_ok c c1 u rgc zgc fc : good_scales G (c_sc c) -> positive_scales G (c_sc c) -> c_units c = Some u -> c_sc c1 = c_sc c ->
  viewed c c1 (unit_size G (c_sc c) u) (unit_size G (c_sc c) Ugalpy) ->
  tidal_place rgc zgc fc c1 = (fst (place_kpc G c rgc zgc fc) / ro (c_sc c), snd (place_kpc G c rgc zgc fc) / ro (c_sc c)).
Proof.
  move=> HS HP Hu Sc V. have [_ [_ [_ [_ [P5 _]]]]] := HP.
  rewrite /tidal_place /place_kpc /sizes Hu Sc. cbn zeta. cbn [fst snd].
  have Vg := vw_g V. have Vc := vw_c V. set k := in_pc (unit_size G (c_sc c) u) in Vg Vc *.
  have g1 := f_equal (@sx _) Vg. have g2 := f_equal (@sy _) Vg. have g3 := f_equal (@sz _) Vg.
  have c1' := f_equal (@sx _) Vc. have c2' := f_equal (@sy _) Vc. have c3 := f_equal (@sz _) Vc.
  rewrite /view6 in g1 g2 g3 c1' c2' c3. cbn [sx sy sz svx svy svz in_pc unit_size] in g1, g2, g3, c1', c2', c3.
  have Ek : in_pc (unit_size G (c_sc c) Ugalpy) = 1000 * ro (c_sc c) by []. rewrite Ek in g1 g2 g3 c1' c2' c3.
  rewrite -/k in g1 g2 g3 c1' c2' c3. clear V Vg Vc Ek. move: (ro (c_sc c)) P5 g1 g2 g3 c1' c2' c3 => q P5 g1 g2 g3 c1' c2' c3.
  have D : forall a b, a * (1000 * q) = b * k -> a = b * (k / 1000) / q.
  { move=> a b E. have : a = a * (1000 * q) / (1000 * q) by field; lra. rewrite E => ->. field. lra. }
  have SQ : forall a b a' b', a' = a / q -> b' = b / q -> sqrt (a' ^ 2 + b' ^ 2) = sqrt (a ^ 2 + b ^ 2) / q.
  { move=> a b a' b' -> ->. rewrite /Rdiv. rewrite sqrt_scale2 //. left. by apply Rinv_0_lt_compat. }
  f_equal.
  - destruct rgc as [a|] => //. destruct fc; cbv iota; apply SQ; rewrite ?(D _ _ g1) ?(D _ _ g2) ?(D _ _ c1') ?(D _ _ c2'); field; lra.
  - destruct zgc as [a|] => //. destruct fc; cbv iota; rewrite ?(D _ _ g3) ?(D _ _ c3); field; lra.
Qed.

Section Tide.
Variables (rtide : R -> R -> R -> R) (converge : R) (indx : option (list bool)) (rgc zgc : option R) (fc : bool) (c : cluster) (u : usys) (o : osys).
Hypothesis HR : ready G c u o.
Hypothesis HP : positive_scales G (c_sc c).
Hypothesis HL : SpecFrame.aligned c.
Hypothesis HA : analyze true true c = c.
Hypothesis HM : nonneg (p_m (c_ph c)).
Hypothesis HI : mask_fits indx (nstars c).
Hypothesis HT : tidal_law rtide.

Let msk := match indx with Some i => i | None => map (fun _ => true) (p_m (c_ph (tidal_frame G c))) end.

Lemma mask_of_length : length msk = nstars c.
Proof.
  have [_ [_ [_ V]]] := tidal_frame_ok HR. rewrite /msk. have I := HI. rewrite /mask_fits in I. destruct indx as [l|] => //.
  rewrite map_length. exact (vw_n V).
Qed.
Lemma mask_of_nth i : (i < nstars c)%nat -> nth i msk false = in_selection indx i.
Proof.
  move=> Hi. have [_ [_ [_ V]]] := tidal_frame_ok HR. rewrite /msk /in_selection. destruct indx as [l|] => //.
  rewrite (@nth_map' _ _ _ (p_m (c_ph (tidal_frame G c))) i false 0) //. rewrite -(vw_n V) in Hi. exact Hi.
Qed.

Lemma masked_mass (f : list bool) (P : nat -> bool) : length f = nstars c -> (forall i, (i < nstars c)%nat -> nth i f false = P i) ->
  sumR (select f (p_m (c_ph (tidal_frame G c)))) * mass_in_msol G (ro (c_sc c)) (vo (c_sc c)) = sumR (map (sun_mass G c) (filter P (stars c))).
Proof.
  move=> L H. have [_ [_ [_ V]]] := tidal_frame_ok HR. have [_ [Hu _]] := HR.
  rewrite (@select_chosen _ 0) ?L; [by rewrite -(vw_n V)|]. rewrite -sumR_map_mul map_map /chosen L -/(stars c).
  have F : filter (fun i => nth i f false) (stars c) = filter P (stars c).
  { apply filter_ext_in => i /in_seq Hi. by apply H; lia. }
  rewrite F. f_equal. apply map_ext_in => i /filter_In [/in_seq Hi _]. have Hi' : (i < nstars c)%nat by lia.
  have := vw_mass V Hi'. rewrite /sun_mass /sizes Hu /mass. cbn [unit_size in_Msun]. by move=> ->.
Qed.

Theorem rtidal_iterates n :
  exists rt c' caller (k : nat) (t : nat -> R),
    rtidal G rtide n converge indx rgc zgc fc c = (rt, c', caller) /\ restored c c' /\
    let tide := tide_pc G rtide (c_sc c) (place_kpc G c rgc zgc fc) in
    let radius := rt * in_pc (sizes G c) in
    (k <= n)%nat /\ t 0%nat = tide (selected_mass G c indx) /\
    (forall j, (j < k)%nat -> t (S j) = tide (mass_closer G c indx (t j)) /\ 0 < t (S j) < converge * t j /\ t (S j) <= t j) /\
    (radius = t k /\ (k = n \/ 0 < tide (mass_closer G c indx (t k)) <= t k /\ converge * t k <= tide (mass_closer G c indx (t k))) \/
     radius = 0 /\ (k < n)%nat /\ tide (mass_closer G c indx (t k)) = 0) /\
    (forall l, indx = Some l -> exists l', caller = Some l' /\ length l' = length l /\ forall i, (i < nstars c)%nat ->
        nth i l' false = if Nat.eqb n 0 then nth i l false else nth i l false && Rltb (pc_distance G false c i) (t (Nat.min k (n - 1)))).
Proof.
  have [F1 [F2 [F3 V]]] := tidal_frame_ok HR. have [HS [Hu [Hl [Ho Hf]]]] := HR.
  have Sc : c_sc (tidal_frame G c) = c_sc c by destruct F1 as [_ [_ [? _]]].
  have [P1 [P2 P3]] := size_positive HP Hl.
  have [Q1 [Q2 Q3]] := @size_positive G (c_sc c) Ugalpy HP ltac:(discriminate).
  have PL := @place_ok c (tidal_frame G c) u rgc zgc fc HS HP Hu Sc V.
  have AL := vw_al V HL. have N1 := vw_n V.
  have R' := bracket_sees HR F1 HA. cbn zeta in R'.
  set a := fst (place_kpc G c rgc zgc fc) / ro (c_sc c) in PL. set z := snd (place_kpc G c rgc zgc fc) / ro (c_sc c) in PL.
  have [T0 TM] := HT a z.
  have Lr : length (d_r (c_der (tidal_frame G c))) = length (p_m (c_ph (tidal_frame G c))) by exact (proj1 (norms_length false F3 AL)).
  have NN : nonneg (p_m (c_ph (tidal_frame G c))).
  { move=> x I. apply (In_nth _ _ 0) in I. destruct I as [i [Hi <-]]. have Hi' : (i < nstars c)%nat by rewrite -N1.
    have Em := vw_mass V Hi'. rewrite /mass in Em. have : 0 <= nth i (p_m (c_ph c)) 0 by apply HM, nth_In.
    move: Em. move: (nth i _ 0) (nth i _ 0) => p q Em Hq. apply Rmult_le_reg_r with (1 := Q3). rewrite Em. nra. }
  have Lm : length msk = length (p_m (c_ph (tidal_frame G c))) by rewrite mask_of_length -N1.
  have [k [t [K [T [ST RES]]]]] := @tide_loop_ok (rtide a z) converge _ _ Lr NN T0 TM n msk _ Lm eq_refl.
  set rs := d_r (c_der (tidal_frame G c)) in Lr ST RES. set ms := p_m (c_ph (tidal_frame G c)) in Lr NN Lm T ST RES.
  have Dn : forall i, (i < nstars c)%nat -> nth i rs 0 * (1000 * ro (c_sc c)) = pc_distance G false c i.
  { move=> i Hi. have D1 := @norms_radius false _ i F3 AL ltac:(by rewrite N1).
    have D2 := viewed_distance false V (Rlt_le _ _ P1) (Rlt_le _ _ Q1) HL Hi. cbn [in_pc unit_size] in D2.
    rewrite /pc_distance /sizes Hu -D2. by rewrite /rs D1. }
  set K1 := 1000 * ro (c_sc c) in Dn. have PK : 0 < K1 by exact Q1.
  set mu := mass_in_msol G (ro (c_sc c)) (vo (c_sc c)). have Pm : 0 < mu by exact Q3.
  have IN : forall d, inside rs ms msk d * mu = mass_closer G c indx (d * K1).
  { move=> d. rewrite /inside /mass_closer. apply masked_mass; [by rewrite (cut_length Lr d Lm) -N1|].
    move=> i Hi. rewrite (@cut_nth rs ms Lr msk d i Lm) //; [by rewrite -/(nstars (tidal_frame G c)) N1|]. rewrite mask_of_nth //. f_equal.
    rewrite -Dn //. apply eq_true_iff_eq. rewrite !Rltb_spec. split; move=> ?; nra. }
  have SM : sumR (select msk ms) * mu = selected_mass G c indx.
  { rewrite /selected_mass. apply masked_mass; [by rewrite mask_of_length|]. exact: mask_of_nth. }
  have TI : forall M, tide_pc G rtide (c_sc c) (place_kpc G c rgc zgc fc) (M * mu) = rtide a z M * K1.
  { move=> M. rewrite /tide_pc -/a -/z -/mu -/K1. f_equal. f_equal. field. lra. }
  rewrite /rtidal PL -/a -/z -/ms -/rs -/msk.
  destruct (tide_loop (rtide a z) converge rs ms n msk (rtide a z (sumR (select msk ms)))) as [res msk'].
  eexists _, _, _, k, (fun j => t j * K1). split; [reflexivity|]. split; [exact R'|]. cbn zeta.
  split=> //. split; [by rewrite T -SM TI|].
  split.
  { move=> j Hj. have [S1 [S2 S3]] := ST j Hj. rewrite -IN TI -S1. split=> //. split; nra. }
  destruct RES as [RES MS]. split.
  - set c' := return_cluster G (save_cluster c) (tidal_frame G c) in R' *.
    destruct R' as [R1 [R2 [R3 [R4 [R5 _]]]]].
    have E : convert_length res Ugalpy c' * in_pc (sizes G c) = res * K1.
    { rewrite (@length_correct G c' Ugalpy u); [by rewrite R5|by rewrite R2|discriminate|exact Hl|].
      rewrite R5 /sizes Hu /rsc. change (in_pc (unit_size G (c_sc c) Ugalpy)) with K1. field. lra. }
    rewrite E -IN TI. destruct RES as [[E1 E2]|[E1 [E2 E3]]].
    + left. split; [by rewrite E1|]. destruct E2 as [?|[[X1 X2] X3]]; [by left|right]. split; nra.
    + right. rewrite E1 E3. split; [ring|]. split=> //. ring.
  - move=> l El. exists msk'. have Em : msk = l by rewrite /msk El. rewrite El. split=> //. rewrite MS Em.
    have Ll : length l = length ms by rewrite -Em.
    split; [destruct (Nat.eqb n 0) => //; by rewrite (cut_length Lr _ Ll)|].
    move=> i Hi. destruct (Nat.eqb n 0) => //. rewrite (@cut_nth rs ms Lr l _ i Ll) //; [by rewrite -/(nstars (tidal_frame G c)) N1|]. f_equal.
    rewrite -Dn //. apply eq_true_iff_eq. rewrite !Rltb_spec. split; move=> ?; nra.
Qed.
End Tide.
End WithGalpy.
