(* Proofs: positions and paths on the sky. *)
From Verif Require Import Base ModelCluster ModelOps ModelConv ModelEnergy ModelRecipes ModelCoords ModelLagrange ModelProfiles ModelStars ModelLoad ModelTail ModelOrbit ModelSky ModelSkyPath.
From Verif Require Import SpecUnits SpecFrame SpecConv SpecOrder SpecRecipes SpecEnergy SpecLagrange SpecProfiles SpecDynamics SpecTail SpecOrbit SpecSky.
From Verif Require Import ProofsUnits ProofsFrame ProofsRecipes2 ProofsEnergy ProofsEnergy2 ProofsConv ProofsSees ProofsRecipes ProofsCoords ProofsDynamics ProofsDynamics2 ProofsDynamics6 ProofsTail ProofsTail2 ProofsTail3 ProofsTail4 ProofsTail5 ProofsOrbit ProofsOrbit2 ProofsOrbit3 ProofsSky ProofsSky2.
Set Implicit Arguments. Unset Strict Implicit.

Section WithGalpy.
Variable G : galpy.
(* a cluster whose physical content but the centre is that of c, in the frame of c *)
Lemma view_back c d u o : ready G c u o -> o <> Ocentre -> ready G d u o -> c_sc d = c_sc c ->
  p_t (galactic_view G d) = p_t (galactic_view G c) -> p_m (galactic_view G d) = p_m (galactic_view G c) ->
  p_s (galactic_view G d) = p_s (galactic_view G c) -> p_g (galactic_view G d) = p_g (galactic_view G c) ->
  p_t (c_ph d) = p_t (c_ph c) /\ p_m (c_ph d) = p_m (c_ph c) /\ p_s (c_ph d) = p_s (c_ph c) /\ p_g (c_ph d) = p_g (c_ph c).
Proof.
  move=> HR HO RD SC V1 V2 V3 V4. have [HS [Hu [Hl [Ho Hf]]]] := HR. have [_ [Z1 [_ [Z4 _]]]] := RD.
  set p := c_ph d. set e := set_ph d (mkP (p_t p) (p_m p) (p_s p) (p_c (c_ph c)) (p_g p)) (c_units d).
  have VD : galactic_view G e = galactic_view G c.
  { have Q : galactic_view G e = mkP (p_t (galactic_view G d)) (p_m (galactic_view G d)) (p_s (galactic_view G d)) (p_c (galactic_view G c)) (p_g (galactic_view G d)).
    { rewrite /galactic_view /origin_shift /e. cbn [set_ph c_units c_origin c_sc c_ph]. rewrite Z1 Z4 SC Hu Ho. destruct o; [by case HO|reflexivity|reflexivity|reflexivity]. }
    rewrite Q V1 V2 V3 V4. by destruct (galactic_view G c). }
  have RE : ready G e u o by rewrite /ready /e; cbn [set_ph c_units c_origin c_sc]; exact RD.
  have PD : c_ph e = c_ph c by apply (@view_inj G e c u o RE HR); [exact SC|exact VD].
  rewrite /e in PD. cbn [set_ph c_ph] in PD. rewrite -PD. cbn [p_t p_m p_s p_g]. by repeat split.
Qed.
(* the cluster comes back from the sky *)
Lemma sky_return sort c u o : ready G c u o -> o <> Ocentre -> SpecFrame.aligned c -> no_orbits c ->
  let c' := return_cluster G (save_cluster c) (to_radec G sort c) in
  ready G c' u o /\ c_sc c' = c_sc c /\ c_id c' = c_id c /\ p_t (c_ph c') = p_t (c_ph c) /\ p_m (c_ph c') = p_m (c_ph c) /\ p_s (c_ph c') = p_s (c_ph c) /\ p_g (c_ph c') = p_g (c_ph c).
Proof.
  move=> HR HO HL F c'. have [HS [Hu [Hl [Ho Hf]]]] := HR.
  have [[R1 [A1 [N1 [I1 [S1 [V1 [V2 [V3 V4]]]]]]]] _] := round_trip sort HR HL F.
  have [U0 _] := radec_form sort HR. have [U _] := back_form sort HR. cbn zeta in U0, U.
  set b := from_radec G (to_radec G sort c) in U *. set k := to_kpckms G (to_radec G sort c) in R1 A1 N1 I1 S1 V1 V2 V3 V4 *.
  have EK : k = analyze true true b by exact (kpckms_back U0 U).
  have SB : skel b = skel k by rewrite EK; symmetry; apply skel_analyze.
  have [B1 [B2 [_ [_ [_ [B6 [_ [_ B9]]]]]]]] := skel_eq_fields SB.
  have RB : ready G b Ukpckms Ogalaxy by rewrite /ready B1 B2 B6; exact R1.
  have E1 : skel (to_units G (Ureq u) (to_radec G sort c)) = skel (to_units G (Ureq u) b) by exact (units_back U0 U Hl).
  set w := to_units G (Ureq u) (to_radec G sort c) in E1 *. have [W1 [W2 [_ [_ [W5 [W6 [_ [_ W9]]]]]]]] := skel_eq_fields E1.
  have [X1 [X2 [X3 [X4 _]]]] := to_units_view RB Hl. cbn zeta in X1, X2, X3, X4.
  have RW : ready G w u Ogalaxy by rewrite /ready W1 W2 W6; exact X2.
  have VW : galactic_view G w = galactic_view G k by rewrite (@view_skel G _ _ E1) X1; apply view_skel; exact SB.
  have SCW : c_sc w = c_sc c by rewrite W6 X3 B6.
  have IDW : c_id w = c_id c by rewrite W9 X4 B9.
  have [d [ED [RD [VD [SCD IDD]]]]] : exists d, c' = analyze true true (set_rorder d (d_rorder (c_der c)) (d_rorder_origin (c_der c))) /\ ready G d u o /\ galactic_view G d = galactic_view G k /\ c_sc d = c_sc c /\ c_id d = c_id c.
  { rewrite /c' /return_cluster. cbn [save_cluster sv_units sv_origin sv_rorder sv_rorder_origin]. rewrite U0 Hu Ho.
    destruct (ousys_eq_dec (Some Uradec) (Some u)) as [E|_]; [exfalso; injection E => E'; rewrite -E' in Hl; by case: Hl|].
    cbn [ureq_of]. rewrite -/w. have [_ [_ [_ [OW _]]]] := RW. rewrite OW.
    destruct (oosys_eq_dec (Some Ogalaxy) (Some o)) as [E|_].
    - exists w. split; [reflexivity|]. injection E => <-. by repeat (split; [assumption|]).
    - have [Y1 [Y2 [Y3 [Y4 _]]]] := @to_origin_view G false w u Ogalaxy o RW Hf. cbn [oreq_of]. exists (to_origin G (Oreq o) false w).
      split; [reflexivity|]. split; [exact Y2|]. split; [by rewrite Y1|]. split; [by rewrite Y3|by rewrite Y4]. }
  have RC : ready G c' u o by rewrite ED; apply analyzed_ready; exact RD.
  have VC : galactic_view G c' = galactic_view G k by rewrite -VD ED /galactic_view /origin_shift !an.
  have SC : c_sc c' = c_sc c by rewrite ED !an.
  split; [exact RC|]. split; [exact SC|]. split; [by rewrite ED !an|].
  apply (view_back HR HO RC SC); rewrite VC; assumption.
Qed.

(* matching stars at given places to a path, the results given in the units of a cluster c' *)
Theorem core_gen pth tp b c c1 u o (n : nat) (pos : nat -> six R) :
  let c' := return_cluster G (save_cluster c) c1 in ready G c' u o -> c_sc c' = c_sc c ->
  length (rows6 (p_s (c_ph c1))) = n -> (forall i, (i < n)%nat -> nth i (rows6 (p_s (c_ph c1))) zero6 = pos i) ->
  pth <> [] -> (tp = true -> (2 <= length pth)%nat) ->
  let z := unit_size G (c_sc c) u in let ts := map fst pth in let pts := map snd pth in
  exists out p D, match_core G pth tp false b c c1 = Ok (out, c') /\ now ts p /\
    (forall j k, (j <= k)%nat -> (k < length pth)%nat -> 0 <= D k - D j <= arc b pts j k) /\
    length out = n /\
    forall i, (i < n)%nat -> star_match b tp z ts pts D p (pos i) (nth i out (0, 0, None)).
Proof.
  move=> c' RC1 RC2 LN ST HN HT z ts pts.
  have NP : pts <> [] by rewrite /pts; destruct pth. have NT : ts <> [] by rewrite /ts; destruct pth.
  have LP : length pts = length pth by rewrite /pts map_length.
  have KT : forall x, convert_time G x Ukpckms c' * in_Myr z = 1000 * x by move=> x; rewrite /z -RC2; apply time_kpc with (o := o).
  have KL : forall x, convert_length x Ukpckms c' * in_pc z = 1000 * x by move=> x; rewrite /z -RC2; apply length_kpc with (o := o).
  set go := fun f => map (fun s => let '(k, d) := match_star b tp pts f s in
      (convert_time G (nth k ts 0) Ukpckms c', convert_length (nth k (dprogr b pts) 0 - nth (argmin (map Rabs ts)) (dprogr b pts) 0) Ukpckms c',
                  option_map (fun x => convert_length x Ukpckms c') d)) (rows6 (p_s (c_ph c1))).
  have [f [E1 E2]] : exists f, match_core G pth tp false b c c1 = Ok (go f, c') /\ (tp = true -> fwds pts = Some f).
  { rewrite /match_core. destruct pth as [|a pth]; [by case: HN|]. cbn zeta. destruct tp.
    - have L2 : (2 <= length pts)%nat by rewrite LP; apply HT. have H0 : (0 < length pts)%nat by lia.
      have [x [y [w [Ef _]]]] := to_line_segment b zero6 L2 H0. rewrite /fwds in Ef. exists (x, y, w). rewrite -/pts Ef. split; [reflexivity|]. by rewrite /fwds Ef.
    - exists ([], [], []). by split. }
  exists (go f), (argmin (map Rabs ts)), (along b pts). split; [exact E1|]. split; [exact (argmin_now NT)|].
  have NW : (argmin (map Rabs ts) < length pts)%nat by have := proj1 (argmin_now NT); rewrite /ts map_length LP.
  split; [move=> j k H1 H2; apply along_arc => //; by rewrite LP|].
  split; [by rewrite /go map_length|]. move=> i Hi.
  rewrite /go. set h := fun s : six R => _.
  rewrite (@nth_map' _ _ h _ i (0, 0, None) zero6); [by rewrite LN|]. rewrite ST //.
  have [k [g [K1 [K2 K3]]]] := match_star_ok b tp f (pos i) NP.
  set rep := fun kd : nat * num => let '(k, d) := kd in
      (convert_time G (nth k ts 0) Ukpckms c', convert_length (nth k (dprogr b pts) 0 - nth (argmin (map Rabs ts)) (dprogr b pts) 0) Ukpckms c',
                  option_map (fun x => convert_length x Ukpckms c') d).
  have -> : h (pos i) = rep (match_star b tp pts f (pos i)) by []. rewrite K3 /rep. clear h K3 rep.
  have Hk := proj1 K1. exists k, g. split; [exact K1|]. split; [exact K2|]. cbn [fst snd]. split; [exact (KT _)|].
  split; [rewrite KL !dprogr_nth //|]. split.
  - move=> ->. cbn [option_map]. eexists. split; [reflexivity|]. rewrite KL. ring.
  - move=> T. rewrite T. have L2 : (2 <= length pts)%nat by rewrite LP; apply HT.
    have [x [y [w [Ef Eg]]]] := to_line_segment b (pos i) L2 Hk. cbn zeta in Eg. rewrite (E2 T) in Ef. have -> : f = (x, y, w) by congruence.
    cbn zeta. move: Eg => [G1 G2]. split.
    + move=> N1 N2. have [d [D1 [D2 D3]]] := G1 N1 N2. rewrite D1. cbn [option_map]. eexists. exists d. split; [reflexivity|]. split; [rewrite KL; ring|]. by split.
    + move=> N1. by rewrite (G2 N1).
Qed.
(* the stars on the sky *)
Lemma sky_rows sort c u o : ready G c u o -> SpecFrame.aligned c -> no_orbits c -> let c1 := to_radec G sort c in
  length (rows6 (p_s (c_ph c1))) = nstars c /\
  forall i, (i < nstars c)%nat -> nth i (rows6 (p_s (c_ph c1))) zero6 = on_sky o (to_radec6 G (star_kpc G c i)) (to_radec6 G (orbit_kpc G c false)) (to_radec6 G (orbit_kpc G c true)).
Proof.
  move=> HR HL [F1 F2] c1. have [_ [_ [_ [_ [_ PH]]]]] := radec_form sort HR. cbn zeta in PH. rewrite -/c1 in PH.
  have [L N] := fresh_star HR HL F2. have [_ [_ [_ [_ Hf]]]] := HR.
  have L1 : length (sx (sky_stars G c)) = nstars c by rewrite /sky_stars; cbn [unstack6 sx]; rewrite !map_length.
  have L2 : even6 (sky_stars G c) (nstars c) by have := unstack_len (map (to_radec6 G) (the_orbits G c)); cbn zeta; rewrite map_length L.
  have LX : length (sx (p_s (c_ph c1))) = nstars c.
  { rewrite PH. cbn [p_s]. destruct o; cbn [sky_pos sky_offset sx]; rewrite ?map_length //; try (unfold vsub, vmul, vadd; rewrite ?map_length //). }
  split; [by rewrite rows_length|]. move=> i Hi. rewrite (rows_nth LX Hi).
  rewrite PH. cbn [p_s]. rewrite -/(row (sky_pos G o c) i) row_pos; [by rewrite L|exact Hf|]. by rewrite N // (fresh_orbit HR F1) (proj2 (kframe_orbit HR)).
Qed.
End WithGalpy.
