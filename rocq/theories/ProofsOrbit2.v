(* Proofs: own paths, matching to them, interpolated orbits. *)
From Verif Require Import Base ModelCluster ModelOps ModelConv ModelEnergy ModelRecipes ModelCoords ModelLagrange ModelProfiles ModelStars ModelLoad ModelTail ModelOrbit.
From Verif Require Import SpecUnits SpecFrame SpecConv SpecOrder SpecRecipes SpecEnergy SpecLagrange SpecSubset SpecProfiles SpecDynamics SpecTail SpecOrbit.
From Verif Require Import ProofsUnits ProofsFrame ProofsConv ProofsCoords ProofsSees ProofsEnergy ProofsEnergy2 ProofsRecipes ProofsDynamics ProofsDynamics2 ProofsDynamics6 ProofsTail ProofsTail2 ProofsTail3 ProofsTail4 ProofsTail5 ProofsOrbit.
Set Implicit Arguments. Unset Strict Implicit.

Section WithGalpy.
Variable G : galpy.
Lemma place_exact q p : place_is (mkSize 1000 1 1000 1) q p -> motion_is (mkSize 1000 1 1000 1) q p -> q = p.
Proof.
  rewrite /place_is /motion_is. cbn [in_pc in_kms]. move=> [A1 [A2 A3]] [B1 [B2 B3]]. rewrite -(six_eta q) -(six_eta p). f_equal; lra.
Qed.
Lemma kpckms_size sc : in_Myr (unit_size G sc Ukpckms) = 1000 /\ in_pc (unit_size G sc Ukpckms) = 1000 /\ in_kms (unit_size G sc Ukpckms) = 1.
Proof. by []. Qed.
Lemma spaced_scale k a b n j : k * spaced a b n j = spaced (k * a) (k * b) n j.
Proof. rewrite /spaced /Rdiv. ring. Qed.
(* the path of a cluster in kpc and km/s *)
Lemma own_path_ok ev tfinal nt fc c c1 o : lawful ev -> ready G c1 Ukpckms o -> galactic_view G c1 = galactic_view G c -> c_sc c1 = c_sc c -> (2 <= nt)%nat ->
  forall r v, opt r (ro (c_sc c)) = ro (c_sc c) -> opt v (vo (c_sc c)) = vo (c_sc c) ->
  exists pth orb, orbital_path G ev tfinal nt fc r v c1 = Ok (pth, orb, return_cluster G (save_cluster c1) (to_galpy G c1)) /\
    own_path G ev c fc (gyr tfinal) nt pth.
Proof.
  move=> HL HR V SC NT r v Er Ev. have [HS _] := HR. have [N1 [N2 [N3 [N4 [N5 [N6 [N7 _]]]]]]] := HS.
  have HP := @orbital_path_ok G ev tfinal nt fc r v c1 Ukpckms o HL HR NT. cbn zeta in HP. rewrite SC Er Ev in HP. rewrite SC in N5 N6 N7.
  have [pth [orb [E1 [E2 [_ E4]]]]] := HP N5 N6. clear HP. exists pth, orb. split; [exact E1|]. split; [exact E2|].
  have TE := galpy_time_ok (1 / 10) tfinal HR. rewrite SC in TE. rewrite TE in E4.
  set g := in_Myr (unit_size G (c_sc c) Ugalpy) in E4 *.
  have Eg : g = 1000 * time_in_Gyr G (ro (c_sc c)) (vo (c_sc c)) by [].
  have NG : g <> 0 by rewrite Eg; lra.
  have ED : duration G c1 Ukpckms (1 / 10) tfinal = gyr tfinal / (g / 1000).
  { rewrite /duration SC -/g. have [-> _] := kpckms_size (c_sc c). destruct tfinal; rewrite /gyr; field; exact NG. }
  rewrite ED in E4. move=> j Hj. cbn zeta. rewrite E4 //.
  have [RC0 [RC1 RC2]] := returned HR (proj1 (ready_galpy HR)). set c2 := return_cluster G _ _ in RC0 RC1 RC2 *.
  have ES : spaced (- (gyr tfinal / (g / 1000))) (gyr tfinal / (g / 1000)) nt j = spaced (- gyr tfinal) (gyr tfinal) nt j / (g / 1000).
  { rewrite /spaced. rewrite /Rdiv. ring. }
  rewrite ES. f_equal.
  - have H := time_galpy (spaced (- gyr tfinal) (gyr tfinal) nt j / (g / 1000)) RC1. rewrite RC2 SC -/g in H. have [K _] := kpckms_size (c_sc c). rewrite K in H.
    apply (Rmult_eq_reg_r 1000); [|lra]. rewrite H. field. exact NG.
  - have EO : orbit_kpc G c1 fc = orbit_kpc G c fc by rewrite /orbit_kpc V. rewrite EO.
    apply place_exact.
    + have H := convert6_place (in_kpc (ro (c_sc c)) (vo (c_sc c)) (ev 0 (spaced (- gyr tfinal) (gyr tfinal) nt j / (g / 1000)) (natural (ro (c_sc c)) (vo (c_sc c)) (orbit_kpc G c fc)))) RC1. exact H.
    + apply (convert6_motion _ RC1); [by split|]. rewrite /factor_forgotten. move=> [[H|H] _]; discriminate.
Qed.
(* matching to the own path *)
Theorem own_match_ok ev tfinal nt fc tp b c u o : lawful ev -> ready G c u o -> SpecFrame.aligned c -> (2 <= nt)%nat ->
  let z := unit_size G (c_sc c) u in
  exists pth c2 out p D, orbital_path_match_own G ev tfinal nt fc tp false b None None c = Ok (out, return_cluster G (save_cluster c) c2) /\ sees G c c2 /\
    own_path G ev c fc (gyr tfinal) nt pth /\ now (map fst pth) p /\
    (forall j k, (j <= k)%nat -> (k < length pth)%nat -> 0 <= D k - D j <= arc b (map snd pth) j k) /\
    length out = nstars c /\
    forall i, (i < nstars c)%nat -> star_match b tp z (map fst pth) (map snd pth) D p (star_kpc G c i) (nth i out (0, 0, None)).
Proof.
  move=> HE HR HL NT z. have [S1 R1] := frame_ok HR. have [V [_ [SC _]]] := S1.
  have [pth [orb [E1 E2]]] := @own_path_ok ev tfinal nt fc c (match_frame G c) Ogalaxy HE R1 V SC NT (Some (ro (c_sc c))) (Some (vo (c_sc c))) eq_refl eq_refl.
  rewrite /orbital_path_match_own. cbn [opt]. rewrite E1. cbn [bind].
  have [S2 [R2 _]] := returned R1 (proj1 (ready_galpy R1)). set c2 := return_cluster G (save_cluster (match_frame G c)) _ in S2 R2 *.
  have S12 := sees_trans S1 S2. have LP : length pth = nt by case: E2.
  have NP : pth <> [] by move=> E; rewrite E /= in LP; lia.
  have [out [p [D [F1 [F2 [F3 [_ [F5 F6]]]]]]]] := @core_ok G pth tp b c c2 u o HR HL S12 R2 NP ltac:(move=> _; lia).
  exists pth, c2, out, p, D. split; [exact F1|]. split; [exact S12|]. split; [exact E2|]. split; [exact F2|]. split; [exact F3|]. split; [exact F5|exact F6].
Qed.

(* interpolated orbit *)
Lemma to_pckms_ready c u o : ready G c u o -> sees G c (to_pckms G c) /\ ready G (to_pckms G c) Upckms o.
Proof.
  move=> HR. have [HS [Hu [Hl [Ho Hf]]]] := HR.
  have E : to_units G (Ureq Upckms) c = to_pckms G c by rewrite /to_units Hu.
  split; [apply sees_pckms; exact (sees_refl HR)|]. have H : linear Upckms by []. have [_ [R1 _]] := to_units_view HR H. by rewrite E in R1.
Qed.
(* the cluster at work: in the units of the cluster, or pc and km/s *)
Definition working (c : cluster) (u : usys) : cluster := match u with Uamuse => to_pckms G c | _ => c end.
Lemma working_ok c u o : ready G c u o -> exists u0, sees G c (working c u) /\ ready G (working c u) u0 o /\
  forall t0 tf, duration G (working c u) u0 t0 tf = duration G c u t0 tf.
Proof.
  move=> HR. destruct u;
    try (eexists; split; [exact (sees_refl HR)|split; [exact HR|reflexivity]]).
  have [S1 R1] := to_pckms_ready HR. exists Upckms. split; [exact S1|]. split; [exact R1|]. move=> t0 tf. rewrite /duration. have [_ [_ [-> _]]] := S1. by [].
Qed.
Theorem interpolate_ok ev tfinal nt fc c u o : lawful ev -> ready G c u o -> (2 <= nt)%nat -> (u = Uamuse -> tfinal <> None) ->
  let z := unit_size G (c_sc c) u in let r := ro (c_sc c) in let v := vo (c_sc c) in
  let end_ := in_kpc r v (ev 0 (duration G c u 12 tfinal) (natural r v (orbit_kpc G c fc))) in
  exists q c1, interpolate_orbit G ev tfinal nt fc None None c = Ok (q, return_cluster G (save_cluster c) c1) /\ sees G c c1 /\
    place_is z q end_ /\ (vel_system u -> ~ factor_forgotten Ukpckms u -> motion_is z q end_).
Proof.
  move=> HE HR NT HA z r v end_. have [HS [Hu _]] := HR.
  have [u0 [S0 [R0 D0]]] := working_ok HR. have [V0 [_ [SC0 _]]] := S0.
  set c0 := working c u in S0 R0 D0 V0 SC0 *.
  have [S1 [R1 SC1]] := returned R0 (proj1 (ready_galpy R0)).
  set c1 := return_cluster G (save_cluster c0) (to_galpy G c0) in S1 R1 SC1 *.
  have S01 := sees_trans S0 S1. have [RC0 [RC1 RC2]] := returned HR S01. set c' := return_cluster G (save_cluster c) c1 in RC0 RC1 RC2 *.
  have E : interpolate_orbit G ev tfinal nt fc None None c = Ok (convert6 end_ Ukpckms c', c').
  { have EG : (let '(o0, c2) := initialize_orbit G fc None None c0 in
      let ts := linspace 0 (galpy_time G 12 r v tfinal c2) nt in
      match nt with O => Raise | _ => Ok (convert6 (at_time ev o0 ts (last ts 0)) Ukpckms (return_cluster G (save_cluster c) c2), return_cluster G (save_cluster c) c2) end)
      = Ok (convert6 end_ Ukpckms c', c').
    { rewrite (init_orbit_ok fc None None R0) -/c1 SC0. cbn [opt]. have TE := galpy_time_ok 12 tfinal R1. rewrite SC1 SC0 in TE. rewrite /r /v TE.
      have -> : duration G c1 u0 12 tfinal = duration G c u 12 tfinal by rewrite -D0 /duration SC1.
      cbn zeta. rewrite /at_time. cbn [ob_at]. rewrite (linspace_last _ _ NT) linspace_hd; [lia|]. destruct nt; [lia|]. rewrite -/c'. 
      rewrite /orbit_kpc V0. reflexivity. }
    rewrite /interpolate_orbit. cbn [opt] in EG |- *. rewrite Hu. rewrite /c0 /working in EG. destruct u; try exact EG.
    destruct tfinal; [exact EG|]. by case: (HA eq_refl). }
  exists (convert6 end_ Ukpckms c'), c1. split; [exact E|]. split; [exact S01|]. split.
  - rewrite /z -RC2. exact (convert6_place end_ RC1).
  - move=> H1 H2. rewrite /z -RC2. exact (convert6_motion end_ RC1 H1 H2).
Qed.
End WithGalpy.
