(* Proofs: the limiting radius. *)
From Verif Require Import Base ModelCluster ModelOps ModelConv ModelEnergy ModelRecipes ModelStars ModelSubset ModelCoords ModelLagrange ModelProfiles ModelMassFunction ModelDynamics ModelRadii.
From Verif Require Import SpecUnits SpecFrame SpecConv SpecOrder SpecRecipes SpecEnergy SpecStars SpecSubset SpecLagrange SpecProfiles SpecDynamics SpecRadii.
From Verif Require Import ProofsUnits ProofsFrame ProofsConv ProofsSort ProofsSees ProofsEnergy ProofsEnergyUnits ProofsVR ProofsRecipes ProofsRecipes2 ProofsLagrange ProofsSubset ProofsSubset2 ProofsSubset4 ProofsProfiles ProofsProfiles2 ProofsProfiles3 ProofsDynamics ProofsDynamics2 ProofsDynamics3 ProofsRadii ProofsRadii2.
Set Implicit Arguments. Unset Strict Implicit.

Lemma all_some_map {A} (l : list A) : all_some (map Some l) = Some l.
Proof. induction l as [|a l IH] => //=. by rewrite IH. Qed.

Section WithGalpy.
Variable G : galpy.

Lemma limiting_frame_ok c u o : ready G c u o -> let c1 := limiting_frame G c in
  sees G c c1 /\ ready G c1 Ugalpy (work_origin o) /\ norms c1 /\
    viewed c c1 (unit_size G (c_sc c) u) (unit_size G (c_sc c) Ugalpy).
Proof.
  move=> HR. have [HS [Hu [Hl [Ho Hf]]]] := HR. cbn zeta. rewrite /limiting_frame.
  have [S1 R1] := centred false HR. cbn zeta in S1, R1.
  have [_ [Hu1 _]] := R1.
  have E : forall X, c_units X = Some u -> to_units G (Ureq Ugalpy) X = to_galpy G X by move=> X HX; rewrite /to_units HX.
  rewrite -E //. apply (in_units HR S1); [by eexists; exact R1|by left].
Qed.

(* what comes back after the inner profile has restored the working frame *)
Lemma twice_restored c c1 u o U o1 : ready G c u o -> analyze true true c = c -> sees G c c1 -> ready G c1 U o1 ->
  sees G c (return_cluster G (save_cluster c1) c1).
Proof.
  move=> HR HA HS [R1 [R2 [R3 [R4 R5]]]]. exact (@sees_return G c c1 (save_cluster c1) U o1 HS R2 R3 R4 R5).
Qed.

Section Limiting.
Variables (s : system) (u : usys) (o : osys) (nrad : nat) (p : bool).
Let c := g_c (y_k s).
Hypotheses (HR : ready G c u o) (HP : positive_scales G (c_sc c)) (HA : analyze true true c = c) (HM : measured s (nstars c))
  (Hr : (0 < nrad)%nat) (SP : spread G p s).

Lemma back_length r U c1 : linear U -> sees G c c1 ->
  convert_length r U (return_cluster G (save_cluster c) c1) * in_pc (sizes G c) = r * in_pc (unit_size G (c_sc c) U).
Proof.
  move=> LU S1. have [HS [Hu [Hl [Ho Hf]]]] := HR. have [R1 [R2 [R3 [R4 [R5 _]]]]] := bracket_sees HR S1 HA.
  have [P1 _] := size_positive HP Hl.
  rewrite (@length_correct G _ U u); [by rewrite R5|by rewrite R2|exact LU|exact Hl|].
  rewrite R5 /sizes Hu /rsc. field. lra.
Qed.

Theorem limiting_ok dens rgc zgc fc : exists lo mid hi rho, density_table G p nrad s lo mid hi rho /\
  let d := galaxy_density G dens (c_sc c) (place_kpc G c rgc zgc fc) * (if p then 4 * last mid 0 / 3 else 1) in
  match rlimiting G dens rgc zgc nrad p fc s with
  | Ok (rl, s') => falls_to mid rho d (rl * in_pc (sizes G c)) /\ system_restored s s'
  | Raise => last rho 0 = d /\ forall k, (k < length rho)%nat -> d <= nth k rho 0
  end.
Proof.
  have [F1 [F2 [F3 V]]] := limiting_frame_ok HR. have [HS [Hu [Hl [Ho Hf]]]] := HR.
  have Sc : c_sc (limiting_frame G c) = c_sc c by destruct F1 as [_ [_ [? _]]].
  have LG : linear Ugalpy by discriminate.
  have [lo [hi [rprof [pprof [nn [E D]]]]]] := @pc_profile G s (limiting_frame G c) u Ugalpy o nrad p HR HP HM F1 F2 ltac:(discriminate) LG F3 V Hr SP.
  have PL := @place_ok G c (limiting_frame G c) u rgc zgc fc HS HP Hu Sc V.
  exists lo, (map (fun a => a * in_pc (unit_size G (c_sc c) Ugalpy)) rprof), hi, (map (fun a => a * density_unit G s Ugalpy p) pprof).
  split; [exact D|]. cbn zeta.
  rewrite /rlimiting -/c PL E. cbn [bind]. rewrite all_some_map.
  have [Q1 [_ Q3]] := size_positive HP LG.
  have K0 := @density_unit_pos G s c Ugalpy p HP LG SP. rewrite -/c in Q1 Q3.
  have S2 := twice_restored HR HA F1 F2.
  destruct D as [_ [Ad [_ [Lm [Lr H]]]]]. rewrite !map_length in Lm, Lr.
  have L0 : (0 < length lo)%nat by destruct Ad as [_ [N _]]; destruct lo => //=; lia.
  set rho := if p then _ else _.
  have OK := @limit_radius_ok rho rprof pprof ltac:(lia) ltac:(by move=> X; rewrite X in Lr; cbn in Lr; lia).
  have Inc : forall k, (S k < length pprof)%nat -> nth k rprof 0 < nth (S k) rprof 0.
  { move=> k Hk. have [_ [_ [X _]]] := H k ltac:(lia). have := X ltac:(lia). rewrite !nth_scale -/c. generalize Q1. generalize (in_pc (unit_size G (c_sc c) Ugalpy)) => K HK HL. nra. }
  have OK2 := OK Inc. clear OK. rename OK2 into OK.
  have Erho : galaxy_density G dens (c_sc c) (place_kpc G c rgc zgc fc) *
      (if p then 4 * last (map (fun a => a * in_pc (unit_size G (c_sc c) Ugalpy)) rprof) 0 / 3 else 1) = rho * density_unit G s Ugalpy p.
  { rewrite last_scale /rho /galaxy_density /density_unit -/c.
    have X1 : in_pc (unit_size G (c_sc c) Ugalpy) = 1000 * ro (c_sc c) by []. have X2 : in_Msun (unit_size G (c_sc c) Ugalpy) = mass_in_msol G (ro (c_sc c)) (vo (c_sc c)) by [].
    rewrite X1 X2. rewrite X1 in Q1. clear - Q1. destruct p; field; lra. }
  rewrite Erho. cbn [g_c y_k sys_with set_cluster].
  move: S2 F1 F2. generalize (return_cluster G (save_cluster (limiting_frame G c)) (limiting_frame G c)). move=> c2 S2 F1 F2.
  destruct (limit_radius rho rprof pprof) as [rl|]; cbn [bind].
  - split; [|exact (sys_restored HR HA S2)]. rewrite back_length //. exact (falls_scale Q1 K0 OK).
  - destruct OK as [O1 O2]. rewrite last_scale O1. split=> //. rewrite map_length. move=> k Hk. rewrite nth_scale. have := O2 k Hk. nra.
Qed.
End Limiting.
End WithGalpy.
