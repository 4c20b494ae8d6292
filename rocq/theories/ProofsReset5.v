(* Proofs: sub_cluster with its reset options, the scales. *)
From Coq Require Import Sorted.
From Verif Require Import Base ModelCluster ModelOps ModelConv ModelEnergy ModelRecipes ModelLagrange ModelStars ModelSubset ModelCoords ModelCentre ModelDynamics ModelReset.
From Verif Require Import SpecUnits SpecFrame SpecConv SpecOrder SpecRecipes SpecEnergy SpecLagrange SpecStars SpecSubset SpecDynamics SpecCentre SpecReset.
From Verif Require Import ProofsUnits ProofsConv ProofsFrame ProofsOrder ProofsSort ProofsSees ProofsEnergyUnits ProofsRecipes ProofsLagrange ProofsStars ProofsSubset ProofsSubset2 ProofsSubset3 ProofsSubset4
  ProofsDynamics4 ProofsDynamics5 ProofsCentre ProofsCentre2 ProofsCentre5 ProofsReset ProofsReset2 ProofsReset3.
Set Implicit Arguments. Unset Strict Implicit.

Section WithGalpy.
Variable G : galpy.
Notation measured := SpecSubset.measured.
Notation mask_fits := SpecSubset.mask_fits.

(* quantities in pc and Msun depend on the stars, centre, units, origin and scales only *)
Lemma sun_same p c d : c_ph d = c_ph c -> c_units d = c_units c -> c_origin d = c_origin c -> c_sc d = c_sc c ->
  nstars d = nstars c /\ bodies_seen p d = bodies_seen p c /\ sun_bodies G p d = sun_bodies G p c /\ SpecDynamics.total_mass G d = SpecDynamics.total_mass G c /\
  map (pc_distance G p d) (SpecDynamics.stars d) = map (pc_distance G p c) (SpecDynamics.stars c) /\
  map (sun_mass G d) (SpecDynamics.stars d) = map (sun_mass G c) (SpecDynamics.stars c) /\ (forall mass, mass_scale G mass d = mass_scale G mass c).
Proof.
  move=> E1 E2 E3 E4. have N : nstars d = nstars c by rewrite /nstars E1.
  have Z : sizes G d = sizes G c by rewrite /sizes E2 E4.
  have B : bodies_seen p d = bodies_seen p c by rewrite /bodies_seen /bodies /body E1.
  have W : map (sun_mass G d) (SpecDynamics.stars d) = map (sun_mass G c) (SpecDynamics.stars c).
  { rewrite /SpecDynamics.stars N. apply map_ext => i. by rewrite /sun_mass /mass Z E1. }
  have T : SpecDynamics.total_mass G d = SpecDynamics.total_mass G c by rewrite /SpecDynamics.total_mass W.
  split; [exact N|]. split; [exact B|]. split; [by rewrite /sun_bodies Z B|]. split; [exact T|]. split.
  { rewrite /SpecDynamics.stars N. apply map_ext => i. by rewrite /pc_distance /own_distance /own_centre Z E1 E3. }
  split; [exact W|]. move=> m. by rewrite /mass_scale T E4.
Qed.
Lemma positive_same c d : c_sc d = c_sc c -> positive_scales G (c_sc c) -> positive_scales G (c_sc d). Proof. by move=> ->. Qed.

Lemma sum_positive l : (forall m, In m l -> 0 < m) -> l <> [] -> 0 < sumR l.
Proof.
  move=> H. destruct l as [|a l] => // _. cbn [sumR]. have Ha := H a (or_introl eq_refl).
  have : 0 <= sumR l.
  { have : forall m, In m l -> 0 < m by move=> m I; apply H; right. clear. induction l as [|b l IH]; cbn [sumR]; [lra|].
    move=> H. have := H b (or_introl eq_refl). have := IH (fun m I => H m (or_intror I)). lra. }
  lra.
Qed.
Definition some_scale (nb ma ra : bool) : bool := nb || (ma || ra).
Lemma rescale_form nb ma ra rv pr zc c : some_scale nb ma ra = true ->
  rescale_nbody G (nbody_options nb ma ra rv pr zc) c =
  reset_nbody_scale_method G (nb || ma) true rv pr false (analyze true true (to_pckms G c)).
Proof. rewrite /rescale_nbody /nbody_options. cbn [z_nbody z_mass z_radii z_rvirial z_projected z_repeated]. by destruct nb; [|destruct ma, ra]. Qed.

Theorem reset_nbody_virial nb ma ra pr zc q indx sort s n u o sub0 parent caller ps : some_scale nb ma ra = true ->
  ready G (g_c (y_k s)) u o -> positive_scales G (c_sc (g_c (y_k s))) -> complete s n -> (1 <= n)%nat -> energies_known q s n -> mask_fits indx n ->
  sub_cluster_reset G (only_centre zc) q indx sort s = Ok (sub0, parent, caller) ->
  let c0 := g_c (y_k sub0) in (2 <= nstars c0)%nat -> (forall m, In m (p_m (c_ph c0)) -> 0 < m) -> pair_set (nstars c0) ps ->
  separated (bodies_seen pr c0) ->
  exists sub r v t, sub_cluster_reset G (nbody_options nb ma ra true pr zc) q indx sort s = Ok (sub, parent, caller) /\
    r = virial_pc (sun_bodies G pr c0) ps /\ nbody_scales (mass_scale G (nb || ma) c0) r v t /\
    rescaled_result G sub sub0 u o (mass_scale G (nb || ma) c0, r, v, t) sort.
Proof.
  move=> SS HR HP0 CO Hn EK MF ER c0 H2 HM HPS HSep.
  have NE : p_m (c_ph c0) <> [] by move=> E; move: H2; rewrite /nstars E /=; lia.
  have [msk [b [cB [Lm [CM [RB [OB [AB [EX [ES [EZ [EB [PP FZ]]]]]]]]]]]]] := reset_call HR CO Hn EK MF ER NE.
  have HP := PP HP0.
  have [K1 [K2 [K3 [K4 [K5 [K6 [K7 [K8 K9]]]]]]]] := skel_eq_fields (skel_analyze sort true cB).
  have E0 : c0 = analyze sort true cB by rewrite /c0 EX.
  have [S1 [S2 [S3 [S4 [S5 [S6 S7]]]]]] := @sun_same pr cB c0 ltac:(by rewrite E0) ltac:(by rewrite E0) ltac:(by rewrite E0) ltac:(by rewrite E0).
  have P0 : c_ph c0 = c_ph cB by rewrite E0.
  have [B1 [B2 [B3 [B4 [B5 B6]]]]] := to_pckms_ph RB. have [SB VB] := settled_pc RB HP OB.
  have FF := FZ (nbody_options nb ma ra true pr zc) eq_refl. rewrite rescale_form // in FF.
  have RO := fun c' z r v t => @rescaled_ok G sort s b cB u o c' z r v t HR RB OB HP. cbn zeta in RO.
  move: (analyze true true (to_pckms G cB)) B1 B2 B3 B4 B5 B6 SB VB FF RO => b1 B1 B2 B3 B4 B5 B6 SB VB FF RO.
  have [_ [Ub [_ [Ob _]]]] := B2.
  have [T1 [T2 [T3 [T4 [T5 [T6 [T7 T8]]]]]]] := @pc_same G pr cB b1 u o RB HP AB B1 Ub Ob.
  have [_ [_ [Lu _]]] := RB. have [PZ1 [PZ2 PZ3]] := size_positive HP Lu.
  have HM1 : forall m, In m (p_m (c_ph b1)) -> 0 < m.
  { move=> m /T7 [m' [I1 ->]]. apply Rmult_lt_0_compat; [|exact PZ3]. apply HM. by rewrite P0. }
  have SEP : separated (bodies_seen pr b1). { apply (separated_pc RB HP Ub T2). by rewrite -S2. }
  have [r [v [t [c' [E1 [Rs [Er NS]]]]]]] := @nbody_scale_any G (nb || ma) pr b1 Upckms o ps B2 (positive_same B3 HP) T6 SB
     ltac:(by rewrite T1 -S1) ltac:(by rewrite T1 -S1) HM1 SEP.
  have MS : mass_scale G (nb || ma) b1 = mass_scale G (nb || ma) c0.
  { rewrite S7 /mass_scale. destruct (nb || ma); [exact T3|by rewrite B3]. }
  rewrite MS in E1 NS.
  move: FF. rewrite /reset_nbody_scale_method E1. cbn [bind]. move=> FF.
  eexists. exists r, v, t. split; [exact FF|]. split; [by rewrite Er T2 S3|]. split; [exact NS|].
  rewrite EX. exact (RO c' _ r v t Rs NS).
Qed.

Theorem reset_nbody_half nb ma ra pr zc q indx sort s n u o sub0 parent caller : some_scale nb ma ra = true ->
  ready G (g_c (y_k s)) u o -> positive_scales G (c_sc (g_c (y_k s))) -> complete s n -> (1 <= n)%nat -> energies_known q s n -> mask_fits indx n ->
  sub_cluster_reset G (only_centre zc) q indx sort s = Ok (sub0, parent, caller) ->
  let c0 := g_c (y_k sub0) in p_m (c_ph c0) <> [] -> (forall m, In m (p_m (c_ph c0)) -> 0 < m) ->
  exists h, is_fraction_radius (1/2) (map (pc_distance G false c0) (SpecDynamics.stars c0)) (map (sun_mass G c0) (SpecDynamics.stars c0)) h /\ (0 < h ->
  exists sub v t, sub_cluster_reset G (nbody_options nb ma ra false pr zc) q indx sort s = Ok (sub, parent, caller) /\
    nbody_scales (mass_scale G (nb || ma) c0) (4 / 3 * h) v t /\
    rescaled_result G sub sub0 u o (mass_scale G (nb || ma) c0, 4 / 3 * h, v, t) sort).
Proof.
  move=> SS HR HP0 CO Hn EK MF ER c0 NE HM.
  have [msk [b [cB [Lm [CM [RB [OB [AB [EX [ES [EZ [EB [PP FZ]]]]]]]]]]]]] := reset_call HR CO Hn EK MF ER NE.
  have HP := PP HP0.
  have [K1 [K2 [K3 [K4 [K5 [K6 [K7 [K8 K9]]]]]]]] := skel_eq_fields (skel_analyze sort true cB).
  have E0 : c0 = analyze sort true cB by rewrite /c0 EX.
  have [S1 [S2 [S3 [S4 [S5 [S6 S7]]]]]] := @sun_same false cB c0 ltac:(by rewrite E0) ltac:(by rewrite E0) ltac:(by rewrite E0) ltac:(by rewrite E0).
  have P0 : c_ph c0 = c_ph cB by rewrite E0.
  have [B1 [B2 [B3 [B4 [B5 B6]]]]] := to_pckms_ph RB. have [SB VB] := settled_pc RB HP OB.
  have FF := FZ (nbody_options nb ma ra false pr zc) eq_refl. rewrite rescale_form // in FF.
  have RO := fun c' z r v t => @rescaled_ok G sort s b cB u o c' z r v t HR RB OB HP. cbn zeta in RO.
  move: (analyze true true (to_pckms G cB)) B1 B2 B3 B4 B5 B6 SB VB FF RO => b1 B1 B2 B3 B4 B5 B6 SB VB FF RO.
  have [_ [Ub [_ [Ob _]]]] := B2.
  have [T1 [T2 [T3 [T4 [T5 [T6 [T7 T8]]]]]]] := @pc_same G false cB b1 u o RB HP AB B1 Ub Ob.
  have [_ [_ [Lu _]]] := RB. have [PZ1 [PZ2 PZ3]] := size_positive HP Lu.
  have HM1 : forall m, In m (p_m (c_ph b1)) -> 0 < m.
  { move=> m /T7 [m' [I1 ->]]. apply Rmult_lt_0_compat; [|exact PZ3]. apply HM. by rewrite P0. }
  have NN : nonneg (p_m (c_ph b1)) by move=> m /HM1; lra.
  have POS : 0 < sumR (p_m (c_ph b1)).
  { have NE1 : p_m (c_ph b1) <> [] by move=> X; move: T1 NE; rewrite /nstars X P0 => T1; apply; apply length_zero_iff_nil.
    exact (sum_positive HM1 NE1). }
  have [h [F1 [v [t [c' [E1 [Rs NS]]]]]]] := @nbody_half_any G (nb || ma) pr b1 Upckms o B2 (positive_same B3 HP) T6 (vord_well Ob SB VB) NN POS.
  have MS : mass_scale G (nb || ma) b1 = mass_scale G (nb || ma) c0.
  { rewrite S7 /mass_scale. destruct (nb || ma); [exact T3|by rewrite B3]. }
  rewrite MS in E1 NS.
  exists h. split; [by rewrite S5 S6 -T4 -T5|]. move=> Hh. have {}NS := NS Hh.
  move: FF. rewrite /reset_nbody_scale_method E1. cbn [bind]. move=> FF.
  eexists. exists v, t. split; [exact FF|]. split; [exact NS|].
  rewrite EX. exact (RO c' _ _ v t Rs NS).
Qed.
End WithGalpy.
