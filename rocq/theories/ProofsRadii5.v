(* Proofs: the core radius from local densities, in pc. *)
From Coq Require Import Sorted.
From Verif Require Import Base ModelCluster ModelOps ModelConv ModelEnergy ModelRecipes ModelStars ModelSubset ModelCoords ModelLagrange ModelProfiles ModelMassFunction ModelDynamics.
From Verif Require Import ModelTail ModelCentre ModelRadii.
From Verif Require Import SpecUnits SpecFrame SpecConv SpecOrder SpecRecipes SpecEnergy SpecLagrange SpecProfiles SpecDynamics SpecCentre SpecRadii.
From Verif Require Import ProofsUnits ProofsFrame ProofsConv ProofsSort ProofsSees ProofsEnergy ProofsEnergyUnits ProofsVR ProofsRecipes ProofsRecipes2 ProofsLagrange ProofsProfiles ProofsDynamics ProofsDynamics2 ProofsCentre ProofsCentre2 ProofsCentre3 ProofsRadii4.
Set Implicit Arguments. Unset Strict Implicit.

Section WithGalpy.
Variable G : galpy.

Record centrally (c c1 : cluster) (kU : usize) : Prop := {
  ct_n : nstars c1 = nstars c;
  ct_al : SpecFrame.aligned c -> SpecFrame.aligned c1;
  ct_mass : forall i, (i < nstars c)%nat -> mass c1 i * in_Msun kU = sun_mass G c i;
  ct_star : SpecFrame.aligned c -> forall i, (i < nstars c)%nat -> view6 kU (star_row c1 i) = central_star G c i }.

Lemma seen_central c c1 u o U : ready G c u o -> sees G c c1 -> ready G c1 U Ocentre ->
  centrally c c1 (unit_size G (c_sc c) U).
Proof.
  move=> [HS [Hu [Hl [Ho Hf]]]] [V [_ [Sc _]]] [HS2 [Hu2 [Hl2 [Ho2 Hf2]]]].
  rewrite /galactic_view Hu Hu2 Sc in V. set kU := unit_size _ _ U in V *. set ku := unit_size _ _ u in V *.
  have Ez : sizes G c = ku by rewrite /sizes Hu.
  cbn zeta in V.
  have Vm := f_equal p_m V. have Vg := f_equal p_g V. have Vc := f_equal p_c V. have Vs := f_equal p_s V.
  cbn [p_m p_g p_c p_s] in Vm, Vg, Vc, Vs.
  have X := f_equal (@sx _) Vs. have Y := f_equal (@sy _) Vs. have Zz := f_equal (@sz _) Vs.
  have VX := f_equal (@svx _) Vs. have VY := f_equal (@svy _) Vs. have VZ := f_equal (@svz _) Vs.
  cbn [sx sy sz svx svy svz] in X, Y, Zz, VX, VY, VZ.
  have L : nstars c1 = nstars c by exact (map_map_length Vm).
  have AL : SpecFrame.aligned c -> SpecFrame.aligned c1.
  { move=> [A1 [A2 [A3 [A4 [A5 A6]]]]]. rewrite /SpecFrame.aligned.
    rewrite (map_map_length X) (map_map_length Y) (map_map_length Zz) (map_map_length VX) (map_map_length VY) (map_map_length VZ) (map_map_length Vm).
    by repeat split. }
  constructor.
  - exact L.
  - exact AL.
  - move=> i Hi. rewrite /sun_mass Ez. apply (map_map_nth (f := fun a => a * in_Msun kU) (g := fun a => a * in_Msun ku) Vm). by rewrite -/(nstars c1) L.
  - move=> A i Hi. have [A1 [A2 [A3 [A4 [A5 A6]]]]] := AL A. rewrite -L /nstars in Hi.
    have X' := map_map_nth X (eq_ind_r (fun z => (i < z)%nat) Hi A1).
    have Y' := map_map_nth Y (eq_ind_r (fun z => (i < z)%nat) Hi A2).
    have Z' := map_map_nth Zz (eq_ind_r (fun z => (i < z)%nat) Hi A3).
    have VX' := map_map_nth VX (eq_ind_r (fun z => (i < z)%nat) Hi A4).
    have VY' := map_map_nth VY (eq_ind_r (fun z => (i < z)%nat) Hi A5).
    have VZ' := map_map_nth VZ (eq_ind_r (fun z => (i < z)%nat) Hi A6).
    clear X Y Zz VX VY VZ Vs V Vm. cbn beta in *.
    have g1 := f_equal (@sx _) Vg. have g2 := f_equal (@sy _) Vg. have g3 := f_equal (@sz _) Vg.
    have g4 := f_equal (@svx _) Vg. have g5 := f_equal (@svy _) Vg. have g6 := f_equal (@svz _) Vg.
    have c1' := f_equal (@sx _) Vc. have c2' := f_equal (@sy _) Vc. have c3 := f_equal (@sz _) Vc.
    have c4 := f_equal (@svx _) Vc. have c5 := f_equal (@svy _) Vc. have c6 := f_equal (@svz _) Vc.
    rewrite /view6 in g1 g2 g3 g4 g5 g6 c1' c2' c3 c4 c5 c6. cbn [sx sy sz svx svy svz] in g1, g2, g3, g4, g5, g6, c1', c2', c3, c4, c5, c6.
    rewrite /origin_shift Ho2 Ho in X' Y' Z' VX' VY' VZ'.
    rewrite /central_star Ho Ez /star_row /view6 /map6 /relative6. cbn zeta.
    destruct o; cbn [sx sy sz svx svy svz] in X', Y', Z', VX', VY', VZ' |- *; try (by case: Hf); f_equal; try lra.
Qed.

(* the working frame when the centre is known *)
Lemma core_frame_ok m c u o : ready G c u o -> analyze true true c = c -> o = Ocentre \/ no_centre c = false ->
  exists c1 U, core_frame G m c = Ok c1 /\ sees G c c1 /\ ready G c1 U Ocentre /\ norms c1 /\
    in_pc (unit_size G (c_sc c) U) = in_pc (unit_size G (c_sc c) u) /\ in_Msun (unit_size G (c_sc c) U) = in_Msun (unit_size G (c_sc c) u) /\ (U = u \/ u = Uamuse /\ U = Upckms).
Proof.
  move=> HR HA HC. have [HS [Hu [Hl [Ho Hf]]]] := HR. rewrite /core_frame.
  have [A0 [S0 [P0 [O0 I0]]]] := amuse_ok HR HA. cbn zeta in *.
  have [U [RU EU]] : exists U, ready G (match c_units c with Some Uamuse => to_pckms G c | _ => c end) U o /\ (U = u \/ u = Uamuse /\ U = Upckms).
  { rewrite Hu. destruct u; try (by eexists; split; [exact HR|left]).
    have E : to_units G (Ureq Upckms) c = to_pckms G c by rewrite /to_units Hu.
    have [_ [R2 _]] := to_units_view HR (u' := Upckms) ltac:(discriminate). rewrite E in R2. exists Upckms. split=> //. by right. }
  have KE : in_pc (unit_size G (c_sc c) U) = in_pc (unit_size G (c_sc c) u) /\ in_Msun (unit_size G (c_sc c) U) = in_Msun (unit_size G (c_sc c) u).
  { destruct EU as [->|[-> ->]] => //. }
  move: A0 S0 P0 O0 I0 RU. generalize (match c_units c with Some Uamuse => to_pckms G c | _ => c end). move=> c0 A0 S0 P0 O0 I0 RU.
  have Nc : no_centre c0 = no_centre c by rewrite /no_centre P0. rewrite Ho.
  have [HS0 [Hu0 [Hl0 [Ho0 Hf0]]]] := RU.
  have centre : (o = Ocentre -> False) -> exists c1, Ok (to_centre true c0) = Ok c1 /\ sees G c c1 /\ ready G c1 U Ocentre /\ norms c1.
  { move=> No. exists (to_centre true c0). split=> //. split; [exact (sees_centre true S0)|].
    have [K1 [K2 [K3 [K4 [K5 [K6 _]]]]]] := skel_eq_fields (to_centre_flat true Hu0 Hl0 Ho0 Hf0).
    cbn in K1, K2, K6. split. { rewrite /ready K1 K2 K6. by split; [exact HS0|]; split; [exact Hu0|]; split; [exact Hl0|]; split. }
    rewrite /to_centre Ho0 Hu0. destruct o; try (by case: Hf); try (by case: No); destruct U => //; exact: norms_analyze. }
  destruct o; [| | |by case: Hf].
  - exists c0, U. split=> //. split=> //. split=> //. split; [by apply norms_settled|]. split; [exact (proj1 KE)|]. split; [exact (proj2 KE)|exact EU].
  - destruct HC as [HC|HC]; [discriminate|]. rewrite Nc HC. have [c1 [C1 [C2 [C3 C4]]]] := centre ltac:(by []).
    exists c1, U. split=> //. split=> //. split=> //. split=> //. split; [exact (proj1 KE)|]. split; [exact (proj2 KE)|exact EU].
  - destruct HC as [HC|HC]; [discriminate|]. rewrite Nc HC. have [c1 [C1 [C2 [C3 C4]]]] := centre ltac:(by []).
    exists c1, U. split=> //. split=> //. split=> //. split=> //. split; [exact (proj1 KE)|]. split; [exact (proj2 KE)|exact EU].
Qed.

Section Core.
Variables (c : cluster) (u : usys) (o : osys) (p : bool) (k : nat).
Hypotheses (HR : ready G c u o) (HP : positive_scales G (c_sc c)) (HA : analyze true true c = c) (AL : SpecFrame.aligned c)
  (HC : o = Ocentre \/ no_centre c = false).

Lemma table_grown c1 kU : centrally c c1 kU -> map (grown (in_Msun kU) kU) (map (as_seen p) (star_table c1)) = central_table G p c.
Proof.
  move=> V. rewrite /star_table /central_table !map_map /stars. have N := ct_n V. rewrite /nstars in N.
  rewrite N -/(nstars c). apply map_ext_in => i /in_seq Hi. cbn [Nat.add] in Hi.
  rewrite -seen_grown. rewrite /as_seen -(ct_mass V); [lia|]. rewrite -(ct_star V AL); [lia|]. by destruct p.
Qed.
Lemma core_distances c1 kU : centrally c c1 kU -> norms c1 -> 0 <= in_pc kU ->
  map (fun a => a * in_pc kU) (if p then d_rpro (c_der c1) else d_r (c_der c1)) = map (central_distance G p c) (stars c).
Proof.
  move=> V N K. have [L _] := norms_length p N (ct_al V AL). rewrite (ct_n V) in L.
  apply (nth_ext _ _ 0 0); [by rewrite !map_length L /stars seq_length|]. rewrite map_length L => i Hi.
  rewrite (@nth_map' _ _ _ _ i 0 0) ?L // /stars nth_map_seq //. cbn [Nat.add].
  rewrite (norms_radius p N (ct_al V AL)); [by rewrite (ct_n V)|]. rewrite /central_distance -(ct_star V AL) //. exact: radius_view.
Qed.

Theorem core_ok : match rcore_casertano G k p c with
  | Ok (Some rc, c') => restored c c' /\ casertano_radius G p k c (rc * in_pc (sizes G c))
  | Ok (None, c') => restored c c' /\ no_core G p k c
  | Raise => (k <= 1)%nat \/ (nstars c < k)%nat
  end.
Proof.
  have [HS [Hu [Hl [Ho Hf]]]] := HR. have [c1 [U [E [S1 [R1 [N1 [K1 [K2 EU]]]]]]]] := core_frame_ok Mcasertano HR HA HC.
  have V := seen_central HR S1 R1. have B := bracket_sees HR S1 HA. rewrite /rcore_casertano E. cbn [bind].
  set kU := unit_size G (c_sc c) U in V K1 K2.
  have LU : linear U by destruct R1 as [_ [_ [? _]]].
  have [Q1 [_ Q3]] := size_positive HP LU. rewrite -/kU in Q1 Q3.
  have Ez : in_pc (sizes G c) = in_pc kU by rewrite /sizes Hu K1.
  move: B. generalize (return_cluster G (save_cluster c) c1). move=> c' B. cbn zeta in B.
  have AL1 := ct_al V AL. have T := particles_table AL1. have Lp : length (particles c1) = nstars c.
  { rewrite -(ct_n V) /nstars -(table_length c1) -T map_length. done. }
  have TG := table_grown V. rewrite -T in TG.
  rewrite /core_radius Lp. destruct (Nat.leb k 1) eqn:Ek.
  { cbn [orb bind]. left. by apply Nat.leb_le. }
  apply Nat.leb_gt in Ek. destruct (Nat.ltb (nstars c) k) eqn:En.
  { cbn [orb bind]. right. by apply Nat.ltb_lt. }
  apply Nat.ltb_ge in En. cbn [orb bind fst].
  set t := map (as_seen p) (map part_row (particles c1)) in TG.
  have DO := fun i => @core_density_ok p k (particles c1) i Ek ltac:(lia). cbn zeta in DO. rewrite -/t in DO.
  have F0 : 0 < dens_unit p (in_Msun kU) (in_pc kU) by rewrite /dens_unit; apply Rdiv_lt_0_compat => //; destruct p; exact: pow_lt.
  destruct (all_finite _) as [w|] eqn:AF.
  - have Lw := all_finite_length AF. rewrite map_length seq_length in Lw.
    have W : forall i, (i < nstars c)%nat -> crowding p t k i (nth i w 0).
    { move=> i Hi. have := all_finite_nth (i := i) AF. rewrite map_length seq_length => /(_ Hi).
      rewrite nth_map_seq //. cbn [Nat.add]. move=> X. have := DO i. by rewrite X. }
    have W' : forall i, (i < nstars c)%nat -> crowding p (central_table G p c) k i (nth i w 0 * dens_unit p (in_Msun kU) (in_pc kU)).
    { move=> i Hi. rewrite -TG. exact (crowding_grown (in_Msun kU) Q1 (W i Hi)). }
    destruct (Reqb (sumR (map (fun a => a ^ 2) w)) 0) eqn:Z0.
    + move/Reqb_spec: Z0 => Z0. split; [exact B|]. right. move=> i Hi. have := W' i Hi.
      have -> : nth i w 0 = 0; [|by rewrite Rmult_0_l].
      rewrite -Lw in Hi. clear - Z0 Hi. revert i Hi; induction w as [|a w IH]; move=> [|i] Hi; cbn in Hi; try lia; cbn [map sumR] in Z0; cbn [nth];
        have P := sq_sum_nonneg w; have P' := pow2_ge_0 a; [nra|]. apply IH; [lra|lia].
    + move/Reqb_false: Z0 => Z0. split; [exact B|].
      exists (map (fun a => a * dens_unit p (in_Msun kU) (in_pc kU)) w). split; [by rewrite map_length|]. split.
      * move=> i Hi. rewrite (@nth_map' _ _ _ w i 0 0) ?Lw //. exact: W'.
      * rewrite Ez -(core_distances V N1 (Rlt_le _ _ Q1)). apply rms_scale => //. exact: rms_ok.
  - split; [exact B|]. left.
    have [i [Hi X]] : exists i, (i < nstars c)%nat /\ core_density p k (particles c1) i = None.
    { have : forall l, all_finite l = None -> exists i, (i < length l)%nat /\ nth i l None = None.
      { clear. induction l as [|[a|] l IH] => //=.
        - destruct (all_finite l) => // _. have [i [Hi X]] := IH eq_refl. exists (S i). split=> //. lia.
        - move=> _. exists 0%nat. split=> //. lia. }
      move=> /(_ _ AF) [i [Hi X]]. rewrite map_length seq_length in Hi. exists i. split=> //. by rewrite nth_map_seq in X. }
    have := DO i. rewrite X. move=> [N [j [Y1 Y2]]]. exists i, N, j. split=> //. rewrite -TG. split; [exact (nearest_grown (in_Msun kU) (Rlt_le _ _ Q1) Y1)|].
    rewrite !row_grown distance_grown; [lra|]. rewrite Y2. ring.
Qed.
End Core.
End WithGalpy.
