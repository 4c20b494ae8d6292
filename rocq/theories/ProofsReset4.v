(* Proofs: sub_cluster with its reset options, the centre and the absence of options. *)
From Coq Require Import Sorted.
From Verif Require Import Base ModelCluster ModelOps ModelConv ModelEnergy ModelRecipes ModelLagrange ModelStars ModelSubset ModelCoords ModelCentre ModelDynamics ModelReset.
From Verif Require Import SpecUnits SpecFrame SpecConv SpecOrder SpecRecipes SpecEnergy SpecLagrange SpecStars SpecSubset SpecDynamics SpecCentre SpecReset.
From Verif Require Import ProofsUnits ProofsConv ProofsFrame ProofsOrder ProofsSort ProofsSees ProofsEnergyUnits ProofsRecipes ProofsLagrange ProofsStars ProofsSubset ProofsSubset2 ProofsSubset3 ProofsSubset4
  ProofsDynamics4 ProofsDynamics5 ProofsCentre ProofsCentre2 ProofsCentre5 ProofsReset ProofsReset2 ProofsReset3.
Set Implicit Arguments. Unset Strict Implicit.

Section WithGalpy.
Variable G : galpy.
Notation measured := SpecSubset.measured.
Notation mask_fits := SpecSubset.mask_fits.

Lemma reset_none q indx sort s n : complete s n -> (1 <= n)%nat -> energies_known q s n -> mask_fits indx n ->
  sub_cluster_reset G no_reset q indx sort s = sub_cluster G q indx sort s.
Proof.
  move=> CO Hn EK MF. have [M _] := CO. have [m [E [Lm Hm]]] := @subset_mask q indx s n M Hn EK MF.
  rewrite /sub_cluster_reset /sub_cluster E. cbn [bind]. destruct (Nat.ltb 0 (count m)) eqn:C; [|by []].
  have CM := C. apply Nat.ltb_lt in CM.
  have [b [EB [ES [C1 [C2 [B1 [B2 _]]]]]]] := stars_built sort CO Lm CM. cbn zeta in ES.
  rewrite EB ES. cbn [bind]. rewrite /place_centre. cbn [no_reset z_centre bind rescale_nbody z_nbody z_mass z_radii orb].
  have [F1 [F2 _]] := store_orbit_fields (p_g (c_ph (g_c (y_k s)))) (g_c (y_k b)).
  rewrite /put_centre. cbn [y_k set_cluster g_ntot y_kin y_pot y_etot g_c]. rewrite C2 C. cbn [bind].
  rewrite same_units_back /copy_centre; cbn [set_sky set_ph c_units c_origin]; rewrite ?F1 ?F2 //.
Qed.

Lemma analyzed_star_at k c c' j : p_s (c_ph c) = p_s (c_ph c') -> p_m (c_ph c) = p_m (c_ph c') -> c_id c = c_id c' ->
  star_at (set_cluster k c) j = star_at (set_cluster k c') j.
Proof. rewrite /star_at. cbn [set_cluster g_c g_m0 g_npop]. by move=> -> -> ->. Qed.

Lemma centre_at sort p c u o : ready G c u o -> o = Ocluster \/ o = Ogalaxy -> (p_c (c_ph c), p_g (c_ph c)) = centre_left o p (c_ph c) ->
  let c' := to_centre sort c in p_m (c_ph c') = p_m (c_ph c) /\ p_s (c_ph c') = sub6 (p_s (c_ph c)) p /\ c_origin c' = Some Ocentre.
Proof.
  move=> [HS [Hu [Hl [Ho Hf]]]] O E. cbn zeta.
  have [_ [E2 [_ [_ [E5 _]]]]] := skel_eq_fields (to_centre_flat sort Hu Hl Ho Hf). rewrite E5 E2. cbn [set_stars c_ph p_m p_s c_origin].
  split; [by []|]. split; [|by []]. rewrite sub6_add6 /reorigin. apply add6_ext. move: O E => [->|->]; rewrite /centre_left /shift_of.
  - move=> Q. have {Q} -> : p_c (c_ph c) = p by congruence. destruct (p_g (c_ph c)), p; rewrite /plus6 /minus6 /zero6 /=; f_equal; lra.
  - move=> Q. have [-> ->] : p_c (c_ph c) = zero6 /\ p_g (c_ph c) = p by split; congruence. destruct p; rewrite /plus6 /minus6 /zero6 /=; f_equal; lra.
Qed.

Theorem reset_centre_call q indx sort s n u o sub0 parent caller : ready G (g_c (y_k s)) u o -> complete s n -> (1 <= n)%nat ->
  energies_known q s n -> mask_fits indx n ->
  sub_cluster G q indx sort s = Ok (sub0, parent, caller) -> p_m (c_ph (g_c (y_k sub0))) <> [] ->
  exists p sub, sub_cluster_reset G new_centre q indx sort s = Ok (sub, parent, caller) /\
    raw_density first_guess (g_c (y_k sub0)) = Ok (Some p) /\
    same_rows sub sub0 /\ measured sub (g_ntot (y_k sub)) /\ ready G (g_c (y_k sub)) u o /\ ready G (g_c (y_k sub0)) u o /\
    p_s (c_ph (g_c (y_k sub))) = p_s (c_ph (g_c (y_k sub0))) /\ p_m (c_ph (g_c (y_k sub))) = p_m (c_ph (g_c (y_k sub0))) /\
    p_t (c_ph (g_c (y_k sub))) = p_t (c_ph (g_c (y_k sub0))) /\ c_sc (g_c (y_k sub)) = c_sc (g_c (y_k sub0)) /\
    (u <> Uamuse -> c_bin (g_c (y_k sub)) = c_bin (g_c (y_k sub0))) /\
    (p_c (c_ph (g_c (y_k sub))), p_g (c_ph (g_c (y_k sub)))) = centre_left o p (c_ph (g_c (y_k s))) /\
    (p_c (c_ph (g_c (y_k sub0))), p_g (c_ph (g_c (y_k sub0)))) = (p_c (c_ph (g_c (y_k s))), p_g (c_ph (g_c (y_k s)))) /\
    (sort = true -> well_sorted false (g_c (y_k sub))).
Proof.
  move=> HR CO Hn EK MF. rewrite -(reset_none sort CO Hn EK MF). have [M _] := CO. have [AL _] := M. have [HS [Hu [Hl [Ho Hf]]]] := HR.
  have [m [E [Lm Hm]]] := @subset_mask q indx s n M Hn EK MF.
  rewrite {1}/sub_cluster_reset E. cbn [bind]. destruct (Nat.ltb 0 (count m)) eqn:C.
  2: { move=> EQ. have {EQ} <- : nothing_selected (p_t (c_ph (g_c (y_k s)))) = sub0 by congruence. by []. }
  have CM := C. apply Nat.ltb_lt in CM.
  have [b [sub [p [c1 [EB [ES [P1 [P2 [P3 [P4 [P5 [P6 [P7 [P8 [P9 [P10 [P11 [P12 [P13 [P14 [P15 [P16 [R0 [R1 [NT [COL [O0 O1]]]]]]]]]]]]]]]]]]]]]]]]]]] :=
    reset_centre_stars sort HR CO Lm CM.
  rewrite EB. cbn [bind]. set c := g_c (y_k s) in HR HS Hu Ho P1 P3 |- *.
  have EP : place_centre G false c (g_c (y_k b)) = Ok (g_c (y_k sub)).
  { rewrite /place_centre. have := ES. rewrite build_sub_stars EB. cbn [bind]. cbn zeta. rewrite -/c. move=> EQ.
    have {}EQ : put_centre s b (copy_centre c (store_orbit (p_g (c_ph c)) (g_c (y_k b)))) = sub by congruence. by rewrite -EQ. }
  have FS := @fresh_sub sort m s n sub CO Lm CM ES. cbn zeta in FS.
  have [_ [[M0 [[_ [_ [_ [D4 [D5 _]]]]] _]] _]] := FS. cbn [y_k set_cluster g_c] in D4, D5.
  have [_ [U1 [_ [V1 _]]]] := R1. have [_ [U0 [_ [V0 _]]]] := R0.
  rewrite EP. cbn [bind no_reset z_centre rescale_nbody z_nbody z_mass z_radii orb]. rewrite NT C.
  rewrite same_units_back; [by rewrite U0|by rewrite V0|]. set c0 := g_c (y_k sub) in FS M0 D4 D5 P1 P2 P3 P4 P5 P6 P7 P8 P9 P10 P11 P12 P13 R0 O0 U0 V0 EP |- *.
  set par := mkSys (set_cluster (y_k s) _) _ _ _.
  set X0 := mkSys (set_cluster (y_k b) (analyze sort true c0)) (y_kin b) (y_pot b) (y_etot b).
  move=> EQ _. have [<- [Epar Ecal]] : X0 = sub0 /\ par = parent /\ (match indx with None => None | Some _ => Some m end) = caller.
  { by split; [|split]; congruence. }
  set X1 := mkSys (set_cluster (y_k b) (analyze sort true c1)) (y_kin b) (y_pot b) (y_etot b).
  exists p, X1. split.
  { rewrite /sub_cluster_reset E. cbn [bind]. rewrite C EB. cbn [bind new_centre z_centre]. rewrite -/c P1. cbn [bind new_centre rescale_nbody z_nbody z_mass z_radii orb]. rewrite NT C.
    rewrite same_units_back; [by rewrite U1|by rewrite V1|]. rewrite -/par Epar -Ecal. reflexivity. }
  have S0 := skel_analyze sort true c0. have [A1 [A2 [A3 [A4 [A5 [A6 [A7 [A8 A9]]]]]]]] := skel_eq_fields S0.
  have S1 := skel_analyze sort true c1. have [B1 [B2 [B3 [B4 [B5 [B6 [B7 [B8 B9]]]]]]]] := skel_eq_fields S1.
  rewrite /X0 /X1; cbn [y_k set_cluster g_c g_ntot]. split; [by rewrite (@raw_ph first_guess (analyze sort true c0) c0)|].
  have EI : c_id (analyze sort true c1) = c_id (analyze sort true c0) by rewrite A9 B9 P10.
  have Es : p_s (c_ph (analyze sort true c1)) = p_s (c_ph (analyze sort true c0)) by rewrite A5 B5 P4.
  have Em : p_m (c_ph (analyze sort true c1)) = p_m (c_ph (analyze sort true c0)) by rewrite A5 B5 P5.
  split.
  { split; [rewrite /same_labels; cbn [y_k y_kin y_pot y_etot set_cluster g_c g_m0 g_npop g_ntot g_sse g_bse]; by rewrite EI|].
    move=> j. cbn [y_k]. by apply analyzed_star_at. }
  split.
  { have EX : X0 = mkSys (set_cluster (y_k sub) (analyze sort true c0)) (y_kin sub) (y_pot sub) (y_etot sub).
    { rewrite /X0 P13 P14 P15 P16. reflexivity. }
    rewrite -EX chosen_count -NT in M0. have [AL0 [NT0 [_ [_ [_ [_ [_ [KW ET]]]]]]]] := M0.
    have AL1 : SpecStars.aligned (y_k X1) (g_ntot (y_k b)).
    { move: AL0. rewrite /SpecStars.aligned /X0 /X1. cbn [y_k set_cluster g_c g_m0 g_npop]. by rewrite EI Es Em. }
    have [N1 [N2 [N3 N4]]] := analyze_norms sort true c1.
    have PS : p_s (c_ph c1) = p_s (c_ph (analyze sort true c1)) by rewrite B5.
    rewrite PS in N1 N2 N3 N4.
    have [M1 [M2 [M3 [M4 M5]]]] := @measured_norms (y_k X1) _ AL1 N1 N2 N3 N4.
    exact (conj AL1 (conj NT0 (conj M1 (conj M2 (conj M3 (conj M4 (conj M5 (conj KW ET)))))))). }
  split. { move: R1. rewrite /ready B1 B2 B6. done. }
  split. { move: R0. rewrite /ready A1 A2 A6. done. }
  split; [exact Es|]. split; [exact Em|]. split; [by rewrite A5 B5|]. split; [by rewrite A6 B6|].
  split. { move=> NA. have [X _] := P11 NA. by rewrite A7 B7. }
  split; [by rewrite B5|]. split.
  { rewrite D4 D5. reflexivity. }
  move=> SO. rewrite SO. apply (@vord_well _ o); [by rewrite -V1; have [_ [-> _]] := skel_eq_fields (skel_analyze true true c1)|exact: analyze_idem|].
  exact (@vord_analyze true c1 o V1 (own_order_vord V1 O1)).
Qed.
End WithGalpy.
