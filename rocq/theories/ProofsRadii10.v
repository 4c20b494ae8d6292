(* Proofs: a core radius asked of a cluster without a centre sets one. *)
From Coq Require Import Sorted.
From Verif Require Import Base ModelCluster ModelOps ModelConv ModelEnergy ModelRecipes ModelStars ModelSubset ModelCoords ModelLagrange ModelProfiles ModelMassFunction ModelDynamics.
From Verif Require Import ModelTail ModelCentre ModelRadii.
From Verif Require Import SpecUnits SpecFrame SpecConv SpecOrder SpecRecipes SpecEnergy SpecCentre SpecRadii.
From Verif Require Import ProofsUnits ProofsFrame ProofsSees ProofsEnergy ProofsDynamics ProofsCentre ProofsCentre2 ProofsCentre3 ProofsCentre4 ProofsCentre5 ProofsRadii9.
Set Implicit Arguments. Unset Strict Implicit.

Section WithGalpy.
Variable G : galpy.

Lemma set_centre_keeps c0 p : c_origin c0 = Some Ocluster -> analyze true true c0 = c0 -> let c1 := set_centre false p c0 in
  analyze true true c1 = c1 /\ c_units c1 = c_units c0 /\ c_origin c1 = c_origin c0 /\ c_der c1 = c_der c0 /\ c_sc c1 = c_sc c0 /\ p_c (c_ph c1) = p.
Proof.
  move=> O HA. cbn zeta. rewrite /set_centre O. set c1 := set_centres _ _ _. split; [|by rewrite O].
  apply cluster_ext; [apply skel_analyze|]. etransitivity; [|exact (f_equal c_der HA)].
  rewrite /c1 /set_centres. destruct c0 as [u o b nb ph sc bi sk de id]. rewrite /set_ph. cbn [c_units c_origin c_bunits c_nb c_ph c_sc c_bin c_sky c_der c_id].
  rewrite /analyze. set r1 := analyze_radii _. set r2 := analyze_radii _.
  have E1 : c_der r1 = c_der r2 by []. have E2 : c_origin r1 = c_origin r2 by [].
  have F1 : c_der (sortstars true r1) = c_der (sortstars true r2).
  { rewrite /sortstars E1 E2. by destruct (match d_rorder (c_der r2) with Some _ => _ | None => _ end). }
  have F3 : p_m (c_ph (sortstars true r1)) = p_m (c_ph (sortstars true r2)) by rewrite !sort_ph.
  rewrite /analyze_fracs F1 F3. destruct (match d_rorder _ with Some _ => _ | None => _ end) as [rm r10]. by destruct (match d_rproorder _ with Some _ => _ | None => _ end).
Qed.

Theorem core_sets_centre c u k (p : bool) q c0 r c' : ready G c u Ocluster -> u <> Uamuse -> analyze true true c = c -> no_centre c = true ->
  find_centre_of_density G (default_centre Mcasertano) c = Ok (Some q, c0) ->
  rcore_casertano G k p c = Ok (r, c') -> p_c (c_ph c') = q.
Proof.
  move=> HR HU HA NC F. have [HS [Hu [Hl [Ho Hf]]]] := HR.
  rewrite /rcore_casertano /core_frame Ho Hu.
  have E : match u with Uamuse => to_pckms G c | _ => c end = c by destruct u.
  rewrite E NC /method_find_centre (@find_centre_density G 0 1 (default_centre Mcasertano) c); [exact I|exact HA|]. rewrite F. cbn [option_map bind].
  have [P [U [O [D [Sc Id]]]]] : c_ph c0 = c_ph c /\ c_units c0 = c_units c /\ c_origin c0 = c_origin c /\ c_der c0 = c_der c /\ c_sc c0 = c_sc c /\ c_id c0 = c_id c.
  { rewrite density_answer in F. destruct (raw_density (default_centre Mcasertano) c) as [z|]; [|discriminate]. injection F as _ <-. exact (back_ok HR HA). }
  have HA0 : analyze true true c0 = c0. { apply cluster_ext; [apply skel_analyze|]. by rewrite (analyze_der P O D) HA. }
  have [A1 [A2 [A3 [A4 [A5 A6]]]]] := set_centre_keeps q (eq_trans O Ho) HA0.
  move: (set_centre false q c0) A1 A2 A3 A4 A5 A6 => c1 A1 A2 A3 A4 A5 A6.
  have R1 : ready G c1 u Ocluster by rewrite /ready A2 A3 A5 Sc U O.
  have S1 : sees G c1 (to_centre true c1) by apply sees_centre; [exact: sees_refl R1|..].
  have SV : save_cluster c = save_cluster c1 by rewrite /save_cluster A2 A3 A4 U O D.
  destruct (core_radius _ _ _ _) as [rc|] => //. cbn [bind]. move=> X. have {X} <- : return_cluster G (save_cluster c) (to_centre true c1) = c' by congruence.
  rewrite SV. have [-> _] := bracket_sees R1 S1 A1. exact A6.
Qed.
End WithGalpy.

(* ---- distinct stars of positive mass have a density centre *)
Lemma sum_pos (f : nat -> R) l : (forall a, In a l -> 0 < f a) -> l <> [] -> 0 < sumR (map f l).
Proof.
  induction l as [|a l IH] => // H _. cbn [map sumR fold_right]. rewrite -/(sumR (map f l)). have Ha := H a (or_introl eq_refl).
  destruct l as [|b l]; [cbn; lra|]. have := IH (fun x Hx => H x (or_intror Hx)) ltac:(discriminate). lra.
Qed.
Lemma sum_without (f : nat -> R) l j : In j l -> NoDup l -> exists l', (length l = S (length l')) /\ (forall a, In a l' -> In a l) /\ sumR (map f l) = f j + sumR (map f l').
Proof.
  induction l as [|a l IH] => //. move=> [->|H] N; inversion N; subst.
  - exists l. split=> //. split=> //. by right.
  - destruct (IH H) as [l' [L [I E]]] => //. exists (a :: l'). cbn [length]. split; [by rewrite L|]. split; [move=> b [->|Hb]; [by left|by right; apply I]|].
    cbn [map sumR fold_right]. rewrite -!/(sumR _) E. ring.
Qed.
Lemma all_finite_total {A} (f : A -> option R) l : (forall a, In a l -> f a <> None) -> exists r, all_finite (map f l) = Some r.
Proof.
  induction l as [|a l IH] => H /=; [by eexists|]. destruct (f a) as [x|] eqn:E; [|by have := H a (or_introl eq_refl)].
  destruct IH as [r ->]; [by move=> b Hb; apply H; right|]. by eexists.
Qed.
Theorem crowd_centre k l : (1 < k)%nat -> (k <= length l)%nat -> (forall b, In b l -> 0 < y_m b) ->
  (forall i j, (i < length l)%nat -> (j < length l)%nat -> i <> j -> 0 < row_distance (row_at (map part_row l) i) (row_at (map part_row l) j)) ->
  exists q, casertano k l = Ok (Some q) /\ ((forall b, In b l -> 0 < sx (y_p b)) -> 0 < sx q).
Proof.
  move=> H1 Hk Hm Hd. set t := map part_row l in Hd *. have Lt : length t = length l by exact: map_length.
  have far : forall i, (i < length l)%nat -> local_density k l i <> None.
  { move=> i Hi. rewrite /local_density. destruct (Reqb _ 0) eqn:E => //. exfalso. apply Reqb_spec in E.
    have [N1 [N2 [N3 [N4 [N5 _]]]]] := @neighbours_nearest k l i H1 Hk. rewrite -/t in N3 N5.
    set N := neighbours k l i in N1 N2 N3 N4 N5 E. set j := nth (k - 1) N 0%nat in N4 N5 E.
    have Z0 : row_distance (row_at t i) (row_at t j) = 0.
    { rewrite !row_part_at row_distance_part. have P := pos_nonneg (y_p (nth i l (mkPart 0 zero6))) (y_p (nth j l (mkPart 0 zero6))).
      destruct P as [P|P] => //. have := pow_lt _ 3 P. rewrite E. lra. }
    have all0 : forall a, In a N -> a = i.
    { move=> a Ha. destruct (Nat.eq_dec a i) => //. exfalso. have A := N3 a Ha. rewrite Lt in A. have := Hd i a Hi A ltac:(by move=> X; apply n; symmetry).
      have := N5 a Ha. rewrite Z0. lra. }
    destruct N as [|a [|b N]]; cbn [length] in N2; [lia|lia|]. have Ea := all0 a (or_introl eq_refl). have Eb := all0 b (or_intror (or_introl eq_refl)).
    subst a b. inversion N1 as [|x y Nx _]. apply Nx. by left. }
  have [w F] := @all_finite_total _ (local_density k l) (seq 0 (length l)) ltac:(move=> i /in_seq Hi; apply far; lia).
  have Lw : length w = length l by have := all_finite_length F; rewrite map_length seq_length => ->.
  have rho : forall i, (i < length l)%nat -> 0 < nth i w 0.
  { move=> i Hi. have X := all_finite_nth (i := i) F. rewrite map_length seq_length in X. have {X} X := X Hi. rewrite nth_map_seq' // in X.
    have [N [j [[N1 [N2 [N3 [N4 _]]]] [D E]]]] := local_density_ok H1 Hk X. fold t in N3, E, D.
    have [l' [L' [I' S']]] := sum_without (fun a => fst (row_at t a)) N4 N1. rewrite S' in E.
    have P : 0 < sumR (map (fun a => fst (row_at t a)) l').
    { apply sum_pos; [|by move=> X'; rewrite X' in L'; cbn in L'; lia]. move=> a Ha. have A := N3 a (I' a Ha). rewrite Lt in A. rewrite row_part_at. cbn [part_row fst].
      apply Hm, nth_In. exact A. }
    have D3 := pow_lt _ 3 D. move: (row_distance (row_at t i) (row_at t j) ^ 3) D3 E => v D3 E. have E2 : nth i w 0 * v = sumR (map (fun a => fst (row_at t a)) l') by lra.
    rewrite -E2 in P. nra. }
  have Sw : 0 < sumR w.
  { have E : w = map (fun i => nth i w 0) (seq 0 (length w)). { apply (nth_ext _ _ 0 0); [by rewrite map_length seq_length|]. move=> i Hi. by rewrite nth_map_seq'. }
    rewrite E. apply sum_pos; [move=> a /in_seq Ha; apply rho; lia|]. rewrite Lw. destruct l; cbn in *; [lia|discriminate]. }
  have C : exists q, casertano k l = Ok (Some q).
  { rewrite /casertano. have -> : Nat.leb k 1 = false by apply Nat.leb_gt. have -> : Nat.ltb (length l) k = false by apply Nat.ltb_ge. cbn [orb].
    rewrite F. have -> : Reqb (sumR w) 0 = false by apply Reqb_false; lra. by eexists. }
  destruct C as [q C]. exists q. split=> // X.
  have [w' [Lw' [D' [_ [Mx _]]]]] := casertano_ok C. destruct (Rlt_le_dec 0 (sx q)) as [?|Q] => //. exfalso.
  move: Mx. rewrite /moment /reweighted map_map map_length. cbn [fst snd]. set f := fun i : nat => _. 
  have P : 0 < sumR (map f (seq 0 (length l))); [|by move: P; rewrite /f; lra].
  apply sum_pos; [|destruct l; cbn in *; [lia|discriminate]]. move=> i /in_seq Hi. rewrite /f.
  have A : 0 < sx (snd (row_at t i)). { rewrite row_part_at. cbn [part_row snd]. apply X, nth_In. lia. }
  have B : 0 < nth i w' 0.
  { have [N [j [[N1 [N2 [N3 [N4 _]]]] [D E]]]] := D' i ltac:(lia). fold t in N3, E, D.
    have [l' [L' [I' S']]] := sum_without (fun a => fst (row_at t a)) N4 N1. rewrite S' in E.
    have P : 0 < sumR (map (fun a => fst (row_at t a)) l').
    { apply sum_pos; [|by move=> X'; rewrite X' in L'; cbn in L'; lia]. move=> a Ha. have A' := N3 a (I' a Ha). rewrite Lt in A'. rewrite row_part_at. cbn [part_row fst].
      apply Hm, nth_In. exact A'. }
    have D3 := pow_lt _ 3 D. move: (row_distance (row_at t i) (row_at t j) ^ 3) D3 E => v D3 E. have E2 : nth i w' 0 * v = sumR (map (fun a => fst (row_at t a)) l') by lra.
    rewrite -E2 in P. nra. }
  apply Rmult_lt_0_compat; [exact B|]. move: A Q. rewrite /t. lra.
Qed.

Section Crowd.
Variable G : galpy.
Lemma particles_length c : SpecFrame.aligned c -> length (particles c) = nstars c.
Proof. move=> [A1 _]. rewrite /particles zip_with_length /rows6 map_length seq_length A1 /nstars. lia. Qed.
Lemma centre_kept c u o : ready G c u o -> SpecFrame.aligned c -> SpecFrame.aligned (to_centre true c) /\ nstars (to_centre true c) = nstars c.
Proof.
  move=> HR AL. have S1 : sees G c (to_centre true c) by apply sees_centre; [exact: sees_refl HR|..].
  have [_ [[u1 [o1 R1]] [Sc _]]] := S1.
  move: (to_centre true c) S1 R1 Sc => c1 [V _] [_ [Hu2 _]] Sc. have [_ [Hu _]] := HR.
  rewrite /galactic_view Hu Hu2 Sc in V. cbn zeta in V.
  have Vm := f_equal p_m V. have Vs := f_equal p_s V. cbn [p_m p_s] in Vm, Vs.
  have X := f_equal (@sx _) Vs. have Y := f_equal (@sy _) Vs. have Zz := f_equal (@sz _) Vs.
  have VX := f_equal (@svx _) Vs. have VY := f_equal (@svy _) Vs. have VZ := f_equal (@svz _) Vs.
  cbn [sx sy sz svx svy svz] in X, Y, Zz, VX, VY, VZ. move: AL => [A1 [A2 [A3 [A4 [A5 A6]]]]].
  split; [|exact (map_map_length Vm)]. rewrite /SpecFrame.aligned.
  rewrite (map_map_length X) (map_map_length Y) (map_map_length Zz) (map_map_length VX) (map_map_length VY) (map_map_length VZ) (map_map_length Vm).
  by split; [|split; [|split; [|split; [|split]]]].
Qed.
Theorem core_runs c u k (p : bool) q c0 : ready G c u Ocluster -> u <> Uamuse -> analyze true true c = c -> no_centre c = true -> SpecFrame.aligned c ->
  find_centre_of_density G (default_centre Mcasertano) c = Ok (Some q, c0) -> (1 < k <= nstars c)%nat ->
  exists r c', rcore_casertano G k p c = Ok (r, c').
Proof.
  move=> HR HU HA NC AL F Hk. have [HS [Hu [Hl [Ho Hf]]]] := HR.
  rewrite /rcore_casertano /core_frame Ho Hu.
  have E : match u with Uamuse => to_pckms G c | _ => c end = c by destruct u.
  rewrite E NC /method_find_centre (@find_centre_density G 0 1 (default_centre Mcasertano) c); [exact I|exact HA|]. rewrite F. cbn [option_map bind].
  have [P [U [O [D [Sc Id]]]]] : c_ph c0 = c_ph c /\ c_units c0 = c_units c /\ c_origin c0 = c_origin c /\ c_der c0 = c_der c /\ c_sc c0 = c_sc c /\ c_id c0 = c_id c.
  { rewrite density_answer in F. destruct (raw_density (default_centre Mcasertano) c) as [z|]; [|discriminate]. injection F as _ <-. exact (back_ok HR HA). }
  have HA0 : analyze true true c0 = c0. { apply cluster_ext; [apply skel_analyze|]. by rewrite (analyze_der P O D) HA. }
  have [A1 [A2 [A3 [A4 [A5 A6]]]]] := set_centre_keeps q (eq_trans O Ho) HA0.
  have AL1 : SpecFrame.aligned (set_centre false q c0) /\ nstars (set_centre false q c0) = nstars c.
  { rewrite /set_centre O Ho /SpecFrame.aligned /nstars. cbn [set_centres set_ph c_ph p_m p_s]. by rewrite P. }
  move: (set_centre false q c0) A1 A2 A3 A4 A5 A6 AL1 => c1 A1 A2 A3 A4 A5 A6 [AL1 N1].
  have R1 : ready G c1 u Ocluster by rewrite /ready A2 A3 A5 Sc U O.
  have [AL2 N2] := centre_kept R1 AL1. have L := particles_length AL2. rewrite N2 N1 in L. move: (to_centre true c1) L => c2 L.
  rewrite /core_radius L. have -> : Nat.leb k 1 = false by apply Nat.leb_gt; lia. have -> : Nat.ltb (nstars c) k = false by apply Nat.ltb_ge; lia.
  cbn [orb bind]. by eexists; eexists.
Qed.
Theorem crowd_density c : (6 <= nstars c)%nat -> SpecFrame.aligned c -> (forall i, (i < nstars c)%nat -> 0 < mass c i) ->
  (forall i j, (i < nstars c)%nat -> (j < nstars c)%nat -> i <> j -> 0 < row_distance (row_at (star_table c) i) (row_at (star_table c) j)) ->
  (forall i, (i < nstars c)%nat -> 0 < nth i (sx (p_s (c_ph c))) 0) ->
  exists q c0, find_centre_of_density G (default_centre Mcasertano) c = Ok (Some q, c0) /\ 0 < sx q.
Proof.
  move=> H6 AL Hm Hd Hx. have L := particles_length AL. rewrite -(particles_table AL) in Hd.
  have M : forall b, In b (particles c) -> 0 < y_m b /\ 0 < sx (y_p b).
  { move=> b Hb. rewrite (particles_seq AL) in Hb. apply in_map_iff in Hb as [i [<- Hi]]. apply in_seq in Hi. cbn [y_m y_p]. split; [apply Hm; rewrite /nstars; lia|].
    have := Hx i ltac:(rewrite /nstars; lia). by []. }
  have [q [C X]] := @crowd_centre 6 (particles c) ltac:(lia) ltac:(by rewrite L) (fun b Hb => proj1 (M b Hb)) ltac:(by rewrite L).
  exists q. rewrite density_answer /raw_density. cbn [default_centre ca_method ca_nneighbour]. rewrite C. eexists. split; [reflexivity|]. apply X. move=> b Hb. exact (proj2 (M b Hb)).
Qed.
End Crowd.
