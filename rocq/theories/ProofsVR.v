From Verif Require Import Base ModelCluster ModelOps ModelConv ModelEnergy SpecUnits SpecFrame SpecConv SpecEnergy
  ProofsUnits ProofsFrame ProofsPot ProofsSees ProofsEnergy ProofsVirial ProofsEnergyUnits.
Set Implicit Arguments. Unset Strict Implicit.

Lemma fold_left_sum {A} (f : A -> R) l s : fold_left (fun s a => s + f a) l s = s + sumR (map f l).
Proof. revert s; induction l as [|a l IH] => s /=; [lra|]. rewrite IH. lra. Qed.
Lemma sumR_flat_map {A B} (f : B -> R) (g : A -> list B) l : sumR (map f (flat_map g l)) = sumR (map (fun a => sumR (map f (g a))) l).
Proof. induction l as [|a l IH] => //=. by rewrite map_app sumR_app IH. Qed.
Lemma widsum_eq l : weighted_inverse_distance_sum l = inverse_distance l (pairs (length l)).
Proof.
  rewrite /weighted_inverse_distance_sum /inverse_distance.
  transitivity (fold_left (fun s a => s + (fun '(i, j) => let a := nth i l star0 in let b := nth j l star0 in fm a * fm b / sqrt (dist2 a b)) a) (pairs (length l)) 0).
  - generalize 0. induction (pairs (length l)) as [|[i j] ps IH] => s //=. rewrite IH distance_sqrt. by [].
  - rewrite fold_left_sum. lra.
Qed.
Lemma skipn_as_nth {A B} (f : A -> B) (l : list A) i d : (i <= length l)%nat ->
  map f (skipn i l) = map (fun j => f (nth j l d)) (seq i (length l - i)).
Proof.
  revert i; induction l as [|a l IH] => i /= Hi; [by destruct i|].
  destruct i as [|i]; cbn [skipn].
  - rewrite /= (list_as_nth f l d). f_equal. rewrite -seq_shift map_map //.
  - rewrite IH; [lia|]. rewrite -seq_shift map_map //.
Qed.
Lemma loop_eq l : inverse_distance_loop l = inverse_distance l (pairs (length l)).
Proof.
  rewrite /inverse_distance_loop /inverse_distance /pairs fold_left_sum sumR_flat_map Rplus_0_l.
  f_equal. apply map_ext_in => i /in_seq Hi. rewrite (@skipn_as_nth _ _ _ _ _ star0); [lia|].
  rewrite map_map. f_equal. apply map_ext => j. f_equal. f_equal. rewrite /dist2. ring.
Qed.
Lemma pair_set_sum l ps : pair_set (length l) ps -> inverse_distance l ps = inverse_distance l (pairs (length l)).
Proof.
  move=> [H1 H2]. have [H3 H4] := pairs_set (length l). apply sumR_perm, Permutation_map.
  apply NoDup_Permutation => //. move=> [i j]. by rewrite H2 H4.
Qed.
Lemma inverse_translate d l ps : (forall i j, In (i, j) ps -> (i < length l)%nat /\ (j < length l)%nat) ->
  inverse_distance (map (translate d) l) ps = inverse_distance l ps.
Proof.
  move=> H. rewrite /inverse_distance. f_equal. apply map_ext_in => [[i j] Hij]. have [H1 H2] := H _ _ Hij.
  rewrite !(@nth_map_in _ _ _ _ _ star0) //. rewrite /dist2 /translate. destruct d as [[x y] z]. cbn [fx fy fz fm].
  congr (_ / sqrt _). ring.
Qed.

Section E.
Variable G : galpy.
Lemma frame_centre c u o : ready G c u o -> aligned c ->
  let c1 := if off_centre c then to_centre false c else c in
  sees G c c1 /\ aligned c1 /\ p_m (c_ph c1) = p_m (c_ph c) /\ exists d, bodies c1 = map (translate d) (bodies c).
Proof.
  move=> R HA /=. have [HS [Hu [Hl [Ho Hf]]]] := R. have [A1 [A2 [A3 [A4 [A5 A6]]]]] := HA.
  rewrite /off_centre Ho. destruct o; try (by case: Hf).
  - split; [exact (sees_refl R)|]; do 2 (split => //). exists (0, 0, 0). symmetry. apply map_id_ext, translate_0.
  - split; [exact (sees_refl R)|]; do 2 (split => //). exists (0, 0, 0). symmetry. apply map_id_ext, translate_0.
  - have [F1 [F2 [F3 F4]]] := to_centre_fields false R. have SE := @sees_centre G c c false (sees_refl R).
    move: (to_centre false c) F1 F2 F3 F4 SE => c1 F1 F2 F3 F4 SE.
    have HM : p_m (c_ph c1) = p_m (c_ph c) by rewrite F1.
    have HB : bodies c1 = map (translate (- (sx (p_g (c_ph c)) + sx (p_c (c_ph c))), - (sy (p_g (c_ph c)) + sy (p_c (c_ph c))), - (sz (p_g (c_ph c)) + sz (p_c (c_ph c))))) (bodies c).
    { rewrite /bodies HM map_map. apply map_ext_in => k /in_seq Hk. rewrite /body F1 /translate /= /vadd.
      rewrite !(@nth_map_in _ _ _ _ _ 0); try lia. f_equal; lra. }
    split => //. split; [|split => //; eexists; exact HB].
    rewrite /aligned F1 /= /reorigin /add6 /vadd /= !map_length. by repeat split.
Qed.

Lemma virial_radius_spec p full c u o ps : ready G c u o -> aligned c -> analyze true true c = c ->
  pair_set (nstars c) ps ->
  let '(rv, c') := virial_radius G p full c in
  rv = sumR (p_m (c_ph c)) ^ 2 / (2 * inverse_distance (bodies_seen p c) ps) /\ restored c c'.
Proof.
  move=> R HA HN HP. rewrite /virial_radius. have [HS [Hu [Hl [Ho Hf]]]] := R.
  set c0 := match c_units c with Some Uamuse => _ | _ => _ end.
  have [u0 [R0 [S0 [P0 O0]]]] : exists u0, ready G c0 u0 o /\ sees G c c0 /\ c_ph c0 = c_ph c /\ off_centre c0 = off_centre c.
  { rewrite /c0 Hu. have SR := sees_refl R.
    destruct u; try (by eexists; split; [exact R|split; [exact SR|by split]]).
    have [P1 [P2 [P3 [P4 P5]]]] := amuse_to_pckms R. exists Upckms. split; [rewrite /ready P2 P3 P4; repeat split => //; apply HS|].
    split; [exact: sees_pckms|]. split => //. by rewrite /off_centre P3 Ho. }
  move: c0 R0 S0 P0 O0 => c0 R0 S0 P0 O0. rewrite -O0.
  have HA0 : aligned c0 by rewrite /aligned P0.
  have [S1 [AL [HM [d HB]]]] := frame_centre R0 HA0.
  move: (if off_centre c0 then _ else c0) S1 AL HM HB => c1 S1 AL HM HB.
  split; [|exact: bracket_sees R (sees_trans S0 S1) HN].
  have B0 : bodies c0 = bodies c by rewrite /bodies /body P0.
  have LN : length (bodies_seen p c1) = nstars c by rewrite seen_length /nstars HM P0.
  have EW : (if full then weighted_inverse_distance_sum (rows p c1) else inverse_distance_loop (rows p c1)) = inverse_distance (bodies_seen p c) ps.
  { transitivity (inverse_distance (bodies_seen p c1) (pairs (nstars c))); [destruct full; by rewrite ?widsum_eq ?loop_eq rows_seen // LN|].
    rewrite /bodies_seen HB in_plane_translate inverse_translate B0.
    - move=> i j /pairs_in H. rewrite -/(bodies_seen p c) seen_length. lia.
    - rewrite -/(bodies_seen p c) -{1}(seen_length p c) pair_set_sum // seen_length //. }
  by rewrite EW HM P0.
Qed.

(* units *)
Lemma virial_radius_units p full c c' u u' o : ready G c u o -> ready G c' u' o -> c_sc c' = c_sc c ->
  positive_scales G (c_sc c) -> aligned c ->
  same_physics (unit_size G (c_sc c) u) (unit_size G (c_sc c) u') (c_ph c) (c_ph c') ->
  analyze true true c = c -> analyze true true c' = c' -> (forall k, (k < nstars c)%nat -> 0 < mass c k) ->
  fst (virial_radius G p full c') * in_pc (unit_size G (c_sc c) u') = fst (virial_radius G p full c) * in_pc (unit_size G (c_sc c) u).
Proof.
  move=> R R' HSc HP HA HPH HN HN' Hm.
  pose proof (@virial_radius_spec p full c u o _ R HA HN (pairs_set _)) as E.
  pose proof (@virial_radius_spec p full c' u' o _ R' (aligned_same HA HPH) HN' (pairs_set _)) as E'.
  destruct (virial_radius G p full c) as [rv d]. destruct (virial_radius G p full c') as [rv' d'].
  destruct E as [E _]. destruct E' as [E' _]. cbn [fst]. rewrite E E'.
  have [_ [_ [Hl _]]] := R. have [_ [_ [Hl' _]]] := R'.
  have [P1 [P2 P3]] := size_positive HP Hl. have [P1' [P2' P3']] := size_positive HP Hl'.
  have BS := bodies_same R' HP HPH p. have NS := n_same HPH.
  set z := unit_size G (c_sc c) u in HPH P1 P2 P3 BS *. set z' := unit_size G (c_sc c) u' in HPH P1' P2' P3' BS *.
  set kr := in_pc z / in_pc z' in BS. set km := in_Msun z / in_Msun z' in BS.
  have Kr : 0 < kr by apply Rdiv_lt_0_compat. have Km : 0 < km by apply Rdiv_lt_0_compat.
  have MS : sumR (p_m (c_ph c')) = sumR (p_m (c_ph c)) * km.
  { rewrite -sumR_map_mul. f_equal. have [_ [HM _]] := HPH. apply (nth_ext _ _ 0 0); [by rewrite map_length; exact NS|].
    move=> k Hk. rewrite (@nth_map_in _ _ _ _ _ 0); [rewrite -/(nstars c) -NS //|].
    have Z : in_Msun z' <> 0 by lra. rewrite (conv_nth k Z HM) /km. ring. }
  have IS : inverse_distance (bodies_seen p c') (pairs (nstars c')) = inverse_distance (bodies_seen p c) (pairs (nstars c)) * (km ^ 2 / kr).
  { rewrite BS NS /inverse_distance -sumR_map_mul map_map. f_equal. apply map_ext_in => [[i j] /pairs_in Hij].
    have L := seen_length p c. have L2 : length (bodies c) = nstars c by rewrite /bodies map_length seq_length.
    rewrite !(@nth_map_in _ _ _ _ _ star0); try (rewrite ?L ?L2; lia).
    set a := in_plane p (nth i _ star0). set b := in_plane p (nth j _ star0).
    have -> : dist2 (dilate kr km a) (dilate kr km b) = (kr * kr) * dist2 a b by rewrite /dist2 /=; ring.
    rewrite sqrt_mult; [nra|exact: dist2_nonneg|]. rewrite sqrt_square; [lra|]. cbn [fm dilate].
    set r := sqrt _. destruct (Req_dec r 0) as [->|Hr]; [by rewrite Rmult_0_r /Rdiv Rinv_0; ring|]. field. lra. }
  rewrite MS IS. set S := inverse_distance _ _. set M := sumR _.
  have -> : in_pc z = kr * in_pc z' by rewrite /kr; field; lra.
  destruct (Req_dec S 0) as [->|HS]; [by rewrite Rmult_0_l !Rmult_0_r /Rdiv Rinv_0; ring|]. field. lra.
Qed.
End E.
