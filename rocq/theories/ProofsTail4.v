(* Proofs: matching the stars of a cluster to a path. *)
From Coq Require Import Nsatz.
From Verif Require Import Base ModelCluster ModelOps ModelConv ModelEnergy ModelRecipes ModelCoords ModelLagrange ModelProfiles ModelTail.
From Verif Require Import SpecUnits SpecFrame SpecConv SpecOrder SpecRecipes SpecEnergy SpecLagrange SpecSubset SpecProfiles SpecDynamics SpecTail.
From Verif Require Import ProofsUnits ProofsFrame ProofsConv ProofsSees ProofsEnergy ProofsRecipes ProofsDynamics ProofsDynamics2 ProofsDynamics6 ProofsTail ProofsTail2 ProofsTail3.
Set Implicit Arguments. Unset Strict Implicit.

(* ------------------------------------------------------------ distance to a line *)
Section ToLine.
Variable b : bool.
Let dd (o s : vec3) : R := v1 o * v1 s + v2 o * v2 s + if b then 0 else v3 o * v3 s.
Let mag (o : vec3) : R := sqrt (dd o o).
Lemma dd_pos o : 0 <= dd o o.
Proof. rewrite /dd. destruct b; nra. Qed.
Lemma dd_cauchy o s : dd o s ^ 2 <= dd o o * dd s s.
Proof.
  rewrite /dd. destruct b.
  - have := pow2_ge_0 (v1 o * v2 s - v2 o * v1 s). nra.
  - have := cauchy (v1 o) (v2 o) (v3 o) (v1 s) (v2 s) (v3 s). nra.
Qed.
Lemma to_line_mag o s : mag o <> 0 -> mag s <> 0 -> to_line b o s = Some (sqrt (dd s s - dd o s ^ 2 / dd o o)).
Proof.
  move=> No Ns. have PO := dd_pos o. have PS := dd_pos s. have EO := sqrt_sqrt _ PO. have ES := sqrt_sqrt _ PS. rewrite -/(mag o) in EO. rewrite -/(mag s) in ES.
  have GO : 0 < mag o by have := sqrt_pos (dd o o); rewrite -/(mag o); lra.
  have GS : 0 < mag s by have := sqrt_pos (dd s s); rewrite -/(mag s); lra.
  have HM : forall a, (if b then sqrt (v1 a ^ 2 + v2 a ^ 2) else sqrt (v1 a ^ 2 + v2 a ^ 2 + v3 a ^ 2)) = mag a.
  { move=> a. rewrite /mag /dd. destruct b; f_equal; ring. }
  have HD : (if b then v1 o * v1 s + v2 o * v2 s else v1 o * v1 s + v2 o * v2 s + v3 o * v3 s) = dd o s by rewrite /dd; destruct b; ring.
  rewrite /to_line. cbn zeta. rewrite !HM HD. destruct (Reqb (mag o * mag s) 0) eqn:E.
  { move/Reqb_spec: E => E. have := Rmult_lt_0_compat _ _ GO GS. lra. }
  f_equal. have CS := dd_cauchy o s.
  have Q : (dd o s / (mag o * mag s)) ^ 2 = dd o s ^ 2 / (dd o o * dd s s).
  { rewrite -EO -ES. field. lra. }
  have P1 : 0 < dd o o by rewrite -EO; nra. have P2 : 0 < dd s s by rewrite -ES; nra.
  have B : -1 <= dd o s / (mag o * mag s) <= 1.
  { have B2 : (dd o s / (mag o * mag s)) ^ 2 <= 1. { rewrite Q. apply (Rmult_le_reg_r (dd o o * dd s s)); [nra|]. rewrite Rmult_1_l. have -> : dd o s ^ 2 / (dd o o * dd s s) * (dd o o * dd s s) = dd o s ^ 2 by field; lra. lra. }
    move: B2. move: (dd o s / (mag o * mag s)) => q B2. split; nra. }
  rewrite sin_acos //. rewrite -/(Rsqr _) Rsqr_pow2 Q.
  rewrite -{1}(sqrt_square (mag s)); [lra|]. rewrite ES -sqrt_mult; [lra| |].
  - suff : dd o s ^ 2 / (dd o o * dd s s) <= 1 by lra. rewrite -Q. nra.
  - f_equal. field. lra.
Qed.
(* the least distance of the line through p in direction o *)
Lemma line_least (p q s : six R) : gap b p q <> 0 ->
  let o := mk3 (sx q - sx p) (sy q - sy p) (sz q - sz p) in
  forall k, let r := mk3 (sx p + k * (sx q - sx p) - sx s) (sy p + k * (sy q - sy p) - sy s) (sz p + k * (sz q - sz p) - sz s) in
  line_distance b p q s (sqrt (dd r r - dd o r ^ 2 / dd o o)).
Proof.
  move=> N. cbn zeta. move=> k. set o := mk3 (sx q - sx p) (sy q - sy p) (sz q - sz p). set r := mk3 _ _ _.
  have PO : 0 < dd o o.
  { have P := dd_pos o. destruct (Req_dec (dd o o) 0) as [E|E]; [|lra]. case: N. have -> : gap b p q = sqrt (dd o o) . { rewrite /gap /dd /o. cbn [v1 v2 v3]. f_equal. destruct b; ring. } by rewrite E sqrt_0. }
  have V : forall t, gap b (line_point p q t) s = sqrt (dd r r - dd o r ^ 2 / dd o o + dd o o * (t - k + dd o r / dd o o) ^ 2).
  { move=> t. rewrite /gap /line_point. cbn [sx sy sz]. f_equal.
    have -> : dd r r - dd o r ^ 2 / dd o o + dd o o * (t - k + dd o r / dd o o) ^ 2 = dd r r + 2 * (t - k) * dd o r + dd o o * (t - k) ^ 2 by field; lra.
    rewrite /dd /o /r. cbn [v1 v2 v3]. destruct b; ring. }
  split.
  - exists (k - dd o r / dd o o). rewrite V. f_equal. have -> : k - dd o r / dd o o - k + dd o r / dd o o = 0 by ring. ring.
  - move=> t. rewrite V. apply sqrt_le_1_alt. have := pow2_ge_0 (t - k + dd o r / dd o o). nra.
Qed.
Lemma mag_gap (p s : six R) : mag (mk3 (sx p - sx s) (sy p - sy s) (sz p - sz s)) = gap b p s.
Proof. rewrite /mag /dd /gap. cbn [v1 v2 v3]. destruct b; f_equal; ring. Qed.
End ToLine.
Lemma gap_sym b p q : gap b p q = gap b q p.
Proof. rewrite /gap. f_equal. destruct b; ring. Qed.
Lemma gap_nn b p q : 0 <= gap b p q. Proof. exact: sqrt_pos. Qed.

(* the forward differences are the directions of the segments *)
Lemma forward_nth l k : (2 <= length l)%nat -> (k < length l)%nat -> exists w, forward l = Some w /\
  nth k w 0 = if Nat.ltb (S k) (length l) then nth (S k) l 0 - nth k l 0 else nth k l 0 - nth (k - 1) l 0.
Proof.
  move=> L H. have LD := diffs_len l. rewrite /forward. destruct (rev (diffs l)) as [|a t] eqn:E.
  { have := rev_length (diffs l). rewrite E LD. cbn [length]. lia. }
  eexists. split; [reflexivity|].
  have EL : diffs l = rev t ++ [a] by rewrite -(rev_involutive (diffs l)) E.
  have LT : length (rev t) = (length l - 2)%nat. { have := LD. rewrite EL app_length. cbn [length]. lia. }
  destruct (Nat.ltb_spec (S k) (length l)) as [Hk|Hk].
  - rewrite app_nth1; [lia|]. by rewrite diffs_nth.
  - have -> : k = length (diffs l) by lia. rewrite nth_middle.
    have -> : a = nth (length l - 2) (diffs l) 0 by rewrite EL -LT nth_middle.
    rewrite diffs_nth; [lia|]. rewrite LD. have -> : S (length l - 2) = (length l - 1)%nat by lia. by have -> : (length l - 1 - 1 = length l - 2)%nat by lia.
Qed.
Lemma forward_short l : (length l <= 1)%nat -> forward l = None.
Proof. by destruct l as [|a [|b l]] => // H; cbn in H; lia. Qed.

(* the distance reported when to_path is given *)
Definition fwds (pts : list (six R)) : option (list R * list R * list R) :=
  match forward (map (@sx R) pts), forward (map (@sy R) pts), forward (map (@sz R) pts) with
  | Some a, Some b, Some d => Some (a, b, d) | _, _, _ => None end.
Lemma to_line_segment b pts k s : (2 <= length pts)%nat -> (k < length pts)%nat ->
  let i := fst (segment pts k) in let j := snd (segment pts k) in let p := nth k pts zero6 in
  exists x y z, fwds pts = Some (x, y, z) /\
    let r := to_line b (mk3 (nth k x 0) (nth k y 0) (nth k z 0)) (mk3 (sx p - sx s) (sy p - sy s) (sz p - sz s)) in
    (gap b (nth i pts zero6) (nth j pts zero6) <> 0 -> gap b p s <> 0 ->
       exists d, r = Some d /\ 0 <= d /\ line_distance b (nth i pts zero6) (nth j pts zero6) s d) /\
    (gap b (nth i pts zero6) (nth j pts zero6) = 0 \/ gap b p s = 0 -> r = None).
Proof.
  move=> L H. cbn zeta.
  have FX : forall f : six R -> R, exists w, forward (map f pts) = Some w /\
    nth k w 0 = f (nth (snd (segment pts k)) pts zero6) - f (nth (fst (segment pts k)) pts zero6).
  { move=> f. have L' : (2 <= length (map f pts))%nat by rewrite map_length.
    have H' : (k < length (map f pts))%nat by rewrite map_length. have [w [E1 E2]] := forward_nth L' H'. exists w. split; [exact E1|].
    rewrite E2 map_length /segment. destruct (Nat.ltb_spec (S k) (length pts)) as [Hk|Hk]; cbn [fst snd]; rewrite !(@nth_map' _ _ f pts _ 0 zero6) //; lia. }
  have [x [Ex Vx]] := FX (@sx R). have [y [Ey Vy]] := FX (@sy R). have [z [Ez Vz]] := FX (@sz R).
  exists x, y, z. split; [by rewrite /fwds Ex Ey Ez|]. rewrite Vx Vy Vz.
  set p := nth k pts zero6. set pi := nth (fst (segment pts k)) pts zero6. set pj := nth (snd (segment pts k)) pts zero6.
  have ON : exists t, forall f, (f = @sx R \/ f = @sy R \/ f = @sz R) -> f p = f pi + t * (f pj - f pi).
  { rewrite /p /pi /pj /segment. destruct (Nat.ltb (S k) (length pts)); cbn [fst snd]; [exists 0|exists 1]; move=> f _; ring. }
  split.
  - move=> N1 N2. have [t Ht] := ON. eexists. split.
    + apply to_line_mag; [rewrite mag_gap gap_sym; exact N1|rewrite mag_gap; exact N2].
    + split; [exact: sqrt_pos|]. have := line_least (b := b) s N1 t. cbn zeta. rewrite -!Ht; auto.
  - move=> N. rewrite /to_line. cbn zeta.
    have HM : forall p q : six R, (if b then sqrt (v1 (mk3 (sx p - sx q) (sy p - sy q) (sz p - sz q)) ^ 2 + v2 (mk3 (sx p - sx q) (sy p - sy q) (sz p - sz q)) ^ 2)
       else sqrt (v1 (mk3 (sx p - sx q) (sy p - sy q) (sz p - sz q)) ^ 2 + v2 (mk3 (sx p - sx q) (sy p - sy q) (sz p - sz q)) ^ 2 + v3 (mk3 (sx p - sx q) (sy p - sy q) (sz p - sz q)) ^ 2)) = gap b p q.
    { move=> p' q'. rewrite /gap. cbn [v1 v2 v3]. destruct b; f_equal; ring. }
    rewrite !HM (gap_sym b pj pi). destruct (Reqb (gap b pi pj * gap b p s) 0) eqn:E; [by []|].
    move/Reqb_false: E. by case; destruct N as [->| ->]; ring.
Qed.

(* ------------------------------------------------------------ the frame used *)
Section WithGalpy.
Variable G : galpy.
Lemma sees_galaxy c d s : sees G c d -> sees G c (to_galaxy G s d).
Proof.
  move=> H. apply (sees_trans H). have [u [o HR]] := sees_ready H. have [HS [Hu [Hl [Ho Hf]]]] := HR.
  apply (@skel_kp_view G _ _ u o Ogalaxy) => //; [|exact (to_galaxy_flat G s Hu Hl Ho Hf)].
  rewrite /to_galaxy Ho Hu. destruct o; [ | | | by case: Hf]; (destruct u; try (by case: Hl));
    (eapply kp_trans; [|apply kp_analyze]); try apply kp_refl;
    first [ eapply kp_trans; [eapply kp_to_cluster; [exact Hu|exact Hl|exact Ho|exact Hf] |]; apply kp_stars; by rewrite /= ?map_length
          | apply kp_stars; by rewrite /= ?map_length].
Qed.
Lemma ready_galaxy c u o s : ready G c u o -> ready G (to_galaxy G s c) u Ogalaxy.
Proof.
  move=> [HS [Hu [Hl [Ho Hf]]]]. have E := to_galaxy_flat G s Hu Hl Ho Hf.
  have [E1 [E2 [E3 [E4 [E5 [E6 [E7 [E8 E9]]]]]]]] := skel_eq_fields E. rewrite /ready E1 E2 E6 //.
Qed.
Lemma ready_kpckms c u o : ready G c u o -> ready G (to_kpckms G c) Ukpckms o.
Proof.
  move=> HR. have [HS [Hu [Hl [Ho Hf]]]] := HR.
  have F : Forall flat_op [OpUnits Ukpckms] by repeat constructor.
  have [_ [R1 _]] := run_view HR F. cbn [run fold_left run1 last_units last_origin] in R1.
  by rewrite /run /= /to_units Hu in R1.
Qed.
Lemma frame_ok c u o : ready G c u o -> sees G c (match_frame G c) /\ ready G (match_frame G c) Ukpckms Ogalaxy.
Proof.
  move=> HR. split.
  - apply sees_kpckms, sees_galaxy. exact (sees_refl HR).
  - apply (@ready_kpckms _ u). exact (ready_galaxy false HR).
Qed.
(* the same cluster in kpc and km/s relative to the galaxy *)
Lemma kpc_rows c c1 : sees G c c1 -> ready G c1 Ukpckms Ogalaxy -> SpecFrame.aligned c -> (exists u o, ready G c u o) ->
  SpecFrame.aligned c1 /\ nstars c1 = nstars c /\ length (rows6 (p_s (c_ph c1))) = nstars c /\
  forall i, (i < nstars c)%nat -> nth i (rows6 (p_s (c_ph c1))) zero6 = star_kpc G c i.
Proof.
  move=> [V [_ [Sc _]]] R1 HL _. have [_ [Hu1 [_ [Ho1 _]]]] := R1.
  have VV : galactic_view G c1 = galactic_view G c by [].
  rewrite /galactic_view in V. cbn zeta in V.
  have Vm := f_equal (fun p => length (p_m p)) V. have Vs := f_equal p_s V. cbn [p_m p_s] in Vm, Vs. rewrite !map_length in Vm.
  have L6 := fun f : six (list R) -> list R => f_equal (fun s => length (f s)) Vs.
  have Lx := L6 (@sx _). have Ly := L6 (@sy _). have Lz := L6 (@sz _). have Lu := L6 (@svx _). have Lv := L6 (@svy _). have Lw := L6 (@svz _).
  cbn [sx sy sz svx svy svz] in Lx, Ly, Lz, Lu, Lv, Lw. rewrite !map_length in Lx Ly Lz Lu Lv Lw.
  have [A1 [A2 [A3 [A4 [A5 A6]]]]] := HL.
  have AL1 : SpecFrame.aligned c1 by rewrite /SpecFrame.aligned; cbn zeta; rewrite Lx Ly Lz Lu Lv Lw Vm; exact HL.
  split; [exact AL1|]. have N1 : nstars c1 = nstars c by exact Vm. split; [exact N1|].
  have LN : length (sx (p_s (c_ph c1))) = nstars c by rewrite Lx A1.
  split; [by rewrite rows_length|]. move=> i Hi. rewrite (rows_nth LN Hi).
  rewrite /star_kpc -VV /galactic_view Hu1 /origin_shift Ho1. cbn zeta. cbn [unit_size p_s]. rewrite /row /star_row /map6. cbn [sx sy sz svx svy svz in_pc in_kms].
  have Hi1 : (i < length (p_m (c_ph c1)))%nat by rewrite Vm.
  have [B1 [B2 [B3 [B4 [B5 B6]]]]] := AL1. cbn zeta in B1, B2, B3, B4, B5, B6.
  f_equal; (rewrite (@nth_map' _ _ _ _ i 0 0); [lia|]; rewrite /unit_size; cbn [in_pc in_kms]; field).
Qed.
Lemma time_kpc c u o x : ready G c u o -> convert_time G x Ukpckms c * in_Myr (unit_size G (c_sc c) u) = 1000 * x.
Proof.
  move=> [HS [Hu [Hl _]]]. have [N _] := unit_size_nz u HS. rewrite (@time_correct G c Ukpckms u x) // /rsc. have -> : in_Myr (unit_size G (c_sc c) Ukpckms) = 1000 by []. field. exact N.
Qed.
Lemma length_kpc c u o x : ready G c u o -> convert_length x Ukpckms c * in_pc (unit_size G (c_sc c) u) = 1000 * x.
Proof.
  move=> [HS [Hu [Hl _]]]. have [_ [_ [N _]]] := unit_size_nz u HS. rewrite (@length_correct G c Ukpckms u x) // /rsc. have -> : in_pc (unit_size G (c_sc c) Ukpckms) = 1000 by []. field. exact N.
Qed.
End WithGalpy.
