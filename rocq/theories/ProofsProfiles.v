(* Proofs: the frame, the selection and the rows of a profile. *)
From Coq Require Import Sorted.
From Verif Require Import Base ModelCluster ModelOps ModelConv ModelEnergy ModelRecipes ModelStars ModelSubset ModelCoords ModelLagrange ModelProfiles.
From Verif Require Import SpecUnits SpecFrame SpecOrder SpecRecipes SpecEnergy SpecStars SpecSubset SpecLagrange SpecProfiles.
From Verif Require Import ProofsUnits ProofsFrame ProofsSort ProofsSees ProofsEnergy ProofsRecipes ProofsRecipes2 ProofsRecipes4 ProofsLagrange ProofsSubset ProofsSubset2 ProofsSubset4.
Set Implicit Arguments. Unset Strict Implicit.

(* derived arrays agree with the coordinates *)
Definition norms (c : cluster) : Prop :=
  let s := p_s (c_ph c) in let d := c_der c in
  d_r d = norm3 (sx s) (sy s) (sz s) /\ d_rpro d = norm2 (sx s) (sy s) /\
  d_v d = norm3 (svx s) (svy s) (svz s) /\ d_vpro d = norm2 (svx s) (svy s).

Lemma norms_analyze sort p c : norms (analyze sort p c).
Proof.
  rewrite /norms. cbn zeta. have := analyze_norms sort p c. cbn zeta.
  have [_ [_ [_ [_ [-> _]]]]] := skel_eq_fields (skel_analyze sort p c). done.
Qed.
Lemma norms_settled c : analyze true true c = c -> norms c.
Proof. move=> <-. exact: norms_analyze. Qed.
Lemma sortstars_same p c : c_ph (sortstars p c) = c_ph c /\ c_units (sortstars p c) = c_units c /\
  c_origin (sortstars p c) = c_origin c /\ c_id (sortstars p c) = c_id c /\ skel (sortstars p c) = skel c.
Proof.
  rewrite /sortstars. destruct (d_rorder (c_der c)) as [o|]; [destruct (oosys_eqb _ _ && _)|]; by destruct p.
Qed.

Section WithGalpy.
Variable G : galpy.

(* a working frame: the cluster's own coordinates, up-to-date radii, nothing lost *)
Record own_framed (c c1 : cluster) (n : nat) : Prop := {
  of_sees : sees G c c1;
  of_norms : norms c1;
  of_m : p_m (c_ph c1) = p_m (c_ph c);
  of_id : c_id c1 = c_id c;
  of_six : six_length (p_s (c_ph c1)) n;
  of_star : forall i, (i < n)%nat -> map6 (fun l => nth i l 0) (p_s (c_ph c1)) = own_star c i }.

Lemma amuse_ok c u o : ready G c u o -> analyze true true c = c ->
  let c0 := match c_units c with Some Uamuse => to_pckms G c | _ => c end in
  analyze true true c0 = c0 /\ sees G c c0 /\ c_ph c0 = c_ph c /\ c_origin c0 = c_origin c /\ c_id c0 = c_id c.
Proof.
  move=> HR HA. have [HS [Hu [Hl [Ho Hf]]]] := HR. cbn zeta.
  have S := sees_refl HR.
  rewrite Hu. destruct u; try (by do 4 (split => //)).
  have E : to_units G (Ureq Upckms) c = to_pckms G c by rewrite /to_units Hu.
  have L : linear Upckms by [].
  have F := skel_eq_fields (to_units_lin HS Hu Hl L). rewrite E in F. destruct F as [F1 [F2 [F3 [F4 [F5 [_ [_ [_ F9]]]]]]]].
  split; [by rewrite /to_pckms /analyze_if_units Hu analyze_idem|]. split; [by apply sees_pckms|].
  split; [rewrite F5; cbn; rewrite rescale_id //; exact (unit_size_nz Upckms HS)|].
  by split.
Qed.

Lemma own_star_flat c i : c_origin c <> Some Ogalaxy -> own_star c i = map6 (fun l => nth i l 0) (p_s (c_ph c)).
Proof. move=> H. rewrite /own_star /map6. destruct (c_origin c) as [[]|]; (by case: H) || by rewrite ?Rminus_0_r. Qed.

Lemma frame_gen (b n' : bool) c u o n : ready G c u o -> analyze true true c = c -> six_length (p_s (c_ph c)) n ->
  let c0 := match c_units c with Some Uamuse => to_pckms G c | _ => c end in
  own_framed c (match c_origin c with
    | Some Ocluster | Some Ocentre => if b then sortstars true c0 else c0
    | _ => to_centre n' c0 end) n.
Proof.
  move=> HR HA HL c0. have [A0 [S0 [P0 [O0 I0]]]] := amuse_ok HR HA. rewrite -/c0 in A0 S0 P0 O0 I0.
  have [HS [Hu [Hl [Ho Hf]]]] := HR.
  move: c0 A0 S0 P0 O0 I0 => c0 A0 S0 P0 O0 I0.
  have same : c_origin c <> Some Ogalaxy -> own_framed c c0 n.
  { move=> N. constructor; rewrite ?P0 //. - by apply norms_settled. - move=> i Hi. by rewrite own_star_flat. }
  rewrite Ho. destruct o; [| | | by case: Hf].
  - have N : c_origin c <> Some Ogalaxy by congruence. destruct b; [|exact: same]. rewrite sortstars_settled //. exact: same.
  - have N : c_origin c <> Some Ogalaxy by congruence. destruct b; [|exact: same]. rewrite sortstars_settled //. exact: same.
  - have [u0 [o0 R0]] := sees_ready S0. have [T1 [T2 [T3 [T4 T5]]]] := R0.
    have Eo : o0 = Ogalaxy by congruence. subst o0.
    have K := skel_eq_fields (to_centre_flat n' T2 T3 T4 T5).
    destruct K as [K1 [K2 [K3 [K4 [K5 [K6 [K7 [K8 K9]]]]]]]]. cbn [set_stars c_ph c_id] in K5, K9.
    constructor.
    + exact (sees_centre n' S0).
    + rewrite /to_centre T4. destruct (c_units c0) as [[]|]; exact: norms_analyze.
    + by rewrite K5; cbn; rewrite P0.
    + by rewrite K9.
    + rewrite K5; cbn. rewrite P0. destruct HL as [L1 [L2 [L3 [L4 [L5 L6]]]]]. rewrite /six_length /reorigin /add6 /=.
      by rewrite !vadd_length.
    + move=> i Hi. rewrite K5; cbn [p_s]. rewrite P0. destruct HL as [L1 [L2 [L3 [L4 [L5 L6]]]]].
      rewrite /own_star Ho /reorigin /add6 /map6 /=. rewrite !vadd_nth ?L1 ?L2 ?L3 ?L4 ?L5 ?L6 //. f_equal; ring.
Qed.
Lemma profile_frame_ok norm c u o n : ready G c u o -> analyze true true c = c -> six_length (p_s (c_ph c)) n ->
  own_framed c (profile_frame G norm c) n.
Proof. exact: frame_gen. Qed.
Lemma vcirc_frame_ok norm c u o n : ready G c u o -> analyze true true c = c -> six_length (p_s (c_ph c)) n ->
  own_framed c (vcirc_frame G norm c) n.
Proof. exact: (@frame_gen true norm). Qed.

(* ---------------------------------------------------------------- the system in that frame *)
Lemma framed_star s c1 n i : own_framed (g_c (y_k s)) c1 n -> length (p_m (c_ph (g_c (y_k s)))) = n -> (i < n)%nat ->
  star_at (y_k (sys_with s c1)) i = star_at (y_k (own_system s)) i.
Proof.
  move=> F L Hi. rewrite /star_at /sys_with /own_system /set_cluster. cbn [y_k g_c g_m0 g_npop set_stars c_ph c_id p_m p_s].
  rewrite (of_star F Hi) (of_m F) (of_id F) /map6. cbn [sx sy sz svx svy svz].
  rewrite L !nth_map_seq //; lia.
Qed.
Lemma framed_satisfies s c1 n i q : own_framed (g_c (y_k s)) c1 n -> length (p_m (c_ph (g_c (y_k s)))) = n -> (i < n)%nat ->
  satisfies q (sys_with s c1) i <-> satisfies q (own_system s) i.
Proof.
  move=> F L Hi. have E := framed_star F L Hi. rewrite /satisfies /seen_distance /seen_speed /row_mass.
  cbn [y_k sys_with own_system set_cluster g_sse y_etot].
  have E' := E. rewrite /sys_with /own_system /set_cluster in E'. cbn [y_k] in E'. rewrite E'. 
  have M : nth i (p_m (c_ph c1)) 0 = nth i (p_m (c_ph (g_c (y_k s)))) 0 by rewrite (of_m F). by [].
Qed.
Lemma framed_measured s c1 n : own_framed (g_c (y_k s)) c1 n -> measured s n -> measured (sys_with s c1) n.
Proof.
  move=> F [AL [NT [_ [_ [_ [_ [_ [KW ET]]]]]]]]. destruct AL as [AL1 [AL2 [AL3 [AL4 AL5]]]].
  have AL' : SpecStars.aligned (y_k (sys_with s c1)) n.
  { split; [exact (of_six F)|]. split; [by cbn; rewrite (of_m F)|]. split; [by cbn; rewrite (of_id F)|]. by split. }
  have [N1 [N2 [N3 N4]]] := of_norms F.
  have [M1 [M2 [M3 [M4 M5]]]] := @measured_norms (y_k (sys_with s c1)) n AL' N1 N2 N3 N4.
  exact (conj AL' (conj NT (conj M1 (conj M2 (conj M3 (conj M4 (conj M5 (conj KW ET)))))))).
Qed.
Lemma framed_radius s c1 n i q : own_framed (g_c (y_k s)) c1 n -> measured s n -> (i < n)%nat ->
  nth i (if l_projected q then d_rpro (c_der c1) else d_r (c_der c1)) 0 = radius_of q s i.
Proof.
  move=> F M Hi. have [_ [_ [_ [_ [_ [_ [D _]]]]]]] := framed_measured F M. have [D1 [D2 _]] := D i Hi.
  have E := @framed_star s c1 n i F (proj1 (proj2 (proj1 M))) Hi.
  rewrite /radius_of /seen_distance -E. destruct (l_projected q); [exact D2|exact D1].
Qed.

(* ---------------------------------------------------------------- rows *)
Lemma members_sorted n P l : StronglySorted lt l -> (forall i, In i l <-> (i < n)%nat /\ P i) -> members n P l.
Proof. move=> S H. split => //. exact (ss_nodup S). Qed.
Lemma chosen_members msk n P : length msk = n -> (forall i, (i < n)%nat -> nth i msk false = true <-> P i) ->
  members n P (chosen msk).
Proof.
  move=> L H. apply members_sorted; [exact: filter_seq_sorted|]. move=> i. rewrite chosen_In L.
  split; move=> [H1 H2]; split=> //; by apply H.
Qed.
Lemma nth_row_mask cum msk idx i j : length msk = length idx -> (i < length msk)%nat ->
  nth i (row_mask cum msk idx j) false = nth i msk false && (let b := nth i idx 0%Z in if cum then Z.leb b (Z.of_nat j) else Z.eqb b (Z.of_nat j)).
Proof.
  move=> L H. rewrite /row_mask.
  rewrite (@nth_zip_with _ _ _ andb msk _ i false false false) ?map_length -?L //.
  by rewrite (@nth_map' _ _ _ idx i false 0%Z) -?L.
Qed.
Lemma row_mask_length cum msk idx j : length msk = length idx -> length (row_mask cum msk idx j) = length msk.
Proof. move=> L. rewrite /row_mask zip_with_length map_length -L Nat.min_id //. Qed.

(* rows of a selection x with bins covering it *)
Lemma row_members (cum : bool) msk n lo hi r j : length msk = n -> length r = n -> adjacent lo hi -> spans (select msk r) lo hi ->
  members n (fun i => nth i msk false = true /\
      if cum then exists k, (k <= j)%nat /\ in_bin lo hi k (nth i r 0) else in_bin lo hi j (nth i r 0))
    (chosen (row_mask cum msk (bin_index r lo hi) j)).
Proof.
  move=> L Lr Ad Sp. have Li : length msk = length (bin_index r lo hi) by rewrite /bin_index map_length Lr.
  apply chosen_members; [by rewrite row_mask_length|]. move=> i Hi.
  rewrite nth_row_mask //; [by rewrite L|]. cbn zeta. rewrite /bin_index (@nth_map' _ _ _ r i 0%Z 0) ?Lr //.
  rewrite andb_true_iff.
  have In_ : nth i msk false = true -> In (nth i r 0) (select msk r).
  { move=> T. rewrite (@select_chosen _ 0 msk r) ?L ?Lr //. apply in_map_iff. exists i. split => //. apply chosen_In. by rewrite L. }
  split; move=> [T B]; split=> //; have I := In_ T.
  - have [k [E B']] := in_bin_of Ad Sp I. rewrite E in B. destruct cum.
    + exists k. split=> //. by apply Z.leb_le in B; lia.
    + apply Z.eqb_eq in B. by have -> : j = k by lia.
  - have [k [E B']] := in_bin_of Ad Sp I. rewrite E. destruct cum.
    + destruct B as [k' [Hk B]]. have := in_bin_unique Ad B B'. move=> <-. apply Z.leb_le. lia.
    + apply Z.eqb_eq. by rewrite (in_bin_unique Ad B B').
Qed.
End WithGalpy.
