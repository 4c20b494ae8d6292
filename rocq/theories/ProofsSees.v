(* Generic facts about routines that change units and origin internally and restore the cluster at the end. *)
From Verif Require Import Base ModelCluster ModelOps SpecUnits SpecFrame ProofsUnits ProofsFrame.
Set Implicit Arguments. Unset Strict Implicit.

Section S.
Variable G : galpy.

(* c' is the same physical cluster as c, possibly in other units or another origin *)
Definition sees (c c' : cluster) : Prop :=
  galactic_view G c' = galactic_view G c /\ (exists u o, ready G c' u o) /\ c_sc c' = c_sc c /\ c_id c' = c_id c /\
  c_sky c' = c_sky c /\ c_nb c' = c_nb c /\ kp c c'.

Lemma sees_refl c u o : ready G c u o -> sees c c.
Proof. move=> H. split => //. split; [by exists u, o|]. do 4 (split => //). Qed.
Lemma sees_trans c d e : sees c d -> sees d e -> sees c e.
Proof.
  move=> [A1 [A2 [A3 [A4 [A5 [A6 A7]]]]]] [B1 [B2 [B3 [B4 [B5 [B6 B7]]]]]].
  split; [congruence|]. split; [exact B2|]. split; [congruence|]. split; [congruence|]. split; [congruence|].
  split; [congruence|]. exact (kp_trans A7 B7).
Qed.
Lemma sees_skel c d : (exists u o, ready G c u o) -> skel d = skel c -> kp c d -> sees c d.
Proof.
  move=> [u [o [HS [Hu [Hl [Ho Hf]]]]]] E K.
  have [E1 [E2 [E3 [E4 [E5 [E6 [E7 [E8 E9]]]]]]]] := skel_eq_fields E.
  split; [exact: view_skel|]. split; [exists u, o; rewrite /ready E1 E2 E6 //|]. do 4 (split => //).
Qed.
Lemma sees_ready c d : sees c d -> exists u o, ready G d u o. Proof. by move=> [_ []]. Qed.
Lemma sees_analyze c d s : sees c d -> sees c (analyze s true d).
Proof.
  move=> H. apply (sees_trans H). apply sees_skel; [exact (sees_ready H)|by rewrite skel_analyze|exact (@kp_analyze s d)].
Qed.
Lemma sees_run c d ops : sees c d -> Forall flat_op ops -> sees c (run G ops d).
Proof.
  move=> H HF. apply (sees_trans H). have [u [o R]] := sees_ready H.
  have [V [R1 [R2 [R3 [R4 R5]]]]] := run_view R HF. split => //. split; [by do 2 eexists; exact R1|].
  do 4 (split => //). exact (kp_run R HF).
Qed.
Lemma sees_units c d u : sees c d -> linear u -> sees c (to_units G (Ureq u) d).
Proof. move=> H Hl. apply (@sees_run c d [OpUnits u]) => //. by repeat constructor. Qed.
Lemma sees_origin c d o s : sees c d -> flat o -> sees c (to_origin G (Oreq o) s d).
Proof. move=> H Hl. apply (@sees_run c d [OpOrigin o s]) => //. by repeat constructor. Qed.
Lemma sees_pckms c d : sees c d -> sees c (to_pckms G d).
Proof.
  move=> H. have [u [o [HS [Hu [Hl [Ho Hf]]]]]] := sees_ready H.
  have E : to_units G (Ureq Upckms) d = to_pckms G d by rewrite /to_units Hu.
  rewrite -E. by apply sees_units.
Qed.
Lemma sees_kpckms c d : sees c d -> sees c (to_kpckms G d).
Proof.
  move=> H. have [u [o [HS [Hu [Hl [Ho Hf]]]]]] := sees_ready H.
  have E : to_units G (Ureq Ukpckms) d = to_kpckms G d by rewrite /to_units Hu.
  rewrite -E. by apply sees_units.
Qed.

Lemma skel_kp_view c d u o o' : ready G c u o -> flat o' -> kp c d ->
  skel d = skel (set_stars c (reorigin (c_ph c) o o') (Some o')) -> sees c d.
Proof.
  move=> R Hf' K E. have [HS [Hu [Hl [Ho Hf]]]] := R.
  have H := to_origin_flat G true Hu Hl Ho Hf Hf'. rewrite -H in E.
  have S := sees_origin true (sees_refl R) Hf'.
  have [E1 [E2 [E3 [E4 [E5 [E6 [E7 [E8 E9]]]]]]]] := skel_eq_fields E.
  have [A1 [A2 [A3 [A4 [A5 [A6 A7]]]]]] := S.
  split; [rewrite -A1; exact: view_skel|]. split.
  - have [u2 [o2 [B1 [B2 [B3 [B4 B5]]]]]] := A2. exists u2, o2. rewrite /ready E1 E2 E6 //.
  - do 4 (split; [congruence|]). exact K.
Qed.

Lemma sees_cluster c d s : sees c d -> sees c (to_cluster s d).
Proof.
  move=> H. apply (sees_trans H). have [u [o R]] := sees_ready H. have [HS [Hu [Hl [Ho Hf]]]] := R.
  apply (@skel_kp_view _ _ u o Ocluster) => //; [exact (kp_to_cluster s Hu Hl Ho Hf)|exact (to_cluster_flat s Hu Hl Ho Hf)].
Qed.
Lemma kp_to_centre s c u o : c_units c = Some u -> linear u -> c_origin c = Some o -> flat o -> kp c (to_centre s c).
Proof.
  move=> Hu Hl Ho Hf. rewrite /to_centre Ho Hu.
  destruct o; [apply kp_refl| | | by case: Hf].
  - destruct u; try (by case: Hl); (eapply kp_trans; [|apply kp_analyze]); apply kp_stars; by rewrite /= ?map_length.
  - have K := kp_to_cluster true Hu Hl Ho Hf.
    destruct u; try (by case: Hl); (eapply kp_trans; [exact K|]; eapply kp_trans; [|apply kp_analyze]);
    apply kp_stars; by rewrite /= ?map_length.
Qed.
Lemma sees_centre c d s : sees c d -> sees c (to_centre s d).
Proof.
  move=> H. apply (sees_trans H). have [u [o R]] := sees_ready H. have [HS [Hu [Hl [Ho Hf]]]] := R.
  apply (@skel_kp_view _ _ u o Ocentre) => //; [exact (kp_to_centre s Hu Hl Ho Hf)|exact (to_centre_flat s Hu Hl Ho Hf)].
Qed.

Lemma kp_set_rorder c a b : kp c (set_rorder c a b).
Proof. move=> rp H1 H2. split => //. Qed.
Lemma sees_set_rorder c d a b : sees c d -> sees c (set_rorder d a b).
Proof.
  move=> H. apply (sees_trans H). apply sees_skel; [exact (sees_ready H)| |exact (@kp_set_rorder d a b)].
  by rewrite /set_rorder /skel /set_der.
Qed.

Lemma sees_return c d sv u o : sees c d -> sv_units sv = Some u -> linear u -> sv_origin sv = Some o -> flat o ->
  sees c (return_cluster G sv d).
Proof.
  move=> H Hu Hl Ho Hf. have [u1 [o1 R]] := sees_ready H.
  have [ops [F [_ [_ ->]]]] := return_is_run R Hl Hf Hu Ho.
  apply sees_analyze, sees_set_rorder, sees_run => //.
Qed.

(* restoring a cluster that is the same physical cluster as the saved one *)
Lemma bracket_sees c0 c1 u o : ready G c0 u o -> sees c0 c1 -> analyze true true c0 = c0 ->
  let c' := return_cluster G (save_cluster c0) c1 in
  c_ph c' = c_ph c0 /\ c_units c' = c_units c0 /\ c_origin c' = c_origin c0 /\ c_der c' = c_der c0 /\
  c_sc c' = c_sc c0 /\ c_id c' = c_id c0 /\ c_sky c' = c_sky c0 /\ c_nb c' = c_nb c0.
Proof.
  move=> HR [V [[u1 [o1 R1]] [R2 [R3 [R4 [R5 K1]]]]]] HA /=. have [HS [Hu [Hl [Ho Hf]]]] := HR.
  have [ops2 [F2 [L2 [M2 E2]]]] := return_is_run R1 Hl Hf (sv := save_cluster c0) Hu Ho.
  rewrite E2.
  have [V2 [S1 [S2 [S3 [S4 S5]]]]] := run_view R1 F2.
  rewrite L2 M2 in S1.
  have K2 := kp_run R1 F2.
  set c2 := run G ops2 c1 in E2 V2 S1 S2 S3 S4 S5 K2 *.
  have Eph : c_ph c2 = c_ph c0.
  { apply (view_inj S1 HR); [by rewrite S2 R2 | by rewrite V2 V]. }
  have [_ [Hu2 [_ [Ho2 _]]]] := S1.
  have [ro [rp [H1 [H2 [H3 [H4 H5]]]]]] := analyze_sorted c0.
  rewrite HA in H1 H2 H3 H4 H5.
  have K : kp c0 c2 by exact (kp_trans K1 K2).
  have [K3 K4] := K _ H4 H5.
  have A : analyze true true (set_rorder c2 (d_rorder (c_der c0)) (d_rorder_origin (c_der c0))) =
           set_der c2 (der_of c0 ro rp).
  { rewrite (@analyze_settled (set_rorder c2 (d_rorder (c_der c0)) (d_rorder_origin (c_der c0))) ro rp) //.
    - rewrite /order_ok /rlist /= Eph. exact H2.
    - by rewrite /= H3 Ho2 Ho.
    - rewrite /set_rorder /set_der /der_of /rlist /rprolist /= Eph Ho2 Ho //. }
  simpl. rewrite A /=.
  have D : c_der c0 = der_of c0 ro rp.
  { rewrite -{1}HA (analyze_settled H1 H2 H3 H4 H5) //. }
  repeat split; rewrite ?Eph ?Hu2 ?Ho2 ?S2 ?S3 ?S4 ?S5 //.
Qed.
End S.

