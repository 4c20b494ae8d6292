(* Proofs: sub_cluster with its reset options, the whole call. *)
From Coq Require Import Sorted.
From Verif Require Import Base ModelCluster ModelOps ModelConv ModelEnergy ModelRecipes ModelLagrange ModelStars ModelSubset ModelCoords ModelCentre ModelDynamics ModelReset.
From Verif Require Import SpecUnits SpecFrame SpecConv SpecOrder SpecRecipes SpecEnergy SpecLagrange SpecStars SpecSubset SpecDynamics SpecCentre SpecReset.
From Verif Require Import ProofsUnits ProofsConv ProofsFrame ProofsOrder ProofsSort ProofsSees ProofsEnergyUnits ProofsRecipes ProofsLagrange ProofsStars ProofsSubset ProofsSubset2 ProofsSubset3 ProofsSubset4
  ProofsDynamics4 ProofsDynamics5 ProofsCentre ProofsCentre2 ProofsCentre5 ProofsReset ProofsReset2.
Set Implicit Arguments. Unset Strict Implicit.

Section WithGalpy.
Variable G : galpy.
Notation measured := SpecSubset.measured.
Notation mask_fits := SpecSubset.mask_fits.

Definition only_centre (zc : bool) : reset := mkReset zc false false false false false false.

(* a call that selects stars *)
Lemma reset_call (zc : bool) q indx sort s n u o sub0 parent caller : ready G (g_c (y_k s)) u o -> complete s n -> (1 <= n)%nat ->
  energies_known q s n -> mask_fits indx n ->
  sub_cluster_reset G (only_centre zc) q indx sort s = Ok (sub0, parent, caller) -> p_m (c_ph (g_c (y_k sub0))) <> [] ->
  exists msk b cB, length msk = n /\ (1 <= count msk)%nat /\ ready G cB u o /\ own_order cB /\ SpecFrame.aligned cB /\
    sub0 = mkSys (set_cluster (y_k b) (analyze sort true cB)) (y_kin b) (y_pot b) (y_etot b) /\ c_sc cB = c_sc (g_c (y_k sub0)) /\
    zmbar (c_sc cB) = zmbar (c_sc (g_c (y_k s))) /\ rbar (c_sc cB) = rbar (c_sc (g_c (y_k s))) /\
    (positive_scales G (c_sc (g_c (y_k s))) -> positive_scales G (c_sc cB)) /\
    forall z, z_centre z = zc -> sub_cluster_reset G z q indx sort s =
      bind (rescale_nbody G z cB) (fun c2 =>
        Ok (mkSys (set_cluster (y_k b) (back_to_units G sort (g_c (y_k s)) c2)) (y_kin b) (y_pot b) (y_etot b), parent, caller)).
Proof.
  move=> HR CO Hn EK MF. have [M _] := CO. have [AL _] := M. have [HS [Hu [Hl [Ho Hf]]]] := HR.
  have [m [E [Lm Hm]]] := @subset_mask q indx s n M Hn EK MF.
  rewrite {1}/sub_cluster_reset E. cbn [bind]. destruct (Nat.ltb 0 (count m)) eqn:C.
  2: { move=> EQ. have {EQ} <- : nothing_selected (p_t (c_ph (g_c (y_k s)))) = sub0 by congruence. by []. }
  have CM := C. apply Nat.ltb_lt in CM.
  have [b [sub [p [c1 [EB [ES [P1 [P2 [P3 [P4 [P5 [P6 [P7 [P8 [P9 [P10 [P11 [P12 [P13 [P14 [P15 [P16 [R0 [R1 [NT [COL [O0 O1]]]]]]]]]]]]]]]]]]]]]]]]]]] :=
    reset_centre_stars sort HR CO Lm CM.
  rewrite EB. cbn [bind]. set c := g_c (y_k s) in HR HS Hu Ho P1 P3 |- *.
  set cB := if zc then c1 else g_c (y_k sub).
  have EP : place_centre G zc c (g_c (y_k b)) = Ok cB.
  { rewrite /cB. destruct zc; [exact P1|]. rewrite /place_centre.
    have := ES. rewrite build_sub_stars EB. cbn [bind]. cbn zeta. rewrite -/c. move=> EQ. have {}EQ : put_centre s b (copy_centre c (store_orbit (p_g (c_ph c)) (g_c (y_k b)))) = sub by congruence.
    by rewrite -EQ. }
  have RB : ready G cB u o by rewrite /cB; destruct zc.
  have OB : own_order cB by rewrite /cB; destruct zc.
  have [Q1 Q2] : c_sc cB = c_sc (g_c (y_k sub)) /\ c_ph cB = c_ph cB by rewrite /cB; destruct zc.
  have [Q3 Q4] : p_m (c_ph cB) = p_m (c_ph (g_c (y_k sub))) /\ p_s (c_ph cB) = p_s (c_ph (g_c (y_k sub))) by rewrite /cB; destruct zc.
  have A : SpecFrame.aligned cB.
  { have AL' := columns_aligned AL Lm COL. have [[X1 [X2 [X3 [X4 [X5 X6]]]]] [X7 _]] := AL'. rewrite /SpecFrame.aligned Q3 Q4 X7. by []. }
  have PD := proj1 (proj2 (proj1 (proj2 (@fresh_sub sort m s n sub CO Lm CM ES)))).
  cbn [y_k g_c set_cluster] in PD. have [Z1 [Z2 [Z3 [Z4 [Z5 Z6]]]]] := analyze_ph sort true (g_c (y_k sub)).
  move: PD. rewrite /parent_data. have SKS := proj1 (proj2 (proj2 (proj2 (proj2 (proj2 (skel_eq_fields (skel_analyze sort true (g_c (y_k sub))))))))).
  rewrite SKS -/c. move=> [_ [_ [_ [_ [_ [W1 [W2 [W3 [W4 [W5 W6]]]]]]]]]].
  rewrite EP; cbn [bind only_centre z_centre rescale_nbody z_nbody z_mass z_radii orb]. rewrite NT C.
  have [_ [UB [_ [OBB _]]]] := RB.
  rewrite same_units_back; [by rewrite UB|by rewrite OBB|].
  set sub0' := mkSys (set_cluster (y_k b) (analyze sort true cB)) _ _ _. set par := mkSys (set_cluster (y_k s) _) _ _ _.
  move=> EQ _. have [<- [Epar Ecal]] : sub0' = sub0 /\ par = parent /\ (match indx with None => None | Some _ => Some m end) = caller.
  { by split; [|split]; congruence. }
  exists m, b, cB. split; [exact Lm|]. split; [exact CM|]. split; [exact RB|]. split; [exact OB|]. split; [exact A|]. split; [reflexivity|].
  split. { rewrite /sub0'; cbn [y_k set_cluster g_c]. by have [_ [_ [_ [_ [_ [-> _]]]]]] := skel_eq_fields (skel_analyze sort true cB). }
  rewrite Q1. split; [exact W1|]. split; [exact W2|]. split.
  { rewrite /positive_scales W1 W2 W3 W4 W5 W6. by []. }
  move=> z Hz. rewrite /sub_cluster_reset E. cbn [bind]. rewrite C EB. cbn [bind]. rewrite Hz -/c EP. cbn [bind]. rewrite NT C -/par Epar.
  rewrite -Ecal. reflexivity.
Qed.

(* ---- the scales *)
Definition nbody_options (nb ma ra rv pr zc : bool) : reset := mkReset zc nb ma ra rv pr false.
Lemma settled_pc c u o : ready G c u o -> positive_scales G (c_sc c) -> own_order c -> let b := analyze true true (to_pckms G c) in
  analyze true true b = b /\ vord b.
Proof.
  move=> HR HP OO. cbn zeta. have [HS [Hu [Hl [Ho Hf]]]] := HR. split; [exact: analyze_idem|].
  rewrite -(to_pckms_units G Hu). have L : linear Upckms by []. have [_ [R1 _]] := to_units_view HR L. have [_ [_ [_ [O1 _]]]] := R1.
  apply (@vord_analyze true _ o O1). exact (vord_units HP HR L (own_order_vord Ho OO)).
Qed.
Lemma dilate1 l : map (dilate 1 1) l = l.
Proof. rewrite -[RHS]map_id. apply map_ext => a. destruct a. rewrite /dilate. cbn. f_equal; ring. Qed.
Lemma separated_pc p c b u o : ready G c u o -> positive_scales G (c_sc c) -> c_units b = Some Upckms -> sun_bodies G p b = sun_bodies G p c ->
  separated (bodies_seen p c) -> separated (bodies_seen p b).
Proof.
  move=> HR HP Ub E H. have [HS [Hu [Hl _]]] := HR. have [P1 [P2 P3]] := size_positive HP Hl.
  have <- : sun_bodies G p b = bodies_seen p b by rewrite /sun_bodies /sizes Ub; exact: dilate1.
  rewrite E /sun_bodies /sizes Hu. apply separated_dilate => //.
Qed.

(* what the stars, masses and radii of the result are, for any scales *)
Definition rescaled_result (sub sub0 : system) (u : usys) (o : osys) (q : R * R * R * R) (sort : bool) : Prop :=
  same_labels sub sub0 /\ galactic_view G (g_c (y_k sub)) = galactic_view G (g_c (y_k sub0)) /\
  ready G (g_c (y_k sub)) u o /\ c_sc (g_c (y_k sub)) = set_scales (c_sc (g_c (y_k sub0))) q /\
  (sort = true -> well_sorted false (g_c (y_k sub))).
Lemma rescaled_ok sort s b cB u o c' z r v t : ready G (g_c (y_k s)) u o -> ready G cB u o -> own_order cB -> positive_scales G (c_sc cB) ->
  let b1 := analyze true true (to_pckms G cB) in restored b1 c' -> nbody_scales z r v t ->
  let sub0 := mkSys (set_cluster (y_k b) (analyze sort true cB)) (y_kin b) (y_pot b) (y_etot b) in
  rescaled_result (mkSys (set_cluster (y_k b) (back_to_units G sort (g_c (y_k s)) (set_sc c' (set_scales (c_sc c') (z, r, v, t)))))
       (y_kin b) (y_pot b) (y_etot b)) sub0 u o (z, r, v, t) sort.
Proof.
  move=> HS HB OO HP b1 Rs NS sub0. have [_ [Hu [Hl [Ho Hf]]]] := HS.
  have [B1 [B2 [B3 [B4 [B5 B6]]]]] := to_pckms_ph HB. rewrite -/b1 in B1 B2 B3 B4 B5 B6. have [SB VB] := settled_pc HB HP OO. rewrite -/b1 in SB VB.
  have [V [R3 [S3 [I3 [N3 [d [Ed Vd]]]]]]] := scaled_back sort B2 Rs NS Hu Hl Ho. 
  move: (back_to_units G sort (g_c (y_k s)) _) V R3 S3 I3 N3 Ed => c3 V R3 S3 I3 N3 Ed.
  have SK := skel_analyze sort true cB. have [A1 [A2 [A3 [A4 [A5 [A6 [A7 [A8 A9]]]]]]]] := skel_eq_fields SK.
  rewrite /rescaled_result /same_labels /sub0. cbn [y_k y_kin y_pot y_etot set_cluster g_c g_m0 g_npop g_ntot g_sse g_bse].
  rewrite A6 A9 (view_skel G SK). split; [by rewrite I3 B4|]. split; [by rewrite V B6|]. split; [exact R3|]. split; [by rewrite S3 B3|].
  have [_ [_ [_ [O3 _]]]] := R3. have Od : c_origin d = Some o.
  { rewrite -O3 Ed. by have [_ [-> _]] := skel_eq_fields (skel_analyze sort true d). }
  have Vd' : vord d by apply Vd; [exact VB|rewrite B3; exact HP].
  { 
    move=> E. apply (vord_well O3); rewrite Ed E; [exact: analyze_idem|]. exact (@vord_analyze true d o Od Vd'). }
Qed.
End WithGalpy.
