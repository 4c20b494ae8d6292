From Coq Require Import Sorted.
From Verif Require Import Base ModelCluster ModelOps ModelRecipes ModelLagrange SpecUnits SpecFrame SpecOrder SpecRecipes
  SpecEnergy SpecLagrange ProofsUnits ProofsFrame ProofsFrame2 ProofsOrder ProofsSort ProofsSees ProofsEnergy ProofsEnergy2 ProofsRecipes ProofsLagrange.
Set Implicit Arguments. Unset Strict Implicit.

(* a cluster analysed for the first time is well sorted *)
Lemma first_analysis p c : d_rorder (c_der c) = None -> d_rproorder (c_der c) = None -> well_sorted p (analyze true true c).
Proof.
  move=> H1 H2. split; [apply analyze_idem|].
  have E : d_rorder (c_der (analyze true true c)) = Some (argsort (rlist c)) /\ d_rproorder (c_der (analyze true true c)) = Some (argsort (rprolist c)).
  { rewrite /analyze /sortstars /analyze_radii. cbn [c_der set_der d_rorder d_rproorder d_r d_rpro]. rewrite H1 H2.
    rewrite /analyze_fracs. cbn [c_der set_der d_rorder d_rproorder d_r d_rpro]. by []. }
  destruct E as [E1 E2]. split.
  - exists (argsort (rlist c)). split => //. rewrite distances_eq /rlist c_ph_analyze. apply argsort_sorted.
  - move=> _. exists (argsort (rprolist c)). split => //. rewrite distances_2d_eq /rprolist c_ph_analyze. apply argsort_sorted.
Qed.

Definition lagr_phys : phys := mkP 0 [1; 1] (mk6 [1; 2] [0; 0] [0; 0] [0; 0] [0; 0] [0; 0]) zero6 (mk6 3 0 0 0 0 0).
Definition lagr_cluster : cluster :=
  mkC (Some Upckms) (Some Ogalaxy) (Some (Bu Upckms)) 0 lagr_phys (mkSc 2 1 1 1 3 4 1 8 220) (mkB [] [] [] [])
      (mkSk nil6 zero6 zero6 None None None) empty_derived [1%Z; 2%Z].

Lemma sort12 : argsort (norm2 [1;2] [0;0]) = [0%nat; 1%nat].
Proof.
  have -> : norm2 [1;2] [0;0] = [1;2].
  { rewrite /norm2 /zip_with. f_equal; [|f_equal].
    - have -> : 1 ^ 2 + 0 ^ 2 = 1 * 1 by ring. rewrite sqrt_square; lra.
    - have -> : 2 ^ 2 + 0 ^ 2 = 2 * 2 by ring. rewrite sqrt_square; lra. }
  rewrite /argsort /sort_by. cbn [length seq fold_right insert_by nth].
  have -> : Rleb 1 2 = true by apply Rleb_spec; lra. by [].
Qed.

Lemma projected_refuted : exists (c : cluster),
  ready w_galpy c Upckms Ogalaxy /\ positive_scales w_galpy (c_sc c) /\ aligned c /\ well_sorted true c /\
  nonneg (p_m (c_ph c)) /\ 0 < sumR (p_m (c_ph c)) /\
  exists rn c', rlagrange w_galpy 2 true c = Ok (rn, c') /\
    own_distances true c = [2; 1] /\ p_m (c_ph c) = [1; 1] /\ rn = [2; 2] /\
    ~ lagrange_table 2 (own_distances true c) (p_m (c_ph c)) rn.
Proof.
  have R0 : ready w_galpy lagr_cluster Upckms Ogalaxy by rewrite /ready /good_scales /=; repeat split; try lra; discriminate.
  have HR := analyzed_ready R0.
  have [E1 [E2 [E3 [E4 [E5 [E6 [E7 [E8 E9]]]]]]]] := skel_eq_fields (skel_analyze true true lagr_cluster).
  have W : well_sorted true (analyze true true lagr_cluster) by apply first_analysis.
  have P : d_rproorder (c_der (analyze true true lagr_cluster)) = Some [0%nat; 1%nat].
  { rewrite -sort12 /analyze /sortstars /analyze_fracs /=. by []. }
  move: (analyze true true lagr_cluster) HR E1 E2 E3 E4 E5 E6 E7 E8 E9 W P => c HR E1 E2 E3 E4 E5 E6 E7 E8 E9 W P.
  have HP : positive_scales w_galpy (c_sc c) by rewrite E6 /positive_scales /=; repeat split; lra.
  have HL : aligned c by rewrite /aligned E5 /=.
  exists c. do 4 (split => //). split; [rewrite E5 => a [<-|[<-|[]]]; lra|]. split; [rewrite E5 /=; lra|].
  have F := frame_ok HR HP HL W. rewrite /rlagrange. move: (lagrange_frame w_galpy c) F => c1 F.
  have D : own_distances true c = [2; 1].
  { rewrite /own_distances /own_distance /own_centre /nstars E5 E2 /=. f_equal; [|f_equal].
    - have -> : (1 - (3 + 0)) * ((1 - (3 + 0)) * 1) + (0 - (0 + 0)) * ((0 - (0 + 0)) * 1) + 0 = 2 * 2 by ring. rewrite sqrt_square; lra.
    - have -> : (2 - (3 + 0)) * ((2 - (3 + 0)) * 1) + (0 - (0 + 0)) * ((0 - (0 + 0)) * 1) + 0 = 1 * 1 by ring. rewrite sqrt_square; lra. }
  have [u1 [o1 [_ [_ [_ [Ho1 _]]]]]] := sees_ready (fr_sees F).
  have [ro [rp [Ed HO]]] := vord_settled Ho1 (fr_settled F) (fr_vord F).
  have [_ [_ [_ [_ [_ [_ K]]]]]] := fr_sees F. have [|K1 _] := K _ P.
  { by rewrite /proorder_ok /rprolist E5 /norm2 /=. }
  rewrite /lagrange_order /lagrange_radii K1. have -> : d_rpro (c_der c1) = [2; 1] by rewrite Ed /= -distances_2d_eq (fr_dist2 F).
  rewrite (fr_m F) E5. cbn [lagr_cluster c_ph lagr_phys p_m].
  have E : lagrange_list 2 [1; 1] [2; 1] [0%nat; 1%nat] = Some [2; 2].
  { rewrite /lagrange_list /frac_radius. cbn [seq map Nat.sub].
    cbn [take cumsum cumsum_from nth first_reaching sumR]. rewrite /cumsum. cbn [take cumsum cumsum_from nth first_reaching sumR map].
    have -> : Rleb (INR 1 / INR 2 * (1 + (1 + 0))) (0 + 1) = true by apply Rleb_spec; cbn; lra.
    cbn. have -> : Rmax 2 1 = 2 by apply Rmax_left; lra. by []. }
  rewrite E. exists [2; 2]. eexists. split; [reflexivity|]. split; [exact D|]. split; [by []|]. split; [by []|].
  rewrite D. move=> [_ [H _]]. have [_ [_ H3]] := H 0%nat ltac:(lia). move: H3. rewrite /weight_inside. cbn.
  have -> : Rltb 2 2 = false by apply Rltb_false; lra. have -> : Rltb 1 2 = true by apply Rltb_spec; lra. cbn. lra.
Qed.
