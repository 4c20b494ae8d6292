(* Proofs: initial orbits and the orbital path. *)
From Verif Require Import Base ModelCluster ModelOps ModelConv ModelEnergy ModelRecipes ModelCoords ModelLagrange ModelProfiles ModelStars ModelLoad ModelTail ModelOrbit.
From Verif Require Import SpecUnits SpecFrame SpecConv SpecOrder SpecRecipes SpecEnergy SpecLagrange SpecSubset SpecProfiles SpecDynamics SpecTail SpecOrbit.
From Verif Require Import ProofsUnits ProofsFrame ProofsConv ProofsCoords ProofsSees ProofsEnergy ProofsEnergy2 ProofsRecipes ProofsDynamics ProofsDynamics2 ProofsDynamics6 ProofsTail ProofsTail2 ProofsTail3 ProofsTail4 ProofsTail5.
Set Implicit Arguments. Unset Strict Implicit.

Lemma linspace_length a b n : length (linspace a b n) = n.
Proof. by rewrite /linspace map_length seq_length. Qed.
Lemma linspace_nth a b n j : (j < n)%nat -> nth j (linspace a b n) 0 = spaced a b n j.
Proof.
  move=> H. rewrite /linspace /spaced. rewrite (@nth_map' _ _ (fun i => a + INR i * ((b - a) / INR (n - 1))) (seq 0 n) j 0 0%nat); [by rewrite seq_length|].
  by rewrite seq_nth.
Qed.
Lemma linspace_last a b n : (2 <= n)%nat -> last (linspace a b n) 0 = b.
Proof.
  move=> H. have E : last (linspace a b n) 0 = nth (n - 1) (linspace a b n) 0.
  { have L := linspace_length a b n. move: (linspace a b n) L => l L. rewrite -L. elim: l {n H L} => [|x [|y l] IH] //. cbn [length] in IH |- *. cbn [last] in IH |- *. rewrite IH.
    by have -> : (S (S (length l)) - 1 = S (S (length l) - 1))%nat by lia. }
  rewrite E linspace_nth; [lia|]. rewrite /spaced. have P : 0 < INR (n - 1) by apply lt_0_INR; lia. field. lra.
Qed.
Lemma linspace_hd a b n : (1 <= n)%nat -> hd 0 (linspace a b n) = a.
Proof. destruct n; [lia|]. move=> _. cbn. ring. Qed.
Lemma linspace_one a b : linspace a b 1 = [a]. Proof. rewrite /linspace. cbn. f_equal. ring. Qed.

Section WithGalpy.
Variable G : galpy.
Lemma ready_galpy c u o : ready G c u o -> sees G c (to_galpy G c) /\ ready G (to_galpy G c) Ugalpy o.
Proof.
  move=> HR. have [HS [Hu [Hl [Ho Hf]]]] := HR.
  have E : to_units G (Ureq Ugalpy) c = to_galpy G c by rewrite /to_units Hu.
  split; [rewrite -E; apply sees_units; [exact (sees_refl HR)|discriminate]|].
  have F : Forall flat_op [OpUnits Ugalpy] by repeat constructor.
  have [_ [R1 _]] := run_view HR F. cbn [run fold_left run1 last_units last_origin] in R1. by rewrite /run /= E in R1.
Qed.
Lemma natural_kpc ro vo p : ro <> 0 -> vo <> 0 -> in_kpc ro vo (natural ro vo p) = p.
Proof. move=> N1 N2. rewrite /in_kpc /natural. cbn [sx sy sz svx svy svz]. rewrite -[RHS]six_eta. f_equal; field; assumption. Qed.
Lemma kpc_natural ro vo p : ro <> 0 -> vo <> 0 -> natural ro vo (in_kpc ro vo p) = p.
Proof. move=> N1 N2. rewrite /in_kpc /natural. cbn [sx sy sz svx svy svz]. rewrite -[RHS]six_eta. f_equal; field; assumption. Qed.

(* the orbit of the cluster in galpy units *)
Lemma galpy_orbit c u o fc : ready G c u o -> let c1 := to_galpy G c in
  (if fc : bool then plus6 (p_g (c_ph c1)) (p_c (c_ph c1)) else p_g (c_ph c1)) = natural (ro (c_sc c)) (vo (c_sc c)) (orbit_kpc G c fc).
Proof.
  move=> HR. cbn zeta. have [S1 R1] := ready_galpy HR. have [HS _] := HR. have [V [_ [Sc _]]] := S1. have [_ [U1 _]] := R1.
  have [N5 N6] : ro (c_sc c) <> 0 /\ vo (c_sc c) <> 0 by case: HS => _ [_ [_ [_ [? [? _]]]]].
  rewrite /orbit_kpc -V /galactic_view U1 Sc. cbn zeta. cbn [p_g p_c].
  have -> : unit_size G (c_sc c) Ugalpy = mkSize (1000 * time_in_Gyr G (ro (c_sc c)) (vo (c_sc c))) (mass_in_msol G (ro (c_sc c)) (vo (c_sc c))) (1000 * ro (c_sc c)) (vo (c_sc c)) by [].
  rewrite /natural /view6 /plus6. cbn [in_pc in_kms]. destruct fc; cbn [sx sy sz svx svy svz]; rewrite -[LHS]six_eta; cbn [sx sy sz svx svy svz]; f_equal; field; lra.
Qed.
Lemma init_orbit_ok fc r v c u o : ready G c u o ->
  initialize_orbit G fc r v c = (mkOrb (natural (ro (c_sc c)) (vo (c_sc c)) (orbit_kpc G c fc)) (opt r (ro (c_sc c))) (opt v (vo (c_sc c))),
    return_cluster G (save_cluster c) (to_galpy G c)).
Proof.
  move=> HR. rewrite /initialize_orbit. cbn zeta. rewrite (galpy_orbit fc HR). f_equal. rewrite /orbit_cyl. f_equal.
  set p := natural _ _ _. have [E _] := cyl_round_trip p. cbn zeta in E. by rewrite -{7}E -[X in _ = cyl_to_cart X]six_eta.
Qed.
Lemma galpy_time_ok t0 tfinal c u o : ready G c u o -> galpy_time G t0 (ro (c_sc c)) (vo (c_sc c)) tfinal c = duration G c u t0 tfinal.
Proof.
  move=> [HS [Hu [Hl _]]]. rewrite /galpy_time /duration Hu. have [N1 [N2 [N3 [N4 [N5 [N6 [N7 _]]]]]]] := HS.
  have -> : in_Myr (unit_size G (c_sc c) Ugalpy) = 1000 * time_in_Gyr G (ro (c_sc c)) (vo (c_sc c)) by [].
  destruct tfinal as [t|]; [|field; exact N7]. destruct u; try (by case: Hl); rewrite /unit_size; cbn [in_Myr]; field; try exact N7.
Qed.

Lemma convert6_place c u o p : ready G c u o -> place_is (unit_size G (c_sc c) u) (convert6 p Ukpckms c) p.
Proof. move=> HR. rewrite /place_is /convert6. cbn [sx sy sz]. by rewrite !(length_kpc _ HR). Qed.
Lemma convert6_motion c u o p : ready G c u o -> vel_system u -> ~ factor_forgotten Ukpckms u ->
  motion_is (unit_size G (c_sc c) u) (convert6 p Ukpckms c) p.
Proof.
  move=> [HS [Hu [Hl _]]] HV HF. have [_ [_ [_ N]]] := unit_size_nz u HS. rewrite /motion_is /convert6. cbn [svx svy svz].
  have V1 : vel_system Ukpckms by [].
  rewrite !(@velocity_correct G c Ukpckms u) // /rsc. have -> : in_kms (unit_size G (c_sc c) Ukpckms) = 1 by [].
  split; [|split]; field; exact N.
Qed.
Lemma time_galpy c u o x : ready G c u o -> convert_time G x Ugalpy c * in_Myr (unit_size G (c_sc c) u) = x * in_Myr (unit_size G (c_sc c) Ugalpy).
Proof. move=> [HS [Hu [Hl _]]]. have [N _] := unit_size_nz u HS. rewrite (@time_correct G c Ugalpy u x) // /rsc. field. exact N. Qed.

(* the orbital path *)
Definition orbit_point (r v : R) (ev : evolution) (t : R) (p : six R) : six R := in_kpc r v (ev 0 t p).
Theorem orbital_path_ok ev tfinal nt fc r v c u o : lawful ev -> ready G c u o -> (2 <= nt)%nat ->
  let ro_ := opt r (ro (c_sc c)) in let vo_ := opt v (vo (c_sc c)) in ro_ <> 0 -> vo_ <> 0 ->
  let z := unit_size G (c_sc c) u in let T := galpy_time G (1 / 10) ro_ vo_ tfinal c in
  let c' := return_cluster G (save_cluster c) (to_galpy G c) in
  let start := natural (ro (c_sc c)) (vo (c_sc c)) (orbit_kpc G c fc) in
  exists pth orb, orbital_path G ev tfinal nt fc r v c = Ok (pth, orb, c') /\ length pth = nt /\
    orb = mkOrb (ev 0 (- T) start) ro_ vo_ /\
    (forall j, (j < nt)%nat -> nth j pth (0, zero6) = (convert_time G (spaced (- T) T nt j) Ugalpy c', convert6 (in_kpc ro_ vo_ (ev 0 (spaced (- T) T nt j) start)) Ukpckms c')).
Proof.
  move=> [EV1 EV2] HR NT ro_ vo_ NR NV z T c' start.
  rewrite /orbital_path. cbn zeta. rewrite -/ro_ -/vo_ -/T (init_orbit_ok fc (Some ro_) (Some vo_) HR) -/start -/c'. cbn [opt].
  destruct nt as [|n]; [lia|]. set nt := S n in NT *. have ET : -1 * T = - T by ring. rewrite ET.
  rewrite linspace_last //. rewrite /at_time. cbn [ob_at]. rewrite !linspace_hd; [lia|lia|].
  have EP : forall x w p, physical (mkOrb x ro_ vo_) w = in_kpc ro_ vo_ w by [].
  rewrite /orbit_cyl.
  set q := cart_to_cyl _.
  have EQ : cyl_to_cart (mk6 (sx q / ro_) (sy q) (sz q / ro_) (svx q / vo_) (svy q / vo_) (svz q / vo_)) = ev 0 (- T) start.
  { have [E _] := cyl_round_trip (physical (mkOrb start ro_ vo_) (ev 0 (- T) start)). cbn zeta in E. rewrite -/q in E.
    have E' : cyl_to_cart q = in_kpc ro_ vo_ (ev 0 (- T) start) by exact E. rewrite -[RHS](@kpc_natural ro_ vo_) // -E'.
    rewrite /natural /cyl_to_cart /cyl_to_rect /cyl_to_rect_vec. cbn [sx sy sz svx svy svz]. f_equal; field; assumption. }
  rewrite EQ. eexists. eexists. split; [reflexivity|]. split; [by rewrite map_length linspace_length|]. split; [reflexivity|].
  move=> j Hj. set h := fun t : R => _. rewrite (@nth_map' _ _ h _ j (0, zero6) 0); [by rewrite linspace_length|].
  rewrite linspace_nth // /h. f_equal. f_equal. by rewrite EV2.
Qed.
(* one point: the present place is given the time -tfinal *)
Theorem orbital_path_one ev tfinal fc r v c u o : lawful ev -> ready G c u o ->
  let ro_ := opt r (ro (c_sc c)) in let vo_ := opt v (vo (c_sc c)) in ro_ <> 0 -> vo_ <> 0 ->
  let T := galpy_time G (1 / 10) ro_ vo_ tfinal c in let c' := return_cluster G (save_cluster c) (to_galpy G c) in
  let start := natural (ro (c_sc c)) (vo (c_sc c)) (orbit_kpc G c fc) in
  exists orb, orbital_path G ev tfinal 1 fc r v c = Ok ([(convert_time G (- T) Ugalpy c', convert6 (in_kpc ro_ vo_ start) Ukpckms c')], orb, c').
Proof.
  move=> [EV1 EV2] HR ro_ vo_ NR NV T c' start.
  rewrite /orbital_path. cbn zeta. rewrite -/ro_ -/vo_ -/T (init_orbit_ok fc (Some ro_) (Some vo_) HR) -/start -/c'. cbn [opt].
  have ET : -1 * T = - T by ring. rewrite ET !linspace_one. cbn [last map]. rewrite /at_time. cbn [ob_at hd]. rewrite !EV1.
  rewrite /orbit_cyl. set q := cart_to_cyl _.
  have EQ : cyl_to_cart (mk6 (sx q / ro_) (sy q) (sz q / ro_) (svx q / vo_) (svy q / vo_) (svz q / vo_)) = start.
  { have [E _] := cyl_round_trip (physical (mkOrb start ro_ vo_) start). cbn zeta in E. rewrite -/q in E.
    have E' : cyl_to_cart q = in_kpc ro_ vo_ start by exact E. rewrite -[RHS](@kpc_natural ro_ vo_) // -E'.
    rewrite /natural /cyl_to_cart /cyl_to_rect /cyl_to_rect_vec. cbn [sx sy sz svx svy svz]. f_equal; field; assumption. }
  rewrite EQ. eexists. reflexivity.
Qed.
End WithGalpy.
