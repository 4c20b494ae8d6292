(* Proofs: paths on the sky, part 2. *)
From Verif Require Import Base ModelCluster ModelOps ModelConv ModelEnergy ModelRecipes ModelCoords ModelLagrange ModelProfiles ModelStars ModelLoad ModelTail ModelOrbit ModelSky ModelSkyPath.
From Verif Require Import SpecUnits SpecFrame SpecConv SpecOrder SpecRecipes SpecEnergy SpecLagrange SpecProfiles SpecDynamics SpecTail SpecOrbit SpecSky SpecSkyPath.
From Verif Require Import ProofsUnits ProofsFrame ProofsRecipes2 ProofsEnergy ProofsEnergy2 ProofsConv ProofsSees ProofsRecipes ProofsCoords ProofsDynamics ProofsDynamics2 ProofsDynamics6 ProofsTail ProofsTail2 ProofsTail3 ProofsTail4 ProofsTail5 ProofsOrbit ProofsOrbit2 ProofsOrbit3 ProofsOrbit4 ProofsOrbit5 ProofsSky ProofsSky2 ProofsSkyPath.
Set Implicit Arguments. Unset Strict Implicit.

Section WithGalpy.
Variable G : galpy.
Variable A : astrometry.
Variables (zo : R) (motion : R * R * R).
(* an orbit made of cylindrical coordinates *)
Lemma cyl_orbit p r v : r <> 0 -> v <> 0 -> let q := cart_to_cyl p in orbit_cyl (sx q / r) (svx q / v) (svy q / v) (sz q / r) (svz q / v) (sy q) r v = mkOrb (natural r v p) r v.
Proof.
  move=> NR NV q. rewrite /orbit_cyl. f_equal. have [E _] := cyl_round_trip p. cbn zeta in E. rewrite -/q in E.
  rewrite -E /natural /cyl_to_cart /cyl_to_rect /cyl_to_rect_vec. cbn [sx sy sz svx svy svz]. f_equal; field; assumption.
Qed.
Lemma cart_to_sky_ok zd r v m p : r <> 0 -> v <> 0 -> cart_to_sky A zd r v m p = seen A (mkSun r v zd m) p.
Proof.
  move=> NR NV. rewrite /cart_to_sky (cyl_orbit p NR NV). f_equal. exact (natural_kpc p NR NV).
Qed.
(* the path from the start, whatever orbit_of gives *)
Lemma sky_path_form ev tfinal nt fc r v c start c' : lawful ev -> (2 <= nt)%nat ->
  let ro_ := opt r (ro (c_sc c)) in let vo_ := opt v (vo (c_sc c)) in ro_ <> 0 -> vo_ <> 0 ->
  orbit_of G A zo motion fc (Some ro_) (Some vo_) c = (mkOrb start ro_ vo_, c') ->
  let T := galpy_time G (1 / 10) ro_ vo_ tfinal c in
  exists pth, sky_path G A zo motion ev tfinal nt fc r v c = Ok (pth, c') /\ length pth = nt /\
    forall j, (j < nt)%nat -> nth j pth (0, zero6) = (sky_time G ro_ vo_ c' (spaced (- T) T nt j), seen A (sun_of zo motion r v c) (in_kpc ro_ vo_ (ev 0 (spaced (- T) T nt j) start))).
Proof.
  move=> [EV1 EV2] NT ro_ vo_ NR NV EO T. rewrite /sky_path. cbn zeta. rewrite -/ro_ -/vo_ -/T EO.
  destruct nt as [|n]; [lia|]. set nt := S n in NT *. have ET : -1 * T = - T by ring. rewrite ET.
  rewrite linspace_last //. rewrite (cyl_orbit _ NR NV). rewrite /at_time. cbn [ob_at]. rewrite !linspace_hd; [lia|lia|].
  have EP : forall x w, physical (mkOrb x ro_ vo_) w = in_kpc ro_ vo_ w by [].
  rewrite EP (kpc_natural _ NR NV).
  eexists. split; [reflexivity|]. split; [by rewrite map_length linspace_length|].
  move=> j Hj. set h := fun t : R => _. rewrite (@nth_map' _ _ h _ j (0, zero6) 0); [by rewrite linspace_length|].
  rewrite linspace_nth // /h. by rewrite EV2.
Qed.
Lemma orbit_of_flat fc r v c u o : ready G c u o -> orbit_of G A zo motion fc (Some r) (Some v) c =
  (mkOrb (natural (ro (c_sc c)) (vo (c_sc c)) (orbit_kpc G c fc)) r v, return_cluster G (save_cluster c) (to_galpy G c)).
Proof.
  move=> HR. have [_ [Hu [Hl _]]] := HR. rewrite -(init_orbit_ok fc (Some r) (Some v) HR) /orbit_of Hu. destruct u; try reflexivity. by case: Hl.
Qed.
Lemma sky_time_ok c u o t : ready G c u o -> sky_time G (ro (c_sc c)) (vo (c_sc c)) c t * in_Myr (unit_size G (c_sc c) u) = t * in_Myr (unit_size G (c_sc c) Ugalpy).
Proof.
  move=> [HS [Hu [Hl _]]]. have [N1 _] := HS. rewrite /sky_time Hu. have -> : in_Myr (unit_size G (c_sc c) Ugalpy) = 1000 * time_in_Gyr G (ro (c_sc c)) (vo (c_sc c)) by [].
  have [NU _] := unit_size_nz u HS. destruct u; try (by case: Hl); rewrite /unit_size in NU *; cbn [in_Myr] in NU |- *; field; try exact NU.
Qed.
Lemma scales_nz c u o : ready G c u o -> ro (c_sc c) <> 0 /\ vo (c_sc c) <> 0.
Proof. by move=> [[N1 [N2 [N3 [N4 [N5 [N6 _]]]]]] _]. Qed.
Theorem sky_path_ok ev tfinal nt fc c u o : lawful ev -> ready G c u o -> (2 <= nt)%nat ->
  let z := unit_size G (c_sc c) u in let T := duration G c u (1 / 10) tfinal in let c' := return_cluster G (save_cluster c) (to_galpy G c) in
  exists pth, sky_path G A zo motion ev tfinal nt fc None None c = Ok (pth, c') /\ length pth = nt /\
    forall j, (j < nt)%nat -> let t := spaced (- T) T nt j in
      fst (nth j pth (0, zero6)) * in_Myr z = t * in_Myr (unit_size G (c_sc c) Ugalpy) /\
      snd (nth j pth (0, zero6)) = seen A (sun_of zo motion None None c) (in_kpc (ro (c_sc c)) (vo (c_sc c)) (ev 0 t (natural (ro (c_sc c)) (vo (c_sc c)) (orbit_kpc G c fc)))).
Proof.
  move=> HE HR NT z T c'. have [NR NV] := scales_nz HR.
  have [pth [E1 [E2 E3]]] := @sky_path_form ev tfinal nt fc None None c _ _ HE NT NR NV (orbit_of_flat fc (ro (c_sc c)) (vo (c_sc c)) HR).
  cbn [opt] in E3. rewrite (galpy_time_ok (1 / 10) tfinal HR) -/T in E3. exists pth. split; [exact E1|]. split; [exact E2|]. move=> j Hj t. rewrite E3 //. cbn [fst snd]. split; [|reflexivity].
  have [_ [RC1 RC2]] := returned HR (proj1 (ready_galpy HR)). rewrite -/c' in RC1 RC2 *. rewrite /z -RC2. exact (sky_time_ok _ RC1).
Qed.
(* in Gyr: the image of the cluster's own path, as long as the astrometry is the cluster's *)
Definition map_pair_ext : forall (f g : six R -> six R) l, (forall p, f p = g p) -> sky_image f l = sky_image g l.
Proof. move=> f g l H. rewrite /sky_image. apply map_ext => q. by rewrite H. Qed.
Lemma image_nth view pth nt (own : list (R * six R)) : length own = nt -> length pth = nt ->
  (forall j, (j < nt)%nat -> nth j pth (0, zero6) = (fst (nth j own (0, zero6)), view (snd (nth j own (0, zero6))))) -> pth = sky_image view own.
Proof.
  move=> L1 L2 H. apply (nth_ext _ _ (0, zero6) (0, zero6)); [by rewrite map_length L1|]. move=> j Hj. rewrite L2 in Hj. rewrite (H j Hj) /sky_image.
  by rewrite (@nth_map' _ _ (fun q : R * six R => (fst q, view (snd q))) own j (0, zero6) (0, zero6)); [rewrite L1|].
Qed.
Lemma own_exists ev c fc T nt : exists own, own_path G ev c fc T nt own.
Proof.
  exists (map (fun j => let t := spaced (- T) T nt j in let g := in_Myr (unit_size G (c_sc c) Ugalpy) / 1000 in
     (t, in_kpc (ro (c_sc c)) (vo (c_sc c)) (ev 0 (t / g) (natural (ro (c_sc c)) (vo (c_sc c)) (orbit_kpc G c fc))))) (seq 0 nt)).
  split; [by rewrite map_length seq_length|]. move=> j Hj. cbn zeta. by rewrite nth_map_seq.
Qed.
(* in Gyr times, from any cluster at hand whose orbit starts at the orbit of c *)
Lemma gyr_image ev (tfinal : option R) nt fc c c1 c' r v u1 : lawful ev -> (2 <= nt)%nat -> c_sc c1 = c_sc c -> c_sc c' = c_sc c -> good_scales G (c_sc c) ->
  opt r (ro (c_sc c)) = ro (c_sc c) -> opt v (vo (c_sc c)) = vo (c_sc c) ->
  c_units c1 = Some u1 -> c_units c' = Some u1 -> u1 = Ukpckms \/ u1 = Uradec ->
  orbit_of G A zo motion fc (Some (ro (c_sc c))) (Some (vo (c_sc c))) c1 = (mkOrb (natural (ro (c_sc c)) (vo (c_sc c)) (orbit_kpc G c fc)) (ro (c_sc c)) (vo (c_sc c)), c') ->
  exists own, own_path G ev c fc (gyr tfinal) nt own /\
    sky_path G A zo motion ev tfinal nt fc r v c1 = Ok (sky_image (seen A (sun_of zo motion None None c)) own, c').
Proof.
  move=> HE NT SC SC' HS Er Ev U1 U' HU EO. have [N1 [N2 [N3 [N4 [NR [NV [NG _]]]]]]] := HS.
  have HP := @sky_path_form ev tfinal nt fc r v c1 (natural (ro (c_sc c)) (vo (c_sc c)) (orbit_kpc G c fc)) c' HE NT. cbn zeta in HP. rewrite SC Er Ev in HP.
  have [pth [E1 [E2 E3]]] := HP NR NV EO.
  set g := time_in_Gyr G (ro (c_sc c)) (vo (c_sc c)) in NG *.
  have ET : galpy_time G (1 / 10) (ro (c_sc c)) (vo (c_sc c)) tfinal c1 = gyr tfinal / g.
  { rewrite /galpy_time U1 /gyr -/g. destruct tfinal; [|by []]. by destruct HU as [-> | ->]. }
  have ES : forall x, sky_time G (ro (c_sc c)) (vo (c_sc c)) c' x = x * g by move=> x; rewrite /sky_time U' -/g; destruct HU as [-> | ->].
  have [own OW] := own_exists ev c fc (gyr tfinal) nt. exists own. split; [exact OW|]. rewrite E1. f_equal. f_equal.
  have SE : sun_of zo motion r v c1 = sun_of zo motion None None c by rewrite /sun_of SC Er Ev.
  apply (@image_nth _ pth nt own); [by case: OW|exact E2|]. move=> j Hj. rewrite E3 // ES ET SE. have [_ OJ] := OW. rewrite OJ //. cbn [fst snd].
  have EG : in_Myr (unit_size G (c_sc c) Ugalpy) / 1000 = g by rewrite /unit_size; cbn [in_Myr]; rewrite -/g; field.
  have EX : spaced (- (gyr tfinal / g)) (gyr tfinal / g) nt j = spaced (- gyr tfinal) (gyr tfinal) nt j / g by rewrite /spaced /Rdiv; ring.
  rewrite EG EX. f_equal. field. exact NG.
Qed.
End WithGalpy.
