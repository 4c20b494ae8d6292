(* Proofs: paths on the sky, part 4: tails. *)
From Verif Require Import Base ModelCluster ModelOps ModelConv ModelEnergy ModelRecipes ModelCoords ModelLagrange ModelProfiles ModelStars ModelLoad ModelOutput ModelTail ModelOrbit ModelSky ModelSkyPath.
From Verif Require Import SpecUnits SpecFrame SpecConv SpecOrder SpecRecipes SpecEnergy SpecLagrange SpecProfiles SpecDynamics SpecTail SpecOrbit SpecSky SpecSkyPath.
From Verif Require Import ProofsUnits ProofsFrame ProofsRecipes2 ProofsEnergy ProofsEnergy2 ProofsConv ProofsSees ProofsRecipes ProofsCoords ProofsDynamics ProofsDynamics2 ProofsDynamics6 ProofsTail ProofsTail2 ProofsTail3 ProofsTail4 ProofsTail5 ProofsOrbit ProofsOrbit2 ProofsOrbit3 ProofsOrbit4 ProofsOrbit5 ProofsSky ProofsSky2 ProofsSkyPath ProofsSkyPath2 ProofsSkyPath3.
From Verif Require ProofsMassFunction5.
Set Implicit Arguments. Unset Strict Implicit.

Section WithGalpy.
Variable G : galpy.
Variable A : astrometry.
Variables (zo : R) (motion : R * R * R).
Lemma kpc_scales_nz : solar_ro <> 0 /\ solar_vo <> 0.
Proof. split; unfold solar_vo, solar_ro; lra. Qed.
Theorem sky_tail_ok ev tfinal no nt ntail dmax bt zd fc tp c u o : lawful ev -> ready G c u o -> SpecFrame.aligned c -> no_orbits c -> (2 <= no)%nat ->
  let z := unit_size G (c_sc c) u in let zk := unit_size G (c_sc c) Ukpckms in
  exists own, own_path G ev c fc (gyr tfinal) no own /\ let pth := sky_image (seen A (sun_of zo motion None None c)) own in
  forall bn, tail_bins bt (map fst pth) nt ntail = Ok bn -> rising (b_hi bn) -> b_hi bn <> [] -> length (b_mid bn) = length (b_hi bn) ->
  exists ms p D c' out, sky_tail G A zo motion ev tfinal no nt ntail dmax bt zd fc tp false None None c = Ok (out, c') /\ ready G c' u o /\ c_sc c' = c_sc c /\
    now (map fst pth) p /\ (forall j k, (j <= k)%nat -> (k < length pth)%nat -> 0 <= D k - D j <= arc true (map snd pth) j k) /\ length ms = nstars c /\
    (forall i, (i < nstars c)%nat -> star_match true tp zk (map fst pth) (map snd pth) D p (to_radec6 G (star_kpc G c i)) (nth i ms (0, 0, None))) /\
    sky_points (nstars c) (fun j i => cell (b_hi bn) j (fst (fst (nth i ms (0, 0, None)))) /\ near zk z dmax (snd (nth i ms (0, 0, None))))
      (b_mid bn) (star_kpc G c) z (seen A (mkSun solar_ro solar_vo zd solar_motion)) out.
Proof.
  move=> HE HR HL HN NO z zk. have [S1 R1] := frame_ok HR. have K1 := frame_sky HR. have [V [_ [SC _]]] := S1. have [HS [Hu [Hl [Ho Hf]]]] := HR.
  set c1 := match_frame G c in S1 R1 K1 V SC *.
  have [S2' [R2 SC2]] := returned R1 (proj1 (ready_galpy R1)). have K2 := return_sky R1 (proj2 (ready_galpy R1)). rewrite (galpy_sky R1) K1 in K2.
  set c2 := return_cluster G (save_cluster c1) (to_galpy G c1) in S2' R2 SC2 K2.
  have S2 := sees_trans S1 S2'. have SC20 : c_sc c2 = c_sc c by rewrite SC2.
  have [_ [U1 _]] := R1. have [_ [U2 _]] := R2.
  have OF := orbit_of_flat A zo motion fc (ro (c_sc c)) (vo (c_sc c)) R1. rewrite -/c2 SC in OF.
  have OK : orbit_kpc G c1 fc = orbit_kpc G c fc by rewrite /orbit_kpc V. rewrite OK in OF.
  have [own [OW E1]] := @gyr_image G A zo motion ev tfinal no fc c c1 c2 None None Ukpckms HE NO SC SC20 HS eq_refl eq_refl U1 U2 (or_introl eq_refl) OF.
  exists own. split; [exact OW|]. move=> pth. rewrite -/pth in E1. move=> bn B1 B2 B3 B4.
  have LP : length pth = no by rewrite /pth /sky_image map_length; case: OW. have NP : pth <> [] by move=> E; rewrite E /= in LP; lia.
  have [V2 _] := S2. have [AL2 N2] := view_aligned V2 HL.
  have [ms [p [D [M1 [M2 [M3 [M5 [M6 [R3 [SC3 [_ [_ [_ [P3 _]]]]]]]]]]]]]] := @sky_match_ok G pth tp c2 Ukpckms Ogalaxy R2 ltac:(discriminate) AL2 (no_orbits_eq K2 HN) NP ltac:(move=> _; lia).
  set c3 := return_cluster G (save_cluster c2) (to_radec G true c2) in M1 R3 SC3 P3.
  rewrite N2 in M5 M6. rewrite SC20 in M6.
  have [_ [_ [LN ST]]] := kpc_rows S2 R2 HL (ex_intro _ u (ex_intro _ o HR)). rewrite -P3 in LN ST.
  have [RC1 RC2] : ready G (return_cluster G (save_cluster c) c3) u o /\ c_sc (return_cluster G (save_cluster c) c3) = c_sc c.
  { have [ops [F [L1 [L2 E]]]] := return_is_run R3 Hl Hf (sv := save_cluster c) Hu Ho. have [_ [RR [SR _]]] := run_view R3 F. rewrite L1 L2 in RR.
    rewrite E. split; [by apply analyzed_ready|]. rewrite !an SR SC3. exact SC20. }
  set c' := return_cluster G (save_cluster c) c3 in RC1 RC2.
  set rows := rows6 (p_s (c_ph c3)) in LN ST.
  set dm := match dmax, c_units c with Some d, Some u => Some (convert_length d u c1) | _, _ => dmax end.
  set sel := match dm with None => map (fun _ => true) ms
             | Some d => map (fun a : R * R * num => match snd a with None => false | Some x => Rleb (Rabs x) d end) ms end.
  set bi := bin_index (map (fun a => fst (fst a)) ms) (b_lo bn) (b_hi bn).
  have LS : length sel = nstars c by rewrite /sel; destruct dm; rewrite map_length.
  have LB : length bi = nstars c by rewrite /bi /bin_index !map_length.
  have SEL : forall i, (i < nstars c)%nat -> nth i sel false = true <-> near zk z dmax (snd (nth i ms (0, 0, None))).
  { move=> i Hi. rewrite /sel /dm Hu. destruct dmax as [d|]; cbn [near].
    - have ED : convert_length d u c1 = d * in_pc z / 1000.
      { have [N1 _] := R1. have [_ [Hu1 [Hl1 _]]] := R1. rewrite (@length_correct G c1 u Ukpckms d) // /rsc SC -/z. have -> : in_pc (unit_size G (c_sc c) Ukpckms) = 1000 by []. field. }
      rewrite (@nth_map' _ _ _ ms i false (0, 0, None)); [by rewrite M5|]. destruct (snd (nth i ms (0, 0, None))) as [x|]; [|by split].
      rewrite Rleb_spec ED. have -> : in_pc zk = 1000 by []. split => H; lra.
    - rewrite (@nth_map' _ _ _ ms i false (0, 0, None)); [by rewrite M5|]. by split. }
  have BI : forall i, (i < nstars c)%nat -> nth i bi 0%Z = bin_index1 (b_hi bn) (fst (fst (nth i ms (0, 0, None)))).
  { move=> i Hi. rewrite /bi /bin_index (@nth_map' _ _ _ (map (fun a => fst (fst a)) ms) i 0%Z 0); [by rewrite map_length M5|]. f_equal.
    rewrite (@nth_map' _ _ _ ms i 0 (0, 0, None)); [by rewrite M5|]. by []. }
  set mem := fun j i => (nth i sel false && Z.eqb (nth i bi 0%Z) (Z.of_nat j))%bool.
  have MEM : forall j i, (i < nstars c)%nat -> mem j i = true <-> cell (b_hi bn) j (fst (fst (nth i ms (0, 0, None)))) /\ near zk z dmax (snd (nth i ms (0, 0, None))).
  { move=> j i Hi. rewrite /mem BI // andb_true_iff SEL // (cell_iff _ _ B2 B3). tauto. }
  set ne := fun j => negb (Nat.eqb (length (filter (mem j) (seq 0 (nstars c)))) 0).
  set g := fun j => (nth j (b_mid bn) 0, mean6 (map (fun i => star_kpc G c i) (filter (mem j) (seq 0 (nstars c))))).
  have TP : forall j, tail_point rows sel bi (nth j (b_mid bn) 0) j = if ne j then [g j] else [].
  { move=> j. rewrite /tail_point (mine_rows (Z.of_nat j) LN LS LB) -/(mem j).
    have EM : map (fun i => nth i rows zero6) (filter (mem j) (seq 0 (nstars c))) = map (fun i => star_kpc G c i) (filter (mem j) (seq 0 (nstars c))).
    { apply map_ext_in => i /filter_In [/in_seq Hi _]. apply ST. lia. }
    rewrite EM /ne /g. destruct (filter (mem j) (seq 0 (nstars c))) as [|i l]; [by []|]. cbn [map length Nat.eqb negb]. reflexivity. }
  set js := filter ne (seq 0 (length (b_mid bn))).
  have EC : concat (map (fun j => tail_point rows sel bi (nth j (b_mid bn) 0) j) (seq 0 (length (b_mid bn)))) = map g js.
  { apply concat_one => j _. exact (TP j). }
  set conv := fun a : R * six R => (convert_time G (fst a) Ukpckms c', cart_to_sky A zd solar_ro solar_vo solar_motion (snd a)).
  exists ms, p, D, c', (map conv (map g js)).
  split.
  { rewrite /sky_tail -/c1 -/dm E1. cbn [bind]. rewrite B1. cbn [bind]. rewrite M1. cbn [bind]. rewrite -/sel -/bi.
    have -> : existsb (fun i => Z.ltb i 0) (select sel bi) = false.
    { apply not_true_is_false => /existsb_exists [i [I /Z.ltb_lt H]]. apply ProofsMassFunction5.select_In in I. rewrite /bi /bin_index in I. apply in_map_iff in I. destruct I as [w [<- _]].
      rewrite /bin_index1 in H. have : (0 < length (b_hi bn))%nat by destruct (b_hi bn) => //=; lia. lia. }
    rewrite -/rows EC. reflexivity. }
  split; [exact RC1|]. split; [exact RC2|]. split; [exact M2|]. split; [exact M3|]. split; [exact M5|]. split.
  { move=> i Hi. have H := M6 i Hi. have ES : star_kpc G c2 i = star_kpc G c i by rewrite /star_kpc V2. by rewrite ES in H. }
  exists js. split; [by apply filter_rising|]. split; [|split; [by rewrite !map_length|]].
  - move=> j. rewrite /js filter_In in_seq /ne. split.
    + move=> [H1 H2]. split; [lia|]. destruct (filter (mem j) (seq 0 (nstars c))) as [|i l] eqn:EF; [by []|].
      have I : In i (filter (mem j) (seq 0 (nstars c))) by rewrite EF; left. apply filter_In in I. move: I => [/in_seq I1 I2]. exists i. split; [lia|]. apply MEM => //. lia.
    + move=> [H1 [i [H2 H3]]]. split; [lia|]. apply MEM in H3 => //.
      have I : In i (filter (mem j) (seq 0 (nstars c))) by apply filter_In; split => //; apply in_seq; lia.
      by destruct (filter (mem j) (seq 0 (nstars c))).
  - move=> k Hk j. set sl := filter (mem j) (seq 0 (nstars c)).
    exists sl, (filter (fun i => negb (mem j i)) (seq 0 (nstars c))).
    have EK : nth k (map conv (map g js)) (0, zero6) = conv (g j).
    { rewrite (@nth_map' _ _ conv (map g js) k (0, zero6) (0, zero6)); [by rewrite map_length|]. by rewrite (@nth_map' _ _ g js k (0, zero6) 0%nat). }
    rewrite EK. cbn [conv fst snd]. rewrite /g. cbn [fst snd]. rewrite -/sl.
    split; [apply filter_split|]. split; [|split; [|split]].
    + apply Forall_forall => i /filter_In [/in_seq Hi H]. apply MEM => //. lia.
    + apply Forall_forall => i /filter_In [/in_seq Hi H] H'. apply MEM in H'; [|lia]. by rewrite H' in H.
    + rewrite /z -RC2. exact (time_kpc _ RC1).
    + have [NR NV] := kpc_scales_nz. exact (cart_to_sky_ok A zd solar_motion _ NR NV).
Qed.
End WithGalpy.
