(* C49, C50, C71: tidal-tail frame, matching stars to a path, progress along it. *)
From Verif Require Import Base ModelCluster ModelOps ModelConv ModelEnergy ModelRecipes ModelCoords ModelStars ModelSubset ModelLagrange ModelProfiles ModelDynamics ModelTail.
From Verif Require Import SpecUnits SpecFrame SpecConv SpecEnergy SpecLagrange SpecProfiles SpecDynamics SpecTail.
From Verif Require Import ProofsUnits ProofsFrame ProofsSees ProofsStars ProofsTail ProofsTail2 ProofsTail3 ProofsTail4 ProofsTail5 PropUnits PropEnergy PropProfiles PropDynamics.

(* C49: to_tail.  With v the cluster's orbital velocity, one rotation f carries the positions and velocities of the stars relative to the
   cluster to the ones returned, and v to (|v|, 0, 0): exactly if v is along x or at an angle whose cosine is at most 1 - 1e-10, and to 15
   parts in a million of |v| otherwise.  Distances, speeds, angles and handedness are therefore kept.  The cluster is as before.
   Excluded: v pointing along -x up to a cosine within 1e-10, and v = 0; see below. *)
Theorem C49_tail_frame :
  forall (G : galpy) (c : cluster) (u : usys) (o : osys), ready G c u o -> SpecFrame.aligned c -> analyze true true c = c ->
    let v := motion (p_g (c_ph c)) in 0 < len3 v -> (-1 + 1 / 10 ^ 10) * len3 v <= svx (p_g (c_ph c)) ->
    exists f s c', to_tail G c = (Some s, c') /\ restored c c' /\ is_rotation f /\ seen_under f c s /\
      (svx (p_g (c_ph c)) <= (1 - 1 / 10 ^ 10) * len3 v \/ v = (len3 v, 0, 0) -> f v = (len3 v, 0, 0)) /\
      len3 (minus3 (f v) (len3 v, 0, 0)) <= 15 / 1000000 * len3 v.
Proof.
  intros G c u o HR HL HA v LV XV.
  assert (EX : xcos v = svx (p_g (c_ph c)) / len3 v) by reflexivity.
  assert (XB : -1 + 1 / 10 ^ 10 <= xcos v).
  { rewrite EX. apply (Rmult_le_reg_r (len3 v)); [exact LV|]. unfold Rdiv at 2. rewrite Rmult_assoc Rinv_l ?Rmult_1_r; lra. }
  destruct (to_tail_ok HR HL HA LV XB) as [f [s [c' [E1 [E2 [E3 [E4 [E5 E6]]]]]]]]. exists f, s, c'.
  split; [exact E1|]. split; [exact E2|]. split; [exact E3|]. split; [exact E4|]. split; [|exact E6].
  intros [H|H]; apply E5; [left|right; exact H]. fold v. rewrite EX. apply (Rmult_le_reg_r (len3 v)); [exact LV|].
  unfold Rdiv at 1. rewrite Rmult_assoc Rinv_l ?Rmult_1_r; lra.
Qed.
Print Assumptions C49_tail_frame.
(* finding: an orbital velocity along -x gives the mirror image of the cluster, not a rotation of it *)
Theorem C49_backward_refuted :
  forall (G : galpy) (c : cluster) (u : usys) (o : osys), ready G c u o -> SpecFrame.aligned c -> analyze true true c = c ->
    let v := motion (p_g (c_ph c)) in 0 < len3 v -> svx (p_g (c_ph c)) < (-1 + 1 / 10 ^ 10) * len3 v ->
    exists f s c', to_tail G c = (Some s, c') /\ restored c c' /\ is_mirror f /\ seen_under f c s.
Proof.
  intros G c u o HR HL HA v LV XV.
  assert (EX : xcos v = svx (p_g (c_ph c)) / len3 v) by reflexivity.
  apply (to_tail_anti HR HL HA LV). fold v. rewrite EX. apply (Rmult_lt_reg_r (len3 v)); [exact LV|].
  unfold Rdiv at 1. rewrite Rmult_assoc Rinv_l ?Rmult_1_r; lra.
Qed.
Print Assumptions C49_backward_refuted.
(* a cluster at rest has no tail frame: every value is nan *)
Theorem C49_at_rest :
  forall (G : galpy) (c : cluster) (u : usys) (o : osys), ready G c u o -> SpecFrame.aligned c -> analyze true true c = c ->
    motion (p_g (c_ph c)) = (0, 0, 0) -> exists c', to_tail G c = (None, c') /\ restored c c'.
Proof. intros G c u o HR HL HA E. exact (to_tail_rest HR HL HA E). Qed.
Print Assumptions C49_at_rest.

(* C50: orbital_path_match with a path of times ts (Gyr) and points pts (kpc, km/s).  For every star: the nearest point k (the first, among
   equals), the time of k, and the signed distance to it; with to_path, the signed distance to the straight line through the path segment
   at k.  Positions are compared in kpc relative to the galactic centre, whatever the units and origin the cluster is stored in, the
   results are in the units of the cluster, and the cluster is as before. *)
Theorem C50_match :
  forall (G : galpy) (pth : path) (to_path projected : bool) (c : cluster) (u : usys) (o : osys),
    ready G c u o -> SpecFrame.aligned c -> analyze true true c = c -> pth <> [] -> (to_path = true -> (2 <= length pth)%nat) ->
    let z := unit_size G (c_sc c) u in let ts := map fst pth in let pts := map snd pth in
    exists out c', orbital_path_match G pth to_path false projected c = Ok (out, c') /\ restored c c' /\ length out = nstars c /\
      exists p D, forall i, (i < nstars c)%nat -> star_match projected to_path z ts pts D p (star_kpc G c i) (nth i out (0, 0, None)).
Proof.
  intros G pth tp b c u o HR HL HA HN HT z ts pts.
  destruct (match_ok b HR HL HN HT) as [out [p [D [E1 [_ [_ [_ [E5 E6]]]]]]]]. exists out. eexists. split; [exact E1|].
  split; [exact (bracket_sees HR (proj1 (frame_ok HR)) HA)|]. split; [exact E5|]. exists p, D. exact E6.
Qed.
Print Assumptions C50_match.
(* to_path on a path without a segment, an empty path, and do_full raise *)
Theorem C50_raises :
  forall (G : galpy) (c : cluster) (p : R * six R) (pth : path) (to_path do_full projected : bool),
    orbital_path_match G [] to_path do_full projected c = Raise /\ orbital_path_match G [p] true do_full projected c = Raise /\
    orbital_path_match G pth true true projected c = Raise.
Proof. intros. split; [apply match_empty|]. split; [apply match_one|apply match_full]. Qed.
Print Assumptions C50_raises.
(* finding: with projected=True a star beside a path point, at the same y, is reported at distance zero however far it is *)
Theorem C50_projected_refuted :
  forall (G : galpy) (c : cluster) (u : usys) (o : osys) (i : nat) (d : R),
    ready G c u o -> SpecFrame.aligned c -> (i < nstars c)%nat -> 0 < d ->
    let s := star_kpc G c i in let q := mk6 (sx s + d) (sy s) (sz s) 0 0 0 in
    exists out c' x, orbital_path_match G [(0, q)] false false true c = Ok (out, c') /\ snd (nth i out (0, 0, None)) = Some x /\ x = 0 /\ gap true q s = d.
Proof.
  intros G c u o i d HR HL Hi Hd s q.
  destruct (@match_ok G [(0, q)] false true c u o HR HL ltac:(discriminate) ltac:(discriminate)) as [out [p [D [E1 [_ [_ [_ [E5 E6]]]]]]]].
  destruct (E6 i Hi) as [k [g [K1 [K2 [_ [_ [K5 _]]]]]]]. destruct (K5 eq_refl) as [x [X1 X2]]. cbn [map snd] in K1, K2, X2.
  exists out. eexists. exists x. split; [exact E1|]. split; [exact X1|]. destruct K2 as [j [[J1 _] [_ [J3 _]]]]. cbn [length] in J1.
  assert (j = 0%nat) by lia. subst j. rewrite J3 in X2; [reflexivity|]. destruct HR as [HS _]. destruct (unit_size_nz u HS) as [_ [_ [N3 _]]]. split.
  - apply (Rmult_eq_reg_r (in_pc (unit_size G (c_sc c) u))); [rewrite X2; ring|exact N3].
  - unfold gap, q. cbn [sx sy sz]. fold s. replace ((sx s + d - sx s) ^ 2 + (sy s - sy s) ^ 2 + 0) with (d * d) by ring. apply sqrt_square. lra.
Qed.
Print Assumptions C50_projected_refuted.

(* C71: the progress reported for a star is D k - D p, p the point of the path at the present time, k the point nearest to the star, where D
   is a function of the points of the path that never decreases along it, by at most the length of the path, and exactly by it if the
   path is straight *)
Theorem C71_progress :
  forall (G : galpy) (pth : path) (to_path projected : bool) (c : cluster) (u : usys) (o : osys),
    ready G c u o -> SpecFrame.aligned c -> pth <> [] -> (to_path = true -> (2 <= length pth)%nat) ->
    let z := unit_size G (c_sc c) u in let ts := map fst pth in let pts := map snd pth in
    exists out c' p D, orbital_path_match G pth to_path false projected c = Ok (out, c') /\ now ts p /\
      (forall j k, (j <= k)%nat -> (k < length pth)%nat -> 0 <= D k - D j <= arc projected pts j k) /\
      (straight pts -> forall j k, (j <= k)%nat -> (k < length pth)%nat -> D k - D j = arc projected pts j k) /\
      forall i, (i < nstars c)%nat -> exists k, nearest projected pts (star_kpc G c i) k /\
        snd (fst (nth i out (0, 0, None))) * in_pc z = 1000 * (D k - D p).
Proof.
  intros G pth tp b c u o HR HL HN HT z ts pts.
  destruct (match_ok b HR HL HN HT) as [out [p [D [E1 [E2 [E3 [E4 [E5 E6]]]]]]]]. exists out. eexists. exists p, D. split; [exact E1|].
  split; [exact E2|]. split; [exact E3|]. split; [exact E4|]. intros i Hi. destruct (E6 i Hi) as [k [g [K1 [_ [_ [K4 _]]]]]]. now exists k.
Qed.
Print Assumptions C71_progress.
(* finding: on a path with a bend the progress is not the length of the path: here sqrt 2 where the path has length 2 *)
Theorem C71_bend_refuted :
  forall (G : galpy) (c : cluster) (u : usys) (o : osys) (i : nat),
    ready G c u o -> SpecFrame.aligned c -> (i < nstars c)%nat ->
    let s := star_kpc G c i in
    let pth := [(0, mk6 (sx s + 1) (sy s + 1) (sz s) 0 0 0); (1, mk6 (sx s) (sy s + 1) (sz s) 0 0 0); (2, mk6 (sx s) (sy s) (sz s) 0 0 0)] in
    exists out c', orbital_path_match G pth false false false c = Ok (out, c') /\
      snd (fst (nth i out (0, 0, None))) * in_pc (unit_size G (c_sc c) u) = 1000 * sqrt 2 /\ arc false (map snd pth) 0 2 = 2 /\ 1000 * sqrt 2 < 1000 * 2.
Proof.
  intros G c u o i HR HL Hi s pth.
  assert (S0 : forall a, 0 <= a -> sqrt (a * a) = a) by (intros; now apply sqrt_square).
  destruct (@match_ok G pth false false c u o HR HL ltac:(discriminate) ltac:(discriminate)) as [out [p [D [E1 [E2 [_ [_ [E5 _]]]]]]]].
  exists out. eexists. split; [exact E1|]. split; [|split].
  - clear E2 E5. unfold orbital_path_match, match_core in E1. cbn zeta in E1. unfold pth at 1 in E1. cbn iota in E1.
    match type of E1 with Ok (map ?f ?l, _) = _ => set (h := f) in E1; set (ll := l) in E1 end.
    assert (EO : out = map h ll) by congruence. rewrite EO. clear E1 EO D p out.
    destruct (frame_ok HR) as [F1 F2]. destruct (kpc_rows F1 F2 HL (ex_intro _ u (ex_intro _ o HR))) as [_ [_ [LN ST]]].
    rewrite (@ProofsRecipes.nth_map' _ _ h ll i (0, 0, None) zero6); [unfold ll; now rewrite LN|]. unfold ll. rewrite ST //. fold s.
    assert (K : match_star false false (map snd pth) ([], [], []) s = (2%nat, Some (0 * path_sign false (map snd pth) 2 s))).
    { unfold match_star. cbn zeta. assert (ED : map (fun q => sep false q s) (map snd pth) = [sqrt 2; 1; 0]).
      { unfold pth, sep. cbn [map snd sx sy sz].
        assert (Q : forall a b, 0 <= b -> a = b * b -> sqrt a = b) by (intros a b Hb ->; now apply S0).
        f_equal; [f_equal; ring|]. f_equal; [apply Q; [lra|ring]|]. f_equal. apply Q; [lra|ring]. }
      rewrite ED. assert (G2 : 1 < sqrt 2) by (rewrite -{1}sqrt_1; apply sqrt_lt_1; lra).
      assert (EA : argmin [sqrt 2; 1; 0] = 2%nat).
      { destruct (@argmin_ok [sqrt 2; 1; 0] ltac:(discriminate)) as [A1 [A2 _]]. cbn [length] in A1, A2.
        pose proof (A2 2%nat ltac:(lia)) as A3. destruct (argmin [sqrt 2; 1; 0]) as [|[|[|n]]]; cbn [nth] in A3; [lra|lra|reflexivity|lia]. }
      rewrite EA. reflexivity. }
    unfold h. rewrite K. cbn [fst snd].
    assert (EP : argmin (map Rabs (map fst pth)) = 0%nat).
    { unfold pth. cbn [map fst]. rewrite Rabs_R0 Rabs_R1 (Rabs_pos_eq 2); [lra|].
      destruct (@argmin_ok [0; 1; 2] ltac:(discriminate)) as [A1 [A2 _]]. cbn [length] in A1, A2.
      pose proof (A2 0%nat ltac:(lia)) as A3. destruct (argmin [0; 1; 2]) as [|[|[|n]]]; cbn [nth] in A3; [reflexivity|lra|lra|lia]. }
    rewrite EP. rewrite !dprogr_nth; [unfold pth; cbn; lia|unfold pth; cbn; lia|].
    destruct (returned HR F1) as [_ [RC1 RC2]]. pose proof (length_kpc (along false (map snd pth) 2 - along false (map snd pth) 0) RC1) as KL. rewrite RC2 in KL.
    rewrite KL. f_equal. clear KL h K EP.
    assert (P3 : forall a b d, nth 2 (progress [a; b; d]) 0 = Rabs (b - a) + Rabs (d - b)).
    { intros a b d. rewrite progress_step; [cbn; lia|]. rewrite progress_step; [cbn; lia|]. cbn [nth]. cbn [progress nth]. ring. }
    assert (P0 : forall l, nth 0 (progress l) 0 = 0) by reflexivity.
    unfold along. cbn zeta. rewrite !P0. unfold pth. cbn [map snd]. rewrite !P3. cbn [sx sy sz].
    replace (sx s - (sx s + 1)) with (- (1)) by ring. replace (sy s - (sy s + 1)) with (- (1)) by ring.
    rewrite !Rminus_eq_0 Rabs_R0 Rabs_Ropp Rabs_R1.
    replace (0 ^ 2 + 0 ^ 2 + 0 ^ 2) with 0 by ring. rewrite sqrt_0 Rminus_0_r. f_equal. ring.
  - unfold arc, pth. cbn [seq map snd Nat.sub nth sumR]. unfold gap. cbn [sx sy sz].
    replace ((sx s + 1 - sx s) ^ 2 + (sy s + 1 - (sy s + 1)) ^ 2 + (sz s - sz s) ^ 2) with (1 * 1) by ring.
    replace ((sx s - sx s) ^ 2 + (sy s + 1 - sy s) ^ 2 + (sz s - sz s) ^ 2) with (1 * 1) by ring. rewrite S0; lra.
  - assert (sqrt 2 < 2); [|lra]. rewrite -{2}(S0 2); [lra|]. apply sqrt_lt_1; lra.
Qed.
Print Assumptions C71_bend_refuted.

(* ------------------------------------------------------------------ the hypotheses are met: five stars on an orbit *)
Definition ride_raw (o : osys) (g : six R) : cluster :=
  mkC (Some Upckms) (Some o) (Some (Bu Upckms)) 0
      (mkP 0 [1; 2; 3; 1; 1] (mk6 [3; 0; -1; 0; 0] [0; 2; 0; -4; 5] [0; 0; 0; 0; 0] [1; 0; 2; 3; 0] [0; 2; 1; 1; 1] [0; 0; 3; 0; 0]) zero6 g)
      (mkSc 1 1 1 1 1 1 1 8 220) (mkB [] [] [] []) (mkSk nil6 zero6 zero6 None None None) empty_derived [1; 2; 3; 4; 5]%Z.
Definition ride (o : osys) (g : six R) : cluster := analyze true true (ride_raw o g).
Lemma ride_ph o g : c_ph (ride o g) = c_ph (ride_raw o g).
Proof. destruct (analyze_ph true true (ride_raw o g)) as [Q1 _]. exact Q1. Qed.
Lemma ride_sc o g : c_sc (ride o g) = mkSc 1 1 1 1 1 1 1 8 220.
Proof. destruct (skel_eq_fields (skel_analyze true true (ride_raw o g))) as [_ [_ [_ [_ [_ [E _]]]]]]. exact E. Qed.
Lemma ride_ready o g : flat o -> ready demo_galpy (ride o g) Upckms o.
Proof.
  intros F. apply ProofsEnergy2.analyzed_ready. unfold ready, good_scales. cbn [c_sc c_units c_origin ride_raw].
  split; [cbn; repeat split; lra|]. split; [reflexivity|]. split; [discriminate|]. split; [reflexivity|exact F].
Qed.
Lemma ride_aligned o g : SpecFrame.aligned (ride o g).
Proof. unfold SpecFrame.aligned. rewrite ride_ph. cbn. now repeat split. Qed.
Lemma ride_n o g : nstars (ride o g) = 5%nat. Proof. unfold nstars. now rewrite ride_ph. Qed.
Lemma ride_settled o g : analyze true true (ride o g) = ride o g. Proof. apply analyze_idem. Qed.
Example C49_hypotheses_met : forall o, flat o -> let c := ride o (mk6 8000 0 100 3 4 0) in
  ready demo_galpy c Upckms o /\ SpecFrame.aligned c /\ analyze true true c = c /\ len3 (motion (p_g (c_ph c))) = 5 /\
  (-1 + 1 / 10 ^ 10) * 5 <= svx (p_g (c_ph c)) <= (1 - 1 / 10 ^ 10) * 5.
Proof.
  intros o F c. split; [now apply ride_ready|]. split; [apply ride_aligned|]. split; [apply ride_settled|]. unfold c. rewrite ride_ph. cbn [ride_raw c_ph p_g svx]. split.
  - unfold len3, motion, dot3. cbn [svx svy svz]. replace (3 * 3 + 4 * 4 + 0 * 0) with (5 * 5) by ring. apply sqrt_square. lra.
  - lra.
Qed.
Example C49_backward_hypotheses_met : let c := ride Ocluster (mk6 8000 0 100 (-5) 0 0) in
  ready demo_galpy c Upckms Ocluster /\ SpecFrame.aligned c /\ analyze true true c = c /\ len3 (motion (p_g (c_ph c))) = 5 /\
  svx (p_g (c_ph c)) < (-1 + 1 / 10 ^ 10) * 5.
Proof.
  intros c. split; [now apply ride_ready|]. split; [apply ride_aligned|]. split; [apply ride_settled|]. unfold c. rewrite ride_ph. cbn [ride_raw c_ph p_g svx]. split.
  - unfold len3, motion, dot3. cbn [svx svy svz]. replace (-5 * -5 + 0 * 0 + 0 * 0) with (5 * 5) by ring. apply sqrt_square. lra.
  - lra.
Qed.
(* a straight path of three points, two stars on different sides *)
Example C50_hypotheses_met : let c := ride Ogalaxy (mk6 1 0 0 0 4 0) in
  let pth := [(-1, mk6 1 (-1) 0 0 1 0); (0, mk6 1 0 0 0 1 0); (1, mk6 1 1 0 0 1 0)] in
  ready demo_galpy c Upckms Ogalaxy /\ SpecFrame.aligned c /\ analyze true true c = c /\ nstars c = 5%nat /\ pth <> [] /\ (2 <= length pth)%nat /\
  straight (map snd pth) /\ now (map fst pth) 1 /\ sy (star_kpc demo_galpy c 4) = 5 / 1000 /\ arc false (map snd pth) 0 2 = 2.
Proof.
  intros c pth. split; [now apply ride_ready|]. split; [apply ride_aligned|]. split; [apply ride_settled|]. split; [apply ride_n|]. split; [discriminate|]. split; [cbn; lia|].
  split; [|split; [|split]].
  - exists (1, -1, 0), (0, 1, 0), INR. split; [intros j k H _; now apply le_INR|]. intros k Hk. cbn [length map pth] in Hk.
    destruct k as [|[|[|k]]]; [| | |lia]; cbn [nth map snd pth]; unfold place; cbn [sx sy sz INR]; f_equal; try f_equal; ring.
  - split; [cbn; lia|]. cbn [pth map fst length]. split; intros [|[|[|j]]] H; cbn [nth]; try lia; unfold Rabs; repeat destruct Rcase_abs; lra.
  - unfold star_kpc, galactic_view, origin_shift, c. destruct (ride_ready Ogalaxy (mk6 1 0 0 0 4 0) ltac:(discriminate)) as [_ [U [_ [O _]]]]. rewrite U O ride_ph. unfold unit_size. cbn. lra.
  - unfold arc, gap. cbn. replace ((1 - 1) * ((1 - 1) * 1) + (-1 - 0) * ((-1 - 0) * 1) + (0 - 0) * ((0 - 0) * 1)) with (1 * 1) by ring.
    replace ((1 - 1) * ((1 - 1) * 1) + (0 - 1) * ((0 - 1) * 1) + (0 - 0) * ((0 - 0) * 1)) with (1 * 1) by ring. rewrite sqrt_square; lra.
Qed.
