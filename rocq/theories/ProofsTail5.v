(* Proofs: matching the stars of a cluster to a path, the whole routine. *)
From Verif Require Import Base ModelCluster ModelOps ModelConv ModelEnergy ModelRecipes ModelCoords ModelLagrange ModelProfiles ModelTail.
From Verif Require Import SpecUnits SpecFrame SpecConv SpecOrder SpecRecipes SpecEnergy SpecLagrange SpecSubset SpecProfiles SpecDynamics SpecTail.
From Verif Require Import ProofsUnits ProofsFrame ProofsConv ProofsSees ProofsEnergy ProofsEnergy2 ProofsRecipes ProofsDynamics ProofsDynamics2 ProofsDynamics6 ProofsTail ProofsTail2 ProofsTail3 ProofsTail4.
Set Implicit Arguments. Unset Strict Implicit.

Lemma argmin_level pts y : pts <> [] -> let dy := map (fun p => sy p - y) pts in
  level pts y (argmin (map Rabs dy)) /\ nth (argmin (map Rabs dy)) dy 0 = sy (nth (argmin (map Rabs dy)) pts zero6) - y.
Proof.
  move=> N. cbn zeta. set dy := map _ pts. have LD : length dy = length pts by rewrite map_length.
  have ND : map Rabs dy <> [] by rewrite /dy; destruct pts.
  have V : forall j, (j < length pts)%nat -> nth j dy 0 = sy (nth j pts zero6) - y.
  { move=> j Hj. by rewrite (@nth_map' _ _ (fun p => sy p - y) pts j 0 zero6). }
  have W : forall j, (j < length pts)%nat -> nth j (map Rabs dy) 0 = Rabs (sy (nth j pts zero6) - y).
  { move=> j Hj. rewrite (@nth_map' _ _ Rabs dy j 0 0); [by rewrite LD|]. by rewrite V. }
  have [H1 [H2 H3]] := argmin_ok ND. rewrite map_length LD in H1 H2. split; [|by apply V].
  split; [exact H1|]. split.
  - move=> j Hj. rewrite -!W //. by apply H2.
  - move=> j Hj. rewrite -!W; [by []|lia|]. by apply H3.
Qed.
Lemma sign_cases a : (a < 0 -> sign a = -1) /\ (a = 0 -> sign a = 0) /\ (0 < a -> sign a = 1).
Proof.
  rewrite /sign. split; [|split].
  - move=> H. by have -> : Rltb a 0 = true by apply Rltb_spec.
  - move=> ->. have -> : Rltb 0 0 = false; [|by []]. apply Bool.not_true_iff_false. move/Rltb_spec. lra.
  - move=> H. have -> : Rltb a 0 = false by apply Bool.not_true_iff_false; move/Rltb_spec; lra. by have -> : Rltb 0 a = true by apply Rltb_spec.
Qed.
Lemma path_sign_side b pts k s : pts <> [] -> side b pts k s (path_sign b pts k s).
Proof.
  move=> N. rewrite /side /path_sign. destruct b.
  - have [H1 H2] := argmin_level (sy s) N. cbn zeta in H1, H2. eexists. split; [exact H1|]. cbn zeta. rewrite H2.
    have [S1 [S2 S3]] := sign_cases (sy (nth (argmin (map Rabs (map (fun p => sy p - sy s) pts))) pts zero6) - sy s).
    split; [move=> H; apply S1; lra|]. split; [move=> H; apply S2; lra|move=> H; apply S3; lra].
  - cbn zeta. rewrite /below_orbit. set p := nth k pts zero6.
    set l := (sx s - sx p) * _ + _ + _.
    have -> : volume (minus3 (place s) (place p)) (place p) (motion p) = l by rewrite /l /volume /minus3 /place /motion /np_cross; cbn [v1 v2 v3]; ring.
    split; move=> H.
    + by have -> : Rltb l 0 = true by apply Rltb_spec.
    + by have -> : Rltb l 0 = false by apply Bool.not_true_iff_false; move/Rltb_spec.
Qed.
Lemma match_star_ok b tp pts fw s : pts <> [] -> exists k g, nearest b pts s k /\ side b pts k s g /\
  match_star b tp pts fw s = (k, option_map (fun x => x * g) (if tp then
     let '(x, y, z) := fw in let p := nth k pts zero6 in to_line b (mk3 (nth k x 0) (nth k y 0) (nth k z 0)) (mk3 (sx p - sx s) (sy p - sy s) (sz p - sz s))
     else Some (gap b (nth k pts zero6) s))).
Proof.
  move=> N. have [H1 H2] := argmin_nearest b s N. cbn zeta in H1, H2. eexists. eexists. split; [exact H1|]. split; [exact (path_sign_side b _ s N)|].
  rewrite /match_star. cbn zeta. f_equal. destruct fw as [[x y] z]. rewrite H2. by destruct tp.
Qed.
Lemma along_arc_straight b pts : straight pts -> forall j k, (j <= k)%nat -> (k < length pts)%nat -> along b pts k - along b pts j = arc b pts j k.
Proof.
  move=> [[[a b0] c] [[[x y] z] [s [SM SP]]]].
  have SP' : forall k, (k < length pts)%nat -> place (nth k pts zero6) = place (mk6 (a + s k * x) (b0 + s k * y) (c + s k * z) 0 0 0) by exact SP.
  have A := along_straight b (base := mk6 a b0 c 0 0 0) (u := mk6 x y z 0 0 0) SM SP'. cbn [sx sy sz] in A.
  move=> j k H. elim: k / H => [|k H IH] L.
  - rewrite /arc Nat.sub_diag. cbn. lra.
  - rewrite arc_step // -IH; [lia|]. rewrite !A; try lia.
    suff : gap b (nth k pts zero6) (nth (S k) pts zero6) = (s (S k) - s k) * sqrt (x ^ 2 + y ^ 2 + (if b then 0 else z ^ 2)) by move=> ->; ring.
    have P : 0 <= s (S k) - s k by have := SM k (S k) ltac:(lia) L; lra.
    have Q : 0 <= x ^ 2 + y ^ 2 + (if b then 0 else z ^ 2) by have := pow2_ge_0 x; have := pow2_ge_0 y; have := pow2_ge_0 z; destruct b; lra.
    rewrite -{1}(sqrt_square _ P) -sqrt_mult; [nra|exact Q|].
    have E1 := SP' k ltac:(lia). have E2 := SP' (S k) L. rewrite /place in E1 E2. cbn [sx sy sz] in E1, E2. rewrite /gap.
    have [[-> ->] ->] : (sx (nth k pts zero6) = a + s k * x /\ sy (nth k pts zero6) = b0 + s k * y) /\ sz (nth k pts zero6) = c + s k * z by split; [split|]; congruence.
    have [[-> ->] ->] : (sx (nth (S k) pts zero6) = a + s (S k) * x /\ sy (nth (S k) pts zero6) = b0 + s (S k) * y) /\ sz (nth (S k) pts zero6) = c + s (S k) * z by split; [split|]; congruence.
    f_equal. destruct b; ring.
Qed.

Section WithGalpy.
Variable G : galpy.
(* the cluster at the end of a routine *)
Lemma returned c c1 u o : ready G c u o -> sees G c c1 -> let c' := return_cluster G (save_cluster c) c1 in
  sees G c c' /\ ready G c' u o /\ c_sc c' = c_sc c.
Proof.
  move=> HR S1. have [HS [Hu [Hl [Ho Hf]]]] := HR. have S2 := sees_return (sv := save_cluster c) S1 Hu Hl Ho Hf. cbn zeta.
  have [u1 [o1 R1]] := sees_ready S1. have [ops [F [L1 [L2 E]]]] := return_is_run R1 Hl Hf (sv := save_cluster c) Hu Ho.
  have [_ [_ [E3 _]]] := S2. split; [exact S2|]. split; [|exact E3].
  rewrite E. have [_ [R2 _]] := run_view R1 F. rewrite L1 L2 in R2. apply analyzed_ready. exact R2.
Qed.
Theorem core_ok pth tp b c c1 u o : ready G c u o -> SpecFrame.aligned c -> sees G c c1 -> ready G c1 Ukpckms Ogalaxy ->
  pth <> [] -> (tp = true -> (2 <= length pth)%nat) ->
  let z := unit_size G (c_sc c) u in let ts := map fst pth in let pts := map snd pth in
  exists out p D, match_core G pth tp false b c c1 = Ok (out, return_cluster G (save_cluster c) c1) /\ now ts p /\
    (forall j k, (j <= k)%nat -> (k < length pth)%nat -> 0 <= D k - D j <= arc b pts j k) /\
    (straight pts -> forall j k, (j <= k)%nat -> (k < length pth)%nat -> D k - D j = arc b pts j k) /\
    length out = nstars c /\
    forall i, (i < nstars c)%nat -> star_match b tp z ts pts D p (star_kpc G c i) (nth i out (0, 0, None)).
Proof.
  move=> HR HL F1 F2 HN HT z ts pts.
  have [_ [_ [LN ST]]] := kpc_rows F1 F2 HL (ex_intro _ u (ex_intro _ o HR)).
  have NP : pts <> [] by rewrite /pts; destruct pth. have NT : ts <> [] by rewrite /ts; destruct pth.
  have LP : length pts = length pth by rewrite /pts map_length.
  set c' := return_cluster G (save_cluster c) c1.
  have [RC0 [RC1 RC2]] := returned HR F1. rewrite -/c' in RC0 RC1 RC2.
  have KT : forall x, convert_time G x Ukpckms c' * in_Myr z = 1000 * x by move=> x; rewrite /z -RC2; apply time_kpc with (o := o).
  have KL : forall x, convert_length x Ukpckms c' * in_pc z = 1000 * x by move=> x; rewrite /z -RC2; apply length_kpc with (o := o).
  set go := fun f => map (fun s => let '(k, d) := match_star b tp pts f s in
      (convert_time G (nth k ts 0) Ukpckms c', convert_length (nth k (dprogr b pts) 0 - nth (argmin (map Rabs ts)) (dprogr b pts) 0) Ukpckms c',
                  option_map (fun x => convert_length x Ukpckms c') d)) (rows6 (p_s (c_ph c1))).
  have [f [E1 E2]] : exists f, match_core G pth tp false b c c1 = Ok (go f, c') /\ (tp = true -> fwds pts = Some f).
  { rewrite /match_core. destruct pth as [|a pth]; [by case: HN|]. cbn zeta. destruct tp.
    - have L2 : (2 <= length pts)%nat by rewrite LP; apply HT. have H0 : (0 < length pts)%nat by lia.
      have [x [y [w [Ef _]]]] := to_line_segment b zero6 L2 H0. rewrite /fwds in Ef. exists (x, y, w). rewrite -/pts Ef. split; [reflexivity|]. by rewrite /fwds Ef.
    - exists ([], [], []). by split. }
  exists (go f), (argmin (map Rabs ts)), (along b pts). split; [exact E1|]. split; [exact (argmin_now NT)|].
  have NW : (argmin (map Rabs ts) < length pts)%nat by have := proj1 (argmin_now NT); rewrite /ts map_length LP.
  split; [move=> j k H1 H2; apply along_arc => //; by rewrite LP|].
  split; [move=> SG j k H1 H2; apply along_arc_straight => //; by rewrite LP|].
  split; [by rewrite /go map_length|]. move=> i Hi.
  rewrite /go. set h := fun s : six R => _.
  rewrite (@nth_map' _ _ h _ i (0, 0, None) zero6); [by rewrite LN|]. rewrite ST //.
  have [k [g [K1 [K2 K3]]]] := match_star_ok b tp f (star_kpc G c i) NP.
  set rep := fun kd : nat * num => let '(k, d) := kd in
      (convert_time G (nth k ts 0) Ukpckms c', convert_length (nth k (dprogr b pts) 0 - nth (argmin (map Rabs ts)) (dprogr b pts) 0) Ukpckms c',
                  option_map (fun x => convert_length x Ukpckms c') d).
  have -> : h (star_kpc G c i) = rep (match_star b tp pts f (star_kpc G c i)) by []. rewrite K3 /rep. clear h K3 rep.
  have Hk := proj1 K1. exists k, g. split; [exact K1|]. split; [exact K2|]. cbn [fst snd]. split; [exact (KT _)|].
  split; [rewrite KL !dprogr_nth //|]. split.
  - move=> ->. cbn [option_map]. eexists. split; [reflexivity|]. rewrite KL. ring.
  - move=> T. rewrite T. have L2 : (2 <= length pts)%nat by rewrite LP; apply HT.
    have [x [y [w [Ef Eg]]]] := to_line_segment b (star_kpc G c i) L2 Hk. cbn zeta in Eg. rewrite (E2 T) in Ef. have -> : f = (x, y, w) by congruence.
    cbn zeta. move: Eg => [G1 G2]. split.
    + move=> N1 N2. have [d [D1 [D2 D3]]] := G1 N1 N2. rewrite D1. cbn [option_map]. eexists. exists d. split; [reflexivity|]. split; [rewrite KL; ring|]. by split.
    + move=> N1. by rewrite (G2 N1).
Qed.
Theorem match_ok pth tp b c u o : ready G c u o -> SpecFrame.aligned c ->
  pth <> [] -> (tp = true -> (2 <= length pth)%nat) ->
  let z := unit_size G (c_sc c) u in let ts := map fst pth in let pts := map snd pth in
  exists out p D, orbital_path_match G pth tp false b c = Ok (out, return_cluster G (save_cluster c) (match_frame G c)) /\ now ts p /\
    (forall j k, (j <= k)%nat -> (k < length pth)%nat -> 0 <= D k - D j <= arc b pts j k) /\
    (straight pts -> forall j k, (j <= k)%nat -> (k < length pth)%nat -> D k - D j = arc b pts j k) /\
    length out = nstars c /\
    forall i, (i < nstars c)%nat -> star_match b tp z ts pts D p (star_kpc G c i) (nth i out (0, 0, None)).
Proof. move=> HR HL. have [F1 F2] := frame_ok HR. exact (core_ok b HR HL F1 F2). Qed.
(* runs that raise *)
Lemma match_empty tp df b c : orbital_path_match G [] tp df b c = Raise. Proof. by []. Qed.
Lemma match_one p df b c : orbital_path_match G [p] true df b c = Raise. Proof. by destruct df. Qed.
Lemma match_full pth b c : orbital_path_match G pth true true b c = Raise. Proof. by destruct pth. Qed.
End WithGalpy.
