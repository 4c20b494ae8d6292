(* Proofs: the density profile of all ordinary stars, in the working frame and in pc and Msun. *)
From Verif Require Import Base ModelCluster ModelOps ModelConv ModelEnergy ModelRecipes ModelStars ModelSubset ModelCoords ModelLagrange ModelProfiles ModelMassFunction ModelDynamics ModelRadii.
From Verif Require Import SpecUnits SpecFrame SpecConv SpecOrder SpecRecipes SpecEnergy SpecStars SpecSubset SpecLagrange SpecProfiles SpecDynamics SpecRadii.
From Verif Require Import ProofsUnits ProofsFrame ProofsSort ProofsSees ProofsEnergy ProofsEnergyUnits ProofsVR ProofsRecipes ProofsRecipes2 ProofsLagrange ProofsSubset ProofsSubset2 ProofsSubset4 ProofsProfiles ProofsProfiles2 ProofsProfiles3 ProofsDynamics ProofsDynamics2 ProofsDynamics3 ProofsRadii.
Set Implicit Arguments. Unset Strict Implicit.

Lemma default_satisfies p s i : satisfies (rho_default p) s i <-> ordinary (y_k s) i = true.
Proof.
  rewrite /satisfies /rho_default /ordinary. cbn [l_rmin l_rmax l_mmin l_mmax l_vmin l_vmax l_emin l_emax l_npop l_kwmin l_kwmax l_projected].
  split.
  - move=> [_ [_ [_ [_ [_ K]]]]]. destruct (e_kw (g_sse (y_k s))) as [|a t] eqn:E => //. destruct K as [K|[K1 K2]] => //.
    apply andb_true_iff. split; by apply Rleb_spec.
  - move=> H. split; [by split|]. split; [by split|]. split; [by split|]. split; [done|]. split; [by left|].
    destruct (e_kw (g_sse (y_k s))) as [|a t]; [by left|]. right. move/andb_true_iff: H => [/Rleb_spec A /Rleb_spec B]. by split.
Qed.

Section WithGalpy.
Variable G : galpy.

Lemma self_framed c1 U o1 n : ready G c1 U o1 -> o1 <> Ogalaxy -> norms c1 -> six_length (p_s (c_ph c1)) n -> own_framed G c1 c1 n.
Proof.
  move=> HR Ho HN HL. have [_ [_ [_ [Ho' _]]]] := HR. constructor => //; [exact (sees_refl HR)|].
  move=> i Hi. rewrite own_star_flat //. rewrite Ho'. congruence.
Qed.
Lemma flat_frame c1 U o1 : ready G c1 U o1 -> o1 <> Ogalaxy -> U <> Uamuse -> profile_frame G false c1 = c1.
Proof.
  move=> [_ [Hu [_ [Ho Hf]]]] No Na. rewrite /profile_frame Hu Ho. destruct o1 => //; try (by case: Hf); destruct U => //.
Qed.

Section OneProfile.
Variables (s1 : system) (U : usys) (o1 : osys) (n nrad : nat) (p : bool).
Let c1 := g_c (y_k s1).
Hypotheses (HR : ready G c1 U o1) (No : o1 <> Ogalaxy) (Na : U <> Uamuse) (HN : norms c1) (HM : measured s1 n) (Hr : (0 < nrad)%nat).
Let r := if p then d_rpro (c_der c1) else d_r (c_der c1).
Hypothesis SP : exists i j, (i < n)%nat /\ (j < n)%nat /\ ordinary (y_k s1) i = true /\ ordinary (y_k s1) j = true /\ nth i r 0 <> nth j r 0.

Theorem default_profile : exists b d nn,
  rho_prof G (rho_default p) None None nrad Num false s1 =
    Ok (b_mid b, map Some d, nn, sys_with s1 (return_cluster G (save_cluster c1) c1), None) /\
  nbinmaker (map (fun i => nth i r 0) (filter (ordinary (y_k s1)) (seq 0 n))) nrad = Ok b /\
  adjacent (b_lo b) (b_hi b) /\ (length (b_lo b) <= nrad)%nat /\ length (b_mid b) = length (b_lo b) /\ length d = length (b_lo b) /\
  forall k, (k < length (b_lo b))%nat ->
    0 <= nth k (b_lo b) 0 < nth k (b_hi b) 0 /\ nth k (b_lo b) 0 <= nth k (b_mid b) 0 <= nth k (b_hi b) 0 /\
    ((S k < length (b_lo b))%nat -> nth k (b_mid b) 0 < nth (S k) (b_mid b) 0) /\
    exists l, members n (fun i => ordinary (y_k s1) i = true /\ in_bin (b_lo b) (b_hi b) k (nth i r 0)) l /\
      nth k d 0 * shell p (nth k (b_lo b) 0) (nth k (b_hi b) 0) = sumR (map (mass c1) l).
Proof.
  have L6 : six_length (p_s (c_ph c1)) n := proj1 (proj1 HM). have LM : length (p_m (c_ph c1)) = n := proj1 (proj2 (proj1 HM)).
  have F := self_framed HR No HN L6. have FM := framed_measured F HM.
  set q := rho_default p. have EK : energies_known q s1 n by left.
  have Lr : length r = n. { destruct HM as [_ [_ [L1 [L2 _]]]]. rewrite /r. by destruct p. }
  have Er : forall i, (i < n)%nat -> nth i r 0 = radius_of q s1 i.
  { move=> i Hi. exact (framed_radius q F HM Hi). }
  have As : forall i, (i < n)%nat -> asked q None s1 i <-> ordinary (y_k s1) i = true.
  { move=> i Hi. rewrite /asked /in_mask. rewrite -(@framed_satisfies G s1 c1 n i q F LM Hi) default_satisfies. cbn. tauto. }
  have PR : profilable q None s1 n.
  { destruct SP as [i [j [Hi [Hj [Oi [Oj D]]]]]]. exists i, j. rewrite !As // -!Er //. }
  have H1 : (1 <= n)%nat by destruct PR as [i [_ [? _]]]; lia.
  rewrite /rho_prof -/c1 (flat_frame HR No Na). cbn zeta.
  have MF : mask_fits None n by []. have [w [W1 [W2 [W3 [W4 [W5 [W6 [W7 [W8 [W9 W10]]]]]]]]]] := rows_ok Num F HM EK MF Hr PR Lr Er.
  have [m [Q [Lm Wm]]] := @subset_mask q None (sys_with s1 c1) n FM H1 EK MF.
  have Em : m = map (ordinary (y_k s1)) (seq 0 n).
  { apply (nth_ext _ _ false false); [by rewrite map_length seq_length|]. rewrite Lm => i Hi. rewrite nth_map_seq //.
    cbn [Nat.add]. have := Wm i Hi. rewrite default_satisfies. have -> : ordinary (y_k (sys_with s1 c1)) i = ordinary (y_k s1) i by [].
    destruct (nth i m false), (ordinary (y_k s1) i) => //; move=> [A B]; [destruct (A eq_refl) as [_ X]; discriminate X|by apply B]. }
  have Sx : select m r = map (fun i => nth i r 0) (filter (ordinary (y_k s1)) (seq 0 n)).
  { rewrite (@select_chosen _ 0 m r) ?Lm ?Lr // /chosen Lm. f_equal. apply filter_ext_in => i /in_seq Hi.
    rewrite Em nth_map_seq //. lia. }
  have [b [Eb [E1 [E2 [E3 E4]]]]] : exists b, nbinmaker (select m r) nrad = Ok b /\ w_lo w = b_lo b /\ w_mid w = b_mid b /\ w_hi w = b_hi b /\ w_caller w = None.
  { have X := W1. rewrite /profile_rows Q in X. cbn [bind fst snd profile_bins own_bins] in X.
    destruct (nbinmaker (select m r) nrad) as [b|]; [|discriminate]. cbn [bind] in X. exists b. split=> //.
    injection X => <-. by cbn. }
  have W1' : profile_rows q None None nrad Num (if l_projected q then d_rpro (c_der c1) else d_r (c_der c1)) (sys_with s1 c1) = Ok w by exact W1.
  rewrite W1'. cbn [bind radii_over].
  rewrite E4. exists b. rewrite -E1 -E2 -E3.
  have NE : (0 < length (w_lo w))%nat by destruct W2 as [[_ [N _]] _]; destruct (w_lo w) => //=; lia.
  have lo0 : forall k, (k < length (w_lo w))%nat -> 0 <= nth k (w_lo w) 0.
  { destruct W2 as [Ad [l [_ [[Il _] _]]]]. apply in_map_iff in Il. destruct Il as [i [Ei _]].
    have X : 0 <= nth 0 (w_lo w) 0 by rewrite -Ei /radius_of /seen_distance; destruct (l_projected q); exact: sqrt_pos.
    destruct Ad as [_ [_ [A1 A2]]]. clear - X A1 A2. induction k as [|k IH] => // Hk. rewrite A2 //.
    have := IH ltac:(lia). have := A1 k ltac:(lia). lra. }
  have LI : length (w_msk w) = length (w_idx w) by rewrite W6 W7.
  exists (map (fun k => sumR (map (mass c1) (chosen (in_row false w k))) / shell p (nth k (w_lo w) 0) (nth k (w_hi w) 0)) (seq 0 (length (w_lo w)))).
  have SV : forall k, (k < length (w_lo w))%nat -> 0 < shell p (nth k (w_lo w) 0) (nth k (w_hi w) 0).
  { move=> k Hk. have [_ D2] := W5 k Hk. exact (volume_pos p (lo0 k Hk) D2). }
  have DD : map (fun i => density_row (l_projected q) (nth i (w_lo w) 0) (nth i (w_hi w) 0) (select (in_row false w i) (p_m (c_ph c1)))) (row_count w) =
    map Some (map (fun k => sumR (map (mass c1) (chosen (in_row false w k))) / shell p (nth k (w_lo w) 0) (nth k (w_hi w) 0)) (seq 0 (length (w_lo w)))).
  { rewrite map_map /row_count W3. apply map_ext_in => k /in_seq Hk.
    have V := SV k ltac:(lia). rewrite /density_row. cbn zeta. change (shell_volume (l_projected q)) with (shell p).
    destruct (Reqb (shell p _ _) 0) eqn:EV; [by move/Reqb_spec: EV => EV; rewrite EV in V; lra|].
    rewrite (@select_row _ 0 _ (p_m _)); [by rewrite /in_row row_mask_length // W6 LM|]. by rewrite sum_div. }
  rewrite DD. eexists. split; [reflexivity|].
  split; [by rewrite -Sx|]. split; [by destruct W2|]. split; [exact W4|]. split; [exact W3|]. split; [by rewrite map_length seq_length|].
  have Nx : select m r <> [] /\ ~ constant (select m r).
  { destruct SP as [i [j [Hi [Hj [Oi [Oj D]]]]]].
    have Ii : In (nth i r 0) (select m r) by rewrite Sx; apply in_map_iff; exists i; split=> //; apply filter_In; split=> //; apply in_seq; lia.
    have Ij : In (nth j r 0) (select m r) by rewrite Sx; apply in_map_iff; exists j; split=> //; apply filter_In; split=> //; apply in_seq; lia.
    split; [by move=> E0; rewrite E0 in Ii|]. move=> C. by apply D, C. }
  move=> k Hk. have [D1 D2] := W5 k Hk. split; [split; [exact: lo0|exact D2]|]. split; [exact D1|]. split.
  - move=> HS. have B := @mid_below (select m r) nrad b k (proj1 Nx) (proj2 Nx) Hr Eb. rewrite -E1 -E2 -E3 in B.
    have := B HS. have [D3 _] := W5 _ HS. destruct W2 as [[_ [_ [_ A2]]] _]. rewrite (A2 k HS) in D3. lra.
  - exists (chosen (in_row false w k)). split.
    + apply (members_ext (P := in_row_of false q None s1 (w_lo w) (w_hi w) k)); [|exact: W9].
      move=> i Hi. rewrite /in_row_of As // Er //.
    + rewrite nth_map_seq //. cbn [Nat.add]. have V := SV k Hk. rewrite /Rdiv Rmult_assoc Rinv_l; [lra|ring].
Qed.
End OneProfile.

(* the same in pc and Msun *)
Section InParsec.
Variables (s : system) (c1 : cluster) (u U : usys) (o : osys) (nrad : nat) (p : bool).
Let c := g_c (y_k s).
Let ku := unit_size G (c_sc c) u.
Let kU := unit_size G (c_sc c) U.
Let n := nstars c.
Hypotheses (HR : ready G c u o) (HP : positive_scales G (c_sc c)) (HM : measured s n) (SE : sees G c c1)
  (R1 : ready G c1 U (work_origin o)) (Na : U <> Uamuse) (LU : linear U) (HN : norms c1) (VW : viewed c c1 ku kU)
  (Hr : (0 < nrad)%nat) (SP : spread G p s).

Lemma catalog_aligned k m : SpecStars.aligned k m -> SpecFrame.aligned (g_c k).
Proof. move=> [[A1 [A2 [A3 [A4 [A5 A6]]]]] [B _]]. rewrite /SpecFrame.aligned B. by repeat split. Qed.
Lemma framed_arrays m : SpecFrame.aligned c1 -> nstars c1 = m -> six_length (p_s (c_ph c1)) m.
Proof. move=> [A1 [A2 [A3 [A4 [A5 A6]]]]] <-. rewrite /nstars. by repeat split. Qed.

Lemma work_measured : measured (sys_with s c1) n.
Proof.
  have AL := catalog_aligned (proj1 HM). have AL1 := vw_al VW AL. have N1 := vw_n VW.
  have L6 := framed_arrays AL1 N1.
  destruct HM as [[AL0 [AL2 [AL3 [AL4 AL5]]]] [NT [_ [_ [_ [_ [_ [KW ET]]]]]]]].
  have ID : c_id c1 = c_id c by destruct SE as [_ [_ [_ [? _]]]].
  have AL' : SpecStars.aligned (y_k (sys_with s c1)) n.
  { split; [exact L6|]. split; [exact N1|]. split; [by cbn [sys_with y_k set_cluster g_c]; rewrite ID|]. by split. }
  have [N1' [N2 [N3 N4]]] := HN.
  have [M1 [M2 [M3 [M4 M5]]]] := @measured_norms (y_k (sys_with s c1)) n AL' N1' N2 N3 N4.
  exact (conj AL' (conj NT (conj M1 (conj M2 (conj M3 (conj M4 (conj M5 (conj KW ET)))))))).
Qed.
Let r := if p then d_rpro (c_der c1) else d_r (c_der c1).
Lemma work_distance i : (i < n)%nat -> nth i r 0 * in_pc kU = pc_distance G p c i.
Proof.
  move=> Hi. have [_ [Hu [Hl _]]] := HR. have AL := catalog_aligned (proj1 HM).
  have [P1 _] := size_positive HP Hl. have [Q1 _] := size_positive HP LU.
  have D1 := @norms_radius p c1 i HN (vw_al VW AL) ltac:(by rewrite (vw_n VW)).
  have D2 := viewed_distance p VW (Rlt_le _ _ P1) (Rlt_le _ _ Q1) AL Hi.
  rewrite /pc_distance /sizes Hu -/ku -D2 /r D1 //.
Qed.
Lemma work_mass i : (i < n)%nat -> mass c1 i * in_Msun kU = sun_mass G c i.
Proof. move=> Hi. have [_ [Hu _]] := HR. by rewrite /sun_mass /sizes Hu -/ku (vw_mass VW Hi). Qed.

Definition density_unit : R := in_Msun kU / (if p then in_pc kU ^ 2 else in_pc kU ^ 3).
Lemma density_unit_pos : 0 < density_unit.
Proof.
  have [Q1 [_ Q3]] := size_positive HP LU. rewrite /density_unit /kU. apply Rdiv_lt_0_compat; [exact Q3|]. destruct p; exact: pow_lt.
Qed.
Lemma shell_scale K lo hi : shell p (lo * K) (hi * K) = shell p lo hi * (if p then K ^ 2 else K ^ 3).
Proof. rewrite /shell. destruct p; ring. Qed.

Theorem pc_profile : exists lo hi rprof pprof nn,
  rho_prof G (rho_default p) None None nrad Num false (sys_with s c1) =
    Ok (rprof, map Some pprof, nn, sys_with (sys_with s c1) (return_cluster G (save_cluster c1) c1), None) /\
  density_table G p nrad s lo (map (fun a => a * in_pc kU) rprof) hi (map (fun a => a * density_unit) pprof).
Proof.
  have [Q1 [_ Q3]] := size_positive HP LU. rewrite -/kU in Q1 Q3.
  have No : work_origin o <> Ogalaxy by destruct o.
  have OS : forall i, In i (ordinary_stars s) <-> (i < n)%nat /\ ordinary (y_k s) i = true.
  { move=> i. rewrite /ordinary_stars filter_In /stars in_seq -/c -/n. split; move=> [A B]; split=> //; lia. }
  have SP' : exists i j, (i < n)%nat /\ (j < n)%nat /\ ordinary (y_k s) i = true /\ ordinary (y_k s) j = true /\ nth i r 0 <> nth j r 0.
  { destruct SP as [i [j [Hi [Hj D]]]]. apply OS in Hi. apply OS in Hj. exists i, j. destruct Hi as [Hi Oi], Hj as [Hj Oj].
    do 4 (split=> //). move=> E. apply D. by rewrite -/c -!work_distance // E. }
  have [b [d [nn [E [Eb [Ad [Le [Lm [Ld H]]]]]]]]] := @default_profile (sys_with s c1) U (work_origin o) n nrad p R1 No Na HN work_measured Hr SP'.
  exists (map (fun a => a * in_pc kU) (b_lo b)), (map (fun a => a * in_pc kU) (b_hi b)), (b_mid b), d, nn.
  split; [exact E|]. rewrite /density_table /density_table_of.
  have Lh : length (b_lo b) = length (b_hi b) by destruct Ad.
  split.
  { exists (scale_bins (in_pc kU) b). split; [|done].
    have Ex : map (pc_distance G p (g_c (y_k s))) (ordinary_stars s) =
      map (fun a => a * in_pc kU) (map (fun i => nth i r 0) (filter (ordinary (y_k (sys_with s c1))) (seq 0 n))).
    { rewrite map_map. apply map_ext_in => i /OS [Hi _]. by rewrite work_distance. }
    rewrite Ex nbinmaker_scale //. rewrite -/c in Eb. cbn [sys_with y_k set_cluster g_c] in Eb. by rewrite Eb. }
  rewrite !map_length. split.
  { destruct Ad as [A1 [A2 [A3 A4]]]. split; [by rewrite !map_length|]. split; [by destruct (b_lo b)|]. rewrite !map_length.
    split; move=> k Hk; rewrite !nth_scale; [have := A3 k Hk; nra|by rewrite A4]. }
  split=> //. split=> //. split=> //. move=> k Hk. have [[H1 H2] [H3 [H4 [l [ML MS]]]]] := H k Hk.
  rewrite !nth_scale. split; [nra|]. split; [nra|]. split; [by move=> HS; have := H4 HS; nra|].
  exists l. split.
  - apply (members_ext (P := fun i => ordinary (y_k (sys_with s c1)) i = true /\ in_bin (b_lo b) (b_hi b) k (nth i r 0))) => //.
    move=> i Hi. rewrite -work_distance //. have -> : ordinary (y_k (sys_with s c1)) i = ordinary (y_k s) i by [].
    have X : in_bin (b_lo b) (b_hi b) k (nth i r 0) <-> in_bin (map (fun a => a * in_pc kU) (b_lo b)) (map (fun a => a * in_pc kU) (b_hi b)) k (nth i r 0 * in_pc kU).
    { rewrite /in_bin map_length !nth_scale. split; move=> [A [B C]]; (split=> //; split; [nra|]); destruct C as [C|[C1 C2]].
      - left; nra. - right. split=> //. by rewrite C2. - left; nra. - right. split=> //. apply (Rmult_eq_reg_r (in_pc kU)); lra. }
    tauto.
  - rewrite shell_scale /density_unit.
    have -> : map (sun_mass G (g_c (y_k s))) l = map (fun i => mass c1 i * in_Msun kU) l.
    { apply map_ext_in => i Ii. apply ML in Ii. destruct Ii as [Ii _]. by rewrite work_mass. }
    rewrite -(map_map (mass c1) (fun a => a * in_Msun kU)) sumR_scale.
    change (mass (g_c (y_k (sys_with s c1)))) with (mass c1) in MS. rewrite -MS.
    have P : (if p then in_pc kU ^ 2 else in_pc kU ^ 3) <> 0 by destruct p; apply pow_nonzero; lra.
    field. exact P.
Qed.
End InParsec.
End WithGalpy.
