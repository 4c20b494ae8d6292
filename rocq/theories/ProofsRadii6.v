(* Proofs: the core radius of an isothermal sphere. *)
From Coq Require Import Sorted.
From Verif Require Import Base ModelCluster ModelOps ModelConv ModelEnergy ModelRecipes ModelStars ModelSubset ModelCoords ModelLagrange ModelProfiles ModelMassFunction ModelDynamics.
From Verif Require Import ModelTail ModelCentre ModelRadii.
From Verif Require Import SpecUnits SpecFrame SpecConv SpecOrder SpecRecipes SpecEnergy SpecStars SpecSubset SpecLagrange SpecProfiles SpecDynamics SpecRadii.
From Verif Require Import ProofsUnits ProofsFrame ProofsConv ProofsOrder ProofsSort ProofsSees ProofsEnergy ProofsEnergyUnits ProofsVR ProofsRecipes ProofsRecipes2 ProofsLagrange ProofsSubset ProofsSubset2 ProofsSubset4 ProofsProfiles ProofsProfiles2 ProofsProfiles3 ProofsDynamics ProofsDynamics2 ProofsDynamics3 ProofsDynamics4 ProofsRadii ProofsRadii2 ProofsRadii3 ProofsRadii5.
Set Implicit Arguments. Unset Strict Implicit.

(* ---- last and first entries *)
Lemma first_filter {A} (f : A -> bool) (l : list A) d : match first_of (filter f l) with
  | Some x => exists j, (j < length l)%nat /\ nth j l d = x /\ f x = true /\ forall i, (i < j)%nat -> f (nth i l d) = false
  | None => forall i, (i < length l)%nat -> f (nth i l d) = false end.
Proof.
  induction l as [|a l IH]; cbn [filter]; [by move=> i Hi; cbn in Hi; lia|].
  destruct (f a) eqn:E; cbn [first_of].
  - exists 0%nat. split; [cbn; lia|]. split=> //. split=> //. move=> i; lia.
  - destruct (first_of (filter f l)) as [x|].
    + destruct IH as [j [J1 [J2 [J3 J4]]]]. exists (S j). split; [cbn; lia|]. split=> //. split=> //. move=> [|i] Hi //=. apply J4. lia.
    + move=> [|i] Hi //=. apply IH. cbn in Hi. lia.
Qed.
Lemma last_of_app {A} (l : list A) a : last_of (l ++ [a]) = Some a.
Proof. by rewrite /last_of rev_app_distr. Qed.
Lemma last_filter {A} (f : A -> bool) (l : list A) d : match last_of (filter f l) with
  | Some x => exists k, (k < length l)%nat /\ nth k l d = x /\ f x = true /\ forall i, (k < i < length l)%nat -> f (nth i l d) = false
  | None => forall i, (i < length l)%nat -> f (nth i l d) = false end.
Proof.
  induction l as [|a l IH] using rev_ind; [by move=> i Hi; cbn in Hi; lia|].
  rewrite filter_app app_length. cbn [filter length]. destruct (f a) eqn:E.
  - rewrite last_of_app. exists (length l). split; [lia|]. split; [by rewrite app_nth2 // Nat.sub_diag|]. split=> //. move=> i; lia.
  - rewrite app_nil_r. destruct (last_of (filter f l)) as [x|].
    + destruct IH as [j [J1 [J2 [J3 J4]]]]. exists j. split; [lia|]. split; [by rewrite app_nth1|]. split=> //.
      move=> i Hi. destruct (Nat.eq_dec i (length l)) as [->|N]; [by rewrite app_nth2 // Nat.sub_diag|]. rewrite app_nth1; [lia|]. apply J4. lia.
    + move=> i Hi. destruct (Nat.eq_dec i (length l)) as [->|N]; [by rewrite app_nth2 // Nat.sub_diag|]. rewrite app_nth1; [lia|]. apply IH. lia.
Qed.

Lemma line_ok d r1 p1 r2 p2 : r1 <> r2 -> p2 < d -> d <= p1 -> exists x, line_radius d r1 p1 r2 p2 = Some x /\ on_chord r1 p1 r2 p2 d x.
Proof.
  move=> Nr H1 H2. rewrite /line_radius. cbn zeta.
  have -> : Reqb (r2 - r1) 0 = false by apply Reqb_false; lra.
  have Nm : (p2 - p1) / (r2 - r1) <> 0.
  { move=> E. have : (p2 - p1) / (r2 - r1) * (r2 - r1) = p2 - p1 by field; lra. rewrite E. lra. }
  have -> : Reqb ((p2 - p1) / (r2 - r1)) 0 = false by apply Reqb_false.
  eexists. split; [reflexivity|].
  have E : (d - (p2 - (p2 - p1) / (r2 - r1) * r2)) / ((p2 - p1) / (r2 - r1)) = r1 + (p1 - d) / (p1 - p2) * (r2 - r1) by field; repeat split; lra.
  rewrite E. split; [field; lra|].
  have T : 0 <= (p1 - d) / (p1 - p2) <= 1.
  { split; [apply Rmult_le_pos; [lra|apply Rlt_le, Rinv_0_lt_compat; lra]|]. apply (Rmult_le_reg_r (p1 - p2)); [lra|].
    have -> : (p1 - d) / (p1 - p2) * (p1 - p2) = p1 - d by field; lra. lra. }
  move: ((p1 - d) / (p1 - p2)) T => t T. rewrite /Rmin /Rmax. destruct (Rle_dec r1 r2); nra.
Qed.

Lemma isothermal_ok (p : bool) rprof pprof : length rprof = length pprof -> (forall k, (S k < length pprof)%nat -> nth k rprof 0 < nth (S k) rprof 0) ->
  let d := if p then 1 / 2 * nth 0 pprof 0 else nth 0 pprof 0 / 3 in
  match isothermal_radius p rprof pprof with
  | Ok (Some x) => drops_to rprof pprof d x
  | Ok None => False
  | Raise => (forall i, (i < length pprof)%nat -> d <= nth i pprof 0) \/ (forall i, (i < length pprof)%nat -> nth i pprof 0 < d)
  end.
Proof.
  move=> L Inc. cbn zeta. rewrite /isothermal_radius. destruct pprof as [|p0 pt] eqn:EP; [by left; move=> i Hi; cbn in Hi; lia|].
  rewrite -EP in L Inc *. cbn [first_of]. have -> : first_of pprof = Some p0 by rewrite EP. have -> : nth 0 pprof 0 = p0 by rewrite EP.
  set d := if p then _ else _. have Lc : length (combine rprof pprof) = length pprof by rewrite combine_length; lia.
  have Nc : forall i, (i < length pprof)%nat -> nth i (combine rprof pprof) (0, 0) = (nth i rprof 0, nth i pprof 0) by move=> i Hi; rewrite combine_nth.
  have Mono : forall j i, (i < j < length pprof)%nat -> nth i rprof 0 < nth j rprof 0.
  { induction j as [|j IHj] => i Hi; [lia|]. have A := Inc j ltac:(lia). destruct (Nat.eq_dec i j) as [->|N] => //. have := IHj i ltac:(lia). lra. }
  have LF := last_filter (fun x => negb (Rltb (snd x) d)) (combine rprof pprof) (0, 0).
  have FF := first_filter (fun x => Rltb (snd x) d) (combine rprof pprof) (0, 0). rewrite Lc in LF FF.
  destruct (last_of _) as [[r1 p1]|].
  - destruct LF as [k [K1 [K2 [K3 K4]]]]. rewrite Nc // in K2. destruct (first_of _) as [[r2 p2]|].
    + destruct FF as [j [J1 [J2 [J3 J4]]]]. rewrite Nc // in J2. injection K2 => Ep1 Er1. injection J2 => Ep2 Er2. cbn [snd] in K3, J3.
      apply negb_true_iff, Rltb_false in K3. apply Rltb_spec in J3.
      have Nj : (k <> j)%nat by move=> Ekj; subst j; lra.
      have Nr : r1 <> r2. { rewrite -Er1 -Er2. destruct (Nat.lt_ge_cases k j) as [H|H]; [have := Mono j k ltac:(lia); lra|have := Mono k j ltac:(lia); lra]. }
      have [x [X1 X2]] := line_ok Nr J3 K3. rewrite /line_radius in X1. cbn zeta in X1. rewrite X1.
      exists k, j. rewrite Ep1 Ep2 Er1 Er2. split=> //. split=> //. split.
      { move=> i Hi. have := K4 i Hi. rewrite Nc; [lia|]. cbn [snd]. move/negb_false_iff/Rltb_spec. done. }
      split=> //. split=> //. split=> //. move=> i Hi. have := J4 i Hi. rewrite Nc; [lia|]. cbn [snd]. by move/Rltb_false.
    + left. move=> i Hi. have := FF i Hi. rewrite Nc //. by move/Rltb_false.
  - right. move=> i Hi. have := LF i Hi. rewrite Nc //. move/negb_false_iff/Rltb_spec. done.
Qed.

Lemma nth0_scale (a : R) (l : list R) : nth 0 (map (fun b => b * a) l) 0 = nth 0 l 0 * a.
Proof. destruct l => //=. ring. Qed.
Lemma drops_scale K D mid rho d x : 0 < K -> 0 < D -> drops_to mid rho d x ->
  drops_to (map (fun a => a * K) mid) (map (fun a => a * D) rho) (d * D) (x * K).
Proof.
  move=> HK HD [k [j [A [B [C [E [F [H I]]]]]]]]. exists k, j. rewrite map_length !nth_scale. split=> //. split; [nra|].
  split; [by move=> i Hi; rewrite nth_scale; have := C i Hi; nra|]. split=> //. split; [nra|].
  split; [by move=> i Hi; rewrite nth_scale; have := H i Hi; nra|]. exact (chord_scale HK HD I).
Qed.
Lemma nceil_pos x : 0 < x -> (0 < nceil x)%nat.
Proof.
  move=> H. rewrite /nceil. have [A B] := base_Int_part (- x).
  have : (0 < - Int_part (- x))%Z by apply lt_IZR; rewrite opp_IZR; lra. lia.
Qed.

Lemma table_ext p s s1 d d1 m m1 nrad lo mid hi rho : nstars (g_c (y_k s1)) = nstars (g_c (y_k s)) -> g_sse (y_k s1) = g_sse (y_k s) ->
  (forall i, (i < nstars (g_c (y_k s)))%nat -> d1 i = d i) -> (forall i, (i < nstars (g_c (y_k s)))%nat -> m1 i = m i) ->
  density_table_of p s1 d1 m1 nrad lo mid hi rho -> density_table_of p s d m nrad lo mid hi rho.
Proof.
  move=> N E D M [B [A [L [L1 [L2 H]]]]].
  have O : forall i, ordinary (y_k s1) i = ordinary (y_k s) i by move=> i; rewrite /ordinary E.
  have OS : ordinary_stars s1 = ordinary_stars s by rewrite /ordinary_stars /stars N; apply filter_ext.
  split. { destruct B as [b [B1 B2]]. exists b. split=> //. rewrite -B1 OS. f_equal. apply map_ext_in => i /filter_In [/in_seq Hi _]. symmetry. apply D. lia. }
  split=> //. split=> //. split=> //. split=> //. move=> k Hk. have [H1 [H2 [H3 [l [H4 H5]]]]] := H k Hk. split=> //. split=> //. split=> //.
  exists l. rewrite N in H4. split.
  - apply (members_ext (P := fun i => ordinary (y_k s1) i = true /\ in_bin lo hi k (d1 i))) => // i Hi. by rewrite O D.
  - rewrite H5. f_equal. apply map_ext_in => i Ii. apply H4 in Ii. destruct Ii as [Ii _]. exact: M.
Qed.

Section WithGalpy.
Variable G : galpy.

Lemma measured_frame s c1 n : measured s n -> SpecFrame.aligned c1 -> nstars c1 = n -> c_id c1 = c_id (g_c (y_k s)) -> norms c1 -> measured (sys_with s c1) n.
Proof.
  move=> HM AL1 N1 ID HN. have L6 := framed_arrays AL1 N1.
  destruct HM as [[AL0 [AL2 [AL3 [AL4 AL5]]]] [NT [_ [_ [_ [_ [_ [KW ET]]]]]]]].
  have AL' : SpecStars.aligned (y_k (sys_with s c1)) n.
  { split; [exact L6|]. split; [exact N1|]. split; [by cbn [sys_with y_k set_cluster g_c]; rewrite ID|]. by split. }
  have [N1' [N2 [N3 N4]]] := HN.
  have [M1 [M2 [M3 [M4 M5]]]] := @measured_norms (y_k (sys_with s c1)) n AL' N1' N2 N3 N4.
  exact (conj AL' (conj NT (conj M1 (conj M2 (conj M3 (conj M4 (conj M5 (conj KW ET)))))))).
Qed.

(* the Lagrange radius leaves a cluster in pc around its centre as it is *)
Lemma lagrange_leaves f p c2 r c3 : ready G c2 Upckms Ocentre -> analyze true true c2 = c2 -> rlagrange_frac G f p c2 = Ok (r, c3) ->
  sees G c2 c3 /\ ready G c3 Upckms Ocentre /\ norms c3.
Proof.
  move=> HR HA. rewrite /rlagrange_frac. have [HS [Hu [Hl [Ho Hf]]]] := HR.
  have -> : lagrange_frame G c2 = c2 by rewrite /lagrange_frame Hu Ho sortstars_settled.
  destruct (lagrange_order p c2) => //. destruct (frac_radius _ _ _ _ _) => // E.
  have E3 : c3 = return_cluster G (save_cluster c2) c2 by congruence. rewrite E3 {E E3}.
  have SR := sees_refl HR. have B := bracket_sees HR SR HA. cbn zeta in B.
  split; [exact (@sees_return G c2 c2 (save_cluster c2) Upckms Ocentre SR Hu Hl Ho Hf)|].
  clear c3. move: B. generalize (return_cluster G (save_cluster c2) c2). move=> c3 [B1 [B2 [B3 [B4 [B5 _]]]]].
  split; [by rewrite /ready B2 B3 B5|]. have := norms_settled HA. by rewrite /norms B1 B4.
Qed.

Section Iso.
Variables (s : system) (u : usys) (o : osys) (p : bool) (mfrac : R).
Let c := g_c (y_k s).
Hypotheses (HR : ready G c u o) (HP : positive_scales G (c_sc c)) (HA : analyze true true c = c) (HM : measured s (nstars c))
  (HC : o = Ocentre \/ no_centre c = false) (Hf0 : 0 < mfrac) (SP : central_spread G p s).

Theorem isothermal_core : exists lo mid hi rho, central_densities G p (nceil (1 / mfrac)) s lo mid hi rho /\
  let d := if p then 1 / 2 * nth 0 rho 0 else nth 0 rho 0 / 3 in
  match rcore_isothermal G mfrac p s with
  | Ok (r, s') => system_restored s s' /\ exists rc, r = Some rc /\ drops_to mid rho d (rc * in_pc (sizes G c))
  | Raise => (exists c1, core_frame G Mharfst c = Ok c1 /\ rlagrange_frac G mfrac p (to_pckms G c1) = Raise) \/
      (forall i, (i < length rho)%nat -> d <= nth i rho 0) \/ (forall i, (i < length rho)%nat -> nth i rho 0 < d)
  end.
Proof.
  have [HS [Hu [Hl [Ho Hf]]]] := HR. have [c1 [U [E [S1 [R1 [N1 [K1 [K2 EU]]]]]]]] := core_frame_ok Mharfst HR HA HC.
  have V := seen_central HR S1 R1. have AL := catalog_aligned (proj1 HM). rewrite -/c in AL.
  have [Sc Id] : c_sc c1 = c_sc c /\ c_id c1 = c_id c by destruct S1 as [_ [_ [? [? _]]]].
  have Off : off_centre c1 = false by destruct R1 as [_ [_ [_ [Ho1 _]]]]; rewrite /off_centre Ho1.
  have PF := pc_frame_run R1. rewrite Off in PF. cbn zeta in PF. destruct PF as [_ [_ [_ [A2 [S2 [R2 [N2 V2]]]]]]]. cbn [work_origin] in R2.
  have HM1 : measured (sys_with s c1) (nstars c1) by rewrite (ct_n V); exact (measured_frame HM (ct_al V AL) (ct_n V) Id N1).
  have LU : linear U by destruct R1 as [_ [_ [? _]]].
  have [Q1 _] := size_positive HP LU.
  have D1 : forall i, (i < nstars c)%nat -> pc_distance G p c1 i = central_distance G p c i.
  { move=> i Hi. rewrite /pc_distance /central_distance -(ct_star V AL Hi) own_distance6 /sizes.
    have [_ [-> [_ [Ho1 _]]]] := R1. rewrite Sc radius_view; [lra|]. by rewrite own_star_flat ?Ho1. }
  have M1 : forall i, (i < nstars c)%nat -> sun_mass G c1 i = sun_mass G c i.
  { move=> i Hi. rewrite -(ct_mass V Hi) /sun_mass /sizes. have [_ [-> _]] := R1. by rewrite Sc. }
  have SP1 : spread G p (sys_with s c1).
  { destruct SP as [i [j [I1 [I2 I3]]]]. exists i, j. cbn [sys_with y_k set_cluster g_c].
    have L : forall a, In a (ordinary_stars s) -> (a < nstars c)%nat /\ In a (ordinary_stars (sys_with s c1)).
    { move=> a /filter_In [/in_seq A B]. split; [rewrite /c; lia|]. apply filter_In. split=> //. rewrite /stars. cbn [sys_with y_k set_cluster g_c].
      rewrite (ct_n V). apply in_seq. rewrite /c. lia. }
    have [L1 L2] := L i I1. have [L3 L4] := L j I2. split=> //. split=> //. rewrite !D1 //. }
  rewrite /rcore_isothermal -/c E. cbn [bind].
  have S2' := sees_trans S1 S2.
  have NP := nceil_pos (Rdiv_lt_0_compat 1 mfrac Rlt_0_1 Hf0).
  have LP : linear Upckms by discriminate.
  (* the table does not depend on whether the Lagrange radius raises *)
  have tab : forall c3, sees G c1 c3 -> ready G c3 Upckms Ocentre -> norms c3 -> exists lo hi rprof pprof nn,
    rho_prof G (rho_default p) None None (nceil (1 / mfrac)) Num false (sys_with s c3) =
      Ok (rprof, map Some pprof, nn, sys_with s (return_cluster G (save_cluster c3) c3), None) /\
    central_densities G p (nceil (1 / mfrac)) s lo (map (fun a => a * in_pc (unit_size G (c_sc c) Upckms)) rprof) hi (map (fun a => a * density_unit G s Upckms p) pprof).
  { move=> c3 S3 R3 N3. have V3 := seen_viewed R1 S3 R3 eq_refl.
    have HP1 : positive_scales G (c_sc c1) by rewrite Sc.
    have [lo [hi [rprof [pprof [nn [X1 X2]]]]]] := @pc_profile G (sys_with s c1) c3 U Upckms Ocentre (nceil (1 / mfrac)) p R1 HP1 HM1 S3 R3 ltac:(discriminate) LP N3 V3 NP SP1.
    exists lo, hi, rprof, pprof, nn. split; [exact X1|]. rewrite /density_table /density_unit in X2. cbn [sys_with y_k set_cluster g_c] in X2.
    rewrite Sc in X2. rewrite /central_densities.
    exact (@table_ext p s (sys_with s c1) _ _ _ _ _ _ _ _ _ (ct_n V) eq_refl D1 M1 X2). }
  have [P1 [_ P3]] := size_positive HP LP.
  have K0 : 0 < density_unit G s Upckms p by rewrite /density_unit -/c; apply Rdiv_lt_0_compat => //; destruct p; exact: pow_lt.
  destruct (rlagrange_frac G mfrac p (to_pckms G c1)) as [[rl c3]|] eqn:EL.
  - have [S3 [R3 N3]] := lagrange_leaves R2 A2 EL. have [lo [hi [rprof [pprof [nn [X1 X2]]]]]] := tab c3 (sees_trans S2 S3) R3 N3.
    eexists lo, _, hi, _. split; [exact X2|]. cbn zeta. cbn [bind snd]. rewrite X1. cbn [bind]. rewrite all_some_map.
    destruct X2 as [_ [Ad [_ [Lm [Lr H]]]]]. rewrite !map_length in Lm, Lr.
    have Inc : forall k, (S k < length pprof)%nat -> nth k rprof 0 < nth (S k) rprof 0.
    { move=> k Hk. have [_ [_ [X _]]] := H k ltac:(lia). have := X ltac:(lia). rewrite !nth_scale -/c. move: P1. generalize (in_pc (unit_size G (c_sc c) Upckms)) => K HK HL. nra. }
    have IS := @isothermal_ok p rprof pprof ltac:(lia) Inc. cbn zeta in IS.
    have Ed : (if p then 1 / 2 * nth 0 pprof 0 else nth 0 pprof 0 / 3) * density_unit G s Upckms p = (if p then 1 / 2 * nth 0 (map (fun a => a * density_unit G s Upckms p) pprof) 0 else nth 0 (map (fun a => a * density_unit G s Upckms p) pprof) 0 / 3) by rewrite nth0_scale; destruct p; lra.
    destruct (isothermal_radius p rprof pprof) as [[rc|]|] => //.
    + have S4 := @sees_return G c c3 (save_cluster c3) Upckms Ocentre (sees_trans S2' S3) (proj1 (proj2 R3)) LP (proj1 (proj2 (proj2 (proj2 R3)))) ltac:(discriminate).
      cbn [bind option_map sys_with y_k set_cluster g_c]. move: S4. generalize (return_cluster G (save_cluster c3) c3). move=> c4 S4.
      split; [exact (sys_restored HR HA S4)|]. eexists. split; [reflexivity|]. rewrite (back_length HR HP HA rc LP S4).
      rewrite -Ed. exact (drops_scale P1 K0 IS).
    + cbn [bind]. right. rewrite -Ed map_length. destruct IS as [IS|IS]; [left|right]; move=> i Hi; have := IS i Hi; rewrite nth_scale; move: K0; generalize (density_unit G s Upckms p) => K K0; nra.
  - have [lo [hi [rprof [pprof [nn [X1 X2]]]]]] := tab _ S2 R2 N2. eexists lo, _, hi, _. split; [exact X2|]. cbn zeta. cbn [bind]. left. by exists c1.
Qed.
End Iso.
End WithGalpy.
