(* Proofs: mass_function, eta_function and the profiles made of them. *)
From Coq Require Import Sorted.
From Verif Require Import Base ModelCluster ModelOps ModelConv ModelEnergy ModelRecipes ModelStars ModelSubset ModelCoords ModelLagrange ModelProfiles ModelMassFunction.
From Verif Require Import SpecUnits SpecFrame SpecOrder SpecRecipes SpecEnergy SpecStars SpecSubset SpecLagrange SpecProfiles SpecMassFunction.
From Verif Require Import ProofsUnits ProofsFrame ProofsSort ProofsSees ProofsEnergy ProofsPot ProofsCentre ProofsRecipes ProofsRecipes2 ProofsRecipes4 ProofsLagrange ProofsSubset ProofsSubset2 ProofsSubset4 ProofsProfiles ProofsProfiles2 ProofsProfiles3 ProofsMassFunction ProofsMassFunction2.
Set Implicit Arguments. Unset Strict Implicit.

Section WithGalpy.
Variable G : galpy.

Lemma same_satisfies s c1 q i : c_ph c1 = c_ph (g_c (y_k s)) -> c_id c1 = c_id (g_c (y_k s)) ->
  satisfies q (sys_with s c1) i <-> satisfies q s i.
Proof.
  move=> E1 E2. have E : star_at (y_k (sys_with s c1)) i = star_at (y_k s) i.
  { rewrite /star_at /sys_with /set_cluster. cbn [y_k g_c g_m0 g_npop]. by rewrite E1 E2. }
  rewrite /satisfies /seen_distance /seen_speed /row_mass E. by [].
Qed.
Lemma same_measured s c1 n : c_ph c1 = c_ph (g_c (y_k s)) -> c_id c1 = c_id (g_c (y_k s)) -> norms c1 -> measured s n -> measured (sys_with s c1) n.
Proof.
  move=> E1 E2 NO [AL [NT [_ [_ [_ [_ [_ [KW ET]]]]]]]]. destruct AL as [AL1 [AL2 [AL3 [AL4 AL5]]]].
  have AL' : SpecStars.aligned (y_k (sys_with s c1)) n.
  { split; [by cbn; rewrite E1|]. split; [by cbn; rewrite E1|]. split; [by cbn; rewrite E2|]. by split. }
  have [N1 [N2 [N3 N4]]] := NO.
  have [M1 [M2 [M3 [M4 M5]]]] := @measured_norms (y_k (sys_with s c1)) n AL' N1 N2 N3 N4.
  exact (conj AL' (conj NT (conj M1 (conj M2 (conj M3 (conj M4 (conj M5 (conj KW ET)))))))).
Qed.
Lemma mass_frame_ok s u o : ready G (g_c (y_k s)) u o -> analyze true true (g_c (y_k s)) = g_c (y_k s) ->
  let c := g_c (y_k s) in let c1 := mass_frame G c in
  sees G c c1 /\ c_ph c1 = c_ph c /\ c_id c1 = c_id c /\ norms c1.
Proof.
  move=> HR HA. cbn zeta. have [A0 [S0 [P0 [O0 I0]]]] := amuse_ok HR HA. do 3 (split => //). exact: norms_settled.
Qed.

Section OneSystem.
Variables (q : selection) (indx : option (list bool)) (s : system) (n nmass : nat).
Let c := g_c (y_k s). Let c1 := mass_frame G c.
Hypotheses (E1 : c_ph c1 = c_ph c) (E2 : c_id c1 = c_id c) (NO : norms c1) (HM : measured s n) (EK : energies_known q s n)
  (MF : mask_fits indx n) (Hn : (0 < n)%nat).
Let M1 : measured (sys_with s c1) n. Proof. exact (same_measured E1 E2 NO HM). Qed.
Let LM : length (p_m (c_ph c)) = n. Proof. exact (proj1 (proj2 (proj1 HM))). Qed.

Lemma the_mask : exists msk, get_subset q indx (sys_with s c1) = Ok (Some msk, match indx with None => None | Some _ => Some msk end) /\
  length msk = n /\ forall i, (i < n)%nat -> nth i msk false = true <-> picked q indx s i.
Proof.
  have [m [Q [L W]]] := @subset_mask q indx (sys_with s c1) n M1 Hn EK MF. exists m. split=> //. split=> // i Hi.
  rewrite W // /picked same_satisfies //.
Qed.

Lemma mass_function_gen bt mcorr l : members n (picked q indx s) l -> (0 < nmass)%nat -> (nmass <= length l)%nat ->
  mass_spread (picked q indx s) (mass c) n -> corrections_fit mcorr n ->
  exists t caller, mass_function G q indx nmass bt mcorr s = Ok (t, sys_with s (return_cluster G (save_cluster c) c1), caller) /\
    histogram_of (mass c) (correction mcorr) l nmass (mt_mean t) (mt_hist t) (mt_dm t) /\
    natsum (mt_hist t) = length l /\ fits_power_law (mt_mean t) (mt_dm t) (mt_fit t) /\
    (bt = Num -> (3 <= length (mt_mean t))%nat ->
       (forall i, (i < n)%nat -> picked q indx s i -> 0 < mass c i /\ 0 < correction mcorr i) -> mt_fit t <> None).
Proof.
  move=> ML Hm Hl SP CF. have [msk [Q [L W]]] := the_mask.
  have ME : members n (picked q indx s) (chosen msk) by apply chosen_members.
  have PE := members_perm ME ML.
  rewrite /mass_function -/c -/c1 Q. cbn [bind fst snd].
  have -> : Nat.leb nmass (count msk) = true by apply Nat.leb_le; rewrite -chosen_count (Permutation_length PE).
  set corr := match mcorr with None => _ | Some _ => _ end.
  have NT := proj1 (proj2 HM).
  have Lc : length corr = n. { rewrite /corr. destruct mcorr as [k|]; [by destruct CF|]. rewrite repeat_length. exact NT. }
  have Ec : forall i, (i < n)%nat -> nth i corr 0 = correction mcorr i.
  { move=> i Hi. rewrite /corr /correction. destruct mcorr as [k|] => //. rewrite (nth_indep _ 0 1) ?repeat_length ?NT // nth_repeat //. }
  have NZ : forall i, (i < n)%nat -> nth i corr 0 <> 0.
  { move=> i Hi. rewrite Ec // /correction. destruct mcorr as [k|]; [|lra]. destruct CF as [Lk NZ]. apply NZ, nth_In. by rewrite Lk. }
  have Lm1 : length (p_m (c_ph c1)) = n by rewrite E1.
  have -> : Nat.eqb (length corr) (length (p_m (c_ph c1))) = true by apply Nat.eqb_eq; rewrite Lc Lm1.
  have SP' : mass_spread (picked q indx s) (fun i => nth i (p_m (c_ph c1)) 0) n by rewrite E1.
  have [w [Ew H]] := @mass_rows_ok msk n (picked q indx s) (p_m (c_ph c1)) nmass bt
     (match indx with None => None | Some _ => Some msk end) corr (match mcorr with None => false | Some _ => true end) L Lm1 Lc W Hm SP' NZ.
  rewrite Ew. cbn [bind]. cbn zeta in H. destruct H as [HI [NS [FP FE]]].
  eexists _, _. split; [reflexivity|]. set t := mass_rows _ _ _ in HI NS FP FE |- *.
  split; [|split; [by rewrite NS (Permutation_length PE)|split; [exact FP|]]].
  - destruct HI as [lo [hi [Ad [Sp [Le [L1 [L2 [L3 R]]]]]]]]. exists lo, hi. split=> //. split.
    { rewrite E1 in Sp. have PM : Permutation (map (mass c) (chosen msk)) (map (mass c) l) by apply Permutation_map.
      destruct Sp as [[S1 S2] [S3 S4]]. split; split.
      - by apply (Permutation_in _ PM).
      - move=> v Hv. apply S2. exact (Permutation_in _ (Permutation_sym PM) Hv).
      - by apply (Permutation_in _ PM).
      - move=> v Hv. apply S4. exact (Permutation_in _ (Permutation_sym PM) Hv). }
    do 4 (split => //). move=> k Hk. have [W1 [W2 [lk [N1 [I1 [H1 D1]]]]]] := R k Hk. do 2 (split => //).
    exists lk. split=> //. split.
    { move=> i. rewrite I1 E1. split; move=> [J1 J2]; split=> //; [by apply (Permutation_in _ PE)|exact (Permutation_in _ (Permutation_sym PE) J1)]. }
    split=> //. rewrite D1. do 3 f_equal. apply map_ext_in => i /I1 [J _]. apply ME in J. rewrite Ec //. by destruct J.
  - move=> Ebt H3 PP. apply FE => // i Hi Pi. rewrite E1 Ec //. by apply PP.
Qed.

Lemma mass_function_few bt mcorr l : members n (picked q indx s) l -> (length l < nmass)%nat ->
  exists caller, mass_function G q indx nmass bt mcorr s =
    Ok (mkMT (repeat 0 nmass) (repeat 0%nat nmass) (repeat (Some 0) nmass) (Some no_fit)
          (match mcorr with None => None | Some _ => Some (repeat (Some 0) nmass) end), sys_with s (return_cluster G (save_cluster c) c1), caller).
Proof.
  move=> ML Hl. have [msk [Q [L W]]] := the_mask.
  have ME : members n (picked q indx s) (chosen msk) by apply chosen_members.
  have PE := members_perm ME ML.
  rewrite /mass_function -/c -/c1 Q. cbn [bind fst snd].
  have -> : Nat.leb nmass (count msk) = false by apply Nat.leb_gt; rewrite -chosen_count (Permutation_length PE).
  by destruct mcorr; eexists.
Qed.

Lemma eta_function_gen l : members n (picked q indx s) l -> (0 < nmass)%nat -> (2 * nmass <= length l)%nat ->
  mass_spread (picked q indx s) (mass c) n ->
  exists t caller, eta_function G q indx nmass s = Ok (t, sys_with s (return_cluster G (save_cluster c) c1), caller) /\
    dispersions_of (mass c) (fun i => seen_speed (l_projected q) (y_k s) i) l nmass (et_mean t) (et_sigma t) /\
    ((length (et_mean t) < nmass)%nat -> et_fit t = None) /\
    (length (et_mean t) = nmass -> fits_power_law (et_mean t) (et_sigma t) (et_fit t)).
Proof.
  move=> ML Hm Hl SP. have [msk [Q [L W]]] := the_mask.
  have ME : members n (picked q indx s) (chosen msk) by apply chosen_members.
  have PE := members_perm ME ML.
  rewrite /eta_function -/c -/c1 Q. cbn [bind fst snd].
  have -> : Nat.leb (2 * nmass) (count msk) = true by apply Nat.leb_le; rewrite -chosen_count (Permutation_length PE).
  have Lm1 : length (p_m (c_ph c1)) = n by rewrite E1.
  have SP' : mass_spread (picked q indx s) (fun i => nth i (p_m (c_ph c1)) 0) n by rewrite E1.
  have [w [Ew [Wm [Wi [Ad [_ [Spn [Lmid [Le [Wd [Row [Cov [Ne Mlt]]]]]]]]]]]]] :=
    @mask_rows msk n (picked q indx s) (p_m (c_ph c1)) nmass Num (match indx with None => None | Some _ => Some msk end) L Lm1 W Hm SP'.
  rewrite Ew. cbn [bind]. eexists _, _. split; [reflexivity|]. cbn [et_mean et_sigma et_fit].
  set v := if l_projected q then d_vpro (c_der c1) else d_v (c_der c1).
  have [Lv Ev] : length v = n /\ forall i, (i < n)%nat -> nth i v 0 = seen_speed (l_projected q) (y_k s) i.
  { have [_ [_ [_ [_ [L3 [L4 [D _]]]]]]] := M1. split; [rewrite /v; destruct (l_projected q); [exact L4|exact L3]|]. move=> i Hi.
    have [_ [_ [D3 D4]]] := D i Hi. have E : star_at (y_k (sys_with s c1)) i = star_at (y_k s) i.
    { rewrite /star_at /sys_with /set_cluster. cbn [y_k g_c g_m0 g_npop]. by rewrite E1 E2. }
    rewrite /seen_speed E in D3 D4. rewrite /v /seen_speed. by destruct (l_projected q). }
  have Lr : forall k, length (in_row false w k) = n by move=> k; rewrite /in_row Wm Wi row_mask_length ?L // /bin_index map_length Lm1.
  set sg := map (fun i => sample_std (select (in_row false w i) v)) (seq 0 nmass).
  have Lsg : length sg = nmass by rewrite /sg map_length seq_length.
  have Esg : forall k, (k < nmass)%nat -> nth k sg None = match map (seen_speed (l_projected q) (y_k s)) (chosen (in_row false w k)) with [] => None | g => Some (deviation g) end.
  { move=> k Hk. rewrite /sg nth_map_seq // (@select_chosen _ 0 (in_row false w k) v) ?Lr ?Lv //.
    have -> : map (fun i => nth i v 0) (chosen (in_row false w k)) = map (seen_speed (l_projected q) (y_k s)) (chosen (in_row false w k)).
    { apply map_ext_in => i /chosen_In [Hi _]. apply Ev. by rewrite -(Lr k). }
    rewrite /sample_std. destruct (map (seen_speed (l_projected q) (y_k s)) (chosen (in_row false w k))); [done|]. f_equal; exact: np_std_deviation. }
  have Emp : forall k, (length (w_lo w) <= k)%nat -> nth k sg None = None.
  { move=> k Hk. destruct (Nat.lt_ge_cases k nmass) as [Hk2|Hk2]; [|by rewrite nth_overflow ?Lsg]. rewrite Esg //.
    have -> : chosen (in_row false w k) = []; [|by []]. destruct (chosen (in_row false w k)) as [|i t] eqn:Ei => //.
    have I : In i (chosen (in_row false w k)) by rewrite Ei; left. apply Row in I. destruct I as [_ [_ [B _]]]. lia. }
  split; [|split].
  - exists (w_lo w), (w_hi w). split=> //. split.
    { rewrite E1 in Spn. have PM : Permutation (map (mass c) (chosen msk)) (map (mass c) l) by apply Permutation_map.
      destruct Spn as [[S1 S2] [S3 S4]]. split; split.
      - by apply (Permutation_in _ PM).
      - move=> x Hv. apply S2. exact (Permutation_in _ (Permutation_sym PM) Hv).
      - by apply (Permutation_in _ PM).
      - move=> x Hv. apply S4. exact (Permutation_in _ (Permutation_sym PM) Hv). }
    do 3 (split => //). split=> //. move=> k Hk. have [W1 W2] := Wd k Hk. do 2 (split => //).
    exists (chosen (in_row false w k)). have [N1 I1] := Row k. split=> //.
    have [i [Hi [Pi Bi]]] := Ne eq_refl k Hk. have Ii : In i (chosen (in_row false w k)) by apply I1.
    have NE : chosen (in_row false w k) <> [] by move=> E0; rewrite E0 in Ii. split=> //. split.
    + move=> j. rewrite I1 E1. destruct ML as [_ I2]. rewrite I2. tauto.
    + rewrite Esg; [lia|]. by destruct (chosen (in_row false w k)).
  - rewrite Lmid => Hlt. rewrite /polyfit_of. destruct (all_some (map (fun a => nlog10 (Some a)) (w_mid w))) => //.
    destruct (all_some (map nlog10 sg)) as [k|] eqn:Ek => //. exfalso. have E3 := all_some_inv Ek.
    have E4 : nth (length (w_lo w)) (map nlog10 sg) None = nlog10 (nth (length (w_lo w)) sg None).
    { apply (@nth_map' _ _ nlog10 sg _ None None). by rewrite Lsg. }
    rewrite Emp // E3 in E4. cbn in E4. have Lk : length k = nmass by rewrite -Lsg -(map_length nlog10 sg) E3 map_length.
    rewrite (@nth_map' _ _ (@Some R) k _ None 0) ?Lk // in E4.
  - move=> Em. by apply fitted; rewrite Lsg.
Qed.
Lemma eta_function_few l : members n (picked q indx s) l -> (length l < 2 * nmass)%nat ->
  exists caller, eta_function G q indx nmass s =
    Ok (mkET (repeat 0 nmass) (repeat (Some 0) nmass) (Some no_fit), sys_with s (return_cluster G (save_cluster c) c1), caller).
Proof.
  move=> ML Hl. have [msk [Q [L W]]] := the_mask.
  have ME : members n (picked q indx s) (chosen msk) by apply chosen_members.
  have PE := members_perm ME ML.
  rewrite /eta_function -/c -/c1 Q. cbn [bind fst snd].
  have -> : Nat.leb (2 * nmass) (count msk) = false by apply Nat.leb_gt; rewrite -chosen_count (Permutation_length PE).
  by eexists.
Qed.
End OneSystem.
End WithGalpy.
