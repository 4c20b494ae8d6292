(* Proofs: radial profile of the equipartition mass. *)
From Coq Require Import Sorted.
From Verif Require Import Base ModelCluster ModelOps ModelConv ModelEnergy ModelRecipes ModelStars ModelSubset ModelCoords ModelLagrange ModelProfiles ModelMassFunction ModelDynamics.
From Verif Require Import ModelTail ModelCentre ModelRadii ModelMeqProf.
From Verif Require Import SpecUnits SpecFrame SpecOrder SpecRecipes SpecEnergy SpecStars SpecSubset SpecLagrange SpecProfiles SpecRadii SpecMassFunction.
From Verif Require Import ProofsUnits ProofsFrame ProofsSort ProofsSees ProofsEnergy ProofsPot ProofsCentre ProofsRecipes ProofsRecipes2 ProofsRecipes4 ProofsLagrange ProofsSubset ProofsSubset2 ProofsSubset4 ProofsProfiles ProofsProfiles2 ProofsProfiles3 ProofsProfiles4 ProofsProfiles5 ProofsProfiles7 ProofsMassFunction ProofsMassFunction2 ProofsMassFunction3 ProofsMassFunction4 ProofsMassFunction5.
Set Implicit Arguments. Unset Strict Implicit.

(* either every row is computed or one of them raises *)
Lemma over_rows_cases {A} (f : nat -> result A) d ks :
  (exists l, over_rows f ks = Ok l /\ length l = length ks /\ forall j, (j < length ks)%nat -> f (nth j ks 0%nat) = Ok (nth j l d)) \/
  (over_rows f ks = Raise /\ exists k, In k ks /\ f k = Raise).
Proof.
  induction ks as [|k ks IH]; [left; by exists []; split=> //; split=> //= j; lia|]. cbn [over_rows].
  destruct (f k) as [a|] eqn:Ea; [|right; split=> //; exists k; split=> //; by left]. cbn [bind].
  destruct IH as [[l [El [Ll Ql]]]|[Er [j [Hj Ej]]]].
  - left. exists (a :: l). rewrite El. cbn [bind length]. split=> //. split; [by rewrite Ll|]. move=> [|j] Hj //=. apply Ql. lia.
  - right. rewrite Er. split=> //. exists j. split=> //. by right.
Qed.
Lemma dispersions_ext val val' speed speed' l nb mean sig : (forall i, In i l -> val i = val' i /\ speed i = speed' i) ->
  dispersions_of val speed l nb mean sig -> dispersions_of val' speed' l nb mean sig.
Proof.
  move=> H [lo [hi [Ad [Sp [Le [L1 [L2 [R0 RX]]]]]]]]. exists lo, hi. split=> //. split.
  { have <- : map val l = map val' l by apply map_ext_in => i Hi; exact (proj1 (H i Hi)). exact Sp. }
  do 3 (split => //). split=> // j Hj. have [Y1 [Y2 [lk [N1 [NE [I1 D1]]]]]] := R0 j Hj. do 2 (split => //). exists lk. split=> //. split=> //. split.
  - move=> i. rewrite I1. split; move=> [J1 J2]; split=> //; have [E _] := H i J1; by [rewrite -E|rewrite E].
  - rewrite D1. do 2 f_equal. apply map_ext_in => i /I1 [J1 _]. exact (proj2 (H i J1)).
Qed.

Section WithGalpy.
Variables (G : galpy) (fit : R -> R -> list R -> list R -> result line_fit).

Section OneRow.
Variables (q : selection) (indx : option (list bool)) (s : system) (n nmass : nat).
Let c := g_c (y_k s). Let c1 := mass_frame G c.
Hypotheses (E1 : c_ph c1 = c_ph c) (E2 : c_id c1 = c_id c) (NO : norms c1) (HM : measured s n) (EK : energies_known q s n)
  (MF : mask_fits indx n) (Hn : (0 < n)%nat).
Let speed (i : nat) : R := seen_speed (l_projected q) (y_k s) i.
Lemma eta_meq_gen l : members n (picked q indx s) l -> (0 < nmass)%nat ->
  ((2 * nmass <= length l)%nat -> mass_spread (picked q indx s) (mass c) n) ->
  match eta_meq G fit q indx nmass s with
  | Ok ((_, _, f), _, _) => equipartition fit (mass c) speed n l nmass f
  | Raise => unfitted fit (mass c) speed n l nmass
  end.
Proof.
  move=> ML H0 SP.
  have [msk [Q [L W]]] := the_mask E1 E2 NO HM EK MF Hn.
  have ME : members n (picked q indx s) (chosen msk) by apply chosen_members.
  have PE := members_perm ME ML. have Cn : count msk = length l by rewrite -chosen_count (Permutation_length PE).
  destruct (Nat.lt_ge_cases (length l) (2 * nmass)) as [Hl|Hl].
  - rewrite /eta_meq -/c -/c1. rewrite -/c -/c1 in Q. rewrite Q. cbn [bind fst snd].
    have -> : Nat.leb (2 * nmass) (count msk) = false by apply Nat.leb_gt; rewrite Cn.
    split; [by []|lia].
  - have [t [caller [E [A1 [A2 A3]]]]] := eta_function_gen E1 E2 NO HM EK MF Hn ML H0 Hl (SP Hl).
    move: E. rewrite /eta_function /eta_meq -/c -/c1. rewrite -/c -/c1 in Q. rewrite Q. cbn [bind fst snd].
    have -> : Nat.leb (2 * nmass) (count msk) = true by apply Nat.leb_le; rewrite Cn.
    destruct (rows_of _ _ _ _ _) as [w|] => //. cbn [bind].
    set sg := map _ (seq 0 nmass). move=> E.
    have [Et Es] : w_mid w = et_mean t /\ sg = et_sigma t.
    { have X := f_equal (fun z => match z with Ok ((a, _), _) => (et_mean a, et_sigma a) | Raise => ([], []) end) E. cbn [et_mean et_sigma] in X. by split; [exact (f_equal fst X)|exact (f_equal snd X)]. }
    rewrite Et Es. clear E Et Es sg w. rewrite E1 -/c.
    have LM : length (p_m (c_ph c)) = n by exact (proj1 (proj2 (proj1 HM))).
    have EM : map (mass c) (seq 0 n) = p_m (c_ph c).
    { apply (nth_ext _ _ 0 0); [by rewrite map_length seq_length|]. rewrite map_length seq_length => i Hi. by rewrite nth_map_seq. }
    destruct (amin (p_m (c_ph c))) as [lo|] eqn:Elo; [|by destruct (p_m (c_ph c)) => //; cbn in LM; lia].
    destruct (amax (p_m (c_ph c))) as [hi|] eqn:Ehi; [|by destruct (p_m (c_ph c)) => //; cbn in LM; lia].
    have Glo := amin_least Elo. have Ghi := amax_greatest Ehi. rewrite -EM in Glo Ghi.
    destruct (all_some (et_sigma t)) as [k|] eqn:Ek.
    + have Es := all_some_inv Ek. destruct (fit lo hi (et_mean t) k) as [f|] eqn:Ef; cbn [bind].
      * split; [lia|]. move=> _. exists lo, hi, (et_mean t), k. rewrite -Es. by split.
      * split=> //. exists lo, hi, (et_mean t), (et_sigma t). do 3 (split=> //). right. by exists k.
    + split=> //. exists lo, hi, (et_mean t), (et_sigma t). do 3 (split=> //). left.
      destruct A1 as [lo' [hi' [_ [_ [Le [Lm [Ls [Rw Be]]]]]]]]. rewrite Lm.
      destruct (Nat.lt_ge_cases (length lo') nmass) as [?|Ge] => //. exfalso.
      have X : exists k, et_sigma t = map (@Some R) k.
      { exists (map (fun x => match x with Some a => a | None => 0 end) (et_sigma t)). rewrite map_map. rewrite -[LHS]map_id. apply map_ext_in => x Hx.
        destruct (In_nth _ _ None Hx) as [j [Hj Ej]]. have Hj2 : (j < length lo')%nat by move: Hj; rewrite Ls; lia. have [_ [_ [lk [_ [_ [_ Ex]]]]]] := Rw j Hj2. by rewrite -Ej Ex. }
      destruct X as [k Ek']. rewrite Ek' all_some_Some in Ek. by [].
Qed.
End OneRow.

Lemma kept_mass_ok f a : kept_mass f = a -> (-100 < t_slope f -> a = t_slope f) /\ (t_slope f <= -100 -> a = 0).
Proof.
  rewrite /kept_mass => <-. split=> H; [have -> : Rltb (-100) (t_slope f) = true by apply Rltb_spec|have -> : Rltb (-100) (t_slope f) = false by apply Rltb_false; lra]; by [].
Qed.

Variables (q : selection) (indx : option (list bool)) (s : system) (n nrad : nat) (u : usys) (o : osys).
Let c := g_c (y_k s).
Hypotheses (HR : ready G c u o) (HA : analyze true true c = c) (HM : measured s n) (EK : energies_known q s n)
  (MF : mask_fits indx n) (Hr : (0 < nrad)%nat) (PR : mass_spread (asked q indx s) (radius3 s) n).
Let Hn : (0 < n)%nat. Proof. destruct PR as [i [_ [Hi _]]]; lia. Qed.
Let speed (i : nat) : R := seen_speed (l_projected q) (y_k (own_system s)) i.

Theorem meq_prof_rows bt nmass norm : (1 <= nmass)%nat -> mixed (limited q s) (mass c) n (2 * nmass) ->
  (norm = true -> half_mass (l_projected q) (profile_frame G true c) <> None) ->
  exists lo mid hi rows, adjacent lo hi /\ (exists l, members n (asked q indx s) l /\ spans (map (radius3 s) l) lo hi) /\ (length lo <= nrad)%nat /\ length mid = length lo /\
    length rows = length lo /\
    (forall k, (k < length lo)%nat -> nth k lo 0 < nth k hi 0 /\ nth k lo 0 <= nth k mid 0 <= nth k hi 0 /\ members n (in_shell q s (nth k lo 0) (nth k hi 0)) (nth k rows [])) /\
    (bt = Num -> forall k, (k < length lo)%nat -> exists i, (i < n)%nat /\ asked q indx s i /\ radius3 s i = nth k lo 0) /\
    match meq_prof G fit q indx nrad bt nmass norm s with
    | Ok (r, a, g, s', caller) => length a = length lo /\ scaled norm (half_mass (l_projected q) (profile_frame G true c)) mid r /\
        (forall k, (k < length lo)%nat -> exists f, equipartition fit (mass c) speed n (nth k rows []) nmass f /\ kept_mass f = nth k a 0) /\
        g = gradient (half_mass (l_projected q) (profile_frame G norm c)) mid (map (@Some R) a) /\ system_restored s s'
    | Raise => exists k, (k < length lo)%nat /\ unfitted fit (mass c) speed n (nth k rows []) nmass
    end.
Proof.
  move=> H0 MX HN. have [F [MFr [M1 Em]]] := inner_frame HR HA HM norm. set c1 := profile_frame G norm c in F MFr M1 Em.
  pose q3 := mkSel (l_rmin q) (l_rmax q) (l_mmin q) (l_mmax q) (l_vmin q) (l_vmax q) (l_emin q) (l_emax q) (l_kwmin q) (l_kwmax q) (l_npop q) false.
  have [_ [Lr Er]] := frame_radii q3 HR HA HM norm. rewrite -/c1 in Lr Er. cbn [q3 l_projected] in Lr.
  have Er3 : forall i, (i < n)%nat -> nth i (d_r (c_der c1)) 0 = radius3 s i by move=> i Hi; exact (Er i Hi).
  have [msk [Q [L W]]] := @subset_mask q indx (sys_with s c1) n M1 Hn EK MF.
  have W' : forall i, (i < n)%nat -> nth i msk false = true <-> asked q indx s i.
  { move=> i Hi. rewrite W // /asked. by rewrite (framed_satisfies _ F (proj1 (proj2 (proj1 HM))) Hi). }
  have PR' : mass_spread (asked q indx s) (fun i => nth i (d_r (c_der c1)) 0) n.
  { destruct PR as [i [j [Hi [Hj [Ai [Aj D]]]]]]. exists i, j. do 4 (split=> //). by rewrite !Er3. }
  have [w [Ew [Wm [Wi [Ad [ME [Spn [Lmid [Le [Wd _]]]]]]]]]] :=
    @mask_rows msk n (asked q indx s) (d_r (c_der c1)) nrad bt (match indx with None => None | Some _ => Some msk end) L Lr W' Hr PR'.
  rewrite /meq_prof -/c. cbn zeta. rewrite -/c1 profile_rows_of Q. cbn [bind fst snd]. rewrite Ew. cbn [bind].
  have [r [R1 R2]] : exists r, radii_over norm (half_mass (l_projected q) c1) (w_mid w) = Ok r /\
    scaled norm (half_mass (l_projected q) (profile_frame G true c)) (w_mid w) r.
  { rewrite /c1. destruct norm; [|by exists (w_mid w)]. have := HN eq_refl.
    destruct (half_mass (l_projected q) (profile_frame G true c)) as [h|] => // _. cbn. eexists. split; [reflexivity|]. by exists h. }
  rewrite R1. cbn [bind].
  pose lo k := nth k (w_lo w) 0. pose hi k := nth k (w_hi w) 0.
  have RW : forall k, exists l, members n (in_shell q s (lo k) (hi k)) l /\
     match eta_meq G fit (eta_limits q (lo k) (hi k)) None nmass (sys_with s c1) with
     | Ok ((_, _, f), _, _) => equipartition fit (mass c) speed n l nmass f
     | Raise => unfitted fit (mass c) speed n l nmass
     end.
  { move=> k. pose q' := eta_limits q (lo k) (hi k). pose s1 := sys_with s c1.
    have X1 : c_ph (mass_frame G (g_c (y_k s1))) = c_ph (g_c (y_k s1)) by rewrite /s1; cbn [y_k sys_with set_cluster g_c]; rewrite MFr.
    have X2 : c_id (mass_frame G (g_c (y_k s1))) = c_id (g_c (y_k s1)) by rewrite /s1; cbn [y_k sys_with set_cluster g_c]; rewrite MFr.
    have X3 : norms (mass_frame G (g_c (y_k s1))) by rewrite /s1; cbn [y_k sys_with set_cluster g_c]; rewrite MFr; exact (of_norms F).
    have X4 : energies_known q' s1 n by left.
    have X5 : mask_fits None n by [].
    have [mk [_ [Lm Wk]]] := the_mask X1 X2 X3 M1 X4 X5 Hn.
    have MK := chosen_members Lm Wk.
    have MK' : members n (in_shell q s (lo k) (hi k)) (chosen mk).
    { apply (members_ext (P := picked q' None s1)) => // i Hi. rewrite /picked /q' /s1 (shell_satisfies q HM _ _ F Hi). cbn [in_mask]. tauto. }
    have SP : (2 * nmass <= length (chosen mk))%nat -> mass_spread (picked q' None s1) (mass (g_c (y_k s1))) n.
    { move=> Hl. have [i [j [Hi [Hj [Pi [Pj D]]]]]] := mixed_spread (mixed_sub (P := limited q s) (Q := in_shell q s (lo k) (hi k)) ltac:(by move=> i _ [_ A]) MX) MK' Hl.
      exists i, j. do 2 (split => //).
      have PX : forall x, (x < n)%nat -> in_shell q s (lo k) (hi k) x -> picked q' None s1 x.
      { move=> x Hx Sx. split=> //. by apply (shell_satisfies q HM _ _ F Hx). }
      split; [by apply PX|]. split; [by apply PX|]. by rewrite !Em. }
    have T := eta_meq_gen X1 X2 X3 M1 X4 X5 Hn MK H0 SP. exists (chosen mk). split; [exact MK'|]. rewrite -/q' -/s1.
    have EX : forall i, In i (chosen mk) -> mass (g_c (y_k s1)) i = mass c i /\ seen_speed (l_projected q') (y_k s1) i = speed i.
    { move=> i Ii. split; [exact: Em|]. apply MK' in Ii. destruct Ii as [Hi _]. have E := framed_star F (proj1 (proj2 (proj1 HM))) Hi. rewrite /speed /seen_speed. cbn [q' eta_limits l_projected]. by rewrite E. }
    have MM : map (mass (g_c (y_k s1))) (seq 0 n) = map (mass c) (seq 0 n) by apply map_ext => i; exact: Em.
    destruct (eta_meq G fit q' None nmass s1) as [[[[[mean sig] f] s2] cl]|].
    - destruct T as [T1 T2]. split; [exact T1|]. move=> H. have [a [b [m [sg [G1 [G2 [G3 G4]]]]]]] := T2 H. exists a, b, m, sg. rewrite MM in G1 G2. do 2 (split=> //). split=> //. exact (dispersions_ext EX G3).
    - destruct T as [T1 [a [b [m [sg [G1 [G2 [G3 G4]]]]]]]]. split; [exact T1|]. exists a, b, m, sg. rewrite MM in G1 G2. do 2 (split=> //). split=> //. exact (dispersions_ext EX G3). }
  have [rows [Lrow RWs]] : exists rows, length rows = length (w_lo w) /\ forall k, (k < length (w_lo w))%nat -> members n (in_shell q s (lo k) (hi k)) (nth k rows []) /\
     match eta_meq G fit (eta_limits q (lo k) (hi k)) None nmass (sys_with s c1) with
     | Ok ((_, _, f), _, _) => equipartition fit (mass c) speed n (nth k rows []) nmass f
     | Raise => unfitted fit (mass c) speed n (nth k rows []) nmass
     end.
  { have : forall m, exists rows, length rows = m /\ forall k, (k < m)%nat -> members n (in_shell q s (lo k) (hi k)) (nth k rows []) /\
     match eta_meq G fit (eta_limits q (lo k) (hi k)) None nmass (sys_with s c1) with
     | Ok ((_, _, f), _, _) => equipartition fit (mass c) speed n (nth k rows []) nmass f
     | Raise => unfitted fit (mass c) speed n (nth k rows []) nmass
     end; [|by move=> X; apply X].
    elim=> [|m [rows [Lm IH]]]; [exists []; split=> // k; lia|]. have [l Hl] := RW m. exists (rows ++ [l]). split; [rewrite app_length /=; lia|]. move=> k Hk.
    destruct (Nat.eq_dec k m) as [->|Ne]; [rewrite app_nth2 ?Lm ?Nat.sub_diag //|rewrite app_nth1; [lia|apply IH; lia]]. }
  exists (w_lo w), (w_mid w), (w_hi w), rows. split; [exact Ad|]. split.
  { exists (chosen msk). split; [exact ME|].
    have -> : map (radius3 s) (chosen msk) = map (fun i => nth i (d_r (c_der c1)) 0) (chosen msk); [|exact Spn].
    apply map_ext_in => i /chosen_In [Hi _]. rewrite Er3 //. by rewrite -L. }
  split; [exact Le|]. split; [exact Lmid|]. split; [exact Lrow|]. split.
  { move=> k Hk. have [D1 D2] := Wd k Hk. split; [exact D2|]. split; [exact D1|]. exact (proj1 (RWs k Hk)). }
  split.
  { move=> Ebt k Hk. rewrite Ebt /rows_of in Ew. have Nx : select msk (d_r (c_der c1)) <> [].
    { destruct PR as [i [_ [Hi [_ [Ai _]]]]]. rewrite (@select_chosen _ 0 msk (d_r (c_der c1))) ?L //. move=> /map_eq_nil E0.
      have Ii : In i (chosen msk) by apply ME. by rewrite E0 in Ii. }
    cbn [own_bins] in Ew. destruct (nbinmaker (select msk (d_r (c_der c1))) nrad) as [b|] eqn:Eb => //. cbn [bind] in Ew.
    have El : w_lo w = b_lo b by have := f_equal (fun z => match z with Ok a => w_lo a | Raise => [] end) Ew.
    have Iv := nbin_lower_in Nx Hr Eb (v := nth k (w_lo w) 0). rewrite -El in Iv. have := Iv (nth_In _ _ Hk).
    rewrite (@select_chosen _ 0 msk (d_r (c_der c1))) ?L // => /in_map_iff [i [Ei Ii]]. apply ME in Ii. destruct Ii as [Hi Ai].
    exists i. split=> //. split=> //. by rewrite -Ei Er3. }
  have LC : length (row_count w) = length (w_lo w) by rewrite /row_count seq_length Lmid.
  destruct (@over_rows_cases R (fun i => bind (eta_meq G fit (eta_limits q (nth i (w_lo w) 0) (nth i (w_hi w) 0)) None nmass (sys_with s c1)) (fun x => Ok (kept_mass (snd (fst (fst x)))))) 0 (row_count w))
    as [[a [Ea [La Qa]]]|[Ea [k [Hk Ek]]]]; rewrite Ea; cbn [bind].
  - split; [by rewrite La|]. split; [exact R2|]. split; [|split; [reflexivity|apply (sys_restored HR HA); exact (of_sees F)]].
    move=> k Hk. have := Qa k ltac:(by rewrite LC). rewrite {1 2}/row_count seq_nth ?Lmid // -/(lo k) -/(hi k). have [_ Rk] := RWs k Hk. change (0 + k)%nat with k. fold (lo k) (hi k). move: Rk.
    destruct (eta_meq G fit (eta_limits q (lo k) (hi k)) None nmass (sys_with s c1)) as [[[[[mean sig] f] s2] cl]|] => //. cbn [bind fst snd]. move=> EQ [E]. by exists f.
  - have Hk' : (k < length (w_lo w))%nat by move: Hk; rewrite /row_count => /in_seq; rewrite Lmid; lia. exists k. split=> //. have [_ Rk] := RWs k Hk'. move: Ek Rk. fold (lo k) (hi k).
    destruct (eta_meq G fit (eta_limits q (lo k) (hi k)) None nmass (sys_with s c1)) as [[[[[mean sig] f] s2] cl]|] => //.
Qed.
End WithGalpy.
