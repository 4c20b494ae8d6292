(* Proofs: radial profiles of slopes. *)
From Coq Require Import Sorted.
From Verif Require Import Base ModelCluster ModelOps ModelConv ModelEnergy ModelRecipes ModelStars ModelSubset ModelCoords ModelLagrange ModelProfiles ModelMassFunction.
From Verif Require Import SpecUnits SpecFrame SpecOrder SpecRecipes SpecEnergy SpecStars SpecSubset SpecLagrange SpecProfiles SpecMassFunction.
From Verif Require Import ProofsUnits ProofsFrame ProofsSort ProofsSees ProofsEnergy ProofsPot ProofsCentre ProofsRecipes ProofsRecipes2 ProofsRecipes4 ProofsLagrange ProofsSubset ProofsSubset2 ProofsSubset4 ProofsProfiles ProofsProfiles2 ProofsProfiles3 ProofsProfiles4 ProofsProfiles5 ProofsProfiles7 ProofsMassFunction ProofsMassFunction2 ProofsMassFunction3.
Set Implicit Arguments. Unset Strict Implicit.

Lemma over_rows_ok {A} (f : nat -> result A) (Q : nat -> A -> Prop) d ks : (forall k, In k ks -> exists a, f k = Ok a /\ Q k a) ->
  exists l, over_rows f ks = Ok l /\ length l = length ks /\ forall j, (j < length ks)%nat -> Q (nth j ks 0%nat) (nth j l d).
Proof.
  induction ks as [|k ks IH] => H; [by exists []; split => //; split => //= j; lia|].
  have [a [Ea Qa]] := H k (or_introl eq_refl). have [l [El [Ll Ql]]] := IH ltac:(by move=> j Hj; apply H; right).
  exists (a :: l). cbn [over_rows]. rewrite Ea. cbn [bind]. rewrite El. cbn [bind length]. split=> //. split; [by rewrite Ll|].
  move=> [|j] Hj //=. apply Ql. lia.
Qed.
Lemma kept_ok fit : slope_kept fit (kept_slope fit).
Proof.
  destruct fit as [f|] => //=. split => H.
  - by have -> : Rltb (-100) (t_slope f) = true by apply Rltb_spec.
  - by have -> : Rltb (-100) (t_slope f) = false by apply Rltb_false.
Qed.
Lemma kept_marker : kept_slope (Some no_fit) = Some 0.
Proof. cbn. have -> : Rltb (-100) (-1000) = false by apply Rltb_false; lra. done. Qed.
Lemma mixed_spread P val n k l : mixed P val n k -> members n P l -> (k <= length l)%nat -> mass_spread P val n.
Proof.
  move=> M [N I] H. have [i [j [Ii [Ij D]]]] := M l N ltac:(by move=> i /I) H. apply I in Ii. apply I in Ij. exists i, j. tauto.
Qed.
Lemma mixed_sub (P Q : nat -> Prop) val n k : (forall i, (i < n)%nat -> Q i -> P i) -> mixed P val n k -> mixed Q val n k.
Proof. move=> S M l N I H. apply M => // i Hi. have [J1 J2] := I i Hi. split=> //. by apply S. Qed.
Lemma mask_members (P : nat -> Prop) msk n : length msk = n -> (forall i, (i < n)%nat -> nth i msk false = true <-> P i) -> exists l, members n P l.
Proof. move=> L H. exists (chosen msk). by apply chosen_members. Qed.

Lemma gradient_ok h mid prof : length prof = length mid -> gradient_of h mid prof (gradient (Some h) mid prof).
Proof.
  move=> L. rewrite /gradient. split => H3.
  - by have -> : Nat.ltb 3 (length mid) = false by apply Nat.ltb_ge.
  - have -> : Nat.ltb 3 (length mid) = true by apply Nat.ltb_lt. move=> f. rewrite /polyfit_of.
    destruct (all_some (map _ mid)) as [a|] eqn:Ea => //. destruct (all_some prof) as [p|] eqn:Ep => // Ef.
    exists p. split; [exact: all_some_inv|].
    have Em : a = map (fun x => ln (x / h)) mid.
    { have X := all_some_inv Ea. apply (nth_ext _ _ 0 0); [by rewrite -(map_length (@Some R)) -X !map_length|].
      move=> k Hk. have La : length a = length mid by rewrite -(map_length (@Some R)) -X map_length.
      have Y := f_equal (fun l => nth k l None) X. cbn beta in Y. rewrite (@nth_map' _ _ (@Some R) a k None 0) // in Y.
      rewrite (@nth_map' _ _ _ mid k None 0) -?La // in Y. rewrite (@nth_map' _ _ _ mid k 0 0) -?La //.
      destruct (Reqb h 0) => //. destruct (Rltb 0 (nth k mid 0 / h)) => //. congruence. }
    subst a. exact (polyfit_errors Ef).
Qed.

Section WithGalpy.
Variable G : galpy.
Variables (q : selection) (indx : option (list bool)) (s : system) (n nrad : nat) (u : usys) (o : osys).
Let c := g_c (y_k s).
Hypotheses (HR : ready G c u o) (HA : analyze true true c = c) (HM : measured s n) (EK : energies_known q s n)
  (MF : mask_fits indx n) (Hr : (0 < nrad)%nat) (PR : profilable q indx s n).
Let L6 : six_length (p_s (c_ph c)) n. Proof. exact (proj1 (proj1 HM)). Qed.
Let Hn : (0 < n)%nat. Proof. destruct PR as [i [_ [Hi _]]]; lia. Qed.

(* inside the frame the routines do not convert again *)
Lemma inner_frame norm : let c1 := profile_frame G norm c in
  own_framed G c c1 n /\ mass_frame G c1 = c1 /\ measured (sys_with s c1) n /\ forall i, mass c1 i = mass c i.
Proof.
  cbn zeta. have F := profile_frame_ok norm HR HA L6. have [U1 U2] := @frame_units G norm norm c u o HR.
  split=> //. split; [|split; [exact (framed_measured F HM)|move=> i; by rewrite /mass (of_m F)]].
  rewrite /mass_frame. fold (profile_frame G norm c) in U1.
  destruct (c_units (profile_frame G norm c)) as [[]|] => //.
Qed.

Lemma default_satisfies p s' i : satisfies (mass_default p) s' i <-> main_sequence s' i.
Proof. rewrite /satisfies /within /main_sequence /mass_default /=. intuition discriminate. Qed.

Theorem alpha_prof_rows bt nmass mbt mcorr norm : (2 <= nmass)%nat -> corrections_fit mcorr n -> mixed (fun i => asked q indx s i /\ main_sequence s i) (mass c) n nmass ->
  (norm = true -> half_mass (l_projected q) (profile_frame G true c) <> None) ->
  exists lo mid hi r a g s' caller,
    alpha_prof G q indx nrad bt nmass mbt mcorr norm s = Ok (r, a, g, s', caller) /\
    covers q indx s n lo hi /\ (length lo <= nrad)%nat /\ length mid = length lo /\ length a = length lo /\
    scaled norm (half_mass (l_projected q) (profile_frame G true c)) mid r /\
    (forall k, (k < length lo)%nat -> nth k lo 0 < nth k hi 0 /\ nth k lo 0 <= nth k mid 0 <= nth k hi 0 /\
       exists l, members n (fun i => in_row_of false q indx s lo hi k i /\ main_sequence s i) l /\
         mass_slope (mass c) (correction mcorr) l nmass (nth k a None)) /\
    g = gradient (half_mass (l_projected q) (profile_frame G norm c)) mid a /\
    system_restored s s'.
Proof.
  move=> H2 CF MX HN. have [F [MFr [M1 Em]]] := inner_frame norm. set c1 := profile_frame G norm c in F MFr M1 Em.
  have [F' [Lr Er]] := frame_radii q HR HA HM norm. rewrite -/c1 in Lr Er.
  have [w [W1 [W2 [W3 [W4 [W5 [W6 [W7 [W8 [W9 W10]]]]]]]]]] := rows_ok bt F HM EK MF Hr PR Lr Er.
  rewrite /alpha_prof -/c. cbn zeta. rewrite -/c1 W1. cbn [bind].
  have [r [R1 R2]] : exists r, radii_over norm (half_mass (l_projected q) c1) (w_mid w) = Ok r /\
    scaled norm (half_mass (l_projected q) (profile_frame G true c)) (w_mid w) r.
  { rewrite /c1. destruct norm; [|by exists (w_mid w)]. have := HN eq_refl.
    destruct (half_mass (l_projected q) (profile_frame G true c)) as [h|] => // _. cbn. eexists. split; [reflexivity|]. by exists h. }
  rewrite R1. cbn [bind].
  have Lrow : forall k, length (in_row false w k) = n by move=> k; rewrite /in_row row_mask_length // W6 W7.
  have Pk : forall k i, (i < n)%nat -> picked (mass_default (l_projected q)) (Some (in_row false w k)) (sys_with s c1) i <->
     in_row_of false q indx s (w_lo w) (w_hi w) k i /\ main_sequence s i.
  { move=> k i Hi. rewrite /picked default_satisfies. cbn [in_mask]. have [_ I] := W9 false k. have := I i. rewrite chosen_In Lrow.
    have -> : main_sequence (sys_with s c1) i <-> main_sequence s i by []. tauto. }
  have OV : forall k, In k (row_count w) -> exists v, bind (mass_function G (mass_default (l_projected q)) (Some (in_row false w k)) nmass mbt mcorr (sys_with s c1))
       (fun x => Ok (kept_slope (mt_fit (fst (fst x))))) = Ok v /\ exists l, members n (fun i => in_row_of false q indx s (w_lo w) (w_hi w) k i /\ main_sequence s i) l /\
         mass_slope (mass c) (correction mcorr) l nmass v.
  { move=> k Hk. pose q' := mass_default (l_projected q). pose s1 := sys_with s c1.
    have X1 : c_ph (mass_frame G (g_c (y_k s1))) = c_ph (g_c (y_k s1)) by rewrite /s1; cbn [y_k sys_with set_cluster g_c]; rewrite MFr.
    have X2 : c_id (mass_frame G (g_c (y_k s1))) = c_id (g_c (y_k s1)) by rewrite /s1; cbn [y_k sys_with set_cluster g_c]; rewrite MFr.
    have X3 : norms (mass_frame G (g_c (y_k s1))) by rewrite /s1; cbn [y_k sys_with set_cluster g_c]; rewrite MFr; exact (of_norms F).
    have X4 : energies_known q' s1 n by left.
    have X5 : mask_fits (Some (in_row false w k)) n by exact (Lrow k).
    have [msk [_ [Lm Wm]]] := the_mask X1 X2 X3 M1 X4 X5 Hn.
    have ME := chosen_members Lm Wm.
    have ME' : members n (fun i => in_row_of false q indx s (w_lo w) (w_hi w) k i /\ main_sequence s i) (chosen msk).
    { apply (members_ext (P := picked q' (Some (in_row false w k)) s1)) => // i Hi. exact (Pk k i Hi). }
    have CF' : corrections_fit mcorr n by []. have H0 : (0 < nmass)%nat by lia.
    destruct (Nat.lt_ge_cases (length (chosen msk)) nmass) as [Hl|Hl].
    - have [caller Ef] := mass_function_few X1 X2 X3 M1 X4 X5 Hn mbt mcorr ME Hl. rewrite -/q' -/s1 Ef. cbn [bind fst mt_fit].
      eexists. split; [reflexivity|]. exists (chosen msk). split=> //. rewrite kept_marker. split=> //. lia.
    - have SP : mass_spread (picked q' (Some (in_row false w k)) s1) (mass (g_c (y_k s1))) n.
      { have [i [j [Hi [Hj [Pi [Pj D]]]]]] := mixed_spread (mixed_sub (P := fun i => asked q indx s i /\ main_sequence s i) (Q := fun i => in_row_of false q indx s (w_lo w) (w_hi w) k i /\ main_sequence s i)
           ltac:(by move=> i _ [[A _] B]) MX) ME' Hl.
        exists i, j. do 2 (split => //). split; [by apply Pk|]. split; [by apply Pk|]. by rewrite !Em. }
      have [t [caller [Ef [HI [NS [FP FE]]]]]] := mass_function_gen X1 X2 X3 M1 X4 X5 Hn mbt ME H0 Hl SP CF'.
      rewrite -/q' -/s1 Ef. cbn [bind fst]. eexists. split; [reflexivity|]. exists (chosen msk). split=> //.
      split; [lia|]. move=> _. exists (mt_mean t), (mt_hist t), (mt_dm t), (mt_fit t).
      have Hm : forall i, mass (g_c (y_k s1)) i = mass c i by exact Em.
      split; [|split => //; exact: kept_ok].
      destruct HI as [lo [hi [Ad [Sp [Le [L1 [L2 [L3 R]]]]]]]]. exists lo, hi. split=> //. split.
      { by rewrite -(map_ext _ _ Hm). }
      do 4 (split => //). move=> j Hj. have [Y1 [Y2 [lk [N1 [I1 D1]]]]] := R j Hj. do 2 (split => //). exists lk. split=> //. split=> //.
      move=> i. by rewrite I1 Hm. }
  have [a [Ea [La Qa]]] := @over_rows_ok num (fun k => bind (mass_function G (mass_default (l_projected q)) (Some (in_row false w k)) nmass mbt mcorr (sys_with s c1))
       (fun x => Ok (kept_slope (mt_fit (fst (fst x))))))
     (fun k v => exists l, members n (fun i => in_row_of false q indx s (w_lo w) (w_hi w) k i /\ main_sequence s i) l /\
         mass_slope (mass c) (correction mcorr) l nmass v) None (row_count w) OV.
  rewrite Ea. cbn [bind]. exists (w_lo w), (w_mid w), (w_hi w). do 5 eexists. split; [reflexivity|].
  split; [exact W2|]. split; [exact W4|]. split; [exact W3|]. split; [by rewrite La /row_count seq_length|]. split; [exact R2|].
  split; [|split; [reflexivity|apply (sys_restored HR HA); exact (of_sees F)]].
  move=> k Hk. have [D1 D2] := W5 k Hk. split; [exact D2|]. split; [exact D1|].
  have := Qa k ltac:(by rewrite /row_count seq_length W3). rewrite /row_count seq_nth ?W3 //.
Qed.
End WithGalpy.
