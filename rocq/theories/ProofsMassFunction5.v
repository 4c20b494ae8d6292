(* Proofs: radial profile of the slope of the velocity dispersion with mass. *)
From Coq Require Import Sorted.
From Verif Require Import Base ModelCluster ModelOps ModelConv ModelEnergy ModelRecipes ModelStars ModelSubset ModelCoords ModelLagrange ModelProfiles ModelMassFunction.
From Verif Require Import SpecUnits SpecFrame SpecOrder SpecRecipes SpecEnergy SpecStars SpecSubset SpecLagrange SpecProfiles SpecMassFunction.
From Verif Require Import ProofsUnits ProofsFrame ProofsSort ProofsSees ProofsEnergy ProofsPot ProofsCentre ProofsRecipes ProofsRecipes2 ProofsRecipes4 ProofsLagrange ProofsSubset ProofsSubset2 ProofsSubset4 ProofsProfiles ProofsProfiles2 ProofsProfiles3 ProofsProfiles4 ProofsProfiles5 ProofsProfiles7 ProofsMassFunction ProofsMassFunction2 ProofsMassFunction3 ProofsMassFunction4.
Set Implicit Arguments. Unset Strict Implicit.

Lemma select_In {A} msk (l : list A) v : In v (select msk l) -> In v l.
Proof. elim: l msk => [|a l IH] [|b msk] //=. destruct b => /=; [move=> [->|/IH]|move=> /IH]; tauto. Qed.
Lemma nbin_lower_in x nb b : x <> [] -> (0 < nb)%nat -> nbinmaker x nb = Ok b -> forall v, In v (b_lo b) -> In v x.
Proof.
  move=> Nx Hb. rewrite /nbinmaker raw_lower //. destruct (amax x) as [M|] => //. cbn zeta.
  destruct (bincount _ _) as [h|] => // E. have X := f_equal (fun z => match z with Ok a => b_lo a | Raise => [] end) E. cbn [b_lo] in X. rewrite -X.
  move=> v H. apply select_In in H. apply in_map_iff in H. destruct H as [i [<- Hi]]. apply in_seq in Hi. apply sortR_in, cut_lt; [|lia].
  destruct x => //=; lia.
Qed.

Section WithGalpy.
Variable G : galpy.
Variables (q : selection) (indx : option (list bool)) (s : system) (n nrad : nat) (u : usys) (o : osys).
Let c := g_c (y_k s).
Hypotheses (HR : ready G c u o) (HA : analyze true true c = c) (HM : measured s n) (EK : energies_known q s n)
  (MF : mask_fits indx n) (Hr : (0 < nrad)%nat) (PR : mass_spread (asked q indx s) (radius3 s) n).
Let Hn : (0 < n)%nat. Proof. destruct PR as [i [_ [Hi _]]]; lia. Qed.

Lemma profile_rows_of bt r s1 : profile_rows q indx None nrad bt r s1 =
  bind (get_subset q indx s1) (fun x => match fst x with None => Raise | Some msk => rows_of msk (snd x) nrad bt r end).
Proof.
  rewrite /profile_rows. destruct (get_subset q indx s1) as [[[msk|] k]|] => //. cbn [bind fst snd]. rewrite /rows_of /profile_bins.
  by destruct (own_bins (select msk r) nrad bt Linear).
Qed.
Lemma shell_satisfies c1 lo hi i : own_framed G c c1 n -> (i < n)%nat ->
  satisfies (eta_limits q lo hi) (sys_with s c1) i <-> in_shell q s lo hi i.
Proof.
  move=> F Hi. rewrite (framed_satisfies _ F (proj1 (proj2 (proj1 HM))) Hi).
  rewrite /satisfies /in_shell /limited /eta_limits. cbn [l_rmin l_rmax l_vmin l_vmax l_mmin l_mmax l_npop l_emin l_emax l_kwmin l_kwmax l_projected].
  have -> : row_mass (y_k (own_system s)) i = row_mass (y_k s) i.
  { rewrite /row_mass /star_at /own_system /set_cluster. cbn [y_k g_c g_m0 g_npop]. by []. }
  cbn [own_system y_k set_cluster g_sse]. fold (own_system s).
  rewrite {1}/within -/(radius_of q s i). split.
  - move=> [R1 [R2 [R3 [_ [_ R4]]]]]. split; [|by split]. have := proj1 R1 lo eq_refl. have := proj2 R1 hi eq_refl. rewrite /radius_of. lra.
  - move=> [[R1 R1'] [R2 [R3 R4]]]. rewrite /radius_of in R1 R1'.
    split; [split; move=> x [<-]; [exact R1|exact R1']|]. do 2 (split=> //). split=> //. split=> //. by left.
Qed.

Theorem eta_prof_rows bt nmass norm : (1 <= nmass)%nat -> mixed (limited q s) (mass c) n (2 * nmass) ->
  (norm = true -> half_mass (l_projected q) (profile_frame G true c) <> None) ->
  exists lo mid hi r a g s' caller,
    eta_prof G q indx nrad bt nmass norm s = Ok (r, a, g, s', caller) /\
    adjacent lo hi /\ (exists l, members n (asked q indx s) l /\ spans (map (radius3 s) l) lo hi) /\
    (length lo <= nrad)%nat /\ length mid = length lo /\ length a = length lo /\
    scaled norm (half_mass (l_projected q) (profile_frame G true c)) mid r /\
    (forall k, (k < length lo)%nat -> nth k lo 0 < nth k hi 0 /\ nth k lo 0 <= nth k mid 0 <= nth k hi 0 /\
       exists l, members n (in_shell q s (nth k lo 0) (nth k hi 0)) l /\
         eta_slope (mass c) (fun i => seen_speed (l_projected q) (y_k (own_system s)) i) l nmass (nth k a None)) /\
    g = gradient (half_mass (l_projected q) (profile_frame G norm c)) mid a /\
    (bt = Num -> forall k, (k < length lo)%nat -> exists i, (i < n)%nat /\ asked q indx s i /\ radius3 s i = nth k lo 0) /\
    system_restored s s'.
Proof.
  move=> H0 MX HN. have [F [MFr [M1 Em]]] := inner_frame HR HA HM norm. set c1 := profile_frame G norm c in F MFr M1 Em.
  pose q3 := mkSel (l_rmin q) (l_rmax q) (l_mmin q) (l_mmax q) (l_vmin q) (l_vmax q) (l_emin q) (l_emax q) (l_kwmin q) (l_kwmax q) (l_npop q) false.
  have [_ [Lr Er]] := frame_radii q3 HR HA HM norm. rewrite -/c1 in Lr Er. cbn [q3 l_projected] in Lr.
  have Er3 : forall i, (i < n)%nat -> nth i (d_r (c_der c1)) 0 = radius3 s i by move=> i Hi; exact (Er i Hi).
  have [msk [Q [L W]]] := @subset_mask q indx (sys_with s c1) n M1 Hn EK MF.
  have W' : forall i, (i < n)%nat -> nth i msk false = true <-> asked q indx s i.
  { move=> i Hi. rewrite W // /asked. by rewrite (framed_satisfies _ F (proj1 (proj2 (proj1 HM))) Hi). }
  have PR' : mass_spread (asked q indx s) (fun i => nth i (d_r (c_der c1)) 0) n.
  { destruct PR as [i [j [Hi [Hj [Ai [Aj D]]]]]]. exists i, j. do 4 (split=> //). by rewrite !Er3. }
  have [w [Ew [Wm [Wi [Ad [ME [Spn [Lmid [Le [Wd _]]]]]]]]]] :=
    @mask_rows msk n (asked q indx s) (d_r (c_der c1)) nrad bt (match indx with None => None | Some _ => Some msk end) L Lr W' Hr PR'.
  rewrite /eta_prof -/c. cbn zeta. rewrite -/c1 profile_rows_of Q. cbn [bind fst snd]. rewrite Ew. cbn [bind].
  have [r [R1 R2]] : exists r, radii_over norm (half_mass (l_projected q) c1) (w_mid w) = Ok r /\
    scaled norm (half_mass (l_projected q) (profile_frame G true c)) (w_mid w) r.
  { rewrite /c1. destruct norm; [|by exists (w_mid w)]. have := HN eq_refl.
    destruct (half_mass (l_projected q) (profile_frame G true c)) as [h|] => // _. cbn. eexists. split; [reflexivity|]. by exists h. }
  rewrite R1. cbn [bind].
  have OV : forall k, In k (row_count w) -> exists v, bind (eta_function G (eta_limits q (nth k (w_lo w) 0) (nth k (w_hi w) 0)) None nmass (sys_with s c1))
       (fun x => Ok (kept_slope (et_fit (fst (fst x))))) = Ok v /\ exists l, members n (in_shell q s (nth k (w_lo w) 0) (nth k (w_hi w) 0)) l /\
         eta_slope (mass c) (fun i => seen_speed (l_projected q) (y_k (own_system s)) i) l nmass v.
  { move=> k Hk. pose q' := eta_limits q (nth k (w_lo w) 0) (nth k (w_hi w) 0). pose s1 := sys_with s c1.
    have X1 : c_ph (mass_frame G (g_c (y_k s1))) = c_ph (g_c (y_k s1)) by rewrite /s1; cbn [y_k sys_with set_cluster g_c]; rewrite MFr.
    have X2 : c_id (mass_frame G (g_c (y_k s1))) = c_id (g_c (y_k s1)) by rewrite /s1; cbn [y_k sys_with set_cluster g_c]; rewrite MFr.
    have X3 : norms (mass_frame G (g_c (y_k s1))) by rewrite /s1; cbn [y_k sys_with set_cluster g_c]; rewrite MFr; exact (of_norms F).
    have X4 : energies_known q' s1 n by left.
    have X5 : mask_fits None n by [].
    have [mk [_ [Lm Wk]]] := the_mask X1 X2 X3 M1 X4 X5 Hn.
    have MK := chosen_members Lm Wk.
    have MK' : members n (in_shell q s (nth k (w_lo w) 0) (nth k (w_hi w) 0)) (chosen mk).
    { apply (members_ext (P := picked q' None s1)) => // i Hi. rewrite /picked /q' /s1 (shell_satisfies _ _ F Hi). cbn [in_mask]. tauto. }
    destruct (Nat.lt_ge_cases (length (chosen mk)) (2 * nmass)) as [Hl|Hl].
    - have [caller Ef] := eta_function_few X1 X2 X3 M1 X4 X5 Hn MK Hl. rewrite -/q' -/s1 Ef. cbn [bind fst et_fit].
      eexists. split; [reflexivity|]. exists (chosen mk). split=> //. rewrite kept_marker. split=> //. lia.
    - have SP : mass_spread (picked q' None s1) (mass (g_c (y_k s1))) n.
      { have [i [j [Hi [Hj [Pi [Pj D]]]]]] := mixed_spread (mixed_sub (P := limited q s) (Q := in_shell q s (nth k (w_lo w) 0) (nth k (w_hi w) 0))
           ltac:(by move=> i _ [_ A]) MX) MK' Hl.
        exists i, j. do 2 (split => //).
        have PX : forall x, (x < n)%nat -> in_shell q s (nth k (w_lo w) 0) (nth k (w_hi w) 0) x -> picked q' None s1 x.
        { move=> x Hx Sx. split=> //. by apply (shell_satisfies _ _ F Hx). }
        split; [by apply PX|]. split; [by apply PX|]. by rewrite !Em. }
      have [t [caller [Ef [DI [NF FP]]]]] := eta_function_gen X1 X2 X3 M1 X4 X5 Hn MK H0 Hl SP.
      rewrite -/q' -/s1 Ef. cbn [bind fst]. eexists. split; [reflexivity|]. exists (chosen mk). split=> //.
      split; [lia|]. move=> _. exists (et_mean t), (et_sigma t), (et_fit t).
      have Hm : forall i, mass (g_c (y_k s1)) i = mass c i by exact Em.
      split; [|split => //; split => //; exact: kept_ok].
      destruct DI as [lo [hi [Ad' [Sp [Le' [L1 [L2 [R RX]]]]]]]]. exists lo, hi. split=> //. split.
      { by rewrite -(map_ext _ _ Hm). }
      do 3 (split => //). split=> // j Hj. have [Y1 [Y2 [lk [N1 [NE [I1 D1]]]]]] := R j Hj. do 2 (split => //). exists lk. split=> //. split=> //. split.
      + move=> i. by rewrite I1 Hm.
      + rewrite D1. do 2 f_equal. apply map_ext_in => i Hi. apply I1 in Hi. destruct Hi as [Hi _]. apply MK' in Hi. destruct Hi as [Hi _].
        have E := framed_star F (proj1 (proj2 (proj1 HM))) Hi. rewrite /seen_speed. cbn [q' eta_limits l_projected]. by rewrite E. }
  have [a [Ea [La Qa]]] := @over_rows_ok num (fun k => bind (eta_function G (eta_limits q (nth k (w_lo w) 0) (nth k (w_hi w) 0)) None nmass (sys_with s c1))
       (fun x => Ok (kept_slope (et_fit (fst (fst x))))))
     (fun k v => exists l, members n (in_shell q s (nth k (w_lo w) 0) (nth k (w_hi w) 0)) l /\
         eta_slope (mass c) (fun i => seen_speed (l_projected q) (y_k (own_system s)) i) l nmass v) None (row_count w) OV.
  rewrite Ea. cbn [bind]. exists (w_lo w), (w_mid w), (w_hi w). do 5 eexists. split; [reflexivity|].
  split; [exact Ad|]. split.
  { exists (chosen msk). split; [exact ME|].
    have -> : map (radius3 s) (chosen msk) = map (fun i => nth i (d_r (c_der c1)) 0) (chosen msk); [|exact Spn].
    apply map_ext_in => i /chosen_In [Hi _]. rewrite Er3 //. by rewrite -L. }
  split; [exact Le|]. split; [exact Lmid|]. split; [by rewrite La /row_count seq_length|]. split; [exact R2|].
  split; [|split; [reflexivity|split; [|apply (sys_restored HR HA); exact (of_sees F)]]]; last first.
  { move=> Ebt k Hk. rewrite Ebt /rows_of in Ew. have Nx : select msk (d_r (c_der c1)) <> [].
    { destruct PR as [i [_ [Hi [_ [Ai _]]]]]. rewrite (@select_chosen _ 0 msk (d_r (c_der c1))) ?L //. move=> /map_eq_nil E0.
      have Ii : In i (chosen msk) by apply ME. by rewrite E0 in Ii. }
    cbn [own_bins] in Ew. destruct (nbinmaker (select msk (d_r (c_der c1))) nrad) as [b|] eqn:Eb => //. cbn [bind] in Ew.
    have El : w_lo w = b_lo b by have := f_equal (fun z => match z with Ok a => w_lo a | Raise => [] end) Ew.
    have Iv := nbin_lower_in Nx Hr Eb (v := nth k (w_lo w) 0). rewrite -El in Iv. have := Iv (nth_In _ _ Hk).
    rewrite (@select_chosen _ 0 msk (d_r (c_der c1))) ?L // => /in_map_iff [i [Ei Ii]]. apply ME in Ii. destruct Ii as [Hi Ai].
    exists i. split=> //. split=> //. by rewrite -Ei Er3. }
  move=> k Hk. have [D1 D2] := Wd k Hk. split; [exact D2|]. split; [exact D1|].
  have := Qa k ltac:(by rewrite /row_count seq_length Lmid). rewrite /row_count seq_nth ?Lmid //.
Qed.
End WithGalpy.
