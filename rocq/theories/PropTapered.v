(* C83: tapered mass functions. *)
From Verif Require Import Base ModelCluster ModelOps ModelConv ModelEnergy ModelRecipes ModelStars ModelSubset ModelLagrange ModelProfiles ModelMassFunction ModelTapered.
From Verif Require Import SpecUnits SpecFrame SpecOrder SpecRecipes SpecEnergy SpecStars SpecSubset SpecLagrange SpecProfiles SpecMassFunction SpecRadii SpecTapered.
From Verif Require Import ProofsUnits ProofsFrame ProofsEnergy2 ProofsStars ProofsSubset ProofsSubset2 ProofsSubset3 ProofsSubset4 ProofsProfiles ProofsProfiles2 ProofsProfiles3.
From Verif Require Import ProofsRecipes ProofsMassFunction2 ProofsMassFunction3 ProofsMassFunction6 ProofsTapered.
From Verif Require Import PropUnits PropSubset PropProfiles PropMassFunction.

(* the law: below the power law A m^alpha, of which it keeps a fraction that grows with m; far below mc it is the steeper law A m^alpha (m/mc)^beta, up to a factor
   1 + (m/mc)^beta; at mc the fraction is 1 - 1/e *)
Theorem C83_tapered_law :
  forall (A alpha mc beta : R), 0 < A -> 0 < mc -> 0 < beta ->
    (forall m, 0 < m -> 0 < tpl_func m A alpha mc beta < A * Rpower m alpha) /\
    (forall m, 0 < m -> let steep := A * Rpower m alpha * Rpower (m / mc) beta in
       tpl_func m A alpha mc beta < steep <= tpl_func m A alpha mc beta * (1 + Rpower (m / mc) beta)) /\
    (forall m m', 0 < m < m' -> tpl_func m A alpha mc beta / (A * Rpower m alpha) < tpl_func m' A alpha mc beta / (A * Rpower m' alpha)) /\
    tpl_func mc A alpha mc beta = A * Rpower mc alpha * (1 - / exp 1).
Proof.
  intros A alpha mc beta HA Hc Hb.
  assert (E : forall m, 0 < m -> tpl_func m A alpha mc beta = A * Rpower m alpha * (1 - exp (- Rpower (m / mc) beta))) by (intros m Hm; now apply tpl_law).
  assert (P : forall m, 0 < A * Rpower m alpha) by (intros m; apply Rmult_lt_0_compat; [exact HA|apply exp_pos]).
  assert (T : forall m, 0 < Rpower (m / mc) beta) by (intros m; apply exp_pos).
  assert (X : forall t, 0 < t -> 0 < 1 - exp (- t) < 1 /\ 1 - exp (- t) < t /\ t <= (1 - exp (- t)) * (1 + t)).
  { intros t Ht. pose proof (exp_pos (- t)) as H0. assert (H1 : exp (- t) < 1) by (rewrite -exp_0; apply exp_increasing; lra).
    assert (H2 : 1 - t < exp (- t)) by (pose proof (exp_ineq1 (- t) ltac:(lra)); lra). assert (H3 : 1 + t < exp t) by (apply exp_ineq1; lra).
    assert (H4 : exp (- t) * exp t = 1) by (rewrite -exp_plus Rplus_opp_l; apply exp_0). split; [lra|]. split; [lra|]. nra. }
  split; [|split; [|split]].
  - intros m Hm. rewrite E; [exact Hm|]. destruct (X _ (T m)) as [X1 _]. pose proof (P m). split; [apply Rmult_lt_0_compat; lra|]. rewrite <- (Rmult_1_r (A * Rpower m alpha)) at 2.
    apply Rmult_lt_compat_l; lra.
  - intros m Hm. cbv zeta. rewrite E; [exact Hm|]. destruct (X _ (T m)) as [_ [X2 X3]]. pose proof (P m). split; [apply Rmult_lt_compat_l; lra|].
    rewrite (Rmult_assoc (A * Rpower m alpha)). apply Rmult_le_compat_l; lra.
  - intros m m' [Hm Hm']. rewrite !E; [exact Hm|lra|]. assert (Q : forall k y, 0 < k -> k * y / k = y) by (intros k y Hk; field; lra). rewrite !Q; try apply P.
    apply Rplus_lt_compat_l, Ropp_lt_contravar, exp_increasing, Ropp_lt_contravar. apply Rlt_Rpower_l; [exact Hb|]. split; [now apply Rdiv_lt_0_compat|].
    apply Rmult_lt_compat_r; [now apply Rinv_0_lt_compat|exact Hm'].
  - rewrite E; [exact Hc|]. unfold Rdiv. rewrite Rinv_r; [lra|]. unfold Rpower at 2. rewrite ln_1 Rmult_0_r exp_0 exp_Ropp. reflexivity.
Qed.
Print Assumptions C83_tapered_law.

(* tapered_mass_function: the rows are the histogram of the stars picked, as for mass_function; the routine fits the tapered law to the densities themselves, with A not
   negative and mc between the smallest and largest mass of all stars unless bounds are given; the cluster is as before *)
Theorem C83_tapered_mass_function :
  forall fit (G : galpy) (q : selection) (indx : option (list bool)) (s : system) (n nmass : nat) (mcorr : option (list R)) (lower upper : option (list num)) (l : list nat),
    let c := g_c (y_k s) in
    profile_input G q indx s n -> members n (picked q indx s) l -> (0 < nmass <= length l)%nat -> mass_spread (picked q indx s) (mass c) n -> corrections_fit mcorr n ->
    (forall i, In i l -> 0 < mass c i /\ 0 < correction mcorr i) ->
    exists mean hist d F lo hi s' caller, histogram_of (mass c) (correction mcorr) l nmass mean hist (map (@Some R) d) /\ natsum hist = length l /\
      is_tapered_law F /\ bounds_of (p_m (c_ph c)) lower upper lo hi /\ system_restored s s' /\ mask_after q indx s n caller /\
      tapered_mass_function fit G q indx nmass mcorr lower upper s =
        match fit F mean d lo hi with Ok f => Ok (Eleven mean hist (map (@Some R) d) f, s', caller) | Raise => Raise end.
Proof.
  cbv zeta. intros fit G q indx s n nmass mcorr lower upper l [[u [o HR]] [HA [HM [EK MF]]]] ML [H0 Hl] SP CF PO.
  assert (Hn : (0 < n)%nat) by (destruct SP as [i [_ [Hi _]]]; lia). destruct (mass_frame_ok HR HA) as [S0 [E1 [E2 NO]]].
  destruct (tapered_gen E1 E2 NO HM EK MF Hn fit lower upper ML H0 Hl SP CF) as [mean [hist [dens [caller [E [HI [NS MA]]]]]]].
  destruct (histogram_positive HI PO) as [PM [d [Ed Pd]]].
  assert (NE : p_m (c_ph (g_c (y_k s))) <> []).
  { intros X. destruct SP as [i [_ [Hi _]]]. assert (L : length (p_m (c_ph (g_c (y_k s)))) = n) by exact (proj1 (proj2 (proj1 HM))). rewrite X in L. cbn in L. lia. }
  rewrite Ed in HI, E. destruct (@fit_tapered_ok fit _ mean d lower upper NE PM Pd) as [lo [hi [BO EF]]]. rewrite EF in E.
  eexists mean, hist, d, tpl_func, lo, hi. eexists. exists caller. split; [exact HI|]. split; [exact NS|]. split; [exact tpl_law|]. split; [exact BO|].
  split; [exact (sys_restored HR HA S0)|]. split; [exact MA|]. rewrite E. now destruct (fit tpl_func mean d lo hi).
Qed.
Print Assumptions C83_tapered_mass_function.

(* with a routine that finds the best parameters: A is not negative, mc is one of the masses in the cluster or between them, no such parameters are closer to the
   densities, and densities that lie on a tapered law are met exactly *)
Theorem C83_best_parameters :
  forall fit (G : galpy) (q : selection) (indx : option (list bool)) (s : system) (n nmass : nat) (mcorr : option (list R)) (l : list nat) mean hist dens f s' caller,
    let c := g_c (y_k s) in let within p := 0 <= tp_A p /\ in_range (p_m (c_ph c)) (tp_mc p) in
    profile_input G q indx s n -> members n (picked q indx s) l -> (0 < nmass <= length l)%nat -> mass_spread (picked q indx s) (mass c) n -> corrections_fit mcorr n ->
    (forall i, In i l -> 0 < correction mcorr i) -> all_positive (p_m (c_ph c)) ->
    exact_fitter fit -> tapered_mass_function fit G q indx nmass mcorr None None s = Ok (Eleven mean hist dens f, s', caller) ->
    within f /\ exists d, dens = map (@Some R) d /\ length d = length mean /\ (forall p, within p -> off_law mean d f <= off_law mean d p) /\
      forall p, within p -> (forall k, (k < length mean)%nat -> nth k d 0 = tapered_law (tp_A p) (tp_alpha p) (tp_mc p) (tp_beta p) (nth k mean 0)) ->
        forall k, (k < length mean)%nat -> nth k d 0 = tapered_law (tp_A f) (tp_alpha f) (tp_mc f) (tp_beta f) (nth k mean 0).
Proof.
  cbv zeta. intros fit G q indx s n nmass mcorr l mean hist dens f s' caller PI ML Hl SP CF PC PA EF E.
  assert (LM : length (p_m (c_ph (g_c (y_k s)))) = n) by exact (proj1 (proj2 (proj1 (proj1 (proj2 (proj2 PI)))))).
  assert (PO : forall i, In i l -> 0 < mass (g_c (y_k s)) i /\ 0 < correction mcorr i).
  { intros i Ii. split; [|now apply PC]. apply PA. apply nth_In. rewrite LM. apply ML in Ii. now destruct Ii. }
  destruct (C83_tapered_mass_function fit G q indx s n nmass mcorr None None l PI ML Hl SP CF PO) as [mean' [hist' [d [F [lo [hi [s1 [cl [HI [_ [TL [BO [_ [_ E']]]]]]]]]]]]]].
  rewrite E' in E. destruct (fit F mean' d lo hi) as [f'|] eqn:EFt; [|discriminate]. injection E as <- <- <- <- _ _.
  destruct (EF _ _ _ _ _ _ EFt) as [IB BE]. destruct (histogram_positive HI PO) as [PM _].
  destruct BO as [a [b [La [Gb [-> ->]]]]].
  assert (WB : forall p, in_bounds [Some 0; None; Some a; None] [None; None; Some b; None] p <-> 0 <= tp_A p /\ in_range (p_m (c_ph (g_c (y_k s)))) (tp_mc p)).
  { intros p. split.
    - intros H. pose proof (H 0%nat ltac:(lia)) as [H1 _]. pose proof (H 2%nat ltac:(lia)) as [H2 H3]. cbn in H1, H2, H3. split; [exact H1|]. exists a, b. split; [exact La|]. split; [exact Gb|]. now split.
    - intros [H1 [a' [b' [La' [Gb' [H2 H3]]]]]]. assert (Ea : a <= a') by (apply (proj2 La); exact (proj1 La')). assert (Eb : b' <= b) by (apply (proj2 Gb); exact (proj1 Gb')).
      intros k Hk. do 4 (destruct k as [|k]; [cbn; split; try exact I; try exact H1; try exact (Rle_trans _ _ _ Ea H2); exact (Rle_trans _ _ _ H3 Eb)|]). lia. }
  assert (AL : forall p, 0 <= tp_A p /\ in_range (p_m (c_ph (g_c (y_k s)))) (tp_mc p) -> apart F mean' d p = off_law mean' d p).
  { intros p [_ [a' [b' [La' [_ [H2 _]]]]]]. apply apart_ext. intros x Ix. apply TL; [exact (PM x Ix)|]. pose proof (PA _ (proj1 La')). lra. }
  assert (Ld : length d = length mean').
  { destruct HI as [lo' [hi' [_ [_ [_ [L1 [_ [L3 _]]]]]]]]. rewrite map_length in L3. congruence. }
  assert (WF := proj1 (WB f') IB). split; [exact WF|]. exists d. split; [reflexivity|]. split; [exact Ld|].
  assert (MIN : forall p, 0 <= tp_A p /\ in_range (p_m (c_ph (g_c (y_k s)))) (tp_mc p) -> off_law mean' d f' <= off_law mean' d p).
  { intros p Wp. rewrite -(AL p Wp) -(AL f' WF). apply BE. now apply WB. }
  split; [exact MIN|]. intros p Wp OL. assert (Zp : off_law mean' d p = 0) by (apply on_law_zero; [now symmetry|exact OL]).
  assert (Zf : off_law mean' d f' = 0) by (pose proof (MIN p Wp); pose proof (apart_nonneg (fun m A alpha mc beta => tapered_law A alpha mc beta m) mean' d f'); unfold off_law in *; lra).
  exact (apart_zero (eq_sym Ld) Zf).
Qed.
Print Assumptions C83_best_parameters.

(* tapered_dx_function: the rows of dx_function (C39), the law fitted to their densities, mc between the smallest and largest value *)
Theorem C83_tapered_distribution :
  forall fit (x : list R) (nx : nat) (bt : bintype), x <> [] -> ~ constant x -> (0 < nx)%nat -> all_positive x ->
  exists lo hi l d F a b, adjacent lo hi /\ spans x lo hi /\ (length lo <= nx)%nat /\ filled_bins x lo hi l /\ natsum (map w_n l) = length x /\ map w_d l = map (@Some R) d /\
    is_tapered_law F /\ least x a /\ greatest x b /\
    tapered_dx_function fit None x nx bt = match fit F (map w_x l) d [Some 0; None; Some a; None] [None; None; Some b; None] with Ok f => Ok (l, f) | Raise => Raise end.
Proof.
  intros fit x nx bt N NC H0 P. destruct (C39_distribution_function x nx bt N NC H0) as [lo [hi [l [ft [E [Ad [Sp [Le [FB [NS _]]]]]]]]]].
  destruct (filled_positive Ad Sp P FB) as [PM [d [Ed [_ Pd]]]].
  destruct (@fit_tapered_ok fit x (map w_x l) d None None N PM ltac:(intros v Iv; apply Rlt_le; now apply Pd)) as [lo' [hi' [[a [b [La [Gb [El Eh]]]]] EF]]].
  exists lo, hi, l, d, tpl_func, a, b. do 6 (split; [assumption|]). split; [exact tpl_law|]. split; [exact La|]. split; [exact Gb|].
  rewrite tapered_dx_rows E. cbn [bind fst]. rewrite Ed EF El Eh. now destruct (fit tpl_func (map w_x l) d _ _).
Qed.
Print Assumptions C83_tapered_distribution.

(* the method mass_function returns and keeps the slope of the function of the same name *)
Theorem C83_slope_method :
  forall (G : galpy) (own : bool) (projected : option bool) (q : selection) (indx : option (list bool)) (s : system) (n nmass : nat) (bt : bintype) (l : list nat),
    let c := g_c (y_k s) in let q' := with_projection own projected q in
    profile_input G q' indx s n -> members n (picked q' indx s) l -> (0 < nmass <= length l)%nat -> mass_spread (picked q' indx s) (mass c) n ->
    exists mean hist dens fit s' caller, mass_method G own projected q indx nmass bt None s = Ok (option_map t_slope fit, s', caller) /\
      histogram_of (mass c) (fun _ => 1) l nmass mean hist dens /\ fits_power_law mean dens fit /\ system_restored s s'.
Proof.
  cbv zeta. intros G own pr q indx s n nmass bt l PI ML Hl SP.
  destruct (C39_mass_function_counts G (with_projection own pr q) indx s n nmass bt None l PI ML Hl SP I) as [t [s' [caller [E [HI [_ [FP [_ RS]]]]]]]].
  exists (mt_mean t), (mt_hist t), (mt_dm t), (mt_fit t), s', caller. split; [|split; [exact HI|split; [exact FP|exact RS]]].
  unfold mass_method. rewrite E. cbn [bind].
  assert (X : mt_error t = None); [|now rewrite X].
  clear -E. unfold mass_function in E. cbv zeta in E. destruct (get_subset _ indx _) as [[[msk|] k]|]; [| |discriminate]; cbn [bind fst snd] in E.
  - destruct (Nat.leb nmass (count msk)); [destruct (Nat.eqb _ _); [|discriminate]; destruct (rows_of _ _ _ _ _) as [w|]; [|discriminate]; cbn [bind] in E|];
      apply (f_equal (fun z => match z with Ok (a, _, _) => a | Raise => t end)) in E; cbv beta iota in E; now rewrite -E.
  - apply (f_equal (fun z => match z with Ok (a, _, _) => a | Raise => t end)) in E; cbv beta iota in E; now rewrite -E.
Qed.
Print Assumptions C83_slope_method.

(* ------------------------------------------------------------------ findings *)
(* the method cannot be used with corrections: it raises, whatever the stars *)
Theorem C83_corrections_in_method_refuted :
  forall (G : galpy) (own : bool) (projected : option bool) (q : selection) (indx : option (list bool)) (s : system) (nmass : nat) (bt : bintype) (corr : list R),
    mass_method G own projected q indx nmass bt (Some corr) s = Raise.
Proof.
  intros G own pr q indx s nmass bt corr. unfold mass_method, mass_function. cbv zeta. destruct (get_subset _ indx _) as [[[msk|] k]|]; cbn [bind fst snd]; [|reflexivity|reflexivity].
  destruct (Nat.leb nmass (count msk)); [|reflexivity]. destruct (Nat.eqb _ _); [|reflexivity]. now destruct (rows_of _ _ _ _ _).
Qed.
Print Assumptions C83_corrections_in_method_refuted.
(* with fewer stars than bins seven values come back in place of eleven: a caller that unpacks eleven fails *)
Theorem C83_too_few_refuted :
  forall fit (G : galpy) (q : selection) (indx : option (list bool)) (s : system) (n nmass : nat) (mcorr : option (list R)) (lower upper : option (list num)) (l : list nat),
    profile_input G q indx s n -> (0 < n)%nat -> members n (picked q indx s) l -> (length l < nmass)%nat ->
    exists s' caller, tapered_mass_function fit G q indx nmass mcorr lower upper s =
      Ok (Seven (repeat 0 nmass) (repeat 0%nat nmass) (repeat (Some 0) nmass) (mkFit (-1000) (-1000) (-1000) (-1000)), s', caller) /\ system_restored s s'.
Proof.
  intros fit G q indx s n nmass mcorr lower upper l [[u [o HR]] [HA [HM [EK MF]]]] Hn ML Hl. destruct (mass_frame_ok HR HA) as [S0 [E1 [E2 NO]]].
  destruct (tapered_few E1 E2 NO HM EK MF Hn fit mcorr lower upper ML Hl) as [caller [E _]]. eexists. exists caller. split; [exact E|]. exact (sys_restored HR HA S0).
Qed.
Print Assumptions C83_too_few_refuted.

(* ------------------------------------------------------------------ the hypotheses are met: the five stars of PropProfiles; a routine that can fit one point, exactly *)
Definition one_point (F : R -> R -> R -> R -> R -> R) (x y : list R) (lo hi : list num) : result tapered :=
  match x, y, lo, hi with
  | [a], [b], [Some z; None; Some l; None], [None; None; Some h; None] =>
      let p := mkTap (b / (1 - / exp 1)) 0 a 1 0 0 0 0 in
      if Rleb z (tp_A p) && Rleb l a && Rleb a h && Reqb (apart F x y p) 0 then Ok p else Raise
  | _, _, _, _ => Raise
  end.
Lemma one_point_exact : exact_fitter one_point.
Proof.
  intros F x y lo hi p. unfold one_point. destruct x as [|a [|]]; try discriminate. destruct y as [|b [|]]; try discriminate.
  destruct lo as [|[z|] [|[|] [|[l|] [|[|] [|]]]]]; try discriminate. destruct hi as [|[|] [|[|] [|[h|] [|[|] [|]]]]]; try discriminate.
  cbv zeta. destruct (_ && _) eqn:E; [|discriminate]. intros X. injection X as <-. apply andb_true_iff in E. destruct E as [E E0]. apply andb_true_iff in E. destruct E as [E E3].
  apply andb_true_iff in E. destruct E as [E1 E2]. apply Rleb_spec in E1, E2, E3. apply Reqb_spec in E0. split.
  - intros k Hk. do 4 (destruct k as [|k]; [cbn; cbn in E1; split; try exact I; assumption|]). lia.
  - intros p' _. rewrite E0. apply apart_nonneg.
Qed.
Example C83_hypotheses_met : let s := prof_system Ocluster 0 in let c := g_c (y_k s) in
  profile_input demo_galpy select_default None s 5 /\ members 5 (picked select_default None s) [0; 1; 2; 3; 4]%nat /\ mass_spread (picked select_default None s) (mass c) 5 /\
  corrections_fit None 5 /\ all_positive (p_m (c_ph c)) /\ exact_fitter one_point /\
  exists mean hist dens f s' caller, tapered_mass_function one_point demo_galpy select_default None 1 None None None s = Ok (Eleven mean hist dens f, s', caller).
Proof.
  cbv zeta. destruct C39_hypotheses_met as [[PI [ML [SP _]]] _]. split; [exact PI|]. split; [exact ML|]. split; [exact SP|]. split; [exact I|].
  assert (PM : p_m (c_ph (g_c (y_k (prof_system Ocluster 0)))) = [1; 2; 3; 1; 1]).
  { unfold prof_system. cbn [y_k g_c]. destruct (analyze_ph true true (prof_raw Ocluster 0)) as [Q1 _]. now rewrite Q1. }
  assert (PP : all_positive (p_m (c_ph (g_c (y_k (prof_system Ocluster 0)))))) by (rewrite PM; intros v [H|[H|[H|[H|[H|[]]]]]]; subst; lra).
  split; [exact PP|]. split; [exact one_point_exact|].
  assert (PO : forall i, In i [0; 1; 2; 3; 4]%nat -> 0 < mass (g_c (y_k (prof_system Ocluster 0))) i /\ 0 < correction None i).
  { intros i Hi. split; [|unfold correction; lra]. rewrite prof_mass. destruct Hi as [<-|[<-|[<-|[<-|[<-|[]]]]]]; cbn; lra. }
  destruct (C83_tapered_mass_function one_point demo_galpy select_default None (prof_system Ocluster 0) 5 1 None None None [0; 1; 2; 3; 4]%nat PI ML ltac:(cbn; lia) SP I PO)
    as [mean [hist [d [F [lo [hi [s' [caller [HI [NS [TL [BO [_ [_ E]]]]]]]]]]]]]].
  destruct (one_point F mean d lo hi) as [f|] eqn:EF; [now exists mean, hist, (map (@Some R) d), f, s', caller|]. exfalso. clear E.
  destruct BO as [a [b [La [Gb [-> ->]]]]]. destruct (histogram_positive HI PO) as [PMn _].
  destruct HI as [l1 [h1 [Ad [Sp [Le [L1 [L2 [L3 H]]]]]]]]. rewrite map_length in L3.
  assert (LL : length l1 = 1%nat) by (destruct Ad as [_ [N _]]; destruct l1 as [|? [|]]; [easy|reflexivity|cbn in Le; lia]).
  rewrite LL in L1, L3. destruct mean as [|x [|]]; try discriminate. destruct d as [|y [|]]; try discriminate.
  destruct (H 0%nat ltac:(lia)) as [W [[W1 W2] [lk [_ [Ik [_ D]]]]]]. cbn [nth map] in W1, W2, D. injection D as D.
  assert (Sp' := Sp). destruct Sp' as [S1 S2]. assert (LH : length h1 = 1%nat) by (destruct Ad as [A _]; lia). rewrite LH in S2. cbn [Nat.sub] in S2.
  assert (R1 : 1 <= nth 0 l1 0). { destruct S1 as [S1 _]. apply in_map_iff in S1. destruct S1 as [i [<- Ii]]. rewrite prof_mass. destruct Ii as [<-|[<-|[<-|[<-|[<-|[]]]]]]; cbn; lra. }
  assert (R2 : nth 0 h1 0 <= 3). { destruct S2 as [S2 _]. apply in_map_iff in S2. destruct S2 as [i [<- Ii]]. rewrite prof_mass. destruct Ii as [<-|[<-|[<-|[<-|[<-|[]]]]]]; cbn; lra. }
  assert (A1 : a <= 1) by (apply (proj2 La); rewrite PM; cbn; tauto). assert (B1 : 3 <= b) by (apply (proj2 Gb); rewrite PM; cbn; tauto).
  assert (E1 : 0 < 1 - / exp 1). { pose proof (exp_pos 1). assert (1 < exp 1) by (pose proof (exp_ineq1 1 ltac:(lra)); lra). assert (/ exp 1 < 1); [|lra]. rewrite <- Rinv_1 at 2. apply Rinv_lt_contravar; lra. }
  assert (Y : 0 <= y).
  { rewrite D. apply Rmult_le_pos; [|apply Rlt_le, Rinv_0_lt_compat; lra]. clear. induction lk as [|i lk IH]; cbn [map sumR]; [lra|]. lra. }
  assert (X0 : 0 < x) by lra.
  unfold one_point in EF. cbv zeta in EF. cbn [tp_A tp_alpha tp_mc tp_beta apart combine map sumR fst snd] in EF.
  assert (C : Rleb 0 (y / (1 - / exp 1)) && Rleb a x && Rleb x b && Reqb (apart F [x] [y] (mkTap (y / (1 - / exp 1)) 0 x 1 0 0 0 0)) 0 = true); [|rewrite C in EF; discriminate].
  repeat (apply andb_true_intro; split).
  - apply Rleb_spec. apply Rmult_le_pos; [exact Y|]. apply Rlt_le, Rinv_0_lt_compat. exact E1.
  - apply Rleb_spec. lra.
  - apply Rleb_spec. lra.
  - apply Reqb_spec. unfold apart. cbn [combine map sumR fst snd tp_A tp_alpha tp_mc tp_beta]. rewrite TL; [exact X0|exact X0|]. unfold tapered_law, Rdiv.
    rewrite (Rinv_r x); [lra|]. unfold Rpower. rewrite ln_1 Rmult_0_r Rmult_0_l exp_0 exp_Ropp. field. pose proof (exp_pos 1). split; [lra|].
    intros X. assert (1 < exp 1) by (pose proof (exp_ineq1 1 ltac:(lra)); lra). lra.
Qed.
