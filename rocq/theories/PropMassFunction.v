(* C39, C51, C64, C65, C66: mass functions, velocity dispersion against mass, and their radial profiles. *)
From Coq Require Import Sorted.
From Verif Require Import Base ModelCluster ModelOps ModelConv ModelEnergy ModelRecipes ModelStars ModelSubset ModelCoords ModelLagrange ModelProfiles ModelMassFunction.
From Verif Require Import SpecUnits SpecFrame SpecOrder SpecRecipes SpecEnergy SpecStars SpecSubset SpecLagrange SpecProfiles SpecMassFunction.
From Verif Require Import ProofsUnits ProofsFrame ProofsEnergy2 ProofsStars ProofsSubset3 ProofsSubset4 ProofsLagrange ProofsLagrange2 ProofsProfiles ProofsProfiles3 ProofsProfiles4 ProofsProfiles5 ProofsProfiles6 ProofsProfiles7 PropUnits PropSubset PropProfiles.
From Verif Require Import ProofsMassFunction ProofsMassFunction2 ProofsMassFunction3 ProofsMassFunction4 ProofsMassFunction5 ProofsMassFunction6.

(* C39: mass_function counts every picked star (in the mask, within all limits as stored) exactly once: the mass bins are
   consecutive from the smallest to the largest picked mass, the numbers add up to the number of picked stars, dN/dm is
   the corrected number over the width of the bin, and alpha is the least squares slope of log dN/dm against log m: exact
   for densities on a power law.  The cluster object is as before. *)
Theorem C39_mass_function_counts :
  forall (G : galpy) (q : selection) (indx : option (list bool)) (s : system) (n nmass : nat) (bt : bintype)
    (mcorr : option (list R)) (l : list nat),
    let c := g_c (y_k s) in
    profile_input G q indx s n -> members n (picked q indx s) l -> (0 < nmass <= length l)%nat ->
    mass_spread (picked q indx s) (mass c) n -> corrections_fit mcorr n ->
    exists t s' caller, mass_function G q indx nmass bt mcorr s = Ok (t, s', caller) /\
      histogram_of (mass c) (correction mcorr) l nmass (mt_mean t) (mt_hist t) (mt_dm t) /\
      natsum (mt_hist t) = length l /\ fits_power_law (mt_mean t) (mt_dm t) (mt_fit t) /\
      (bt = Num -> (3 <= length (mt_mean t))%nat ->
         (forall i, (i < n)%nat -> picked q indx s i -> 0 < mass c i /\ 0 < correction mcorr i) -> mt_fit t <> None) /\
      system_restored s s'.
Proof.
  cbn zeta. intros G q indx s n nmass bt mcorr l [[u [o HR]] [HA [HM [EK MF]]]] ML [H0 Hl] SP CF.
  assert (Hn : (0 < n)%nat) by (destruct SP as [i [_ [Hi _]]]; lia).
  destruct (mass_frame_ok HR HA) as [S0 [E1 [E2 NO]]].
  destruct (mass_function_gen E1 E2 NO HM EK MF Hn bt ML H0 Hl SP CF) as [t [caller [E [A1 [A2 [A3 A4]]]]]].
  exists t. eexists. exists caller. split; [exact E|]. split; [exact A1|]. split; [exact A2|]. split; [exact A3|]. split; [exact A4|].
  exact (sys_restored HR HA S0).
Qed.
Print Assumptions C39_mass_function_counts.

(* C39: with fewer picked stars than bins the markers are returned *)
Theorem C39_too_few_stars :
  forall (G : galpy) (q : selection) (indx : option (list bool)) (s : system) (n nmass : nat) (bt : bintype)
    (mcorr : option (list R)) (l : list nat),
    profile_input G q indx s n -> (0 < n)%nat -> members n (picked q indx s) l -> (length l < nmass)%nat ->
    exists t s' caller, mass_function G q indx nmass bt mcorr s = Ok (t, s', caller) /\
      mt_hist t = repeat 0%nat nmass /\ mt_fit t = Some (mkFit (-1000) (-1000) (-1000) (-1000)) /\ system_restored s s'.
Proof.
  intros G q indx s n nmass bt mcorr l [[u [o HR]] [HA [HM [EK MF]]]] Hn ML Hl.
  destruct (mass_frame_ok HR HA) as [S0 [E1 [E2 NO]]].
  destruct (mass_function_few E1 E2 NO HM EK MF Hn bt mcorr ML Hl) as [caller E].
  do 2 eexists. exists caller. split; [exact E|]. split; [reflexivity|]. split; [reflexivity|]. exact (sys_restored HR HA S0).
Qed.
Print Assumptions C39_too_few_stars.

(* C39: dx_function counts every value: the rows are the bins that hold a value, with its density, and the numbers add up *)
Theorem C39_distribution_function :
  forall (x : list R) (nx : nat) (bt : bintype), x <> [] -> ~ constant x -> (0 < nx)%nat ->
  exists lo hi l fit, dx_function None x nx bt = Ok (l, fit) /\ adjacent lo hi /\ spans x lo hi /\ (length lo <= nx)%nat /\
    filled_bins x lo hi l /\ natsum (map w_n l) = length x /\ fits_power_law (map w_x l) (map w_d l) fit /\
    ((3 <= length l)%nat -> all_positive x -> ~ constant (map w_x l) -> fit <> None).
Proof. exact dx_function_ok. Qed.
Print Assumptions C39_distribution_function.

(* C39: with bins given by the caller that contain every value: the rows are the bins that hold a value *)
Theorem C39_given_bins :
  forall (x lo mid hi : list R) (nx : nat) (bt : bintype), adjacent lo hi ->
  (forall k, (k < length lo)%nat -> nth k lo 0 < nth k hi 0) -> length mid = length lo ->
  (forall v, In v x -> nth 0 lo 0 <= v <= nth (length hi - 1) hi 0) ->
  exists l fit, dx_function (Some (lo, mid, hi)) x nx bt = Ok (l, fit) /\ users_bins x lo mid hi l /\
    natsum (map w_n l) = length x /\ fits_power_law (map w_x l) (map w_d l) fit.
Proof. exact dx_function_given. Qed.
Print Assumptions C39_given_bins.
(* finding: values outside all the given bins are counted too, in the first or last bin *)
Theorem C39_values_outside_bins_refuted :
  forall (x lo mid hi : list R) (nx : nat) (bt : bintype), adjacent lo hi ->
  (forall k, (k < length lo)%nat -> nth k lo 0 < nth k hi 0) ->
  (forall v, In v x -> v < nth 0 lo 0 \/ nth (length hi - 1) hi 0 < v) ->
  exists l fit, dx_function (Some (lo, mid, hi)) x nx bt = Ok (l, fit) /\ natsum (map w_n l) = length x.
Proof. intros x lo mid hi nx bt Ad Wd _. exact (dx_function_outside x mid nx bt Ad Wd). Qed.
Print Assumptions C39_values_outside_bins_refuted.
Example C39_given_bins_met : exists x lo mid hi : list R, x <> [] /\ adjacent lo hi /\ (2 <= length lo)%nat /\
  (forall k, (k < length lo)%nat -> nth k lo 0 < nth k hi 0) /\ length mid = length lo /\
  (forall v, In v x -> nth 0 lo 0 <= v <= nth (length hi - 1) hi 0).
Proof.
  exists [1; 2; 3; 4], [1; 3], [2; 3], [3; 4]. split; [discriminate|]. split; [split; [reflexivity|split; [discriminate|split]]|].
  - intros [|[|k]] H; cbn in *; [lra|lra|lia].
  - intros [|[|k]] H; cbn in *; [lra|lia|lia].
  - split; [cbn; lia|]. split; [intros [|[|k]] H; cbn in *; [lra|lra|lia]|]. split; [reflexivity|].
    intros v H; cbn in *. lra.
Qed.

(* C64: eta_function bins the picked stars by mass; row k is the dispersion of the speeds in bin k, eta the least squares
   slope of log sigma against log m.  If equal masses merge bins, rows are missing and there is no fit. *)
Theorem C64_dispersion_against_mass :
  forall (G : galpy) (q : selection) (indx : option (list bool)) (s : system) (n nmass : nat) (l : list nat),
    let c := g_c (y_k s) in
    profile_input G q indx s n -> members n (picked q indx s) l -> (0 < nmass)%nat -> (2 * nmass <= length l)%nat ->
    mass_spread (picked q indx s) (mass c) n ->
    exists t s' caller, eta_function G q indx nmass s = Ok (t, s', caller) /\
      dispersions_of (mass c) (fun i => seen_speed (l_projected q) (y_k s) i) l nmass (et_mean t) (et_sigma t) /\
      ((length (et_mean t) < nmass)%nat -> et_fit t = None) /\
      (length (et_mean t) = nmass -> fits_power_law (et_mean t) (et_sigma t) (et_fit t)) /\
      system_restored s s'.
Proof.
  cbn zeta. intros G q indx s n nmass l [[u [o HR]] [HA [HM [EK MF]]]] ML H0 Hl SP.
  assert (Hn : (0 < n)%nat) by (destruct SP as [i [_ [Hi _]]]; lia).
  destruct (mass_frame_ok HR HA) as [S0 [E1 [E2 NO]]].
  destruct (eta_function_gen E1 E2 NO HM EK MF Hn ML H0 Hl SP) as [t [caller [E [A1 [A2 A3]]]]].
  exists t. eexists. exists caller. split; [exact E|]. split; [exact A1|]. split; [exact A2|]. split; [exact A3|].
  exact (sys_restored HR HA S0).
Qed.
Print Assumptions C64_dispersion_against_mass.

(* C65: row k of alpha_prof is the slope of the mass function of the stars asked for in radial bin k; only the main
   sequence stars among them are counted, whatever kwmax was asked *)
Theorem C65_slope_profile_partial :
  forall (G : galpy) (q : selection) (indx : option (list bool)) (s : system) (n nrad nmass : nat) (bt mbt : bintype)
    (mcorr : option (list R)) (normalize : bool),
    let c := g_c (y_k s) in let p := l_projected q in
    profile_input G q indx s n -> (0 < nrad)%nat -> profilable q indx s n -> (2 <= nmass)%nat -> corrections_fit mcorr n ->
    mixed (fun i => asked q indx s i /\ main_sequence s i) (mass c) n nmass ->
    (normalize = true -> weighed G p c /\ (p = true -> c_origin c <> Some Ogalaxy)) ->
    exists lo mid hi r a g s' caller,
      alpha_prof G q indx nrad bt nmass mbt mcorr normalize s = Ok (r, a, g, s', caller) /\
      covers q indx s n lo hi /\ (length lo <= nrad)%nat /\ length mid = length lo /\ length a = length lo /\
      (if normalize then exists h, is_fraction_radius (1/2) (own_distances p c) (p_m (c_ph c)) h /\ r = map (fun x => x / h) mid /\
         gradient_of h mid a g else r = mid) /\
      (forall k, (k < length lo)%nat -> nth k lo 0 < nth k hi 0 /\ nth k lo 0 <= nth k mid 0 <= nth k hi 0 /\
         exists l, members n (fun i => in_row_of false q indx s lo hi k i /\ main_sequence s i) l /\
           mass_slope (mass c) (correction mcorr) l nmass (nth k a None)) /\
      system_restored s s'.
Proof.
  cbn zeta. intros G q indx s n nrad nmass bt mbt mcorr normalize [[u [o HR]] [HA [HM [EK MF]]]] Hr PR H2 CF MX HN.
  have HL := aligned_measured HM.
  assert (HF : normalize = true -> exists h, half_mass (l_projected q) (profile_frame G true (g_c (y_k s))) = Some h /\
    is_fraction_radius (1/2) (own_distances (l_projected q) (g_c (y_k s))) (p_m (c_ph (g_c (y_k s)))) h).
  { intros E. destruct (HN E) as [[HP [HW [Hm Hs]]] Hp]. exact (frame_half HR HP HL HW Hp Hm Hs). }
  destruct (@alpha_prof_rows G q indx s n nrad u o HR HA HM EK MF Hr PR bt nmass mbt mcorr normalize H2 CF MX) as
    [lo [mid [hi [r [a [g [s' [caller [E [A1 [A2 [A3 [A4 [A5 [A6 [A7 A8]]]]]]]]]]]]]]]].
  { intros E. destruct (HF E) as [h [-> _]]. discriminate. }
  exists lo, mid, hi, r, a, g, s', caller. split; [exact E|]. split; [exact A1|]. split; [exact A2|]. split; [exact A3|]. split; [exact A4|].
  split; [|split; [exact A6|exact A8]]. destruct normalize; cbn in A5; [|exact A5]. destruct A5 as [x [Ex Er]]. destruct (HF eq_refl) as [h [D1 D2]].
  rewrite D1 in Ex. injection Ex as Ex. exists h. split; [exact D2|]. split; [now rewrite Ex|]. rewrite A7 D1. apply gradient_ok. congruence.
Qed.
Print Assumptions C65_slope_profile_partial.

(* C65 finding: when stellar types are known and no star is on the main sequence, every slope is 0: the stars asked for
   with kwmax=15 are dropped *)
Theorem C65_evolved_stars_refuted :
  forall (G : galpy) (q : selection) (indx : option (list bool)) (s : system) (n nrad nmass : nat) (bt mbt : bintype)
    (mcorr : option (list R)),
    profile_input G q indx s n -> (0 < nrad)%nat -> profilable q indx s n -> (2 <= nmass)%nat -> corrections_fit mcorr n ->
    e_kw (g_sse (y_k s)) <> [] -> (forall i, (i < n)%nat -> 1 < nth i (e_kw (g_sse (y_k s))) 0) ->
    exists r a g s' caller,
      alpha_prof G q indx nrad bt nmass mbt mcorr false s = Ok (r, a, g, s', caller) /\ forall x, In x a -> x = Some 0.
Proof.
  intros G q indx s n nrad nmass bt mbt mcorr HI Hr PR H2 CF KE KW.
  assert (NM : forall i, (i < n)%nat -> ~ main_sequence s i).
  { intros i Hi [E|[_ E]]; [contradiction|]. specialize (KW i Hi). lra. }
  destruct (@C65_slope_profile_partial G q indx s n nrad nmass bt mbt mcorr false HI Hr PR H2 CF) as
    [lo [mid [hi [r [a [g [s' [caller [E [A1 [A2 [A3 [A4 [A5 [A6 A7]]]]]]]]]]]]]]]; [|discriminate|].
  { intros l N I Hl. destruct l as [|i t]; [cbn in Hl; lia|]. exfalso. destruct (I i (or_introl eq_refl)) as [Hi [_ M]]. now apply (NM i Hi). }
  exists r, a, g, s', caller. split; [exact E|]. intros x Hx. destruct (In_nth _ _ None Hx) as [k [Hk Ek]]. rewrite A4 in Hk.
  destruct (A6 k Hk) as [_ [_ [l [[N I] [M _]]]]]. rewrite -Ek. apply M. destruct l as [|i t]; [cbn; lia|].
  exfalso. destruct (proj1 (I i) (or_introl eq_refl)) as [Hi [_ P]]. now apply (NM i Hi).
Qed.
Print Assumptions C65_evolved_stars_refuted.

(* C66: row k of eta_prof uses the stars between the two edges, both included, that are within the limits on speed, mass
   and type; the mask and the limits on energy and population only shape the bins; the bins are of three-dimensional radii *)
Theorem C66_dispersion_slope_profile_partial :
  forall (G : galpy) (q : selection) (indx : option (list bool)) (s : system) (n nrad nmass : nat) (bt : bintype) (normalize : bool),
    let c := g_c (y_k s) in let p := l_projected q in
    profile_input G q indx s n -> (0 < nrad)%nat -> mass_spread (asked q indx s) (radius3 s) n -> (1 <= nmass)%nat ->
    mixed (limited q s) (mass c) n (2 * nmass) ->
    (normalize = true -> weighed G p c /\ (p = true -> c_origin c <> Some Ogalaxy)) ->
    exists lo mid hi r a g s' caller,
      eta_prof G q indx nrad bt nmass normalize s = Ok (r, a, g, s', caller) /\
      adjacent lo hi /\ (exists l, members n (asked q indx s) l /\ spans (map (radius3 s) l) lo hi) /\
      (length lo <= nrad)%nat /\ length mid = length lo /\ length a = length lo /\
      (if normalize then exists h, is_fraction_radius (1/2) (own_distances p c) (p_m (c_ph c)) h /\ r = map (fun x => x / h) mid /\
         gradient_of h mid a g else r = mid) /\
      (forall k, (k < length lo)%nat -> nth k lo 0 < nth k hi 0 /\ nth k lo 0 <= nth k mid 0 <= nth k hi 0 /\
         exists l, members n (in_shell q s (nth k lo 0) (nth k hi 0)) l /\
           eta_slope (mass c) (fun i => seen_speed p (y_k (own_system s)) i) l nmass (nth k a None)) /\
      (* finding: with bins of equal numbers every inner edge is the radius of a star, which is used in two rows *)
      (bt = Num -> p = false -> forall k, (S k < length lo)%nat ->
         exists i, (i < n)%nat /\ in_shell q s (nth k lo 0) (nth k hi 0) i /\ in_shell q s (nth (S k) lo 0) (nth (S k) hi 0) i) /\
      system_restored s s'.
Proof.
  cbn zeta. intros G q indx s n nrad nmass bt normalize [[u [o HR]] [HA [HM [EK MF]]]] Hr PR H1 MX HN.
  have HL := aligned_measured HM.
  assert (HF : normalize = true -> exists h, half_mass (l_projected q) (profile_frame G true (g_c (y_k s))) = Some h /\
    is_fraction_radius (1/2) (own_distances (l_projected q) (g_c (y_k s))) (p_m (c_ph (g_c (y_k s)))) h).
  { intros E. destruct (HN E) as [[HP [HW [Hm Hs]]] Hp]. exact (frame_half HR HP HL HW Hp Hm Hs). }
  destruct (@eta_prof_rows G q indx s n nrad u o HR HA HM EK MF Hr PR bt nmass normalize H1 MX) as
    [lo [mid [hi [r [a [g [s' [caller [E [A1 [A1' [A2 [A3 [A4 [A5 [A6 [A7 [A9 A8]]]]]]]]]]]]]]]]]].
  { intros E. destruct (HF E) as [h [-> _]]. discriminate. }
  exists lo, mid, hi, r, a, g, s', caller. split; [exact E|]. split; [exact A1|]. split; [exact A1'|]. split; [exact A2|]. split; [exact A3|]. split; [exact A4|].
  split; [|split; [exact A6|split; [|exact A8]]].
  - destruct normalize; cbn in A5; [|exact A5]. destruct A5 as [x [Ex Er]]. destruct (HF eq_refl) as [h [D1 D2]].
    rewrite D1 in Ex. injection Ex as Ex. exists h. split; [exact D2|]. split; [now rewrite Ex|]. rewrite A7 D1. apply gradient_ok. congruence.
  - intros Eb Ep k Hk. destruct (A9 Eb (S k) Hk) as [i [Hi [[_ Ai] Ri]]]. exists i. split; [exact Hi|].
    assert (LM : limited q s i).
    { destruct Ai as [_ [B1 [B2 [_ [_ B3]]]]]. split; [exact B1|]. split; [exact B2|exact B3]. }
    assert (Er : radius_of q s i = radius3 s i) by (unfold radius_of, radius3; now rewrite Ep).
    destruct (A6 k ltac:(lia)) as [W1 _]. destruct (A6 (S k) Hk) as [W2 _]. destruct A1 as [_ [_ [_ Ad]]]. specialize (Ad k Hk).
    split; split; try exact LM; rewrite Er Ri; lra.
Qed.
Print Assumptions C66_dispersion_slope_profile_partial.

(* C51: the fitting function of the characteristic mass: positive, strictly decreasing, and smooth: its logarithmic slope
   is -m/(2 meq) below meq and -1/2 above (energy equipartition), so it is continuous with its slope at meq; the array
   branch gives the same values *)
Theorem C51_characteristic_mass_function :
  forall (meq sigma0 : R), 0 < meq -> 0 < sigma0 ->
    (forall m, 0 < meq_func m meq sigma0) /\
    (forall a b, a < b -> meq_func b meq sigma0 < meq_func a meq sigma0) /\
    (forall m, 0 < m -> derivable_pt_lim (fun x => meq_func x meq sigma0) m (- meq_func m meq sigma0 / (2 * Rmax m meq))) /\
    meq_func 0 meq sigma0 = sigma0 /\ meq_func meq meq sigma0 = sigma0 / sqrt (exp 1) /\
    forall l, meq_func_array l meq sigma0 = map (fun a => meq_func a meq sigma0) l.
Proof.
  intros meq sigma0 Hm Hs. split; [intros; now apply meq_positive|]. split; [intros; now apply meq_decreasing|].
  split; [intros; now apply meq_derivative|]. split; [|split].
  - rewrite (@meq_low meq sigma0 0); [lra|]. have -> : -(1/2) * 0 / meq = 0 by (field; lra). rewrite exp_0. ring.
  - rewrite (@meq_low meq sigma0 meq); [lra|]. have -> : -(1/2) * meq / meq = -(1/2) by (field; lra). rewrite exp_Ropp. unfold Rdiv. f_equal. f_equal.
    rewrite -(sqrt_square (exp (1 / 2))); [apply Rlt_le, exp_pos|]. f_equal. rewrite -exp_plus. f_equal. lra.
  - intros l. apply meq_array.
Qed.
Print Assumptions C51_characteristic_mass_function.

(* ---- the hypotheses are met: the five stars of PropProfiles, and the same with stellar types *)
Definition evolved_system : system :=
  mkSys (mkCat (analyze true true (prof_raw Ocluster 0)) [1; 2; 3; 1; 1] [1; 1; 1; 1; 1]%Z init_pairs
           (mkSse [10; 11; 12; 13; 14] [] [] [] [] [] 0) (mkBse [] [] [] [] [] [] [] [] [] [] [] [] [] [] []) 5 0) [] [] [].
Lemma prof_mass o k i : mass (g_c (y_k (prof_system o k))) i = nth i [1; 2; 3; 1; 1] 0.
Proof. unfold mass, prof_system. cbn [y_k g_c]. destruct (analyze_ph true true (prof_raw o k)) as [Q1 _]. now rewrite Q1. Qed.
Lemma prof_mixed (P : nat -> Prop) o k j : (4 <= j)%nat -> mixed P (mass (g_c (y_k (prof_system o k)))) 5 j.
Proof.
  intros Hj l N I H.
  assert (A : In 1%nat l \/ In 2%nat l).
  { destruct (in_dec Nat.eq_dec 1%nat l); [now left|]. destruct (in_dec Nat.eq_dec 2%nat l); [now right|]. exfalso.
    assert (X : (length l <= length [0; 3; 4]%nat)%nat); [|cbn in X; lia]. apply NoDup_incl_length; [exact N|]. intros i Hi. destruct (I i Hi) as [B _].
    do 5 (destruct i as [|i]; [cbn; tauto|]). lia. }
  assert (B : In 0%nat l \/ In 3%nat l \/ In 4%nat l).
  { destruct (in_dec Nat.eq_dec 0%nat l); [now left|]. destruct (in_dec Nat.eq_dec 3%nat l); [tauto|]. destruct (in_dec Nat.eq_dec 4%nat l); [tauto|]. exfalso.
    assert (X : (length l <= length [1; 2]%nat)%nat); [|cbn in X; lia]. apply NoDup_incl_length; [exact N|]. intros i Hi. destruct (I i Hi) as [B _].
    do 5 (destruct i as [|i]; [cbn; tauto|]). lia. }
  destruct A as [A|A]; destruct B as [B|[B|B]]; (eexists; eexists; split; [exact A|]; split; [exact B|]; rewrite !prof_mass; cbn; lra).
Qed.
Lemma prof_picked o k i : picked select_default None (prof_system o k) i.
Proof. split; [exact I|]. repeat split; try (intros ? X; discriminate X); [left; split; reflexivity|now left]. Qed.
Lemma evolved_measured : measured evolved_system 5.
Proof.
  destruct (analyze_ph true true (prof_raw Ocluster 0)) as [Q1 [Q2 _]]. destruct (analyze_norms true true (prof_raw Ocluster 0)) as [G1 [G2 [G3 G4]]].
  assert (A : SpecStars.aligned (y_k evolved_system) 5).
  { unfold SpecStars.aligned, evolved_system. cbn [y_k g_c g_m0 g_npop]. rewrite Q1 Q2. now repeat split. }
  assert (E : c_ph (g_c (y_k evolved_system)) = c_ph (prof_raw Ocluster 0)) by exact Q1.
  destruct (@measured_norms (y_k evolved_system) 5 A ltac:(rewrite E; exact G1) ltac:(rewrite E; exact G2) ltac:(rewrite E; exact G3)
     ltac:(rewrite E; exact G4)) as [N1 [N2 [N3 [N4 N5]]]].
  split; [exact A|]. split; [reflexivity|]. do 4 (split; [assumption|]). split; [exact N5|]. split; [now right|now left].
Qed.

Lemma evolved_radius q i : (i < 5)%nat -> radius_of q evolved_system i = radius_of q (prof_system Ocluster 0) i.
Proof.
  intros Hi. rewrite (seen_radius6 q evolved_measured Hi) (seen_radius6 q (prof_measured Ocluster 0) Hi).
  assert (E : g_c (y_k evolved_system) = g_c (y_k (prof_system Ocluster 0))) by exact eq_refl. now rewrite E.
Qed.

Example C39_hypotheses_met :
  (let s := prof_system Ocluster 0 in let c := g_c (y_k s) in
     profile_input demo_galpy select_default None s 5 /\ members 5 (picked select_default None s) [0; 1; 2; 3; 4]%nat /\
     mass_spread (picked select_default None s) (mass c) 5 /\ corrections_fit (Some [1; 2; 1; 1; 4]) 5 /\
     mixed (fun i => asked select_default None s i /\ main_sequence s i) (mass c) 5 4 /\ mixed (limited select_default s) (mass c) 5 (2 * 2) /\
     mass_spread (asked select_default None s) (radius3 s) 5 /\ weighed demo_galpy false c /\ c_origin c = Some Ocluster) /\
  (let s := evolved_system in profile_input demo_galpy select_default None s 5 /\ profilable select_default None s 5 /\
     e_kw (g_sse (y_k s)) <> [] /\ forall i, (i < 5)%nat -> 1 < nth i (e_kw (g_sse (y_k s))) 0) /\
  ([1; 2; 2; 5] <> [] /\ ~ constant [1; 2; 2; 5]).
Proof.
  split; [|split].
  - split; [apply prof_input; [discriminate|exact I]|]. split.
    { split; [repeat constructor; cbn; intuition lia|]. intros i. split.
      - intros H. split; [cbn in H; lia|apply prof_picked].
      - intros [H _]. do 5 (destruct i as [|i]; [cbn; tauto|]). lia. }
    split; [exists 0%nat, 1%nat; do 2 (split; [lia|]); do 2 (split; [apply prof_picked|]); rewrite !prof_mass; cbn; lra|].
    split; [split; [reflexivity|]; intros a [H|[H|[H|[H|[H|[]]]]]]; subst; lra|].
    split; [apply prof_mixed; lia|]. split; [apply prof_mixed; lia|]. split.
    { destruct (@prof_profilable Ocluster 0 ltac:(left; split; reflexivity)) as [i [j [Hi [Hj [Ai [Aj D]]]]]]. exists i, j. split; [exact Hi|]. split; [exact Hj|]. split; [exact Ai|]. split; [exact Aj|exact D]. }
    split; [apply prof_weighed|]. unfold prof_system. cbn [y_k g_c]. now destruct (skel_eq_fields (skel_analyze true true (prof_raw Ocluster 0))) as [_ [-> _]].
  - split; [|split; [|split; [discriminate|]]].
    + split; [|split; [|split; [|split]]].
      * destruct (@prof_input Ocluster 0 None ltac:(discriminate) I) as [R _]. exact R.
      * destruct (@prof_input Ocluster 0 None ltac:(discriminate) I) as [_ [R _]]. exact R.
      * apply evolved_measured.
      * now left.
      * exact I.
    + destruct (@prof_profilable Ocluster 0 ltac:(left; split; reflexivity)) as [i [j [Hi [Hj [_ [_ D]]]]]].
      assert (A : forall i, (i < 5)%nat -> asked select_default None evolved_system i).
      { intros x Hx. split; [exact I|]. repeat split; try (intros ? X; discriminate X); [left; split; reflexivity|right].
        do 5 (destruct x as [|x]; [cbn; lra|]). lia. }
      exists i, j. split; [exact Hi|]. split; [exact Hj|]. split; [exact (A i Hi)|]. split; [exact (A j Hj)|]. rewrite !evolved_radius //.
    + intros i Hi. do 5 (destruct i as [|i]; [cbn; lra|]). lia.
  - split; [discriminate|]. intros C. assert (X : 1 = 5) by (apply C; cbn; tauto). lra.
Qed.
