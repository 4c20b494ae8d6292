(* C40, C41, C61, C62: radial profiles. *)
From Coq Require Import Sorted.
From Verif Require Import Base ModelCluster ModelOps ModelConv ModelEnergy ModelRecipes ModelStars ModelSubset ModelCoords ModelLagrange ModelProfiles.
From Verif Require Import SpecUnits SpecFrame SpecOrder SpecRecipes SpecEnergy SpecStars SpecSubset SpecLagrange SpecProfiles.
From Verif Require Import ProofsUnits ProofsFrame ProofsEnergy2 ProofsStars ProofsSubset3 ProofsSubset4 ProofsLagrange ProofsLagrange2 ProofsProfiles ProofsProfiles3 ProofsProfiles4 ProofsProfiles5 ProofsProfiles6 ProofsProfiles7 PropUnits PropSubset.

(* C40: the rows of a mass profile.  The bins run from the smallest to the largest radius of the stars asked for; row k
   holds the total mass and the number of the stars asked for whose radius lies in bin k (in one of the bins up to k for
   a cumulative profile), measured from the cluster whatever origin it is stored in; the cluster object is as before. *)
Theorem C40_mass_profile_rows :
  forall (G : galpy) (q : selection) (indx : option (list bool)) (s : system) (n nrad : nat) (bt : bintype) (cumulative : bool),
    profile_input G q indx s n -> (0 < nrad)%nat -> profilable q indx s n ->
    exists lo hi r m nn s' caller,
      m_prof G q indx None nrad bt false cumulative s = Ok (r, m, nn, s', caller) /\
      covers q indx s n lo hi /\ (length lo <= nrad)%nat /\ length r = length lo /\ length m = length lo /\ length nn = length lo /\
      (forall k, (k < length lo)%nat -> nth k lo 0 < nth k hi 0 /\ nth k lo 0 <= nth k r 0 <= nth k hi 0 /\
         exists l, members n (in_row_of cumulative q indx s lo hi k) l /\
           nth k m 0 = sumR (map (mass (g_c (y_k s))) l) /\ nth k nn 0%nat = length l) /\
      system_restored s s'.
Proof. exact mass_profile_rows. Qed.
Print Assumptions C40_mass_profile_rows.

(* C40: nothing is lost: the masses and numbers of the rows add up to those of the stars asked for, and the cumulative
   profile is the running sum of the plain one, ending at that total; with or without normalised radii *)
Theorem C40_mass_conserved :
  forall (G : galpy) (q : selection) (indx : option (list bool)) (s : system) (n nrad : nat) (bt : bintype) (normalize : bool),
    profile_input G q indx s n -> (0 < nrad)%nat -> profilable q indx s n ->
    (normalize = true -> d_rm (c_der (g_c (y_k s))) <> None) ->
    exists r m nn s1 k1 m' nn' s2 k2 l,
      m_prof G q indx None nrad bt normalize false s = Ok (r, m, nn, s1, k1) /\
      m_prof G q indx None nrad bt normalize true s = Ok (r, m', nn', s2, k2) /\
      members n (asked q indx s) l /\ sumR m = sumR (map (mass (g_c (y_k s))) l) /\ natsum nn = length l /\
      length m' = length m /\ length nn' = length nn /\
      (forall k, (k < length m)%nat -> nth k m' 0 = sumR (firstn (S k) m) /\ nth k nn' 0%nat = natsum (firstn (S k) nn)) /\
      nth (length m - 1) m' 0 = sumR (map (mass (g_c (y_k s))) l) /\ nth (length m - 1) nn' 0%nat = length l.
Proof. exact mass_conserved. Qed.
Print Assumptions C40_mass_conserved.

(* C40: a density profile: mass of the row over the volume of the shell (area of the ring in projection) *)
Theorem C40_density_profile :
  forall (G : galpy) (q : selection) (indx : option (list bool)) (s : system) (n nrad : nat) (bt : bintype),
    profile_input G q indx s n -> (0 < nrad)%nat -> profilable q indx s n ->
    exists lo hi r d nn s' caller,
      rho_prof G q indx None nrad bt false s = Ok (r, d, nn, s', caller) /\
      covers q indx s n lo hi /\ (length lo <= nrad)%nat /\ length r = length lo /\ length d = length lo /\ length nn = length lo /\
      (forall k, (k < length lo)%nat -> nth k lo 0 < nth k hi 0 /\ nth k lo 0 <= nth k r 0 <= nth k hi 0 /\
         exists l v, members n (in_row_of false q indx s lo hi k) l /\ 0 < v /\
           v = (if l_projected q then PI * (nth k hi 0 ^ 2 - nth k lo 0 ^ 2) else 4 / 3 * PI * (nth k hi 0 ^ 3 - nth k lo 0 ^ 3)) /\
           nth k d None = Some (sumR (map (mass (g_c (y_k s))) l) / v) /\ nth k nn 0%nat = length l) /\
      system_restored s s'.
Proof. exact density_profile. Qed.
Print Assumptions C40_density_profile.

(* C62: normalize=True divides the radii of mass and density profiles by the half-mass radius of the stored distances
   from the stored origin, in three dimensions.  That is the cluster's half-mass radius when the stored origin is the
   cluster or its centre. *)
Theorem C62_normalised_mass_profile_partial :
  forall (G : galpy) (q : selection) (indx : option (list bool)) (s : system) (n nrad : nat) (bt : bintype) (cumulative : bool),
    let c := g_c (y_k s) in
    profile_input G q indx s n -> (0 < nrad)%nat -> profilable q indx s n -> weighed G false c ->
    exists lo mid hi r m nn s' caller h,
      m_prof G q indx None nrad bt true cumulative s = Ok (r, m, nn, s', caller) /\
      is_fraction_radius (1/2) (distances c) (p_m (c_ph c)) h /\ r = map (fun x => x / h) mid /\
      (c_origin c <> Some Ogalaxy -> is_fraction_radius (1/2) (own_distances false c) (p_m (c_ph c)) h) /\
      covers q indx s n lo hi /\ length mid = length lo /\ length m = length lo /\ length nn = length lo /\
      (forall k, (k < length lo)%nat -> nth k lo 0 <= nth k mid 0 <= nth k hi 0 /\
         exists l, members n (in_row_of cumulative q indx s lo hi k) l /\
           nth k m 0 = sumR (map (mass c) l) /\ nth k nn 0%nat = length l) /\
      system_restored s s'.
Proof. exact normalised_mass_profile. Qed.
Print Assumptions C62_normalised_mass_profile_partial.

(* C62: for a cluster stored relative to the galaxy the radii are divided by a galactocentric distance: not by the
   cluster's half-mass radius, unless a star happens to be at that distance from the galactic centre *)
Theorem C62_galaxy_origin_refuted :
  forall (G : galpy) (q : selection) (indx : option (list bool)) (s : system) (n nrad : nat) (bt : bintype) (own : R),
    let c := g_c (y_k s) in
    profile_input G q indx s n -> (0 < nrad)%nat -> profilable q indx s n -> weighed G false c ->
    c_origin c = Some Ogalaxy -> is_fraction_radius (1/2) (own_distances false c) (p_m (c_ph c)) own -> ~ In own (distances c) ->
    exists lo mid hi r m nn s' caller h,
      m_prof G q indx None nrad bt true false s = Ok (r, m, nn, s', caller) /\ covers q indx s n lo hi /\ length mid = length lo /\
      (forall k, (k < length lo)%nat -> nth k lo 0 <= nth k mid 0 <= nth k hi 0) /\
      r = map (fun x => x / h) mid /\ h <> own.
Proof. exact galaxy_normalised. Qed.
Print Assumptions C62_galaxy_origin_refuted.

(* C62: velocity profiles are divided by the half-mass radius measured from the cluster, in projection if asked; row k is
   the mean, dispersion or mean square of the velocity component over the stars of bin k, or 0 for at most three stars *)
Theorem C61_velocity_profiles :
  forall (G : galpy) (w : statistic) (coord : option vcoord) (q : selection) (indx : option (list bool)) (s : system)
    (n nrad : nat) (bt : bintype) (normalize : bool),
    let c := g_c (y_k s) in let p := l_projected q in
    profile_input G q indx s n -> (0 < nrad)%nat -> profilable q indx s n -> supported w coord p ->
    (forall i, (i < n)%nat -> asked q indx s i -> resolved coord p (own_star c i)) ->
    (normalize = true -> weighed G p c /\ (p = true -> c_origin c <> Some Ogalaxy)) ->
    exists lo mid hi r v s' caller,
      velocity_prof G w coord q indx None nrad bt normalize s = Ok (r, v, s', caller) /\
      covers q indx s n lo hi /\ (length lo <= nrad)%nat /\ length mid = length lo /\ length v = length lo /\
      (if normalize then exists h, is_fraction_radius (1/2) (own_distances p c) (p_m (c_ph c)) h /\ r = map (fun x => x / h) mid else r = mid) /\
      (forall k, (k < length lo)%nat -> nth k lo 0 < nth k hi 0 /\ nth k lo 0 <= nth k mid 0 <= nth k hi 0 /\
         exists l, members n (in_row_of false q indx s lo hi k) l /\
           nth k v None = Some (if Nat.ltb 3 (length l) then statistic_of w (map (fun i => component coord p (own_star c i)) l) else 0)) /\
      system_restored s s'.
Proof. exact velocity_profile. Qed.
Print Assumptions C61_velocity_profiles.

(* C61: the anisotropy profile *)
Theorem C61_anisotropy_profile :
  forall (G : galpy) (q : selection) (indx : option (list bool)) (s : system) (n nrad : nat) (bt : bintype) (normalize : bool),
    let c := g_c (y_k s) in let p := l_projected q in
    profile_input G q indx s n -> (0 < nrad)%nat -> profilable q indx s n ->
    (forall i, (i < n)%nat -> asked q indx s i -> radius6 true (own_star c i) <> 0) ->
    (normalize = true -> weighed G p c /\ (p = true -> c_origin c <> Some Ogalaxy)) ->
    exists lo mid hi r v s' caller,
      beta_prof G q indx None nrad bt normalize s = Ok (r, v, s', caller) /\
      covers q indx s n lo hi /\ (length lo <= nrad)%nat /\ length mid = length lo /\ length v = length lo /\
      (if normalize then exists h, is_fraction_radius (1/2) (own_distances p c) (p_m (c_ph c)) h /\ r = map (fun x => x / h) mid else r = mid) /\
      (forall k, (k < length lo)%nat -> nth k lo 0 < nth k hi 0 /\ nth k lo 0 <= nth k mid 0 <= nth k hi 0 /\
         exists l, members n (in_row_of false q indx s lo hi k) l /\
           ((3 < length l)%nat -> deviation (map (radial_velocity p) (map (own_star c) l)) <> 0 ->
              nth k v None = Some (anisotropy p (map (own_star c) l))) /\
           ((length l <= 3)%nat -> nth k v None = Some 0)) /\
      system_restored s s'.
Proof. exact anisotropy_profile. Qed.
Print Assumptions C61_anisotropy_profile.

(* C61 findings: components the documentation lists but the routines do not provide.  In projection 'theta' always
   raises; without projection 'z' raises in v_prof and v2_prof; v2_prof silently returns the mean square speed for 'x' and
   'y'. *)
Theorem C61_components_missing_refuted :
  forall (G : galpy) (w : statistic) (q : selection) (indx : option (list bool)) (user : option edges) (nrad : nat) (bt : bintype)
    (normalize : bool) (s : system),
    (l_projected q = true -> velocity_prof G w (Some Ctheta) q indx user nrad bt normalize s = Raise) /\
    (l_projected q = false -> w <> Dispersion -> velocity_prof G w (Some Cz) q indx user nrad bt normalize s = Raise) /\
    v2_prof G (Some Cx) q indx user nrad bt normalize s = v2_prof G (Some Cspeed) q indx user nrad bt normalize s /\
    v2_prof G (Some Cy) q indx user nrad bt normalize s = v2_prof G (Some Cspeed) q indx user nrad bt normalize s.
Proof.
  intros G w q indx user nrad bt normalize s. unfold v2_prof, velocity_prof, velocity_column.
  split; [intros ->; reflexivity|]. split; [|split; reflexivity].
  intros -> NW. destruct (sphere_coords G _) as [[l c2]|]; [|reflexivity]. destruct w; [now case: NW| |]; reflexivity.
Qed.
Print Assumptions C61_components_missing_refuted.

(* C41: the circular velocity curve when every star is asked for: every point is a star's own distance with the speed of
   the mass inside; all n stars, outwards, unless a number of bins is given; vmax is the largest circular speed at any
   star and is reached at rvmax.  The stored origin must not be the galaxy unless normalize is set (see DESIGN). *)
Theorem C41_circular_velocity_partial :
  forall (G : galpy) (q : selection) (indx : option (list bool)) (s : system) (n : nat) (bt : bintype) (normalize : bool) (nrad : option nat),
    let c := g_c (y_k s) in let p := l_projected q in let d := own_distances p c in let m := p_m (c_ph c) in
    profile_input G q indx s n -> weighed G p c -> (p = true -> c_origin c <> Some Ogalaxy) ->
    c_origin c <> Some Ogalaxy \/ normalize = true ->
    (forall i, (i < n)%nat -> asked q indx s i) -> (forall i, (i < n)%nat -> radius_of q s i <> 0) ->
    match nrad with Some k => (0 < k)%nat /\ ~ constant (own_distances false c) | None => True end ->
    exists r v rvmax vmax s' caller h rad,
      vcirc_prof G q indx None nrad bt normalize s = Ok (r, v, rvmax, vmax, s', caller) /\
      scaled normalize (Some h) rad r /\ is_fraction_radius (1/2) d m h /\ length v = length rad /\
      (forall k, (k < length rad)%nat -> rotation_point (get_grav c) d m (nth k rad 0) (nth k v 0)) /\
      match nrad with
      | None => Permutation rad d /\ StronglySorted Rle rad
      | Some k => (length rad <= k)%nat
      end /\
      (In rvmax d /\ vmax = sqrt (get_grav c * weight_within d m rvmax / rvmax) /\
       forall x, In x d -> sqrt (get_grav c * weight_within d m x / x) <= vmax) /\
      system_restored s s'.
Proof. exact circular_velocity. Qed.
Print Assumptions C41_circular_velocity_partial.

(* C41 finding: the mask is made in catalogue order but applied to arrays sorted by distance.  Ask for star i alone, with
   at most i stars no farther than it: the radius reported is not that star's. *)
Theorem C41_selection_misapplied_refuted :
  forall (G : galpy) (q : selection) (indx : option (list bool)) (s : system) (n i : nat) (bt : bintype),
    let c := g_c (y_k s) in let d := own_distances (l_projected q) c in
    profile_input G q indx s n -> weighed G (l_projected q) c -> c_origin c <> Some Ogalaxy ->
    (i < n)%nat -> (forall j, (j < n)%nat -> asked q indx s j <-> j = i) -> (forall j, (j < n)%nat -> radius_of q s j <> 0) ->
    (length (filter (fun y => Rleb y (radius_of q s i)) d) <= i)%nat ->
    exists x v rvmax vmax s' caller, vcirc_prof G q indx None None bt false s = Ok ([x], v, rvmax, vmax, s', caller) /\
      x <> radius_of q s i.
Proof. exact circular_velocity_single. Qed.
Print Assumptions C41_selection_misapplied_refuted.

(* C63: with bins given by the caller nothing is left out: stars below the first or above the last bin are counted too, in
   the first or last row, so the rows still add up to all the stars asked for *)
Theorem C63_given_bins_keep_outsiders :
  forall (G : galpy) (q : selection) (indx : option (list bool)) (s : system) (n nrad : nat) (bt : bintype) (lo mid hi : list R),
    profile_input G q indx s n -> (0 < nrad)%nat -> profilable q indx s n -> hi <> [] -> length mid = length hi ->
    exists r m nn s' caller l, m_prof G q indx (Some (lo, mid, hi)) nrad bt false false s = Ok (r, m, nn, s', caller) /\
      members n (asked q indx s) l /\ sumR m = sumR (map (mass (g_c (y_k s))) l) /\ natsum nn = length l.
Proof. exact given_bins. Qed.
Print Assumptions C63_given_bins_keep_outsiders.

(* ---- the hypotheses are met: five stars, stored relative to the cluster or, 100 pc away, to the galaxy *)
Definition prof_raw (o : osys) (k : R) : cluster :=
  mkC (Some Upckms) (Some o) (Some (Bu Upckms)) 0
      (mkP 0 [1; 2; 3; 1; 1] (mk6 [3 + k; 0 + k; -1 + k; 0 + k; 0 + k] [0; 2; 0; -4; 5] [0; 0; 0; 0; 0] [1; 0; 2; 3; 0] [0; 2; 1; 1; 1] [0; 0; 3; 0; 0])
           (mk6 k 0 0 0 0 0) zero6)
      (mkSc 1 1 1 1 1 1 1 8 220) (mkB [] [] [] []) (mkSk nil6 zero6 zero6 None None None) empty_derived [1; 2; 3; 4; 5]%Z.
Definition prof_system (o : osys) (k : R) : system :=
  mkSys (mkCat (analyze true true (prof_raw o k)) [1; 2; 3; 1; 1] [1; 1; 1; 1; 1]%Z init_pairs
           (mkSse [] [] [] [] [] [] 0) (mkBse [] [] [] [] [] [] [] [] [] [] [] [] [] [] []) 5 0) [] [] [].

Lemma prof_measured o k : measured (prof_system o k) 5.
Proof.
  destruct (analyze_ph true true (prof_raw o k)) as [Q1 [Q2 _]]. destruct (analyze_norms true true (prof_raw o k)) as [G1 [G2 [G3 G4]]].
  assert (A : SpecStars.aligned (y_k (prof_system o k)) 5).
  { unfold SpecStars.aligned, prof_system. cbn [y_k g_c g_m0 g_npop]. rewrite Q1 Q2. now repeat split. }
  assert (E : c_ph (g_c (y_k (prof_system o k))) = c_ph (prof_raw o k)) by exact Q1.
  destruct (@measured_norms (y_k (prof_system o k)) 5 A ltac:(rewrite E; exact G1) ltac:(rewrite E; exact G2) ltac:(rewrite E; exact G3)
     ltac:(rewrite E; exact G4)) as [N1 [N2 [N3 [N4 N5]]]].
  split; [exact A|]. split; [reflexivity|]. do 4 (split; [assumption|]). split; [exact N5|]. split; now left.
Qed.
Lemma prof_own o k i : o = Ocluster /\ k = 0 \/ o = Ogalaxy -> (i < 5)%nat -> own_star (g_c (y_k (prof_system o k))) i =
  mk6 (nth i [3; 0; -1; 0; 0] 0) (nth i [0; 2; 0; -4; 5] 0) 0 (nth i [1; 0; 2; 3; 0] 0) (nth i [0; 2; 1; 1; 1] 0) (nth i [0; 0; 3; 0; 0] 0).
Proof.
  intros H Hi. destruct (analyze_ph true true (prof_raw o k)) as [Q1 [Q2 [Q3 [Q4 _]]]]. unfold own_star, prof_system. cbn [y_k g_c].
  destruct (skel_eq_fields (skel_analyze true true (prof_raw o k))) as [_ [E2 _]]. rewrite Q1 E2. cbn [prof_raw c_ph p_s p_g p_c c_origin].
  destruct H as [[-> ->]| ->]; do 5 (destruct i as [|i]; [cbn; f_equal; ring|]); lia.
Qed.
Lemma prof_radius o k i q : o = Ocluster /\ k = 0 \/ o = Ogalaxy -> (i < 5)%nat -> radius_of q (prof_system o k) i = nth i [3; 2; 1; 4; 5] 0.
Proof.
  intros H Hi. rewrite (seen_radius6 q (prof_measured o k) Hi) prof_own //. unfold radius6. cbn [sx sy sz].
  assert (S : forall x y, 0 <= y -> x = y * y -> sqrt x = y) by (intros x y Hy ->; now apply sqrt_square).
  do 5 (destruct i as [|i]; [destruct (l_projected q); cbn [nth]; apply S; lra|]). lia.
Qed.
Lemma prof_asked o k i : asked select_default None (prof_system o k) i.
Proof.
  split; [exact I|]. repeat split; try (intros ? X; discriminate X); [left; split; reflexivity|now left].
Qed.

Lemma prof_input o k indx : flat o -> mask_fits indx 5 -> profile_input demo_galpy select_default indx (prof_system o k) 5.
Proof.
  intros F M. split; [|split; [|split; [|split]]].
  - exists Upckms, o. unfold prof_system. cbn [y_k g_c]. apply analyzed_ready. unfold ready, good_scales. cbn [c_sc c_units c_origin prof_raw].
    split; [cbn; repeat split; lra|]. split; [reflexivity|]. split; [discriminate|]. split; [reflexivity|exact F].
  - apply analyze_idem.
  - apply prof_measured.
  - now left.
  - exact M.
Qed.
Lemma prof_weighed o k : weighed demo_galpy false (g_c (y_k (prof_system o k))).
Proof.
  destruct (skel_eq_fields (skel_analyze true true (prof_raw o k))) as [_ [_ [_ [_ [E5 [E6 _]]]]]]. unfold weighed, prof_system. cbn [y_k g_c].
  rewrite E6 E5. cbn [prof_raw c_ph c_sc p_m]. split; [cbn; repeat split; cbn; lra|]. split; [now apply first_analysis|].
  split; [|cbn; lra]. intros a [H|[H|[H|[H|[H|[]]]]]]; subst; lra.
Qed.
Lemma prof_own_distances o k : o = Ocluster /\ k = 0 \/ o = Ogalaxy -> own_distances false (g_c (y_k (prof_system o k))) = [3; 2; 1; 4; 5].
Proof.
  intros H. rewrite (own_radius select_default (prof_measured o k)). cbn [seq map]. now rewrite !prof_radius; try lia.
Qed.
Lemma prof_profilable o k : o = Ocluster /\ k = 0 \/ o = Ogalaxy -> profilable select_default None (prof_system o k) 5.
Proof.
  intros H. exists 0%nat, 1%nat. split; [lia|]. split; [lia|]. split; [apply prof_asked|]. split; [apply prof_asked|].
  rewrite !prof_radius; try lia; try exact H. cbn. lra.
Qed.

Example C40_hypotheses_met :
  (* C40, C41, C61, C62, C63: cluster frame, everything asked *)
  (let s := prof_system Ocluster 0 in let c := g_c (y_k s) in
   profile_input demo_galpy select_default None s 5 /\ profilable select_default None s 5 /\ weighed demo_galpy false c /\
   c_origin c <> Some Ogalaxy /\ (forall i, (i < 5)%nat -> asked select_default None s i) /\
   (forall i, (i < 5)%nat -> radius_of select_default s i <> 0) /\
   (forall i, (i < 5)%nat -> radius6 true (own_star c i) <> 0) /\
   map (fun i => radius_of select_default s i) (seq 0 5) = [3; 2; 1; 4; 5]) /\
  (* C62, galaxy frame: half the mass is within 2 pc of the cluster, no star is 2 pc from the galactic centre *)
  (let s := prof_system Ogalaxy 100 in let c := g_c (y_k s) in
   profile_input demo_galpy select_default None s 5 /\ profilable select_default None s 5 /\ weighed demo_galpy false c /\
   c_origin c = Some Ogalaxy /\ is_fraction_radius (1/2) (own_distances false c) (p_m (c_ph c)) 2 /\ ~ In 2 (distances c)) /\
  (* C41 finding: only the closest star, third in the catalogue *)
  (let s := prof_system Ocluster 0 in let c := g_c (y_k s) in
   let indx := Some [false; false; true; false; false] in
   profile_input demo_galpy select_default indx s 5 /\ (2 < 5)%nat /\
   (forall j, (j < 5)%nat -> asked select_default indx s j <-> j = 2%nat) /\
   (length (filter (fun y => Rleb y (radius_of select_default s 2)) (own_distances false c)) <= 2)%nat).
Proof.
  cbv zeta. assert (H0 : Ocluster = Ocluster /\ 0 = 0 \/ Ocluster = Ogalaxy) by (left; split; reflexivity).
  assert (H1 : Ogalaxy = Ocluster /\ 100 = 0 \/ Ogalaxy = Ogalaxy) by (right; reflexivity).
  destruct (skel_eq_fields (skel_analyze true true (prof_raw Ocluster 0))) as [_ [E2 _]].
  destruct (skel_eq_fields (skel_analyze true true (prof_raw Ogalaxy 100))) as [_ [E2' [_ [_ [E5 _]]]]].
  split; [|split].
  - split; [apply prof_input; [discriminate|exact I]|]. split; [now apply prof_profilable|]. split; [apply prof_weighed|].
    split; [unfold prof_system; cbn [y_k g_c]; rewrite E2; discriminate|]. split; [intros; apply prof_asked|].
    split; [|split].
    + intros i Hi. rewrite prof_radius //. do 5 (destruct i as [|i]; [cbn; lra|]). lia.
    + intros i Hi. pose proof (@prof_radius Ocluster 0 i (mkSel None None None None None None None None 0 15 None true) H0 Hi) as P.
      rewrite (seen_radius6 _ (prof_measured Ocluster 0) Hi) in P. cbn [l_projected] in P. rewrite P.
      do 5 (destruct i as [|i]; [cbn; lra|]). lia.
    + cbn [seq map]. now rewrite !prof_radius; try lia.
  - split; [apply prof_input; [discriminate|exact I]|]. split; [now apply prof_profilable|]. split; [apply prof_weighed|].
    split; [unfold prof_system; cbn [y_k g_c]; now rewrite E2'|].
    rewrite prof_own_distances //. unfold prof_system. cbn [y_k g_c]. split.
    + rewrite E5. cbn [prof_raw c_ph p_m]. split; [cbn; auto|].
      unfold weight_within, weight_inside. cbn [combine filter fst].
      assert (T : forall a b, a <= b -> Rleb a b = true) by (intros; now apply Rleb_spec).
      assert (T' : forall a b, b < a -> Rleb a b = false) by (intros; now apply Rleb_false).
      assert (U : forall a b, a < b -> Rltb a b = true) by (intros; now apply Rltb_spec).
      assert (U' : forall a b, b <= a -> Rltb a b = false) by (intros; now apply Rltb_false).
      rewrite (T' 3 2) ?(T 2 2) ?(T 1 2) ?(T' 4 2) ?(T' 5 2); try lra.
      rewrite (U' 3 2) ?(U' 2 2) ?(U 1 2) ?(U' 4 2) ?(U' 5 2); try lra. cbn. lra.
    + unfold distances. rewrite E5. cbn [prof_raw c_ph p_s sx sy sz combine map].
      assert (X : forall a b, 99 <= a -> sqrt (a * a + b * b + 0 * 0) <> 2).
      { intros a b Ha E. assert (99 <= sqrt (a * a + b * b + 0 * 0)); [|lra].
        apply Rle_trans with (sqrt (99 * 99)); [rewrite sqrt_square; lra|]. apply sqrt_le_1_alt. nra. }
      intros [E|[E|[E|[E|[E|[]]]]]]; revert E; apply X; lra.
  - split; [apply prof_input; [discriminate|reflexivity]|]. split; [lia|]. split.
    + intros j Hj. split.
      * intros [A _]. do 5 (destruct j as [|j]; [try reflexivity; discriminate A|]). lia.
      * intros ->. split; [reflexivity|exact (proj2 (prof_asked Ocluster 0 2))].
    + rewrite prof_own_distances // prof_radius; try lia; try exact H0. cbn [nth filter].
      assert (T : Rleb 1 1 = true) by (apply Rleb_spec; lra).
      assert (T' : forall a b, b < a -> Rleb a b = false) by (intros; now apply Rleb_false).
      rewrite T (T' 3 1) ?(T' 2 1) ?(T' 4 1) ?(T' 5 1); try lra. cbn. lia.
Qed.
