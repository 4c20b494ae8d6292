(* Proofs: the statements of PropProfiles from the general lemmas. *)
From Coq Require Import Sorted.
From Verif Require Import Base ModelCluster ModelOps ModelConv ModelEnergy ModelRecipes ModelStars ModelSubset ModelCoords ModelLagrange ModelProfiles.
From Verif Require Import SpecUnits SpecFrame SpecOrder SpecRecipes SpecEnergy SpecStars SpecSubset SpecLagrange SpecProfiles.
From Verif Require Import ProofsUnits ProofsFrame ProofsSees ProofsLagrange ProofsProfiles ProofsProfiles2 ProofsProfiles3 ProofsProfiles4 ProofsProfiles5 ProofsProfiles6.
Set Implicit Arguments. Unset Strict Implicit.

Lemma aligned_measured s n : measured s n -> SpecFrame.aligned (g_c (y_k s)).
Proof.
  move=> [[[L1 [L2 [L3 [L4 [L5 L6]]]]] [Lm _]] _]. rewrite /SpecFrame.aligned. rewrite Lm.
  exact (conj L1 (conj L2 (conj L3 (conj L4 (conj L5 L6))))).
Qed.

Theorem mass_profile_rows (G : galpy) (q : selection) (indx : option (list bool)) (s : system) (n nrad : nat) (bt : bintype) (cumulative : bool) :
    profile_input G q indx s n -> (0 < nrad)%nat -> profilable q indx s n ->
    exists lo hi r m nn s' caller,
      m_prof G q indx None nrad bt false cumulative s = Ok (r, m, nn, s', caller) /\
      covers q indx s n lo hi /\ (length lo <= nrad)%nat /\ length r = length lo /\ length m = length lo /\ length nn = length lo /\
      (forall k, (k < length lo)%nat -> nth k lo 0 < nth k hi 0 /\ nth k lo 0 <= nth k r 0 <= nth k hi 0 /\
         exists l, members n (in_row_of cumulative q indx s lo hi k) l /\
           nth k m 0 = sumR (map (mass (g_c (y_k s))) l) /\ nth k nn 0%nat = length l) /\
      system_restored s s'.
Proof.
  move=> [[u [o HR]] [HA [HM [EK MF]]]] Hr PR.
  have [|lo [mid [hi [r [m [nn [s' [caller [E [SC H]]]]]]]]]] := m_prof_rows (norm := false) bt HR HA HM EK MF Hr PR cumulative; [by []|].
  cbn in SC. subst r. exists lo, hi, mid, m, nn, s', caller. split; [exact E|exact H].
Qed.

Theorem mass_conserved (G : galpy) (q : selection) (indx : option (list bool)) (s : system) (n nrad : nat) (bt : bintype) (normalize : bool) :
    profile_input G q indx s n -> (0 < nrad)%nat -> profilable q indx s n ->
    (normalize = true -> d_rm (c_der (g_c (y_k s))) <> None) ->
    exists r m nn s1 k1 m' nn' s2 k2 l,
      m_prof G q indx None nrad bt normalize false s = Ok (r, m, nn, s1, k1) /\
      m_prof G q indx None nrad bt normalize true s = Ok (r, m', nn', s2, k2) /\
      members n (asked q indx s) l /\ sumR m = sumR (map (mass (g_c (y_k s))) l) /\ natsum nn = length l /\
      length m' = length m /\ length nn' = length nn /\
      (forall k, (k < length m)%nat -> nth k m' 0 = sumR (firstn (S k) m) /\ nth k nn' 0%nat = natsum (firstn (S k) nn)) /\
      nth (length m - 1) m' 0 = sumR (map (mass (g_c (y_k s))) l) /\ nth (length m - 1) nn' 0%nat = length l.
Proof.
  move=> [[u [o HR]] [HA [HM [EK MF]]]] Hr PR HN.
  have [r [m [nn [s1 [k1 [r' [m' [nn' [s2 [k2 [l [E1 [E2 [H1 [H2 [H3 [H4 H]]]]]]]]]]]]]]]]] := m_prof_totals bt HR HA HM EK MF Hr PR HN.
  subst r'. exists r, m, nn, s1, k1, m', nn', s2, k2, l. exact (conj E1 (conj E2 (conj H1 (conj H2 (conj H3 H))))).
Qed.

Theorem density_profile (G : galpy) (q : selection) (indx : option (list bool)) (s : system) (n nrad : nat) (bt : bintype) :
    profile_input G q indx s n -> (0 < nrad)%nat -> profilable q indx s n ->
    exists lo hi r d nn s' caller,
      rho_prof G q indx None nrad bt false s = Ok (r, d, nn, s', caller) /\
      covers q indx s n lo hi /\ (length lo <= nrad)%nat /\ length r = length lo /\ length d = length lo /\ length nn = length lo /\
      (forall k, (k < length lo)%nat -> nth k lo 0 < nth k hi 0 /\ nth k lo 0 <= nth k r 0 <= nth k hi 0 /\
         exists l v, members n (in_row_of false q indx s lo hi k) l /\ 0 < v /\
           v = (if l_projected q then PI * (nth k hi 0 ^ 2 - nth k lo 0 ^ 2) else 4 / 3 * PI * (nth k hi 0 ^ 3 - nth k lo 0 ^ 3)) /\
           nth k d None = Some (sumR (map (mass (g_c (y_k s))) l) / v) /\ nth k nn 0%nat = length l) /\
      system_restored s s'.
Proof.
  move=> [[u [o HR]] [HA [HM [EK MF]]]] Hr PR.
  have [|lo [mid [hi [r [m [nn [s' [caller [E [SC H]]]]]]]]]] := rho_prof_rows (norm := false) bt HR HA HM EK MF Hr PR; [by []|].
  cbn in SC. subst r. exists lo, hi, mid, m, nn, s', caller. split; [exact E|exact H].
Qed.

Theorem normalised_mass_profile (G : galpy) (q : selection) (indx : option (list bool)) (s : system) (n nrad : nat) (bt : bintype) (cumulative : bool) :
    let c := g_c (y_k s) in
    profile_input G q indx s n -> (0 < nrad)%nat -> profilable q indx s n -> weighed G false c ->
    exists lo mid hi r m nn s' caller h,
      m_prof G q indx None nrad bt true cumulative s = Ok (r, m, nn, s', caller) /\
      is_fraction_radius (1/2) (distances c) (p_m (c_ph c)) h /\ r = map (fun x => x / h) mid /\
      (c_origin c <> Some Ogalaxy -> is_fraction_radius (1/2) (own_distances false c) (p_m (c_ph c)) h) /\
      covers q indx s n lo hi /\ length mid = length lo /\ length m = length lo /\ length nn = length lo /\
      (forall k, (k < length lo)%nat -> nth k lo 0 <= nth k mid 0 <= nth k hi 0 /\
         exists l, members n (in_row_of cumulative q indx s lo hi k) l /\
           nth k m 0 = sumR (map (mass c) l) /\ nth k nn 0%nat = length l) /\
      system_restored s s'.
Proof.
  cbn zeta. move=> [[u [o HR]] [HA [HM [EK MF]]]] Hr PR [HP [HW [Hm Hs]]]. have HL := aligned_measured HM.
  have [HS [Hu [Hl [Ho Hf]]]] := HR.
  have [h [D1 D2]] := stored_half Ho HW HL Hm Hs.
  have [|lo [mid [hi [r [m [nn [s' [caller [E [SC [H1 [H2 [H3 [H4 [H5 [H6 H7]]]]]]]]]]]]]]]] :=
    m_prof_rows (norm := true) bt HR HA HM EK MF Hr PR cumulative; [by rewrite D1|].
  cbn in SC. destruct SC as [a [Ea Er]]. rewrite D1 in Ea. have X : a = h by congruence. subst a r.
  exists lo, mid, hi. do 5 eexists. exists h. split; [exact E|]. split; [exact D2|]. split; [reflexivity|].
  split; [move=> NG; by rewrite -distances_own|]. split; [exact H1|]. split; [exact H3|]. split; [exact H4|]. split; [exact H5|].
  split; [|exact H7]. move=> k Hk. have [_ X] := H6 k Hk. exact X.
Qed.

Theorem galaxy_normalised (G : galpy) (q : selection) (indx : option (list bool)) (s : system) (n nrad : nat) (bt : bintype) (own : R) :
    let c := g_c (y_k s) in
    profile_input G q indx s n -> (0 < nrad)%nat -> profilable q indx s n -> weighed G false c ->
    c_origin c = Some Ogalaxy -> is_fraction_radius (1/2) (own_distances false c) (p_m (c_ph c)) own -> ~ In own (distances c) ->
    exists lo mid hi r m nn s' caller h,
      m_prof G q indx None nrad bt true false s = Ok (r, m, nn, s', caller) /\ covers q indx s n lo hi /\ length mid = length lo /\
      (forall k, (k < length lo)%nat -> nth k lo 0 <= nth k mid 0 <= nth k hi 0) /\
      r = map (fun x => x / h) mid /\ h <> own.
Proof.
  cbn zeta. move=> HI Hr PR HW Hg HO HN.
  have [lo [mid [hi [r [m [nn [s' [caller [h [E [H1 [H2 [_ [H3 [H4 [_ [_ [H5 _]]]]]]]]]]]]]]]]]] := normalised_mass_profile bt false HI Hr PR HW.
  exists lo, mid, hi, r, m, nn, s', caller, h. split; [exact E|]. split; [exact H3|]. split; [exact H4|].
  split; [move=> k Hk; exact (proj1 (H5 k Hk))|]. split; [exact H2|]. move=> Eh. apply HN. rewrite -Eh. exact (proj1 H1).
Qed.

Theorem velocity_profile (G : galpy) (w : statistic) (coord : option vcoord) (q : selection) (indx : option (list bool)) (s : system)
    (n nrad : nat) (bt : bintype) (normalize : bool) :
    let c := g_c (y_k s) in let p := l_projected q in
    profile_input G q indx s n -> (0 < nrad)%nat -> profilable q indx s n -> supported w coord p ->
    (forall i, (i < n)%nat -> asked q indx s i -> resolved coord p (own_star c i)) ->
    (normalize = true -> weighed G p c /\ (p = true -> c_origin c <> Some Ogalaxy)) ->
    exists lo mid hi r v s' caller,
      velocity_prof G w coord q indx None nrad bt normalize s = Ok (r, v, s', caller) /\
      covers q indx s n lo hi /\ (length lo <= nrad)%nat /\ length mid = length lo /\ length v = length lo /\
      (if normalize then exists h, is_fraction_radius (1/2) (own_distances p c) (p_m (c_ph c)) h /\ r = map (fun x => x / h) mid else r = mid) /\
      (forall k, (k < length lo)%nat -> nth k lo 0 < nth k hi 0 /\ nth k lo 0 <= nth k mid 0 <= nth k hi 0 /\
         exists l, members n (in_row_of false q indx s lo hi k) l /\
           nth k v None = Some (if Nat.ltb 3 (length l) then statistic_of w (map (fun i => component coord p (own_star c i)) l) else 0)) /\
      system_restored s s'.
Proof.
  cbn zeta. move=> [[u [o HR]] [HA [HM [EK MF]]]] Hr PR SU RE HN. have HL := aligned_measured HM.
  have HF : normalize = true -> exists h, half_mass (l_projected q) (profile_frame G true (g_c (y_k s))) = Some h /\
    is_fraction_radius (1/2) (own_distances (l_projected q) (g_c (y_k s))) (p_m (c_ph (g_c (y_k s)))) h /\
    analyze true true (profile_frame G true (g_c (y_k s))) = profile_frame G true (g_c (y_k s)).
  { move=> /HN [[HP [HW [Hm Hs]]] Hp]. have [h [D1 D2]] := frame_half HR HP HL HW Hp Hm Hs. exists h. split; [exact D1|]. split; [exact D2|].
    exact (fr_settled (frame_ok HR HP HL HW)). }
  have [|lo [mid [hi [r [v [s' [caller [E [H1 [H2 [H3 [H4 [H5 H6]]]]]]]]]]]]] := velocity_prof_gen (norm := normalize) bt HR HA HM EK MF Hr PR SU RE.
  { move=> /HF [h [-> [_ X]]]. by split. }
  exists lo, mid, hi, r, v, s', caller. split; [exact E|]. split; [exact H1|]. split; [exact H2|]. split; [exact H3|]. split; [exact H4|].
  split; [|exact H6]. destruct normalize; cbn in H5; [|exact H5]. destruct H5 as [a [Ea Er]]. have [h [D1 [D2 _]]] := HF eq_refl.
  rewrite D1 in Ea. case: Ea => Ea. exists h. split; [exact D2|]. by rewrite Ea.
Qed.

Theorem anisotropy_profile (G : galpy) (q : selection) (indx : option (list bool)) (s : system)
    (n nrad : nat) (bt : bintype) (normalize : bool) :
    let c := g_c (y_k s) in let p := l_projected q in
    profile_input G q indx s n -> (0 < nrad)%nat -> profilable q indx s n ->
    (forall i, (i < n)%nat -> asked q indx s i -> radius6 true (own_star c i) <> 0) ->
    (normalize = true -> weighed G p c /\ (p = true -> c_origin c <> Some Ogalaxy)) ->
    exists lo mid hi r v s' caller,
      beta_prof G q indx None nrad bt normalize s = Ok (r, v, s', caller) /\
      covers q indx s n lo hi /\ (length lo <= nrad)%nat /\ length mid = length lo /\ length v = length lo /\
      (if normalize then exists h, is_fraction_radius (1/2) (own_distances p c) (p_m (c_ph c)) h /\ r = map (fun x => x / h) mid else r = mid) /\
      (forall k, (k < length lo)%nat -> nth k lo 0 < nth k hi 0 /\ nth k lo 0 <= nth k mid 0 <= nth k hi 0 /\
         exists l, members n (in_row_of false q indx s lo hi k) l /\
           ((3 < length l)%nat -> deviation (map (radial_velocity p) (map (own_star c) l)) <> 0 ->
              nth k v None = Some (anisotropy p (map (own_star c) l))) /\
           ((length l <= 3)%nat -> nth k v None = Some 0)) /\
      system_restored s s'.
Proof.
  cbn zeta. move=> [[u [o HR]] [HA [HM [EK MF]]]] Hr PR RE HN. have HL := aligned_measured HM.
  have HF : normalize = true -> exists h, half_mass (l_projected q) (profile_frame G true (g_c (y_k s))) = Some h /\
    is_fraction_radius (1/2) (own_distances (l_projected q) (g_c (y_k s))) (p_m (c_ph (g_c (y_k s)))) h /\
    analyze true true (profile_frame G true (g_c (y_k s))) = profile_frame G true (g_c (y_k s)).
  { move=> /HN [[HP [HW [Hm Hs]]] Hp]. have [h [D1 D2]] := frame_half HR HP HL HW Hp Hm Hs. exists h. split; [exact D1|]. split; [exact D2|].
    exact (fr_settled (frame_ok HR HP HL HW)). }
  have [|lo [mid [hi [r [v [s' [caller [E [H1 [H2 [H3 [H4 [H5 [H6 H7]]]]]]]]]]]]]] := beta_prof_gen (norm := normalize) bt HR HA HM EK MF Hr PR RE.
  { move=> /HF [h [-> [_ X]]]. by split. }
  exists lo, mid, hi, r, v, s', caller. split; [exact E|]. split; [exact H1|]. split; [exact H2|]. split; [exact H3|]. split; [exact H4|].
  split; [|split; [|exact H7]].
  - destruct normalize; cbn in H5; [|exact H5]. destruct H5 as [a [Ea Er]]. have [h [D1 [D2 _]]] := HF eq_refl.
    rewrite D1 in Ea. case: Ea => Ea. exists h. split; [exact D2|]. by rewrite Ea.
  - move=> k Hk. have [A [B [l [M V]]]] := H6 k Hk. split; [exact A|]. split; [exact B|]. exists l. split; [exact M|]. rewrite V. split.
    + move=> L D. have -> : Nat.ltb 3 (length l) = true by apply Nat.ltb_lt. destruct (Reqb _ 0) eqn:Z0 => //. by apply Reqb_spec in Z0.
    + move=> L. by have -> : Nat.ltb 3 (length l) = false by apply Nat.ltb_ge.
Qed.

Theorem circular_velocity (G : galpy) (q : selection) (indx : option (list bool)) (s : system) (n : nat) (bt : bintype) (normalize : bool) (nrad : option nat) :
    let c := g_c (y_k s) in let p := l_projected q in let d := own_distances p c in let m := p_m (c_ph c) in
    profile_input G q indx s n -> weighed G p c -> (p = true -> c_origin c <> Some Ogalaxy) ->
    c_origin c <> Some Ogalaxy \/ normalize = true ->
    (forall i, (i < n)%nat -> asked q indx s i) -> (forall i, (i < n)%nat -> radius_of q s i <> 0) ->
    match nrad with Some k => (0 < k)%nat /\ ~ constant (own_distances false c) | None => True end ->
    exists r v rvmax vmax s' caller h rad,
      vcirc_prof G q indx None nrad bt normalize s = Ok (r, v, rvmax, vmax, s', caller) /\
      scaled normalize (Some h) rad r /\ is_fraction_radius (1/2) d m h /\ length v = length rad /\
      (forall k, (k < length rad)%nat -> rotation_point (get_grav c) d m (nth k rad 0) (nth k v 0)) /\
      match nrad with
      | None => Permutation rad d /\ StronglySorted Rle rad
      | Some k => (length rad <= k)%nat
      end /\
      (In rvmax d /\ vmax = sqrt (get_grav c * weight_within d m rvmax / rvmax) /\
       forall x, In x d -> sqrt (get_grav c * weight_within d m x / x) <= vmax) /\
      system_restored s s'.
Proof.
  cbn zeta. move=> [[u [o HR]] [HA [HM [EK MF]]]] [HP [HW [Hm Hs]]] Hp. have HL := aligned_measured HM.
  exact (@vcirc_prof_all G q indx s n bt u o HR HP HM EK MF HL HW Hp Hm Hs normalize nrad).
Qed.
Theorem circular_velocity_single (G : galpy) (q : selection) (indx : option (list bool)) (s : system) (n i : nat) (bt : bintype) :
    let c := g_c (y_k s) in let d := own_distances (l_projected q) c in
    profile_input G q indx s n -> weighed G (l_projected q) c -> c_origin c <> Some Ogalaxy ->
    (i < n)%nat -> (forall j, (j < n)%nat -> asked q indx s j <-> j = i) -> (forall j, (j < n)%nat -> radius_of q s j <> 0) ->
    (length (filter (fun y => Rleb y (radius_of q s i)) d) <= i)%nat ->
    exists x v rvmax vmax s' caller, vcirc_prof G q indx None None bt false s = Ok ([x], v, rvmax, vmax, s', caller) /\
      x <> radius_of q s i.
Proof.
  cbn zeta. move=> [[u [o HR]] [HA [HM [EK MF]]]] [HP [HW [Hm Hs]]] Hg Hi HS HZ HC. have HL := aligned_measured HM.
  have [x [v [rv [vm [s' [k [E [I [_ C]]]]]]]]] := @vcirc_prof_single G q indx s n bt u o HR HP HM EK MF HL HW (fun _ => Hg) Hm Hs i false (or_introl Hg) eq_refl Hi HS HZ.
  exists x, v, rv, vm, s', k. split; [exact E|]. move=> Ex. rewrite Ex in C. lia.
Qed.

Theorem given_bins (G : galpy) (q : selection) (indx : option (list bool)) (s : system) (n nrad : nat) (bt : bintype) (lo mid hi : list R) :
    profile_input G q indx s n -> (0 < nrad)%nat -> profilable q indx s n -> hi <> [] -> length mid = length hi ->
    exists r m nn s' caller l, m_prof G q indx (Some (lo, mid, hi)) nrad bt false false s = Ok (r, m, nn, s', caller) /\
      members n (asked q indx s) l /\ sumR m = sumR (map (mass (g_c (y_k s))) l) /\ natsum nn = length l.
Proof.
  move=> [[u [o HR]] [HA [HM [EK MF]]]] Hr PR NH LH.
  exact (@m_prof_given_bins G q indx s n nrad bt u o HR HA HM EK MF Hr PR lo mid hi false ltac:(by []) NH LH).
Qed.
