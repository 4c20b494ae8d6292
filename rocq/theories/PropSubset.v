(* C21-C24: selecting stars. *)
From Coq Require Import Sorted.
From Verif Require Import Base ModelCluster ModelOps ModelConv ModelEnergy ModelRecipes ModelStars ModelSubset.
From Verif Require Import SpecStars SpecSubset SpecOrder PropUnits ProofsFrame ProofsEnergy ProofsStars ProofsStars3 ProofsSubset ProofsSubset2 ProofsSubset3 ProofsSubset4.

(* C21: the mask is true for exactly the stars satisfying every limit given and the mask given. *)
Theorem C21_subset_mask :
  forall (q : selection) (indx : option (list bool)) (s : system) (n : nat),
    measured s n -> (1 <= n)%nat -> energies_known q s n -> mask_fits indx n ->
    exists m caller, get_subset q indx s = Ok (Some m, caller) /\ length m = n /\
      forall i, (i < n)%nat -> nth i m false = true <-> in_mask indx i /\ satisfies q s i.
Proof.
  intros q indx s n M H E F. destruct (subset_mask M H E F) as [m [Q [L W]]].
  exists m. eexists. split; [exact Q|]. now split.
Qed.
Print Assumptions C21_subset_mask.

(* C21 finding: with no limits given at all, stars whose type lies outside 0..15 (type -1 is a pre-main-sequence star in
   NBODY6) are left out: kwmin=0 and kwmax=15 are limits by default. *)
Theorem C21_default_type_limits_refuted :
  forall (s : system) (n i : nat),
    measured s n -> (i < n)%nat -> e_kw (g_sse (y_k s)) <> [] ->
    nth i (e_kw (g_sse (y_k s))) 0 < 0 \/ 15 < nth i (e_kw (g_sse (y_k s))) 0 ->
    exists m, get_subset select_default None s = Ok (Some m, None) /\ nth i m false = false.
Proof.
  intros s n i M Hi K O.
  destruct (@subset_mask select_default None s n M ltac:(lia) ltac:(now left) I) as [m [Q [L W]]].
  exists m. split; [exact Q|]. specialize (W i Hi). destruct (nth i m false); [|reflexivity]. exfalso.
  destruct W as [W _]. destruct (W eq_refl) as [_ [_ [_ [_ [_ [_ [T|T]]]]]]]; [now apply K|].
  cbn [l_kwmin l_kwmax select_default] in T. lra.
Qed.
Print Assumptions C21_default_type_limits_refuted.

(* C21 finding: a mask of the wrong length is not reported: the exception is caught and -1 is returned, which
   sub_cluster takes for an empty selection. *)
Theorem C21_wrong_mask_length_silent_refuted :
  forall (G : galpy) (q : selection) (l : list bool) (sort : bool) (s : system) (n : nat),
    complete s n -> (2 <= n)%nat -> energies_known q s n -> length l <> n ->
    get_subset q (Some l) s = Ok (None, Some l) /\
    sub_cluster G q (Some l) sort s = Ok (nothing_selected (p_t (c_ph (g_c (y_k s)))), parent_after s, Some l).
Proof.
  intros G q l sort s n C H E L. split; [exact (wrong_mask (proj1 C) H E L)|exact (wrong_mask_nothing G sort C H E L)].
Qed.
Print Assumptions C21_wrong_mask_length_silent_refuted.

(* C22: what remains true: calls with no mask leave nothing behind, and the same call repeated on the same array selects
   the same stars. *)
Theorem C22_same_call_repeated_partial :
  forall (q : selection) (s : system) (n : nat), measured s n -> (1 <= n)%nat -> energies_known q s n ->
    (exists m, get_subset q None s = Ok (Some m, None)) /\
    (forall l, length l = n ->
       exists m, get_subset q (Some l) s = Ok (Some m, Some m) /\ get_subset q (Some m) s = Ok (Some m, Some m)).
Proof.
  intros q s n M H E. split.
  - destruct (@subset_mask q None s n M H E I) as [m [Q _]]. now exists m.
  - intros l L. exact (subset_repeat M H E L).
Qed.
Print Assumptions C22_same_call_repeated_partial.

(* C22 finding: the array passed as indx is overwritten whenever the limits exclude one of its stars. *)
Theorem C22_caller_mask_overwritten_refuted :
  forall (q : selection) (l : list bool) (s : system) (n i : nat),
    measured s n -> energies_known q s n -> length l = n -> (i < n)%nat -> nth i l false = true -> ~ satisfies q s i ->
    exists m l', get_subset q (Some l) s = Ok (Some m, Some l') /\ l' <> l /\ nth i l' false = false.
Proof.
  intros q l s n i M E L Hi Ti Ns. destruct (@subset_mask q (Some l) s n M ltac:(lia) E L) as [m [Q [Lm W]]].
  exists m, m. split; [exact Q|]. specialize (W i Hi).
  assert (F : nth i m false = false) by (destruct (nth i m false); [exfalso; apply Ns; now apply W|reflexivity]).
  split; [|exact F]. intros ->. congruence.
Qed.
Print Assumptions C22_caller_mask_overwritten_refuted.

(* C22 finding, for every history: after any sequence of calls with the same array, it holds the conjunction of all the
   criteria used so far. *)
Theorem C22_masks_accumulate_refuted :
  forall (s : system) (n : nat) (qs : list selection), measured s n -> (1 <= n)%nat ->
    (forall q, In q qs -> energies_known q s n) ->
    forall l, length l = n -> exists l', repeated_calls qs (Some l) s = Some l' /\ length l' = n /\
      forall i, (i < n)%nat -> nth i l' false = true <-> nth i l false = true /\ forall q, In q qs -> satisfies q s i.
Proof. exact mask_accumulates. Qed.
Print Assumptions C22_masks_accumulate_refuted.

(* C23: the new cluster holds exactly the selected stars, in the order of the parent, each with all its data. *)
Theorem C23_sub_cluster :
  forall (G : galpy) (q : selection) (indx : option (list bool)) (sort : bool) (s : system) (n : nat),
    complete s n -> (1 <= n)%nat -> energies_known q s n -> mask_fits indx n ->
    exists J sub parent caller, sub_cluster G q indx sort s = Ok (sub, parent, caller) /\
      StronglySorted lt J /\ (forall i, In i J <-> (i < n)%nat /\ in_mask indx i /\ satisfies q s i) /\
      (J = [] -> sub = nothing_selected (p_t (c_ph (g_c (y_k s))))) /\
      (J <> [] -> holds_stars sub s J /\ binaries_follow sub s /\ (sort = true -> sorted_sub sub (length J))).
Proof.
  intros G q indx sort s n C H E F.
  destruct (@sub_cluster_ok G q indx sort s n C H E F) as [J [sub [caller [Q [S [I [Z N]]]]]]].
  exists J, sub, (parent_after s), caller. do 4 (split; [assumption|]).
  intros NE. destruct (N NE) as [N1 [N2 [_ [_ [_ N6]]]]]. now split.
Qed.
Print Assumptions C23_sub_cluster.

(* C23: the parent keeps its stars and everything else; if its order was up to date it is exactly as before. *)
Theorem C23_parent_unchanged :
  forall (G : galpy) (q : selection) (indx : option (list bool)) (sort : bool) (s : system) (n : nat),
    complete s n -> (1 <= n)%nat -> energies_known q s n -> mask_fits indx n ->
    exists sub parent caller, sub_cluster G q indx sort s = Ok (sub, parent, caller) /\
      (forall i, star_at (y_k parent) i = star_at (y_k s) i) /\ g_ntot (y_k parent) = g_ntot (y_k s) /\
      parent_data s (g_c (y_k parent)) /\ g_sse (y_k parent) = g_sse (y_k s) /\ g_bse (y_k parent) = g_bse (y_k s) /\
      y_kin parent = y_kin s /\ y_pot parent = y_pot s /\ y_etot parent = y_etot s /\
      (forall c0, g_c (y_k s) = analyze true true c0 -> parent = s).
Proof.
  intros G q indx sort s n C H E F.
  destruct (@sub_cluster_ok G q indx sort s n C H E F) as [J [sub [caller [Q _]]]].
  exists sub, (parent_after s), caller. split; [exact Q|].
  destruct (analyze_ph true true (g_c (y_k s))) as [Q1 [Q2 [Q3 [Q4 [Q5 [Q6 Q7]]]]]].
  split. { intros i. unfold star_at. cbn [parent_after y_k set_cluster g_c g_m0 g_npop]. now rewrite Q1 Q2. }
  split; [reflexivity|]. split.
  { unfold parent_data. cbn [parent_after y_k set_cluster g_c]. rewrite Q1 Q4 Q5 Q6. now repeat split. }
  do 5 (split; [reflexivity|]). intros c0 A. unfold parent_after. rewrite A analyze_idem -A.
  destruct s as [k a b c]. cbn [y_k y_kin y_pot y_etot]. now destruct k.
Qed.
Print Assumptions C23_parent_unchanged.

(* C23: a mask and its complement split the mass of the parent (stellar types, when present, being ordinary ones). *)
Theorem C23_complement_splits_mass :
  forall (G : galpy) (l : list bool) (sort : bool) (s : system) (n : nat),
    complete s n -> (1 <= n)%nat -> length l = n ->
    (forall i, (i < n)%nat -> e_kw (g_sse (y_k s)) = [] \/ 0 <= nth i (e_kw (g_sse (y_k s))) 0 <= 15) ->
    exists sub1 p1 c1 sub2 p2 c2,
      sub_cluster G select_default (Some l) sort s = Ok (sub1, p1, c1) /\
      sub_cluster G select_default (Some (map negb l)) sort s = Ok (sub2, p2, c2) /\
      mass_of sub1 + mass_of sub2 = mass_of s.
Proof.
  intros G l sort s n C H L K.
  assert (SAT : forall i, (i < n)%nat -> satisfies select_default s i).
  { intros i Hi. unfold satisfies, within; cbn. do 3 (split; [split; intros ? X; discriminate|]).
    split; [intros ? X; discriminate|]. split; [now left|]. exact (K i Hi). }
  destruct (@sub_cluster_ok G select_default (Some l) sort s n C H ltac:(now left) L) as [J1 [sub1 [k1 [Q1 [S1 [I1 [Z1 N1]]]]]]].
  destruct (@sub_cluster_ok G select_default (Some (map negb l)) sort s n C H ltac:(now left) ltac:(cbn; now rewrite map_length))
    as [J2 [sub2 [k2 [Q2 [S2 [I2 [Z2 N2]]]]]]].
  do 6 eexists. split; [exact Q1|]. split; [exact Q2|].
  assert (MO : forall J sub, (J = [] -> sub = nothing_selected (p_t (c_ph (g_c (y_k s))))) -> (J <> [] -> holds_stars sub s J) ->
     mass_of sub = sumR (map (row_mass (y_k s)) J)).
  { intros J sub A B. destruct J as [|a J]; [rewrite (A eq_refl); reflexivity|]. apply mass_of_sub. apply B. discriminate. }
  rewrite (MO J1 sub1 Z1 (fun X => proj1 (N1 X))) (MO J2 sub2 Z2 (fun X => proj1 (N2 X))).
  unfold mass_of. rewrite (proj1 (proj2 (proj1 C))).
  assert (NEG : forall i, (i < n)%nat -> nth i (map negb l) false = negb (nth i l false)).
  { intros i Hi. exact (@nth_map_b _ negb l i false ltac:(lia)). }
  apply split_mass; [exact S1|exact S2| |].
  - intros i. rewrite I1 I2. cbn [in_mask]. split; [now intros [[X _]|[X _]]|]. intros Hi. rewrite (NEG i Hi).
    destruct (nth i l false); [left|right]; (split; [exact Hi|]); split; try reflexivity; now apply SAT.
  - intros i. rewrite I1 I2. cbn [in_mask]. intros [Hi [A _]] [_ [B _]]. rewrite (NEG i Hi) A in B. discriminate.
Qed.
Print Assumptions C23_complement_splits_mass.

(* C23 finding: the semi-major axes and periods are copied unchanged but the new cluster records its binary units as its
   ordinary units, so a parent with binaries in au and days gives a sub-cluster whose binaries are mislabelled. *)
Theorem C23_binary_units_lost_refuted :
  forall (G : galpy) (q : selection) (indx : option (list bool)) (sort : bool) (s : system) (n i : nat),
    complete s n -> (1 <= n)%nat -> energies_known q s n -> mask_fits indx n ->
    (i < n)%nat -> in_mask indx i -> satisfies q s i -> f_id2 (g_bse (y_k s)) <> [] ->
    c_bunits (g_c (y_k s)) = Some Baudays ->
    exists sub parent caller B, sub_cluster G q indx sort s = Ok (sub, parent, caller) /\
      b_semi (c_bin (g_c (y_k sub))) = select B (b_semi (c_bin (g_c (y_k s)))) /\
      c_bunits (g_c (y_k sub)) <> c_bunits (g_c (y_k s)).
Proof.
  intros G q indx sort s n i C H E F Hi Mi Si Hb AU.
  destruct (@sub_cluster_ok G q indx sort s n C H E F) as [J [sub [caller [Q [S [I [Z N]]]]]]].
  assert (NE : J <> []) by (intros ->; apply (I i); now split).
  destruct (N NE) as [N1 [N2 [N3 _]]]. destruct (N2 Hb) as [B [_ [_ [_ [_ [B3 _]]]]]].
  exists sub, (parent_after s), caller, B. split; [exact Q|]. split; [exact B3|].
  rewrite N3 AU. destruct (c_units (g_c (y_k s))); discriminate.
Qed.
Print Assumptions C23_binary_units_lost_refuted.

(* C23 finding: the counts of single stars and binaries are those of the parent (passed to add_nbody6), so a proper
   sub-cluster of a cluster of n single stars reports n of them. *)
Theorem C23_star_counts_stale_refuted :
  forall (G : galpy) (q : selection) (indx : option (list bool)) (sort : bool) (s : system) (n i j : nat),
    complete s n -> energies_known q s n -> mask_fits indx n ->
    g_ns (y_k s) = Z.of_nat n -> c_nb (g_c (y_k s)) = 0%nat -> f_id2 (g_bse (y_k s)) = [] ->
    (i < n)%nat -> in_mask indx i -> satisfies q s i ->
    (j < n)%nat -> ~ (in_mask indx j /\ satisfies q s j) ->
    exists sub parent caller, sub_cluster G q indx sort s = Ok (sub, parent, caller) /\
      (Z.of_nat (g_ntot (y_k sub)) < g_ns (y_k sub) + Z.of_nat (c_nb (g_c (y_k sub))))%Z.
Proof.
  intros G q indx sort s n i j C E F NS NB Hb Hi Mi Si Hj Nj.
  destruct (@sub_cluster_ok G q indx sort s n C ltac:(lia) E F) as [J [sub [caller [Q [S [I [Z N]]]]]]].
  assert (NE : J <> []) by (intros ->; apply (I i); now split).
  destruct (N NE) as [N1 [N2 [N3 [N4 [N5 _]]]]].
  exists sub, (parent_after s), caller. split; [exact Q|].
  destruct N1 as [[_ [NT _]] _]. rewrite NT N4 (N5 Hb) NS NB.
  assert (LT : (length (j :: J) <= length (seq 0 n))%nat).
  { apply NoDup_incl_length.
    - constructor; [|now apply ss_nodup]. intros X. apply Nj. now apply I in X.
    - intros x [<-|X]; apply in_seq; [lia|]. apply I in X. lia. }
  rewrite seq_length in LT. cbn [length] in LT. lia.
Qed.
Print Assumptions C23_star_counts_stale_refuted.

(* C24: a star of the first cluster belongs to the overlap exactly if some star of the second is closer than tol; the
   cluster returned holds exactly those stars. *)
Theorem C24_overlap :
  forall (G : galpy) (tol : R) (projected : bool) (s1 s2 : system) (n1 n2 : nat),
    complete s1 n1 -> (1 <= n1)%nat -> six_length (p_s (c_ph (g_c (y_k s2)))) n2 -> (1 <= n2)%nat ->
    (forall i, (i < n1)%nat -> e_kw (g_sse (y_k s1)) = [] \/ 0 <= nth i (e_kw (g_sse (y_k s1))) 0 <= 15) ->
    exists J sub parent, overlap_cluster G tol projected s1 s2 = Ok (sub, parent) /\
      StronglySorted lt J /\
      (forall i, In i J <-> (i < n1)%nat /\ exists j, (j < n2)%nat /\ star_separation projected (g_c (y_k s1)) (g_c (y_k s2)) i j < tol) /\
      (J = [] -> sub = nothing_selected (p_t (c_ph (g_c (y_k s1))))) /\
      (J <> [] -> holds_stars sub s1 J).
Proof.
  intros G tol p s1 s2 n1 n2 C H S2 H2 K.
  destruct (@overlap_mask_ok tol p (g_c (y_k s1)) (g_c (y_k s2)) n1 n2 (proj1 (proj1 (proj1 C))) S2 H2) as [l [E [L M]]].
  destruct (@sub_cluster_ok G select_default (Some l) true s1 n1 C H ltac:(now left) L) as [J [sub [k [Q [S [I [Z N]]]]]]].
  exists J, sub, (parent_after s1). unfold overlap_cluster. rewrite E; cbn [bind]. rewrite Q; cbn [bind].
  split; [reflexivity|]. split; [exact S|]. split; [|split; [exact Z|intros X; exact (proj1 (N X))]].
  intros i. rewrite I. cbn [in_mask]. split.
  - intros [Hi [A _]]. split; [exact Hi|]. now apply M.
  - intros [Hi A]. split; [exact Hi|]. split; [now apply M|].
    unfold satisfies, within; cbn. do 3 (split; [split; intros ? X; discriminate|]).
    split; [intros ? X; discriminate|]. split; [now left|]. exact (K i Hi).
Qed.
Print Assumptions C24_overlap.

(* ------------------------------------------------------------------ a concrete cluster *)
(* three stars, ids 1 2 3, one binary (1,2) with semi-major axis in au, energies known, types 0, 1 and -1 *)
Definition demo_six : six (list R) := mk6 [0; 3; 0] [0; 4; 1] [0; 0; 0] [1; 0; 0] [0; 2; 0] [0; 0; 3].
Definition demo_raw : cluster :=
  mkC (Some Upckms) (Some Ocluster) (Some Baudays) 0 (mkP 0 [1; 2; 3] demo_six zero6 zero6) (mkSc 1 1 1 1 1 1 1 8 220)
      (mkB [1] [10] [1] [2]) (mkSk nil6 zero6 zero6 None None None) empty_derived [1; 2; 3]%Z.
Definition demo_system : system :=
  mkSys (mkCat (analyze true true demo_raw) [1; 2; 3] [1; 1; 1]%Z init_pairs
           (mkSse [0; 1; -1] [] [] [] [] [] 0)
           (mkBse [1]%Z [2]%Z [0] [1] [0] [0] [0] [0] [0] [0] [] [] [] [] []) 3 3)
        [1; 4; 14] [Some (-1); Some (-1); None] [Some 0; Some 3; None].

Lemma demo_measured : measured demo_system 3.
Proof.
  destruct (analyze_ph true true demo_raw) as [Q1 [Q2 _]]. destruct (analyze_norms true true demo_raw) as [G1 [G2 [G3 G4]]].
  assert (A : aligned (y_k demo_system) 3).
  { unfold aligned, demo_system. cbn [y_k g_c g_m0 g_npop]. rewrite Q1 Q2. now repeat split. }
  assert (E : c_ph (g_c (y_k demo_system)) = c_ph demo_raw) by exact Q1.
  destruct (@measured_norms (y_k demo_system) 3 A ltac:(rewrite E; exact G1) ltac:(rewrite E; exact G2) ltac:(rewrite E; exact G3)
     ltac:(rewrite E; exact G4)) as [N1 [N2 [N3 [N4 N5]]]].
  split; [exact A|]. split; [reflexivity|]. do 4 (split; [assumption|]). split; [exact N5|]. split; now right.
Qed.
Lemma demo_complete : complete demo_system 3.
Proof.
  split; [exact demo_measured|]. split; [now left|]. split; [now right|]. split.
  - exists 1%nat. right. unfold demo_system; cbn [y_k g_bse g_c f_id1 f_id2 f_kw1 f_kw2 f_kcm f_ecc f_logl1 f_logl2 f_logr1 f_logr2].
    destruct (analyze_bin true true demo_raw) as [_ B]. rewrite B. now repeat split.
  - left. unfold demo_system; cbn [y_k g_c]. destruct (analyze_ph true true demo_raw) as [_ [_ [_ [_ [_ [_ Q]]]]]]. rewrite Q. discriminate.
Qed.
Lemma demo_star i : star_at (y_k demo_system) i =
  mkStar (map6 (fun l => nth i l 0) demo_six) (nth i [1; 2; 3] 0) (nth i [1; 2; 3] 0)%Z (nth i [1; 2; 3] 0) (nth i [1; 1; 1] 0)%Z.
Proof.
  destruct (analyze_ph true true demo_raw) as [Q1 [Q2 _]]. unfold star_at, demo_system. cbn [y_k g_c g_m0 g_npop]. now rewrite Q1 Q2.
Qed.
(* stars 0 and 1, but not 2, within the default type limits; star 1 but not star 0 beyond radius 4 *)
Definition demo_far : selection := mkSel (Some 4) None None None None None None (Some 5) 0 15 None false.
Example C21_hypotheses_met : measured demo_system 3 /\ energies_known demo_far demo_system 3 /\ mask_fits (Some [true; true; true]) 3 /\
  e_kw (g_sse (y_k demo_system)) <> [] /\ nth 2 (e_kw (g_sse (y_k demo_system))) 0 < 0 /\ length [true; true] <> 3%nat /\
  in_mask (Some [true; true; true]) 1 /\ satisfies demo_far demo_system 1 /\ ~ satisfies demo_far demo_system 0.
Proof.
  split; [exact demo_measured|]. split; [now right|]. split; [reflexivity|]. split; [discriminate|]. split; [cbn; lra|].
  split; [discriminate|]. split; [reflexivity|].
  unfold satisfies, within, seen_distance. rewrite !demo_star.
  cbn [demo_far l_rmin l_rmax l_vmin l_vmax l_mmin l_mmax l_npop l_emin l_emax l_kwmin l_kwmax l_projected w_s map6 demo_six sx sy sz nth
       demo_system y_etot y_k g_sse e_kw].
  split.
  - split; [split; [intros a X|intros b X; discriminate]|].
    { injection X as <-. apply Rle_trans with (sqrt (4 * 4)); [rewrite sqrt_square; lra|]. apply sqrt_le_1_alt. nra. }
    split; [split; intros ? X; discriminate|]. split; [split; intros ? X; discriminate|]. split; [intros ? X; discriminate|].
    split; [right; exists 3; split; [reflexivity|split; [intros ? X; discriminate|intros b X; injection X as <-; lra]]|]. right. lra.
  - intros [[A _] _]. specialize (A 4 eq_refl). replace (0 ^ 2 + 0 ^ 2 + 0 ^ 2) with 0 in A by ring. rewrite sqrt_0 in A. lra.
Qed.
Example C23_hypotheses_met : complete demo_system 3 /\ f_id2 (g_bse (y_k demo_system)) <> [] /\
  c_bunits (g_c (y_k demo_system)) = Some Baudays /\ (exists c0, g_c (y_k demo_system) = analyze true true c0).
Proof.
  split; [exact demo_complete|]. split; [discriminate|].
  split; [cbn [demo_system y_k g_c]; destruct (analyze_bin true true demo_raw) as [-> _]; reflexivity|]. now exists demo_raw.
Qed.
(* the same stars without stellar types and binaries *)
Definition demo_singles : system :=
  mkSys (mkCat (analyze true true demo_raw) [1; 2; 3] [1; 1; 1]%Z init_pairs init_sse init_bse 3 3) [] [] [].
Example C23_singles_hypotheses_met : complete demo_singles 3 /\ g_ns (y_k demo_singles) = Z.of_nat 3 /\
  c_nb (g_c (y_k demo_singles)) = 0%nat /\ f_id2 (g_bse (y_k demo_singles)) = [] /\
  satisfies select_default demo_singles 1 /\ in_mask (Some [false; true; false]) 1 /\ ~ in_mask (Some [false; true; false]) 0 /\
  (forall i, (i < 3)%nat -> e_kw (g_sse (y_k demo_singles)) = [] \/ 0 <= nth i (e_kw (g_sse (y_k demo_singles))) 0 <= 15).
Proof.
  split.
  { destruct demo_measured as [A [N [L1 [L2 [L3 [L4 [D _]]]]]]]. split.
    - split; [exact A|]. split; [reflexivity|]. do 4 (split; [assumption|]). split; [exact D|]. split; now left.
    - split; [now left|]. split; [now left|]. split; [exists 0%nat; now left|].
      left. unfold demo_singles; cbn [y_k g_c]. destruct (analyze_ph true true demo_raw) as [_ [_ [_ [_ [_ [_ Q]]]]]]. rewrite Q. discriminate. }
  split; [reflexivity|].
  split; [cbn [demo_singles y_k g_c]; destruct (analyze_ph true true demo_raw) as [_ [_ [-> _]]]; reflexivity|].
  split; [reflexivity|]. split.
  { unfold satisfies, within; cbn [select_default l_rmin l_rmax l_vmin l_vmax l_mmin l_mmax l_npop l_emin l_emax].
    do 3 (split; [split; intros ? X; discriminate|]). split; [intros ? X; discriminate|]. split; [now left|]. now left. }
  split; [reflexivity|]. split; [discriminate|]. intros i _. now left.
Qed.
