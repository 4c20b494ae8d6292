(* C15-C20, C56: adding stars, binaries and stellar evolution data. *)
From Verif Require Import Base ModelCluster ModelRecipes ModelStars SpecOrder SpecStars
  ProofsStars ProofsStars2 ProofsStars3 ProofsStars4 ProofsStars5.

(* C15: single stars are appended: every array has n+N entries, old rows are unchanged, new row n+j is star j of the
   call (with mass 1, initial mass 0 and population 1 where not given), and the counts are updated. *)
Theorem C15_add_single_stars :
  forall (a : star_args) (N : nat) (k : catalog) (n : nat) (sort an proj : bool),
    describes_stars a N -> aligned k n ->
    exists k', add_stars 0 a sort an proj k = Ok k' /\ aligned k' (n + N) /\
      (forall i, (i < n)%nat -> star_at k' i = star_at k i) /\
      (forall j, (j < N)%nat -> is_given a j (star_at k' (n + j))) /\
      g_ntot k' = (n + N)%nat /\ g_ns k' = (Z.of_nat (n + N) - Z.of_nat (c_nb (g_c k)))%Z /\
      c_nb (g_c k') = c_nb (g_c k) /\ g_b k' = g_b k /\
      c_units (g_c k') = c_units (g_c k) /\ c_origin (g_c k') = c_origin (g_c k).
Proof.
  intros a N k n sort an proj D A.
  destruct (add_singles_rows sort an proj D A) as [k' [H1 [H2 [H3 [H4 [H5 [H6 [H7 [H8 [H9 [H10 _]]]]]]]]]]].
  exists k'. tauto.
Qed.
Print Assumptions C15_add_single_stars.

(* C15: with nb binaries given first (two rows each), one centre-of-mass row per binary is put in front, the old stars
   follow unchanged, then the remaining stars; the components are stored. *)
Theorem C15_add_binaries :
  forall (a : star_args) (N nb : nat) (k : catalog) (n : nat) (sort an proj : bool),
    describes_stars a N -> aligned k n -> no_binaries k -> (1 <= nb)%nat -> (2 * nb <= N)%nat ->
    (nb = 1%nat -> a_m a <> None) ->
    exists k', add_stars nb a sort an proj k = Ok k' /\ aligned k' (nb + n + (N - 2 * nb)) /\
      (forall i, (i < nb)%nat -> is_pair a (2 * i) (2 * i + 1) (star_at k' i)) /\
      (forall i, (i < n)%nat -> star_at k' (nb + i) = star_at k i) /\
      (forall j, (j < N - 2 * nb)%nat -> is_given a (2 * nb + j) (star_at k' (nb + n + j))) /\
      g_ntot k' = (nb + n + (N - 2 * nb))%nat /\ g_ns k' = (Z.of_nat (n + (N - 2 * nb)))%Z /\
      c_nb (g_c k') = nb /\
      (forall i, (i < nb)%nat ->
         map6 (fun l => nth i l 0) (b_1 (g_b k')) = map6 (fun p => value 0 p (2 * i)) (a_s a) /\
         map6 (fun l => nth i l 0) (b_2 (g_b k')) = map6 (fun p => value 0 p (2 * i + 1)) (a_s a) /\
         nth i (b_mb1 (g_b k')) 0 = value_or 1 0 (a_m a) (2 * i) /\
         nth i (b_mb2 (g_b k')) 0 = value_or 1 0 (a_m a) (2 * i + 1)).
Proof.
  intros a N nb k n sort an proj D A NB H1 H2 M.
  destruct (add_binaries_rows sort an proj D A NB H1 H2 M) as [k' [E1 [E2 [E3 [E4 [E5 [E6 [E7 [E8 [E9 _]]]]]]]]]].
  exists k'. tauto.
Qed.
Print Assumptions C15_add_binaries.

(* C15 finding: a one-entry array (say one mass for all new stars) given to a cluster that already holds stars is not
   repeated; the call returns normally with arrays of different lengths.  (On an empty cluster it is repeated, see C18.) *)
Definition one_mass_args (l : list R) (v : R) : star_args :=
  mkArgs (mk6 (Array l) (Array l) (Array l) (Array l) (Array l) (Array l)) (Some (Array [v])) None None None.
Theorem C15_one_entry_mass_misaligns_refuted :
  forall (l : list R) (v : R) (k : catalog) (n : nat) (sort an proj : bool),
    aligned k n -> (1 <= n)%nat -> (2 <= length l)%nat ->
    exists k', add_stars 0 (one_mass_args l v) sort an proj k = Ok k' /\ g_ntot k' = (n + length l)%nat /\
      length (p_m (c_ph (g_c k'))) = (n + 1)%nat.
Proof.
  intros l v k n sort an proj A Hn Hl.
  pose (N := length l).
  assert (NP : npmax (one_mass_args l v) = N).
  { unfold npmax, one_mass_args; cbn [a_s a_m a_id a_m0 a_npop sx sy sz svx svy svz arg_len opt_len list_max fold_right].
    fold N. simpl length. lia. }
  unfold add_stars. rewrite NP. cbn [Nat.eqb bind].
  set (s := map6 (expand N) (a_s (one_mass_args l v))).
  set (k2 := add_single_rows _ _ _ _ _ _ _).
  exists (finish s sort an proj k2). split; [reflexivity|].
  pose proof (finish_columns s sort an proj k2) as CF.
  destruct A as [[Ax [Ay [Az [Avx [Avy Avz]]]]] [Am [Ai [A0 Ap]]]].
  assert (Lx : length (sx (t_s (columns_of k2))) = (n + N)%nat).
  { unfold k2, add_single_rows. cbn [columns_of t_s t_id t_m t_m0 t_npop put_columns put_cluster g_c c_ph p_s map6 sx app6].
    rewrite app_length Ax. reflexivity. }
  assert (Lm : length (t_m (columns_of k2)) = (n + 1)%nat).
  { unfold k2, add_single_rows. cbn [columns_of t_s t_id t_m t_m0 t_npop put_columns put_cluster g_c c_ph p_m].
    rewrite app_length Am. reflexivity. }
  assert (NE : forall A (m : list A) q, (2 <= length m)%nat -> stretch q m = m).
  { intros A [|b [|c m]] q; simpl; try lia; reflexivity. }
  assert (CK : length (sx (t_s (check_lengths (columns_of k2)))) = (n + N)%nat /\ length (t_m (check_lengths (columns_of k2))) = (n + 1)%nat).
  { unfold check_lengths. destruct (Nat.eqb (list_max _) _); [tauto|]. cbn [t_s t_m map6 sx].
    rewrite !NE; try (rewrite ?Lx ?Lm; fold N in Hl; lia). }
  rewrite -CF in CK. exact CK.
Qed.
Print Assumptions C15_one_entry_mass_misaligns_refuted.

Lemma finish_sky s sort an proj k :
  c_sky (g_c (finish s sort an proj k)) = c_sky (add_sky_rows s (g_c (put_columns k (check_lengths (columns_of k))))).
Proof.
  unfold finish. cbn [set_counts set_cluster g_c]. destruct an; [|reflexivity].
  exact (proj2 (proj2 (proj2 (proj2 (proj2 (proj2 (analyze_ph sort proj _))))))).
Qed.

(* C15 finding: in sky coordinates a call with binaries leaves ra longer than the star list. *)
Theorem C15_sky_arrays_too_long_refuted :
  forall (a : star_args) (N nb : nat) (k : catalog) (sort an proj : bool),
    describes_stars a N -> aligned k 0 -> no_binaries k -> (1 <= nb)%nat -> (2 * nb <= N)%nat ->
    (nb = 1%nat -> a_m a <> None) -> c_units (g_c k) = Some Uradec -> c_origin (g_c k) = Some Osky ->
    k_s (c_sky (g_c k)) = nil6 ->
    exists k', add_stars nb a sort an proj k = Ok k' /\ g_ntot k' = (N - nb)%nat /\
      length (sx (k_s (c_sky (g_c k')))) = N.
Proof.
  intros a N nb k sort an proj D A NB H1 H2 M U O K.
  destruct (add_binaries_rows sort an proj D A NB H1 H2 M) as [k' [E1 [E2 [E3 [E4 [E5 [E6 _]]]]]]].
  exists k'. split; [exact E1|]. split; [lia|].
  destruct D as [N1 [S [Sm [Si [S0 [Sp DD]]]]]].
  assert (D : describes_stars a N) by (unfold describes_stars; tauto).
  revert E1. unfold add_stars. rewrite (npmax_described D).
  destruct (Nat.eqb_spec nb 0) as [Z0|_]; [lia|].
  assert (L : columns_length (columns_of k) 0) by (apply aligned_columns; exact A).
  assert (M1 : nb = 1%nat -> option_map (expand N) (a_m a) <> None).
  { intros Q. specialize (M Q). destruct (a_m a); [discriminate|congruence]. }
  destruct (binary_columns H1 H2 (six_expand_length S) (opt_map_some Sm) (opt_map_some Si) (opt_map_some S0) (opt_map_some Sp) M1 NB L)
    as [k1 [EB [_ [_ [_ [_ [_ [_ [UB [OB [_ KB]]]]]]]]]]].
  rewrite EB. cbn [bind]. set (s := map6 (expand N) (a_s a)).
  set (k2 := add_single_rows _ _ _ _ _ _ _).
  intros E. assert (E' : finish s sort an proj k2 = k') by (assert (Q : Ok (finish s sort an proj k2) = Ok k') by exact E; congruence).
  rewrite -E' finish_sky. unfold add_sky_rows.
  assert (U' : c_units (g_c (put_columns k2 (check_lengths (columns_of k2)))) = Some Uradec) by (rewrite -U; exact UB).
  assert (O' : c_origin (g_c (put_columns k2 (check_lengths (columns_of k2)))) = Some Osky) by (rewrite -O; exact OB).
  rewrite U' O'. cbn [set_sky c_sky k_s app6 sx].
  assert (K' : k_s (c_sky (g_c (put_columns k2 (check_lengths (columns_of k2))))) = nil6) by (rewrite -K; exact (f_equal k_s KB)).
  rewrite K'. cbn [sx nil6 app]. destruct (six_expand_length S) as [Q _]. exact Q.
Qed.
Print Assumptions C15_sky_arrays_too_long_refuted.

(* C16: in any history of calls without ids the ids, and the ids (one more) of the companions of the binaries, are
   pairwise distinct. *)
Theorem C16_default_ids_unique :
  forall k : catalog, default_history k -> NoDup (all_ids k).
Proof. intros k H. destruct (history_ids H) as [n [_ [_ [_ ND]]]]. exact ND. Qed.
Print Assumptions C16_default_ids_unique.

(* C17: total mass, and mass times every component of position and velocity, are those of the old stars plus those
   of all the stars given, components of binaries included. *)
Theorem C17_binaries_conserve_mass_and_momentum :
  forall (a : star_args) (N nb : nat) (k : catalog) (n : nat) (sort an proj : bool),
    describes_stars a N -> aligned k n -> no_binaries k -> (1 <= nb)%nat -> (2 * nb <= N)%nat ->
    (nb = 1%nat -> a_m a <> None) -> (forall j, (j < N)%nat -> 0 < value_or 1 0 (a_m a) j) ->
    exists k', add_stars nb a sort an proj k = Ok k' /\ aligned k' (nb + n + (N - 2 * nb)) /\
      let n' := (nb + n + (N - 2 * nb))%nat in
      total (row_mass k') n' = total (row_mass k) n + total (fun j => value_or 1 0 (a_m a) j) N /\
      forall f, In f [@sx R; @sy R; @sz R; @svx R; @svy R; @svz R] ->
        total (row_moment f k') n' = total (row_moment f k) n +
          total (fun j => value_or 1 0 (a_m a) j * f (map6 (fun p => value 0 p j) (a_s a))) N.
Proof.
  intros a N nb k n sort an proj D A NB H1 H2 M POS.
  destruct (binaries_conserve sort an proj D A NB H1 H2 M POS) as [k' [E [T1 T2]]].
  destruct (add_binaries_rows sort an proj D A NB H1 H2 M) as [k2 [E2 [AL _]]].
  rewrite E in E2. injection E2 as E2; subst k2.
  exists k'. split; [exact E|]. split; [exact AL|]. split; [exact T1|exact T2].
Qed.
Print Assumptions C17_binaries_conserve_mass_and_momentum.

(* C17 finding: one binary without masses raises TypeError (len() of a number at cluster.py:753), although two or more
   binaries without masses are accepted. *)
Theorem C17_one_binary_default_mass_raises_refuted :
  forall (a : star_args) (N : nat) (k : catalog) (sort an proj : bool),
    describes_stars a N -> (2 <= N)%nat -> a_m a = None -> add_stars 1 a sort an proj k = Raise.
Proof. intros a N k sort an proj. apply one_binary_without_mass. Qed.
Print Assumptions C17_one_binary_default_mass_raises_refuted.

(* C18: a number given for an argument has the same effect as an array repeating it for every star of the call. *)
Definition repeated {A} (N : nat) (p : arg A) : arg A := match p with Scalar a => Array (repeat a N) | Array l => Array l end.
Theorem C18_scalars_are_repeated :
  forall (a : star_args) (N nb : nat) (sort an proj : bool) (k : catalog), describes_stars a N ->
    add_stars nb a sort an proj k =
    add_stars nb (mkArgs (map6 (repeated N) (a_s a)) (option_map (repeated N) (a_m a)) (option_map (repeated N) (a_id a))
                         (option_map (repeated N) (a_m0 a)) (option_map (repeated N) (a_npop a))) sort an proj k.
Proof. exact scalars_spelled_out. Qed.
Print Assumptions C18_scalars_are_repeated.

(* C18: on an empty cluster a one-entry array (other than for the ids) works as a number. *)
Definition entry_as_number {A} (p : arg A) : arg A := match p with Array [a] => Scalar a | _ => p end.
Definition entries_as_numbers (a : star_args) : star_args :=
  mkArgs (map6 entry_as_number (a_s a)) (option_map entry_as_number (a_m a)) (option_map entry_as_number (a_id a))
         (option_map entry_as_number (a_m0 a)) (option_map entry_as_number (a_npop a)).
Theorem C18_one_entry_arrays_on_empty_cluster :
  forall (a : star_args) (N : nat) (sort an proj : bool) (k : catalog),
    describes_stars (entries_as_numbers a) N -> aligned k 0 -> c_nb (g_c k) = 0%nat ->
    (forall v, a_id a <> Some (Array [v])) ->
    exists k1 k2, add_stars 0 a sort an proj k = Ok k1 /\ add_stars 0 (entries_as_numbers a) sort an proj k = Ok k2 /\
      aligned k1 N /\ (forall i, star_at k1 i = star_at k2 i).
Proof.
  intros a N sort an proj k D A NB ID.
  destruct (one_entry_arrays sort an proj D A NB ID) as [k1 [k2 [E1 [E2 [C L]]]]].
  exists k1, k2. split; [exact E1|]. split; [exact E2|]. split; [exact L|].
  intros i. rewrite !star_at_row. now rewrite C.
Qed.
Print Assumptions C18_one_entry_arrays_on_empty_cluster.

(* C19 (first call): add_binary_stars puts the centres of mass in front of the old stars. *)
Theorem C19_first_add_binary_stars_partial :
  forall (q : pair_args) (n0 : nat) (k : catalog) (n : nat) (p r : list Z),
    pairs_sized q n0 -> aligned k n -> no_binaries k -> q_m01 q = None ->
    q_np1 q = Some (Array p) -> q_np2 q = Some (Array r) -> length p = n0 -> length r = n0 ->
    exists k', add_binary_stars q k = Ok k' /\ aligned k' (n0 + n) /\ c_nb (g_c k') = n0 /\ g_ntot k' = (n0 + n)%nat /\
      (forall i, (i < n0)%nat -> is_pair_row q i (star_at k' i)) /\
      (forall i, (i < n)%nat -> w_s (star_at k' (n0 + i)) = w_s (star_at k i) /\
         w_m (star_at k' (n0 + i)) = w_m (star_at k i) /\ w_id (star_at k' (n0 + i)) = w_id (star_at k i)).
Proof.
  intros q n0 k n p r S A NB M P1 P2 L1 L2.
  assert (PR : pop_rows q n0 (zip_with Z.max p r)) by (right; exists p, r; tauto).
  destruct (direct_first_call S A NB M PR) as [k' [E [H1 [H2 [H3 [H4 [H5 [H6 [H7 [H8 H9]]]]]]]]]].
  exists k'. split; [exact E|]. split; [|tauto].
  unfold aligned. rewrite H7 app_length zip_with_length L1 L2.
  destruct A as [_ [_ [_ [_ A]]]]. rewrite A Nat.min_id. tauto.
Qed.
Print Assumptions C19_first_add_binary_stars_partial.

(* C19 finding: without npop1/npop2 the population array is not extended, so the arrays no longer match. *)
Theorem C19_default_populations_misalign_refuted :
  forall (q : pair_args) (n0 : nat) (k : catalog) (n : nat),
    pairs_sized q n0 -> (1 <= n0)%nat -> aligned k n -> no_binaries k -> q_m01 q = None -> q_np1 q = None ->
    exists k', add_binary_stars q k = Ok k' /\ g_ntot k' = (n0 + n)%nat /\ length (g_npop k') = n.
Proof.
  intros q n0 k n S H A NB M P.
  assert (PR : pop_rows q n0 []) by (left; tauto).
  destruct (direct_first_call S A NB M PR) as [k' [E [H1 [H2 [H3 [H4 [H5 [H6 [H7 _]]]]]]]]].
  exists k'. split; [exact E|]. split; [exact H2|]. rewrite H7. now destruct A as [_ [_ [_ [_ A]]]].
Qed.
Print Assumptions C19_default_populations_misalign_refuted.

(* C19 finding: a second call with two or more binaries raises; a second call with one binary returns a cluster whose
   position arrays are longer than its id array. *)
Theorem C19_second_call_raises_refuted :
  forall (a : star_args) (N nb : nat) (k : catalog) (bb : nat) (sort an proj : bool),
    describes_stars a N -> (2 <= nb)%nat -> (2 * nb <= N)%nat -> (1 <= bb)%nat ->
    length (b_mb1 (g_b k)) = bb -> length (b_mb2 (g_b k)) = bb ->
    add_stars nb a sort an proj k = Raise.
Proof. intros a N nb k bb sort an proj. apply second_binaries_raise. Qed.
Print Assumptions C19_second_call_raises_refuted.
Theorem C19_second_binary_misaligns_refuted :
  forall (a : star_args) (N : nat) (k : catalog) (n bb : nat) (sort an proj : bool) (p : arg R),
    describes_stars a N -> (2 <= N)%nat -> a_m a = Some p -> aligned k n -> (1 <= bb)%nat -> (bb <= n)%nat ->
    length (b_mb1 (g_b k)) = bb -> length (b_mb2 (g_b k)) = bb ->
    exists k', add_stars 1 a sort an proj k = Ok k' /\ g_ntot k' = (n + N - 1 + bb)%nat /\
      length (c_id (g_c k')) = (n + N - 1)%nat.
Proof. exact second_binary_misaligns. Qed.
Print Assumptions C19_second_binary_misaligns_refuted.

(* C20: add_sse without arg appends one entry per given star to every array; luminosities are 10^logl. *)
Theorem C20_sse_appends :
  forall (kw logl logr : list R) (ep os : option (list R)) (k : catalog) (n p : nat),
    sse_aligned k n -> length kw = p -> length logl = p -> length logr = p -> opt_list_sized ep p -> opt_list_sized os p ->
    (forall i, (i < n)%nat -> nth i (e_lum (g_sse k)) 0 = Rpower 10 (nth i (e_logl (g_sse k)) 0)) ->
    exists k', add_sse kw logl logr ep os None k = Ok k' /\ sse_aligned k' (n + p) /\
      let e := g_sse k in let e' := g_sse k' in
      (forall i, (i < n)%nat -> nth i (e_kw e') 0 = nth i (e_kw e) 0 /\ nth i (e_logl e') 0 = nth i (e_logl e) 0 /\
         nth i (e_logr e') 0 = nth i (e_logr e) 0 /\ nth i (e_lum e') 0 = nth i (e_lum e) 0 /\
         nth i (e_ep e') 0 = nth i (e_ep e) 0 /\ nth i (e_ospin e') 0 = nth i (e_ospin e) 0) /\
      (forall j, (j < p)%nat -> nth (n + j) (e_kw e') 0 = nth j kw 0 /\ nth (n + j) (e_logl e') 0 = nth j logl 0 /\
         nth (n + j) (e_logr e') 0 = nth j logr 0 /\ nth (n + j) (e_lum e') 0 = Rpower 10 (nth j logl 0) /\
         nth (n + j) (e_ep e') 0 = opt_entry ep j /\ nth (n + j) (e_ospin e') 0 = opt_entry os j) /\
      e_ltot e' = sumR (e_lum e') /\ g_c k' = g_c k /\ g_m0 k' = g_m0 k /\ g_npop k' = g_npop k /\ g_bse k' = g_bse k.
Proof. exact sse_appends. Qed.
Print Assumptions C20_sse_appends.

(* C20: with arg, the named slots of kw, logl, logr and lum get the given values ... *)
Theorem C20_sse_slots_partial :
  forall (kw logl logr ep os : list R) (idx : list nat) (k : catalog) (n p : nat),
    sse_aligned k n -> length kw = p -> length logl = p -> length logr = p -> length ep = p -> length os = p ->
    length idx = p -> NoDup idx -> (forall i, In i idx -> (i < p)%nat) ->
    exists k', add_sse kw logl logr (Some ep) (Some os) (Some idx) k = Ok k' /\
      let e := g_sse k in let e' := g_sse k' in
      length (e_kw e') = (n + p)%nat /\ length (e_logl e') = (n + p)%nat /\ length (e_logr e') = (n + p)%nat /\
      length (e_lum e') = (n + p)%nat /\
      (forall j, (j < p)%nat -> nth (n + nth j idx 0%nat) (e_kw e') 0 = nth j kw 0 /\
         nth (n + nth j idx 0%nat) (e_logl e') 0 = nth j logl 0 /\ nth (n + nth j idx 0%nat) (e_logr e') 0 = nth j logr 0 /\
         nth (n + nth j idx 0%nat) (e_lum e') 0 = Rpower 10 (nth j logl 0)) /\
      (forall i, (i < n)%nat -> nth i (e_kw e') 0 = nth i (e_kw e) 0 /\ nth i (e_logl e') 0 = nth i (e_logl e) 0 /\
         nth i (e_logr e') 0 = nth i (e_logr e) 0).
Proof.
  intros kw logl logr ep os idx k n p H1 H2 H3 H4 H5 H6 H7 H8 H9.
  destruct (sse_slots H1 H2 H3 H4 H5 H6 H7 H8 H9) as [k' [E [Q1 [Q2 [Q3 [Q4 [Q5 [Q6 _]]]]]]]].
  exists k'. tauto.
Qed.
Print Assumptions C20_sse_slots_partial.

(* C20 finding: ... but ep and ospin end up with twice the new entries, and omitting ep raises. *)
Theorem C20_sse_slots_double_ep_refuted :
  forall (kw logl logr ep os : list R) (idx : list nat) (k : catalog) (n p : nat),
    sse_aligned k n -> length kw = p -> length logl = p -> length logr = p -> length ep = p -> length os = p ->
    length idx = p -> NoDup idx -> (forall i, In i idx -> (i < p)%nat) -> (1 <= p)%nat ->
    exists k', add_sse kw logl logr (Some ep) (Some os) (Some idx) k = Ok k' /\
      length (e_ep (g_sse k')) = (n + 2 * p)%nat /\ length (e_kw (g_sse k')) = (n + p)%nat /\
      ~ (exists q, sse_aligned k' q).
Proof.
  intros kw logl logr ep os idx k n p H1 H2 H3 H4 H5 H6 H7 H8 H9 Hp.
  destruct (sse_slots H1 H2 H3 H4 H5 H6 H7 H8 H9) as [k' [E [Q1 [Q2 [Q3 [Q4 [Q5 [Q6 [Q7 Q8]]]]]]]]].
  exists k'. split; [exact E|]. split; [exact Q7|]. split; [exact Q1|].
  intros [q [S1 [_ [_ [_ [S2 _]]]]]]. rewrite Q1 in S1. rewrite Q7 in S2. lia.
Qed.
Print Assumptions C20_sse_slots_double_ep_refuted.
Theorem C20_sse_slots_without_ep_raises_refuted :
  forall (kw logl logr : list R) (os : option (list R)) (idx : list nat) (k : catalog),
    add_sse kw logl logr None os (Some idx) k = Raise.
Proof. exact sse_slots_without_ep. Qed.
Print Assumptions C20_sse_slots_without_ep_raises_refuted.

(* C20: add_bse appends the binaries, sets the binary count to their number and stores the binding energies. *)
Theorem C20_bse_appends :
  forall (id1 id2 : list Z) (kw1 kw2 kcm ecc pb semi m1 m2 l1 l2 r1 r2 : list R) (k : catalog) (n p : nat),
    length (f_id1 (g_bse k)) = n -> length (b_semi (c_bin (g_c k))) = n -> length (b_m1 (c_bin (g_c k))) = n ->
    length (b_m2 (c_bin (g_c k))) = n ->
    length id1 = p -> length semi = p -> length m1 = p -> length m2 = p ->
    exists k', add_bse id1 id2 kw1 kw2 kcm ecc pb semi m1 m2 l1 l2 r1 r2 k = Ok k' /\ c_nb (g_c k') = (n + p)%nat /\
      length (f_eb (g_bse k')) = (n + p)%nat /\
      (forall i, (i < n + p)%nat -> nth i (f_eb (g_bse k')) 0 =
         1/2 * nth i (b_m1 (c_bin (g_c k'))) 0 * nth i (b_m2 (c_bin (g_c k'))) 0 / nth i (b_semi (c_bin (g_c k'))) 0) /\
      (forall j, (j < p)%nat -> nth (n + j) (b_m1 (c_bin (g_c k'))) 0 = nth j m1 0 /\
         nth (n + j) (b_m2 (c_bin (g_c k'))) 0 = nth j m2 0 /\ nth (n + j) (b_semi (c_bin (g_c k'))) 0 = nth j semi 0 /\
         nth (n + j) (f_id1 (g_bse k')) 0%Z = nth j id1 0%Z) /\
      c_ph (g_c k') = c_ph (g_c k) /\ c_id (g_c k') = c_id (g_c k).
Proof. exact bse_appends. Qed.
Print Assumptions C20_bse_appends.

(* C56: with sortstars=True the radial order and the mass-fraction radii describe the enlarged cluster. *)
Theorem C56_order_after_sorted_add :
  forall (a : star_args) (N : nat) (k : catalog) (n : nat) (proj : bool),
    describes_stars a N -> aligned k n -> order_sized k n ->
    exists k', add_stars 0 a true true proj k = Ok k' /\ aligned k' (n + N) /\
      (nonneg (row_masses k' (n + N)) -> 0 < sumR (row_masses k' (n + N)) ->
       exists o rm r10, d_rorder (c_der (g_c k')) = Some o /\ sorted_order o (row_distances k' (n + N)) /\
         d_rm (c_der (g_c k')) = Some rm /\ is_fraction_radius (1/2) (row_distances k' (n + N)) (row_masses k' (n + N)) rm /\
         d_r10 (c_der (g_c k')) = Some r10 /\ is_fraction_radius (1/10) (row_distances k' (n + N)) (row_masses k' (n + N)) r10).
Proof. exact sorted_after_add. Qed.
Print Assumptions C56_order_after_sorted_add.

(* C56 finding: with the default sortstars=False the order of the old stars is kept; when the added stars outweigh the
   old ones no old star reaches half of the new total, so cluster.py:1413 indexes an empty array (IndexError; None in
   the model). *)
Theorem C56_stale_order_raises_refuted :
  forall (a : star_args) (N : nat) (k : catalog) (n : nat) (o : list nat) (proj : bool),
    describes_stars a N -> aligned k n -> d_rorder (c_der (g_c k)) = Some o -> Permutation o (seq 0 n) ->
    nonneg (p_m (c_ph (g_c k))) -> (forall j, (j < N)%nat -> 0 <= value_or 1 0 (a_m a) j) ->
    sumR (p_m (c_ph (g_c k))) < total (fun j => value_or 1 0 (a_m a) j) N ->
    exists k', add_stars 0 a false true proj k = Ok k' /\ d_rorder (c_der (g_c k')) = Some o /\
      d_rm (c_der (g_c k')) = None.
Proof. exact stale_order. Qed.
Print Assumptions C56_stale_order_raises_refuted.

(* ------------------------------------------------------------------ non-vacuity *)
Definition demo_start : catalog := init_catalog (init_cluster 0 (Some Upckms) (Some Ocluster) 8 220).
Definition demo_args : star_args :=
  mkArgs (mk6 (Array [1; 2; 3; 4; 5]) (Scalar 0) (Array [0; 1; 0; 1; 0]) (Scalar 1) (Array [1; 1; 2; 2; 3]) (Scalar 0))
         (Some (Array [1; 3; 2; 2; 5])) None None (Some (Scalar 2%Z)).
Example C15_hypotheses_met : describes_stars demo_args 5 /\ aligned demo_start 0 /\ no_binaries demo_start /\
  (1 <= 2)%nat /\ (2 * 2 <= 5)%nat /\ (2%nat = 1%nat -> a_m demo_args <> None) /\
  (forall j, (j < 5)%nat -> 0 < value_or 1 0 (a_m demo_args) j).
Proof.
  unfold describes_stars, six_sized, aligned, six_length, no_binaries; cbn.
  repeat split; try lia; try reflexivity; try (right; reflexivity).
  intros j Hj. do 5 (destruct j as [|j]; [lra|]). lia.
Qed.
(* a cluster with stars and binaries: the result of the call above *)
Example C15_reachable : exists k, add_stars 2 demo_args false true false demo_start = Ok k /\ aligned k 3 /\
  c_nb (g_c k) = 2%nat /\ length (b_mb1 (g_b k)) = 2%nat /\ length (b_mb2 (g_b k)) = 2%nat.
Proof.
  destruct C15_hypotheses_met as [D [A [NB [H1 [H2 [M P]]]]]].
  destruct (C15_add_binaries demo_args 5 2 demo_start 0 false true false D A NB H1 H2 M) as [k [E [A' [_ [_ [_ [_ [_ [B _]]]]]]]]].
  exists k. split; [exact E|]. split; [exact A'|]. split; [exact B|].
  cbv -[Rplus Rmult Rdiv Rinv sqrt Rleb Rltb IZR analyze] in E. injection E as E. subst k. split; reflexivity.
Qed.
Example C16_history_met : exists k, default_history k /\ c_nb (g_c k) = 2%nat /\ aligned k 8.
Proof.
  destruct C15_hypotheses_met as [D [A [NB [H1 [H2 [M P]]]]]].
  destruct C15_reachable as [k [E [A' [B _]]]].
  destruct (C15_add_single_stars demo_args 5 k 3 true true true D A') as [k' [E' [A2 [_ [_ [_ [_ [B2 _]]]]]]]].
  exists k'. split; [|split; [rewrite B2; exact B|exact A2]].
  refine (@DH_singles k demo_args 5 _ _ _ k' _ D eq_refl E').
  refine (@DH_binaries demo_start demo_args 5 2 _ _ _ k _ D eq_refl eq_refl H1 H2 E).
  apply DH_start; reflexivity.
Qed.
Example C18_hypotheses_met : let a := one_mass_args [1; 2; 3] 7 in
  describes_stars (entries_as_numbers a) 3 /\ aligned demo_start 0 /\ c_nb (g_c demo_start) = 0%nat /\
  (forall v, a_id a <> Some (Array [v])).
Proof.
  unfold describes_stars, six_sized, aligned, six_length; cbn. repeat split; try lia; try (right; reflexivity). discriminate.
Qed.
Example C19_hypotheses_met : exists q, pairs_sized q 2 /\ q_np1 q = Some (Array [1%Z; 2%Z]) /\ q_np2 q = Some (Array [1%Z; 2%Z]) /\ q_m01 q = None.
Proof.
  exists (mkPA (map6 Array (mk6 [1;2] [1;2] [1;2] [1;2] [1;2] [1;2])) (map6 Array (mk6 [3;2] [1;2] [1;2] [1;2] [1;2] [1;2]))
    (Some (Array [1;1])) (Some (Array [2;2])) None None None None (Some (Array [1%Z; 2%Z])) (Some (Array [1%Z; 2%Z]))).
  split; [|repeat split].
  exists (mk6 [1;2] [1;2] [1;2] [1;2] [1;2] [1;2]), (mk6 [3;2] [1;2] [1;2] [1;2] [1;2] [1;2]), [1;1], [2;2].
  unfold six_length; cbn. repeat split.
Qed.
Example C20_hypotheses_met : sse_aligned demo_start 0 /\ NoDup [1%nat; 0%nat] /\ (forall i, In i [1%nat; 0%nat] -> (i < 2)%nat).
Proof.
  split; [repeat split|]. split; [repeat constructor; cbn; intuition lia|]. cbn. intros i H. lia.
Qed.
Example C56_stale_met : exists k o, aligned k 1 /\ d_rorder (c_der (g_c k)) = Some o /\ Permutation o (seq 0 1) /\
  nonneg (p_m (c_ph (g_c k))) /\ sumR (p_m (c_ph (g_c k))) < total (fun j => value_or 1 0 (a_m demo_args) j) 5.
Proof.
  assert (D1 : describes_stars (mkArgs (mk6 (Scalar 1) (Scalar 0) (Scalar 0) (Scalar 0) (Scalar 0) (Scalar 0)) None None None None) 1).
  { unfold describes_stars, six_sized; cbn. repeat split; try lia; try (left; reflexivity). }
  destruct (C56_order_after_sorted_add _ 1 demo_start 0 true D1 ltac:(repeat split) I) as [k [E [A S]]].
  destruct (C15_add_single_stars _ 1 demo_start 0 true true true D1 ltac:(repeat split)) as [k' [E' [_ [_ [G _]]]]].
  rewrite E in E'. injection E' as E'. subst k'.
  assert (M : row_mass k 0 = 1). { destruct (G 0%nat ltac:(lia)) as [_ [Q _]]. exact Q. }
  assert (RM : row_masses k 1 = [1]). { unfold row_masses; cbn [map seq]. now rewrite -M. }
  cbn [Nat.add] in S. rewrite RM in S.
  destruct S as [o [rm [r10 [O [[P _] _]]]]]; [intros x [<-|[]]; lra|cbn; lra|].
  exists k, o. split; [exact A|]. split; [exact O|]. split; [exact P|].
  rewrite -(row_masses_column A). cbn [Nat.add]. rewrite RM. split; [intros x [<-|[]]; lra|].
  unfold total; cbn. lra.
Qed.
