(* Proofs about add_stars: alignment of rows. *)
From Verif Require Import Base ModelCluster ModelRecipes ModelStars SpecStars.
From Verif Require Import ProofsPot ProofsEnergy ProofsRecipes2.
Set Implicit Arguments. Unset Strict Implicit.

Lemma expand_length A N (p : arg A) : arg_sized N p -> length (expand N p) = N.
Proof. destruct p => //= _. apply repeat_length. Qed.

Lemma nth_expand A N (p : arg A) d j : (j < N)%nat -> arg_sized N p -> nth j (expand N p) d = value d p j.
Proof. destruct p => //= H _. revert N H; induction j as [|j IH]; destruct N => //= H; try lia. apply IH; lia. Qed.

Lemma arg_len_sized A N (p : arg A) : (1 <= N)%nat -> arg_sized N p -> (arg_len p <= N)%nat.
Proof. destruct p => //= _ ->. done. Qed.
Lemma opt_len_sized A N (p : option (arg A)) : (1 <= N)%nat -> opt_sized N p -> (opt_len p <= N)%nat.
Proof. destruct p => //= H; [by apply arg_len_sized|lia]. Qed.
Lemma arg_len_array A N (p : arg A) : arg_sized N p -> is_array p = true -> arg_len p = N.
Proof. by destruct p. Qed.
Lemma opt_len_array A N (p : option (arg A)) : opt_sized N p -> opt_array p = true -> opt_len p = N.
Proof. destruct p => //=. apply arg_len_array. Qed.
Lemma arg_len_pos A N (p : arg A) : (1 <= N)%nat -> arg_sized N p -> (1 <= arg_len p)%nat.
Proof. destruct p => //= H ->. done. Qed.

Lemma npmax_described a N : describes_stars a N -> npmax a = N.
Proof.
  move=> [H1 [[S1 [S2 [S3 [S4 [S5 S6]]]]] [Sm [Si [S0 [Sp D]]]]]].
  have B1 := arg_len_sized H1 S1. have B2 := arg_len_sized H1 S2. have B3 := arg_len_sized H1 S3.
  have B4 := arg_len_sized H1 S4. have B5 := arg_len_sized H1 S5. have B6 := arg_len_sized H1 S6.
  have Bm := opt_len_sized H1 Sm. have Bi := opt_len_sized H1 Si.
  have B0 := opt_len_sized H1 S0. have Bp := opt_len_sized H1 Sp.
  have P1 := arg_len_pos H1 S1.
  have E : N = 1%nat \/ (arg_len (sx (a_s a)) = N \/ arg_len (sy (a_s a)) = N \/ arg_len (sz (a_s a)) = N \/
    arg_len (svx (a_s a)) = N \/ arg_len (svy (a_s a)) = N \/ arg_len (svz (a_s a)) = N \/
    opt_len (a_m a) = N \/ opt_len (a_id a) = N \/ opt_len (a_m0 a) = N \/ opt_len (a_npop a) = N).
  { destruct D as [D|D]; [by left|right]. rewrite /six_array !orb_true_iff in D.
    have Q1 := arg_len_array S1. have Q2 := arg_len_array S2. have Q3 := arg_len_array S3.
    have Q4 := arg_len_array S4. have Q5 := arg_len_array S5. have Q6 := arg_len_array S6.
    have Qm := opt_len_array Sm. have Qi := opt_len_array Si. have Q0 := opt_len_array S0. have Qp := opt_len_array Sp.
    clear - D Q1 Q2 Q3 Q4 Q5 Q6 Qm Qi Q0 Qp. tauto. }
  rewrite /npmax; cbn [list_max fold_right]. lia.
Qed.

Definition columns_length (t : columns) (n : nat) : Prop :=
  six_length (t_s t) n /\ length (t_m t) = n /\ length (t_id t) = n /\ length (t_m0 t) = n /\ length (t_npop t) = n.

Lemma check_lengths_id t n : columns_length t n -> check_lengths t = t.
Proof.
  move=> [[A1 [A2 [A3 [A4 [A5 A6]]]]] [A7 [A8 [A9 A10]]]].
  rewrite /check_lengths /lengths A1 A2 A3 A4 A5 A6 A7 A8 A9 A10.
  have -> : list_max [n; n; n; n; n; n; n; n; n; n] = n by cbn; lia.
  have -> : list_min [n; n; n; n; n; n; n; n; n; n] = n by cbn; lia.
  by rewrite Nat.eqb_refl.
Qed.

Lemma six_length_app s t n p : six_length s n -> six_length t p -> six_length (app6 s t) (n + p).
Proof.
  move=> [A1 [A2 [A3 [A4 [A5 A6]]]]] [B1 [B2 [B3 [B4 [B5 B6]]]]]. rewrite /six_length /app6 /= !app_length; lia.
Qed.

Lemma aligned_columns k n : aligned k n <-> columns_length (columns_of k) n.
Proof. rewrite /aligned /columns_length /columns_of /=. tauto. Qed.

(* columns survive everything after the length check *)
Lemma analyze_ph sort proj c : c_ph (analyze sort proj c) = c_ph c /\ c_id (analyze sort proj c) = c_id c /\
  c_nb (analyze sort proj c) = c_nb c /\ c_units (analyze sort proj c) = c_units c /\
  c_origin (analyze sort proj c) = c_origin c /\ c_sc (analyze sort proj c) = c_sc c /\
  c_sky (analyze sort proj c) = c_sky c.
Proof.
  rewrite /analyze /analyze_fracs /sortstars. destruct sort.
  - destruct (d_rorder (c_der (analyze_radii c))) as [o|]; [|by destruct (if proj then _ else _)].
    destruct (_ && _); cbn; by destruct (if proj then _ else _).
  - by destruct (d_rorder (c_der (analyze_radii c))); destruct (d_rproorder (c_der (analyze_radii c))).
Qed.

Lemma sky_ph s c : c_ph (add_sky_rows s c) = c_ph c /\ c_id (add_sky_rows s c) = c_id c /\
  c_nb (add_sky_rows s c) = c_nb c /\ c_units (add_sky_rows s c) = c_units c /\
  c_origin (add_sky_rows s c) = c_origin c /\ c_sc (add_sky_rows s c) = c_sc c.
Proof. rewrite /add_sky_rows. destruct c as [u o ? ? ? ? ? ? ? ?]; cbn [c_units c_origin]. destruct u as [[]|]; try (by repeat split); destruct o as [[]|]; by repeat split. Qed.

(* what the call does after the rows are in place *)
Definition finish (s : six (list R)) (sort an proj : bool) (k2 : catalog) : catalog :=
  let k3 := put_columns k2 (check_lengths (columns_of k2)) in
  let k4 := set_cluster k3 (add_sky_rows s (g_c k3)) in
  set_counts (set_cluster k4 (if an then analyze sort proj (g_c k4) else g_c k4)).

Lemma finish_ok s sort an proj k n : columns_length (columns_of k) n ->
  let k' := finish s sort an proj k in
  columns_of k' = columns_of k /\ g_ntot k' = n /\ g_ns k' = (Z.of_nat n - Z.of_nat (c_nb (g_c k)))%Z /\
  c_nb (g_c k') = c_nb (g_c k) /\ g_b k' = g_b k /\ c_units (g_c k') = c_units (g_c k) /\
  c_origin (g_c k') = c_origin (g_c k) /\ g_sse k' = g_sse k /\ g_bse k' = g_bse k /\ c_sc (g_c k') = c_sc (g_c k).
Proof.
  move=> L. rewrite /finish (check_lengths_id L).
  have E : put_columns k (columns_of k) = k by destruct k as [[? ? ? ? [] ? ? ? ? ?]].
  rewrite E /=.
  have [P1 [P2 [P3 [P4 [P5 P6]]]]] := sky_ph s (g_c k).
  have [Q1 [Q2 [Q3 [Q4 [Q5 [Q6 Q7]]]]]] := analyze_ph sort proj (add_sky_rows s (g_c k)).
  rewrite /columns_of /set_counts /=.
  have Lx : length (sx (p_s (c_ph (g_c k)))) = n by case: L => [[]].
  by destruct an; rewrite ?Q1 ?Q2 ?Q3 ?Q4 ?Q5 ?Q6 ?P1 ?P2 ?P3 ?P4 ?P5 ?P6 Lx.
Qed.

(* ------------------------------------------------------------------ single rows *)
Lemma six_expand_length N s : six_sized N s -> six_length (map6 (expand N) s) N.
Proof. move=> [A1 [A2 [A3 [A4 [A5 A6]]]]]. by rewrite /six_length /=; rewrite !expand_length. Qed.

Lemma opt_default_length A N (o : option (list A)) (d : list A) args :
  (forall l, o = Some l -> length l = N) -> length d = (N - args)%nat ->
  length (match o with Some l => skipn args l | None => d end) = (N - args)%nat.
Proof. destruct o => // H _. by rewrite skipn_length (H l). Qed.

Lemma opt_expand_length A N (o : option (arg A)) l : opt_sized N o -> option_map (expand N) o = Some l -> length l = N.
Proof. destruct o => //= H [<-]. by apply expand_length. Qed.

Lemma skipn_six_length N args s : six_length s N -> six_length (map6 (skipn args) s) (N - args).
Proof. move=> [A1 [A2 [A3 [A4 [A5 A6]]]]]. rewrite /six_length /= !skipn_length. lia. Qed.

Definition default_tail {A} (o : option (arg A)) (args N : nat) (d : list A) : list A :=
  match option_map (expand N) o with Some l => skipn args l | None => d end.

Lemma single_columns args a N k n : describes_stars a N ->
  columns_length (columns_of k) n ->
  let t := columns_of k in
  let k' := add_single_rows args (map6 (expand N) (a_s a)) (option_map (expand N) (a_m a))
              (option_map (expand N) (a_id a)) (option_map (expand N) (a_m0 a)) (option_map (expand N) (a_npop a)) k in
  columns_length (columns_of k') (n + (N - args)) /\
  columns_of k' = mkCol
    (t_id t ++ default_tail (a_id a) args N (map (Z.add (id_start (negb (Nat.eqb (c_nb (g_c k)) 0)) (t_id t))) (zrange (N - args))))
    (t_m t ++ default_tail (a_m a) args N (repeat 1 (N - args)))
    (app6 (t_s t) (map6 (skipn args) (map6 (expand N) (a_s a))))
    (t_m0 t ++ default_tail (a_m0 a) args N (repeat 0 (N - args)))
    (t_npop t ++ default_tail (a_npop a) args N (repeat 1%Z (N - args))) /\
  c_nb (g_c k') = c_nb (g_c k) /\ g_b k' = g_b k /\ g_sse k' = g_sse k /\ g_bse k' = g_bse k /\
  c_units (g_c k') = c_units (g_c k) /\ c_origin (g_c k') = c_origin (g_c k) /\ c_sc (g_c k') = c_sc (g_c k).
Proof.
  move=> D [L1 [L2 [L3 [L4 L5]]]] t k'.
  have [H1 [S [Sm [Si [S0 [Sp _]]]]]] := D.
  have LS := six_expand_length S.
  have Lx : length (skipn args (sx (map6 (expand N) (a_s a)))) = (N - args)%nat.
  { rewrite skipn_length. by case: LS => ->. }
  have E : columns_of k' = mkCol
    (t_id t ++ default_tail (a_id a) args N (map (Z.add (id_start (negb (Nat.eqb (c_nb (g_c k)) 0)) (t_id t))) (zrange (N - args))))
    (t_m t ++ default_tail (a_m a) args N (repeat 1 (N - args)))
    (app6 (t_s t) (map6 (skipn args) (map6 (expand N) (a_s a))))
    (t_m0 t ++ default_tail (a_m0 a) args N (repeat 0 (N - args)))
    (t_npop t ++ default_tail (a_npop a) args N (repeat 1%Z (N - args))).
  { rewrite /k' /add_single_rows Lx /default_tail. done. }
  split; [|by split].
  rewrite E /columns_length; cbn [t_id t_m t_s t_m0 t_npop]. rewrite !app_length /t L2 L3 L4 L5.
  have T : forall A (o : option (arg A)) d, opt_sized N o -> length d = (N - args)%nat ->
    length (default_tail o args N d) = (N - args)%nat.
  { move=> A o d So Ld. apply opt_default_length => // l. by apply opt_expand_length. }
  rewrite !T ?repeat_length ?map_length ?seq_length //.
  split; last by []. apply six_length_app; [exact L1|by apply skipn_six_length].
Qed.

Lemma nth_skipn' A (l : list A) n j d : nth j (skipn n l) d = nth (n + j) l d.
Proof. revert l; induction n as [|n IH] => l //. destruct l; [by destruct j|]. exact (IH l). Qed.

Lemma nth_tail A (o : option (arg A)) args N dl d dflt j : (1 <= N)%nat -> opt_sized N o -> (args + j < N)%nat ->
  nth j dl d = dflt -> nth j (default_tail o args N dl) d = value_or dflt d o (args + j).
Proof.
  move=> H1 S H E. rewrite /default_tail. destruct o as [p|] => //=. rewrite nth_skipn'. by apply nth_expand.
Qed.

(* ------------------------------------------------------------------ binary rows *)
Lemma pick_ok A (l : list A) d idx : (forall i, In i idx -> (i < length l)%nat) ->
  pick l idx = Ok (map (fun i => nth i l d) idx).
Proof.
  induction idx as [|i idx IH] => //= H.
  rewrite (nth_error_nth' l d); first by apply H; left.
  rewrite IH //. move=> j Hj; apply H; by right.
Qed.

Lemma pick_pair_ok A nb second N (l : list A) d : (1 <= nb)%nat -> (2 * nb <= N)%nat -> length l = N ->
  (second <= 1)%nat ->
  exists p, pick_pair nb second l = Ok p /\ as_list p = map (fun i => nth (2 * i + second) l d) (seq 0 nb) /\
    arg_len p = nb /\ (is_array p = negb (Nat.eqb nb 1)).
Proof.
  move=> H1 H2 L S. rewrite /pick_pair. destruct (Nat.eqb_spec nb 1) as [->|Hn].
  - rewrite (nth_error_nth' l d); first lia. eexists; split; [reflexivity|]. by rewrite /=.
  - rewrite (pick_ok d).
    { move=> i. rewrite in_map_iff => [[j [<- Hj]]]. rewrite in_seq in Hj. lia. }
    eexists; split; [reflexivity|]. cbn [as_list arg_len is_array]. by rewrite map_map !map_length seq_length.
Qed.

Lemma pick6_ok nb second N (s : six (list R)) : (1 <= nb)%nat -> (2 * nb <= N)%nat -> six_length s N ->
  (second <= 1)%nat ->
  exists p, pick6 nb second s = Ok p /\
    map6 (@as_list R) p = map6 (fun l => map (fun i => nth (2 * i + second) l 0) (seq 0 nb)) s /\
    arg_len (sx p) = nb /\ is_array (sx p) = negb (Nat.eqb nb 1).
Proof.
  move=> H1 H2 [L1 [L2 [L3 [L4 [L5 L6]]]]] S.
  have [p1 [E1 [A1 [N1 I1]]]] := pick_pair_ok 0 H1 H2 L1 S.
  have [p2 [E2 [A2 _]]] := pick_pair_ok 0 H1 H2 L2 S.
  have [p3 [E3 [A3 _]]] := pick_pair_ok 0 H1 H2 L3 S.
  have [p4 [E4 [A4 _]]] := pick_pair_ok 0 H1 H2 L4 S.
  have [p5 [E5 [A5 _]]] := pick_pair_ok 0 H1 H2 L5 S.
  have [p6 [E6 [A6 _]]] := pick_pair_ok 0 H1 H2 L6 S.
  exists (mk6 p1 p2 p3 p4 p5 p6). rewrite /pick6 /all6 /map6; cbn [sx sy sz svx svy svz].
  rewrite E1 E2 E3 E4 E5 E6; cbn [bind]. by rewrite A1 A2 A3 A4 A5 A6.
Qed.

Lemma np2_map A B C D (f : A -> B -> C) (g : D -> A) (h : D -> B) s :
  np2 f (map g s) (map h s) = Ok (map (fun i => f (g i) (h i)) s).
Proof.
  rewrite /np2 !map_length Nat.eqb_refl. f_equal.
  induction s as [|a s IH] => //=. by rewrite IH.
Qed.

Definition mass_at (m : option (list R)) (i : nat) : R := match m with Some l => nth i l 0 | None => 1 end.

Lemma repeat_map A (a : A) n (s : nat) : repeat a n = map (fun _ => a) (seq s n).
Proof. revert s; induction n as [|n IH] => s //=. by rewrite (IH (S s)). Qed.

Lemma app6_nil_l s : app6 nil6 s = s.
Proof. by destruct s. Qed.

Lemma store_ok nb N s m k x1 x2 : (1 <= nb)%nat -> (2 * nb <= N)%nat -> (forall l, m = Some l -> length l = N) ->
  (nb = 1%nat -> m <> None) -> no_binaries k -> six_length s N ->
  pick6 nb 0 s = Ok x1 -> pick6 nb 1 s = Ok x2 ->
  arg_len (sx x1) = nb -> is_array (sx x1) = negb (Nat.eqb nb 1) ->
  arg_len (sx x2) = nb -> is_array (sx x2) = negb (Nat.eqb nb 1) ->
  exists m1 m2, pick_opt nb 0 m = Ok m1 /\ pick_opt nb 1 m = Ok m2 /\
    store_pairs x1 x2 m1 m2 (c_nb (g_c k)) (g_b k) =
      Ok (nb, mkPairs (map6 (@as_list R) x1) (map6 (@as_list R) x2)
             (map (fun i => mass_at m (2 * i)) (seq 0 nb)) (map (fun i => mass_at m (2 * i + 1)) (seq 0 nb))).
Proof.
  move=> H1 H2 Lm M1 [B0 B] LS P1 P2 N1 I1 N2 I2. rewrite /store_pairs B0 B N1 /init_pairs; cbn [b_1 b_2 b_mb1 b_mb2].
  rewrite !app6_nil_l. destruct m as [l|].
  - have L := Lm l eq_refl.
    have [p1 [E1 [A1 _]]] := @pick_pair_ok _ nb 0 N l 0 H1 H2 L (le_S _ _ (le_n 0)).
    have [p2 [E2 [A2 _]]] := @pick_pair_ok _ nb 1 N l 0 H1 H2 L (le_n 1).
    exists (Some p1), (Some p2). rewrite /pick_opt E1 E2; cbn [bind mass_or_ones]. split => //. split => //.
    rewrite A1 A2 /=. do 2 f_equal. f_equal; apply map_ext => i. by rewrite Nat.add_0_r.
  - have Hn : nb <> 1%nat by move=> /M1.
    move/Nat.eqb_neq: Hn => Hn; rewrite Hn /= in I1 I2.
    exists None, None. split => //; split => //. rewrite /mass_or_ones.
    destruct (sx x1) as [|l1] => //; destruct (sx x2) as [|l2] => //. cbn [bind].
    move: N1 N2 => /= -> ->. cbn [mass_at]. by rewrite (repeat_map 1 nb 0) /=.
Qed.

Lemma coms_ok nb (b : pairs) (x1 x2 : six (arg R)) (s : six (list R)) (f1 f2 : nat -> R) :
  map6 (@as_list R) x1 = map6 (fun l => map (fun i => nth (2 * i + 0) l 0) (seq 0 nb)) s ->
  map6 (@as_list R) x2 = map6 (fun l => map (fun i => nth (2 * i + 1) l 0) (seq 0 nb)) s ->
  b_mb1 b = map f1 (seq 0 nb) -> b_mb2 b = map f2 (seq 0 nb) ->
  coms b x1 x2 = Ok (map6 (fun l => map (fun i => weighted (f1 i) (f2 i) (nth (2 * i) l 0) (nth (2 * i + 1) l 0)) (seq 0 nb)) s,
                     map (fun i => f1 i + f2 i) (seq 0 nb)).
Proof.
  move=> X1 X2 M1 M2. rewrite /coms /com1 M1 M2.
  have a1 : as_list (sx x1) = _ := f_equal (@sx _) X1. have c1 : as_list (sx x2) = _ := f_equal (@sx _) X2. have a2 : as_list (sy x1) = _ := f_equal (@sy _) X1. have c2 : as_list (sy x2) = _ := f_equal (@sy _) X2. have a3 : as_list (sz x1) = _ := f_equal (@sz _) X1. have c3 : as_list (sz x2) = _ := f_equal (@sz _) X2. have a4 : as_list (svx x1) = _ := f_equal (@svx _) X1. have c4 : as_list (svx x2) = _ := f_equal (@svx _) X2. have a5 : as_list (svy x1) = _ := f_equal (@svy _) X1. have c5 : as_list (svy x2) = _ := f_equal (@svy _) X2. have a6 : as_list (svz x1) = _ := f_equal (@svz _) X1. have c6 : as_list (svz x2) = _ := f_equal (@svz _) X2.
  cbn [map6 sx sy sz svx svy svz] in a1, a2, a3, a4, a5, a6, c1, c2, c3, c4, c5, c6.
  rewrite a1 a2 a3 a4 a5 a6 c1 c2 c3 c4 c5 c6 !np2_map; cbn [bind]. rewrite !np2_map; cbn [bind].
  rewrite !np2_map; cbn [all6 bind sx sy sz svx svy svz].
  f_equal. f_equal. rewrite /weighted.
  rewrite /map6; f_equal; apply map_ext => i; rewrite Nat.add_0_r; f_equal; ring.
Qed.

Definition opt_row {A} (d0 d : A) (m : option (list A)) (i : nat) : A := match m with Some l => nth i l d | None => d0 end.

Lemma binary_columns nb N s m id m0 np k n :
  (1 <= nb)%nat -> (2 * nb <= N)%nat -> six_length s N ->
  (forall l, m = Some l -> length l = N) -> (forall l, id = Some l -> length l = N) ->
  (forall l, m0 = Some l -> length l = N) -> (forall l, np = Some l -> length l = N) ->
  (nb = 1%nat -> m <> None) -> no_binaries k -> columns_length (columns_of k) n ->
  let t := columns_of k in
  exists k', add_binary_rows nb s m id m0 np k = Ok k' /\
  columns_length (columns_of k') (nb + n) /\
  columns_of k' = mkCol
    (match id with None => map (Z.add (id_start false (t_id t))) (evens nb)
                 | Some l => map (fun i => nth (2 * i) l 0%Z) (seq 0 nb) end ++ t_id t)
    (map (fun i => mass_at m (2 * i) + mass_at m (2 * i + 1)) (seq 0 nb) ++ t_m t)
    (app6 (map6 (fun l => map (fun i => weighted (mass_at m (2 * i)) (mass_at m (2 * i + 1)) (nth (2 * i) l 0) (nth (2 * i + 1) l 0)) (seq 0 nb)) s) (t_s t))
    (map (fun i => opt_row 0 0 m0 (2 * i) + opt_row 0 0 m0 (2 * i + 1)) (seq 0 nb) ++ t_m0 t)
    (map (fun i => opt_row 1%Z 0%Z np (2 * i)) (seq 0 nb) ++ t_npop t) /\
  c_nb (g_c k') = nb /\
  g_b k' = mkPairs (map6 (fun l => map (fun i => nth (2 * i) l 0) (seq 0 nb)) s)
                   (map6 (fun l => map (fun i => nth (2 * i + 1) l 0) (seq 0 nb)) s)
             (map (fun i => mass_at m (2 * i)) (seq 0 nb)) (map (fun i => mass_at m (2 * i + 1)) (seq 0 nb)) /\
  g_sse k' = g_sse k /\ g_bse k' = g_bse k /\
  c_units (g_c k') = c_units (g_c k) /\ c_origin (g_c k') = c_origin (g_c k) /\ c_sc (g_c k') = c_sc (g_c k) /\ c_sky (g_c k') = c_sky (g_c k).
Proof.
  move=> H1 H2 LS Lm Li L0 Lp M1 NB L t.
  have [x1 [P1 [X1 [N1 I1]]]] := pick6_ok H1 H2 LS (le_S _ _ (le_n 0)).
  have [x2 [P2 [X2 [N2 I2]]]] := pick6_ok H1 H2 LS (le_n 1).
  have [m1 [m2 [Q1 [Q2 ST]]]] := store_ok H1 H2 Lm M1 NB LS P1 P2 N1 I1 N2 I2.
  rewrite /add_binary_rows P1 P2; cbn [bind]. rewrite Q1 Q2; cbn [bind]. rewrite ST; cbn [bind].
  rewrite (@coms_ok nb (mkPairs (map6 (@as_list R) x1) (map6 (@as_list R) x2)
             (map (fun i => mass_at m (2 * i)) (seq 0 nb)) (map (fun i => mass_at m (2 * i + 1)) (seq 0 nb)))
    x1 x2 s (fun i => mass_at m (2 * i)) (fun i => mass_at m (2 * i + 1)) X1 X2 eq_refl eq_refl); cbn [bind].
  have -> : (match id with None => Ok (map (Z.add (id_start false (t_id (columns_of k)))) (evens nb))
             | Some l => bind (pick_pair nb 0 l) (fun a => Ok (as_list a)) end) =
            Ok (match id with None => map (Z.add (id_start false (t_id t))) (evens nb)
                 | Some l => map (fun i => nth (2 * i) l 0%Z) (seq 0 nb) end).
  { destruct id as [l|] => //.
    have [p [-> [A _]]] := @pick_pair_ok _ nb 0 N l 0%Z H1 H2 (Li l eq_refl) (le_S _ _ (le_n 0)).
    cbn [bind]. rewrite A. f_equal; apply map_ext => i; by rewrite Nat.add_0_r. }
  cbn [bind].
  have -> : (match m0 with None => Ok (repeat 0 nb)
             | Some m0 => bind (pick_pair nb 0 m0) (fun a => bind (pick_pair nb 1 m0) (fun c =>
                                   np2 Rplus (as_list a) (as_list c))) end) =
            Ok (map (fun i => opt_row 0 0 m0 (2 * i) + opt_row 0 0 m0 (2 * i + 1)) (seq 0 nb)).
  { destruct m0 as [l|].
    - have [p [-> [A _]]] := @pick_pair_ok _ nb 0 N l 0 H1 H2 (L0 l eq_refl) (le_S _ _ (le_n 0)).
      have [q [-> [B _]]] := @pick_pair_ok _ nb 1 N l 0 H1 H2 (L0 l eq_refl) (le_n 1).
      cbn [bind]. rewrite A B np2_map. f_equal; apply map_ext => i; by rewrite Nat.add_0_r.
    - cbn [opt_row]. rewrite (repeat_map 0 nb 0). f_equal; apply map_ext => i; ring. }
  cbn [bind].
  have -> : (match np with None => Ok (repeat 1%Z nb)
             | Some np => bind (pick_pair nb 0 np) (fun a => Ok (as_list a)) end) =
            Ok (map (fun i => opt_row 1%Z 0%Z np (2 * i)) (seq 0 nb)).
  { destruct np as [l|].
    - have [p [-> [A _]]] := @pick_pair_ok _ nb 0 N l 0%Z H1 H2 (Lp l eq_refl) (le_S _ _ (le_n 0)).
      cbn [bind]. rewrite A. f_equal; apply map_ext => i; by rewrite Nat.add_0_r.
    - by rewrite (repeat_map 1%Z nb 0). }
  cbn [bind]. eexists; split; [reflexivity|].
  rewrite /columns_of; cbn [g_c g_m0 g_npop put_cluster c_id c_ph p_m p_s t_id t_m t_s t_m0 t_npop c_nb g_b g_sse g_bse c_units c_origin c_sc c_sky].
  split.
  - case: L => [[A1 [A2 [A3 [A4 [A5 A6]]]]] [A7 [A8 [A9 A10]]]].
    rewrite /columns_length /six_length /app6 /map6 /=.
    rewrite /= in A1 A2 A3 A4 A5 A6 A7 A8 A9 A10.
    rewrite !app_length !map_length !seq_length. rewrite A1 A2 A3 A4 A5 A6 A7 A8 A9 A10.
    repeat match goal with |- _ /\ _ => split end; try reflexivity. destruct id; rewrite /evens ?map_length ?seq_length //.
  - split => //. split => //. split; last by []. rewrite X1 X2 /map6. f_equal. f_equal; apply map_ext => i; by rewrite Nat.add_0_r.
Qed.
