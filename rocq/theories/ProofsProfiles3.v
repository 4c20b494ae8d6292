(* Proofs: mass, density and velocity profiles. *)
From Coq Require Import Sorted.
From Verif Require Import Base ModelCluster ModelOps ModelConv ModelEnergy ModelRecipes ModelStars ModelSubset ModelCoords ModelLagrange ModelProfiles.
From Verif Require Import SpecUnits SpecFrame SpecOrder SpecRecipes SpecEnergy SpecStars SpecSubset SpecLagrange SpecProfiles.
From Verif Require Import ProofsUnits ProofsFrame ProofsOrder ProofsSort ProofsSees ProofsEnergy ProofsVR ProofsRecipes ProofsRecipes2 ProofsRecipes4 ProofsCoords ProofsLagrange ProofsSubset ProofsSubset2 ProofsSubset4 ProofsProfiles ProofsProfiles2.
Set Implicit Arguments. Unset Strict Implicit.

Lemma natsum_flat (L : nat -> list nat) ks : natsum (map (fun k => length (L k)) ks) = length (flat_map L ks).
Proof. induction ks as [|k ks IH] => //=. rewrite app_length. by rewrite -IH. Qed.
Lemma firstn_map_seq {A} (f : nat -> A) n k : (k <= n)%nat -> firstn k (map f (seq 0 n)) = map f (seq 0 k).
Proof.
  move=> H. rewrite firstn_map. f_equal. have -> : n = (k + (n - k))%nat by lia. rewrite seq_app firstn_app seq_length Nat.sub_diag.
  rewrite firstn_all2 ?seq_length // firstn_O app_nil_r //.
Qed.
Lemma select_row {A} (d : A) msk l : length msk = length l -> select msk l = map (fun i => nth i l d) (chosen msk).
Proof. exact: select_chosen. Qed.
Lemma bind_ok {A B} (x : result A) (a : A) (f : A -> result B) : x = Ok a -> bind x f = f a.
Proof. by move=> ->. Qed.

Section WithGalpy.
Variable G : galpy.

Lemma sys_restored s c1 u o : ready G (g_c (y_k s)) u o -> analyze true true (g_c (y_k s)) = g_c (y_k s) -> sees G (g_c (y_k s)) c1 ->
  system_restored s (sys_with s (return_cluster G (save_cluster (g_c (y_k s))) c1)).
Proof. move=> HR HA HS. split; [exact (bracket_sees HR HS HA)|]. exact (conj eq_refl (conj eq_refl (conj eq_refl eq_refl))). Qed.

Section OneSystem.
Variables (q : selection) (indx : option (list bool)) (s : system) (n nrad : nat) (bt : bintype) (u : usys) (o : osys).
Let c := g_c (y_k s).
Hypotheses (HR : ready G c u o) (HA : analyze true true c = c) (HM : measured s n) (EK : energies_known q s n)
  (MF : mask_fits indx n) (Hr : (0 < nrad)%nat) (PR : profilable q indx s n).

Let LM : length (p_m (c_ph c)) = n. Proof. exact (proj1 (proj2 (proj1 HM))). Qed.
Let L6 : six_length (p_s (c_ph c)) n. Proof. exact (proj1 (proj1 HM)). Qed.

Lemma frame_radii norm : let c1 := profile_frame G norm c in let r := if l_projected q then d_rpro (c_der c1) else d_r (c_der c1) in
  own_framed G c c1 n /\ length r = n /\ forall i, (i < n)%nat -> nth i r 0 = radius_of q s i.
Proof.
  cbn zeta. have F := profile_frame_ok norm HR HA L6. split => //.
  have [_ [_ [L1 [L2 _]]]] := framed_measured F HM. split; [by destruct (l_projected q)|].
  move=> i Hi. exact (framed_radius q F HM Hi).
Qed.

Lemma der_back c1 : own_framed G c c1 n -> c_der (return_cluster G (save_cluster c) c1) = c_der c.
Proof. move=> F. have [_ [_ [_ [E _]]]] := bracket_sees HR (of_sees F) HA. exact E. Qed.
Lemma radii_over_ok (norm : bool) rm mid : (norm = true -> rm <> None) -> exists r, radii_over norm rm mid = Ok r /\ scaled norm rm mid r.
Proof.
  move=> H. destruct norm; cbn; [|by exists mid]. destruct rm as [a|]; [|by case: (H eq_refl)].
  eexists. split; [reflexivity|]. by exists a.
Qed.

(* the rows of m_prof *)
Theorem m_prof_rows (norm cum : bool) : (norm = true -> d_rm (c_der c) <> None) -> exists lo mid hi r m nn s' caller,
  m_prof G q indx None nrad bt norm cum s = Ok (r, m, nn, s', caller) /\ scaled norm (d_rm (c_der c)) mid r /\
  covers q indx s n lo hi /\ (length lo <= nrad)%nat /\ length mid = length lo /\ length m = length lo /\ length nn = length lo /\
  (forall k, (k < length lo)%nat -> nth k lo 0 < nth k hi 0 /\ nth k lo 0 <= nth k mid 0 <= nth k hi 0 /\
     exists l, members n (in_row_of cum q indx s lo hi k) l /\ nth k m 0 = sumR (map (mass c) l) /\ nth k nn 0%nat = length l) /\
  system_restored s s'.
Proof.
  move=> HN. have [F [L E]] := frame_radii norm. rewrite /m_prof -/c.
  have [w [W1 [W2 [W3 [W4 [W5 [W6 [W7 [W8 [W9 W10]]]]]]]]]] := rows_ok bt F HM EK MF Hr PR L E.
  cbn zeta. rewrite W1. cbn [bind]. rewrite (der_back F). have [r' [R1 R2]] := radii_over_ok (w_mid w) HN. rewrite R1. cbn [bind].
  exists (w_lo w), (w_mid w), (w_hi w). do 5 eexists. split; [reflexivity|]. split; [exact R2|]. rewrite /row_count !map_length !seq_length W3.
  split; [exact W2|]. split; [exact W4|]. do 3 (split; [reflexivity|]).
  have LI : length (w_msk w) = length (w_idx w) by rewrite W6 W7. split.
  - move=> k Hk. have [D1 D2] := W5 k Hk. split; [exact D2|]. split; [exact D1|]. exists (chosen (in_row cum w k)). split; [exact: W9|].
    rewrite !nth_map_seq // (@select_row _ 0 _ (p_m _)); [by rewrite /in_row row_mask_length // W6 (of_m F) LM|].
    by rewrite (of_m F) chosen_count.
  - apply (sys_restored HR HA). exact (of_sees F).
Qed.

(* the two kinds of profile, and the total *)
Theorem m_prof_totals (norm : bool) : (norm = true -> d_rm (c_der c) <> None) -> exists r m nn s1 k1 r' m' nn' s2 k2 l,
  m_prof G q indx None nrad bt norm false s = Ok (r, m, nn, s1, k1) /\
  m_prof G q indx None nrad bt norm true s = Ok (r', m', nn', s2, k2) /\
  members n (asked q indx s) l /\ sumR m = sumR (map (mass c) l) /\ natsum nn = length l /\
  r' = r /\ length m' = length m /\ length nn' = length nn /\
  (forall k, (k < length m)%nat -> nth k m' 0 = sumR (firstn (S k) m) /\ nth k nn' 0%nat = natsum (firstn (S k) nn)) /\
  nth (length m - 1) m' 0 = sumR (map (mass c) l) /\ nth (length m - 1) nn' 0%nat = length l.
Proof.
  move=> HN. have [F [L E]] := frame_radii norm. rewrite /m_prof -/c.
  have [w [W1 [W2 [W3 [W4 [W5 [W6 [W7 [W8 [W9 W10]]]]]]]]]] := rows_ok bt F HM EK MF Hr PR L E.
  cbn zeta. rewrite W1. cbn [bind]. rewrite (der_back F). have [r' [R1 R2]] := radii_over_ok (w_mid w) HN. rewrite R1. cbn [bind].
  do 10 eexists. exists (chosen (w_msk w)). split; [reflexivity|]. split; [reflexivity|]. split; [exact W8|].
  have LI : length (w_msk w) = length (w_idx w) by rewrite W6 W7.
  have Ad : adjacent (w_lo w) (w_hi w) by destruct W2.
  have MS : forall cum k, sumR (select (in_row cum w k) (p_m (c_ph (profile_frame G norm c)))) = sumR (map (mass c) (chosen (in_row cum w k))).
  { move=> cum k. rewrite (@select_row _ 0); [by rewrite /in_row row_mask_length // W6 (of_m F) LM|]. by rewrite (of_m F). }
  have CN : forall cum k, count (in_row cum w k) = length (chosen (in_row cum w k)) by move=> cum k; rewrite chosen_count.
  have T1 := rows_partition Ad W10 (fun k => W9 false k) W8.
  have T2 := fun K l (H : (K < length (w_lo w))%nat) => @rows_cumulative q indx s n _ _ (fun k => chosen (in_row false w k)) l K Ad H (fun k => W9 false k).
  have S1 : sumR (map (fun i => sumR (select (in_row false w i) (p_m (c_ph (profile_frame G norm c))))) (row_count w)) = sumR (map (mass c) (chosen (w_msk w))).
  { rewrite (map_ext _ _ (MS false)) -sumR_flat_map. apply sumR_perm, Permutation_map. by rewrite /row_count W3. }
  have S2 : natsum (map (fun i => count (in_row false w i)) (row_count w)) = length (chosen (w_msk w)).
  { rewrite (map_ext _ _ (CN false)) natsum_flat. apply Permutation_length. by rewrite /row_count W3. }
  split; [exact S1|]. split; [exact S2|]. split; [reflexivity|]. do 2 (split; [by rewrite !map_length|]).
  rewrite map_length /row_count seq_length W3.
  have CU : forall k, (k < length (w_lo w))%nat ->
    sumR (select (in_row true w k) (p_m (c_ph (profile_frame G norm c)))) =
      sumR (firstn (S k) (map (fun i => sumR (select (in_row false w i) (p_m (c_ph (profile_frame G norm c))))) (seq 0 (length (w_lo w))))) /\
    count (in_row true w k) = natsum (firstn (S k) (map (fun i => count (in_row false w i)) (seq 0 (length (w_lo w))))).
  { move=> k Hk. have P := T2 k _ Hk (W9 true k). rewrite !firstn_map_seq //. split.
    - rewrite MS (map_ext _ _ (MS false)) -sumR_flat_map. apply sumR_perm, Permutation_map. by symmetry.
    - rewrite CN (map_ext _ _ (CN false)) natsum_flat. apply Permutation_length. by symmetry. }
  split.
  - move=> k Hk. rewrite !nth_map_seq //. exact: CU.
  - have NE : (0 < length (w_lo w))%nat by destruct Ad as [_ [N _]]; destruct (w_lo w) => //=; lia.
    rewrite !nth_map_seq; try lia. have [-> ->] := CU (length (w_lo w) - 1)%nat ltac:(lia).
    have -> : (S (length (w_lo w) - 1)) = length (w_lo w) by lia.
    rewrite !firstn_map_seq //. rewrite /row_count W3 in S1 S2. by split.
Qed.

(* bins given by the caller: every star asked for is counted in some row, also those outside the bins *)
Lemma bin_index1_range hi v : hi <> [] -> exists k, (k < length hi)%nat /\ bin_index1 hi v = Z.of_nat k.
Proof.
  move=> H. have L : (0 < length hi)%nat by destruct hi => //=; lia.
  exists (Nat.min (searchsorted_right hi v) (length hi - 1)). rewrite /bin_index1. split; lia.
Qed.
Theorem m_prof_given_bins lo mid hi (norm : bool) : (norm = true -> d_rm (c_der c) <> None) -> hi <> [] -> length mid = length hi ->
  exists r m nn s' caller l, m_prof G q indx (Some (lo, mid, hi)) nrad bt norm false s = Ok (r, m, nn, s', caller) /\
    members n (asked q indx s) l /\ sumR m = sumR (map (mass c) l) /\ natsum nn = length l.
Proof.
  move=> HN NH LH. have [F [L E]] := frame_radii norm. rewrite /m_prof -/c.
  have H1 : (1 <= n)%nat by destruct PR as [i [_ [? _]]]; lia.
  have M1 := framed_measured F HM.
  have [msk [Q [Lk W]]] := @subset_mask q indx (sys_with s (profile_frame G norm c)) n M1 H1 EK MF.
  have W' : forall i, (i < n)%nat -> nth i msk false = true <-> asked q indx s i.
  { move=> i Hi. rewrite W // /asked. by rewrite (@framed_satisfies G s _ n i q F LM Hi). }
  cbn zeta. rewrite /profile_rows Q. cbn [bind fst snd profile_bins]. rewrite (der_back F). cbn [w_mid].
  have [r' [R1 R2]] := radii_over_ok mid HN. rewrite R1. cbn [bind]. do 5 eexists. exists (chosen msk). split; [reflexivity|].
  have ME : members n (asked q indx s) (chosen msk) by apply chosen_members.
  split; [exact ME|]. rewrite /row_count. cbn [w_mid w_msk w_idx in_row].
  set r := (if l_projected q then _ else _) in L E *. set idx := bin_index r lo hi.
  have Li : length idx = n by rewrite /idx /bin_index map_length.
  have MS : forall k, sumR (select (row_mask false msk idx k) (p_m (c_ph (profile_frame G norm c)))) = sumR (map (mass c) (chosen (row_mask false msk idx k))).
  { move=> k. rewrite (@select_row _ 0); [by rewrite row_mask_length Lk ?Li // (of_m F) LM|]. by rewrite (of_m F). }
  have CN : forall k, count (row_mask false msk idx k) = length (chosen (row_mask false msk idx k)) by move=> k; rewrite chosen_count.
  have PP : Permutation (flat_map (fun k => chosen (row_mask false msk idx k)) (seq 0 (length mid))) (chosen msk).
  { apply (@members_partition n (asked q indx s) (length mid) (fun k i => asked q indx s i /\ nth i idx 0%Z = Z.of_nat k)) => //.
    - move=> k _. apply chosen_members; [by rewrite row_mask_length Lk ?Li|]. move=> i Hi. rewrite nth_row_mask ?Lk ?Li // andb_true_iff W' //.
      cbn zeta. by rewrite Z.eqb_eq.
    - move=> i Hi. split; [|by move=> [k [_ [? _]]]]. move=> A. have [k [K1 K2]] := bin_index1_range (nth i r 0) NH. exists k. rewrite LH. split=> //. split=> //.
      by rewrite /idx /bin_index (@nth_map' _ _ _ r i 0%Z 0) ?L.
    - move=> i k k' _ [_ A] [_ B]. lia. }
  split.
  - rewrite /in_row. cbn [w_msk w_idx]. rewrite (map_ext _ _ MS) -sumR_flat_map. by apply sumR_perm, Permutation_map.
  - rewrite /in_row. cbn [w_msk w_idx]. rewrite (map_ext _ _ CN) natsum_flat. by apply Permutation_length.
Qed.

(* densities *)
Lemma volume_pos (p : bool) lo hi : 0 <= lo -> lo < hi -> 0 < shell_volume p lo hi.
Proof.
  move=> A B. have P := PI_RGT_0. rewrite /shell_volume.
  have E2 : hi ^ 2 - lo ^ 2 = (hi - lo) * (hi + lo) by ring.
  have E3 : hi ^ 3 - lo ^ 3 = (hi - lo) * (hi * hi + hi * lo + lo * lo) by ring.
  destruct p; [rewrite E2|rewrite E3]; repeat apply Rmult_lt_0_compat => //; try lra. nra.
Qed.
Lemma sum_div l v : sumR (map (fun x => x / v) l) = sumR l / v.
Proof. induction l as [|a l IH] => /=; [rewrite /Rdiv; ring|]. rewrite IH /Rdiv. ring. Qed.
Lemma radius_nonneg i : 0 <= radius_of q s i.
Proof. rewrite /radius_of /seen_distance. destruct (l_projected q); exact: sqrt_pos. Qed.

Theorem rho_prof_rows (norm : bool) : (norm = true -> d_rm (c_der c) <> None) -> exists lo mid hi r d nn s' caller,
  rho_prof G q indx None nrad bt norm s = Ok (r, d, nn, s', caller) /\ scaled norm (d_rm (c_der c)) mid r /\
  covers q indx s n lo hi /\ (length lo <= nrad)%nat /\ length mid = length lo /\ length d = length lo /\ length nn = length lo /\
  (forall k, (k < length lo)%nat -> nth k lo 0 < nth k hi 0 /\ nth k lo 0 <= nth k mid 0 <= nth k hi 0 /\
     exists l v, members n (in_row_of false q indx s lo hi k) l /\ 0 < v /\
       v = (if l_projected q then PI * (nth k hi 0 ^ 2 - nth k lo 0 ^ 2) else 4 / 3 * PI * (nth k hi 0 ^ 3 - nth k lo 0 ^ 3)) /\
       nth k d None = Some (sumR (map (mass c) l) / v) /\ nth k nn 0%nat = length l) /\
  system_restored s s'.
Proof.
  move=> HN. have [F [L E]] := frame_radii norm. rewrite /rho_prof -/c.
  have [w [W1 [W2 [W3 [W4 [W5 [W6 [W7 [W8 [W9 W10]]]]]]]]]] := rows_ok bt F HM EK MF Hr PR L E.
  cbn zeta. rewrite W1. cbn [bind]. rewrite (der_back F). have [r' [R1 R2]] := radii_over_ok (w_mid w) HN. rewrite R1. cbn [bind].
  exists (w_lo w), (w_mid w), (w_hi w). do 5 eexists. split; [reflexivity|]. split; [exact R2|]. rewrite /row_count !map_length !seq_length W3.
  split; [exact W2|]. split; [exact W4|]. do 3 (split; [reflexivity|]).
  have LI : length (w_msk w) = length (w_idx w) by rewrite W6 W7. split.
  - move=> k Hk. have [D1 D2] := W5 k Hk. split; [exact D2|]. split; [exact D1|]. exists (chosen (in_row false w k)). eexists. split; [exact: W9|].
    have lo0 : 0 <= nth k (w_lo w) 0.
    { destruct W2 as [Ad [l [_ [[I _] _]]]]. apply in_map_iff in I. destruct I as [i [Ei _]].
      have X : 0 <= nth 0 (w_lo w) 0 by rewrite -Ei; exact: radius_nonneg.
      destruct Ad as [_ [_ [A1 A2]]]. clear - X A1 A2 Hk. induction k as [|k IH] => //. rewrite A2 //.
      have := IH ltac:(lia). have := A1 k ltac:(lia). lra. }
    have V := volume_pos (l_projected q) lo0 D2. split; [exact V|]. split; [reflexivity|].
    rewrite !nth_map_seq // /density_row (@select_row _ 0 _ (p_m _)); [by rewrite /in_row row_mask_length // W6 (of_m F) LM|].
    cbn zeta. destruct (Reqb (shell_volume _ _ _) 0) eqn:EV; [by move/Reqb_spec: EV => EV; rewrite EV in V; lra|].
    by rewrite (of_m F) chosen_count sum_div.
  - apply (sys_restored HR HA). exact (of_sees F).
Qed.
End OneSystem.
End WithGalpy.
