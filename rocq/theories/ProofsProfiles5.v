(* Proofs: half-mass radii of the working frame, anisotropy profiles, circular velocity profiles. *)
From Coq Require Import Sorted.
From Verif Require Import Base ModelCluster ModelOps ModelConv ModelEnergy ModelRecipes ModelStars ModelSubset ModelCoords ModelLagrange ModelProfiles.
From Verif Require Import SpecUnits SpecFrame SpecOrder SpecRecipes SpecEnergy SpecStars SpecSubset SpecLagrange SpecProfiles.
From Verif Require Import ProofsUnits ProofsFrame ProofsOrder ProofsSort ProofsSees ProofsEnergy ProofsVR ProofsRecipes ProofsRecipes2 ProofsRecipes4 ProofsCoords ProofsLagrange ProofsSubset ProofsSubset2 ProofsSubset4 ProofsProfiles ProofsProfiles2 ProofsProfiles3 ProofsProfiles4.
Set Implicit Arguments. Unset Strict Implicit.

(* ---------------------------------------------------------------- enclosed mass of the k-th star *)
Lemma cumsum_nth s l k : (k < length l)%nat -> nth k (cumsum_from s l) 0 = s + sumR (firstn (S k) l).
Proof.
  revert s k; induction l as [|a l IH]; move=> s k Hk; [cbn in Hk; lia|].
  destruct k as [|k]; [cbn; lra|].
  change (nth k (cumsum_from (s + a) l) 0 = s + (a + sumR (firstn (S k) l))). rewrite IH; [cbn in Hk; lia|]. lra.
Qed.
Lemma cumsum_length s l : length (cumsum_from s l) = length l.
Proof. revert s; induction l as [|a l IH] => s //=. by rewrite IH. Qed.

Lemma prefix_weight r m o k : length r = length m -> nonneg m -> sorted_order o r -> (k < length r)%nat ->
  let x := nth (nth k o 0%nat) r 0 in let M := nth k (cumsum (take 0 m o)) 0 in
  (nth k o 0 < length r)%nat /\ weight_inside r m x <= M <= weight_within r m x /\
  ((forall k', (k < k' < length r)%nat -> nth (nth k' o 0%nat) r 0 <> x) -> M = weight_within r m x).
Proof.
  move=> L Hn [P SS] Hk x M. have Lo : length o = length r by rewrite (Permutation_length P) seq_length.
  have [o1 [o2 [E L1]]] : exists o1 o2, o = o1 ++ nth k o 0%nat :: o2 /\ length o1 = k by apply nth_split; rewrite Lo.
  have Io : In (nth k o 0%nat) (seq 0 (length r)) by apply (Permutation_in _ P), nth_In; rewrite Lo.
  apply in_seq in Io. split; [lia|]. have EM : M = sumR (take 0 m o1) + nth (nth k o 0%nat) m 0.
  { rewrite /M /cumsum cumsum_nth; [by rewrite /take map_length Lo|]. rewrite Rplus_0_l {1}E /take map_app firstn_app map_length L1.
    rewrite firstn_all2; [rewrite map_length; lia|]. have -> : (S k - k = 1)%nat by lia. rewrite sumR_app /=. lra. }
  rewrite /x. move: (nth k o 0%nat) E Io EM => i E Io EM. clear x.
  rewrite E in SS. have [F1 F2] := SS_app_r SS.
  have Hp2 : Permutation (seq 0 (length r)) (o1 ++ i :: o2) by rewrite -E; symmetry.
  have W : weight_within r m (nth i r 0) = sumR (take 0 m o1) + nth i m 0 + isum (fun j => Rleb (nth j r 0) (nth i r 0)) m o2.
  { rewrite /weight_within (filter_combine_isum (fun a => Rleb a (nth i r 0))) // (isum_perm _ _ Hp2) isum_app.
    rewrite (@isum_true _ m o1); [eapply Forall_impl; [|exact F1] => j /= Hj; by apply Rleb_spec|].
    have -> : isum (fun j => Rleb (nth j r 0) (nth i r 0)) m (i :: o2) =
              nth i m 0 + isum (fun j => Rleb (nth j r 0) (nth i r 0)) m o2.
    { rewrite /isum /=. have -> : Rleb (nth i r 0) (nth i r 0) = true by apply Rleb_spec; lra. by []. } lra. }
  have N := @isum_nonneg (fun j => Rleb (nth j r 0) (nth i r 0)) m o2 Hn.
  split.
  - split; [|lra]. rewrite /weight_inside (filter_combine_isum (fun a => Rltb a (nth i r 0))) // (isum_perm _ _ Hp2) isum_app.
    rewrite (@isum_false _ m (i :: o2)).
    { constructor; [apply Rltb_false; lra|]. eapply Forall_impl; [|exact F2] => j /= Hj. by apply Rltb_false. }
    have := @isum_le (fun j => Rltb (nth j r 0) (nth i r 0)) m o1 Hn. have := nth_nonneg i Hn. lra.
  - move=> D. rewrite W (@isum_false _ m o2); [|lra]. apply Forall_forall => j Ij.
    have [a [Ha Ea]] := In_nth _ _ 0%nat Ij.
    have Hl : (length o = k + 1 + length o2)%nat by rewrite E app_length L1 /=; lia.
    have LE : nth i r 0 <= nth j r 0 by move: F2; rewrite Forall_forall => F2; exact (F2 j Ij).
    apply Rleb_false. destruct LE as [LE|LE] => //. case: (D (k + 1 + a)%nat ltac:(lia)).
    rewrite E app_nth2 L1; [lia|]. have -> : (k + 1 + a - k = S a)%nat by lia. cbn [nth]. by rewrite Ea.
Qed.
Lemma sorted_nth r o k k' : sorted_order o r -> (k <= k' < length r)%nat -> nth (nth k o 0%nat) r 0 <= nth (nth k' o 0%nat) r 0.
Proof.
  move=> [P SS] H. have Lo : length o = length r by rewrite (Permutation_length P) seq_length.
  destruct (Nat.eq_dec k k') as [->|NE]; [lra|].
  have [o1 [o2 [E L1]]] : exists o1 o2, o = o1 ++ nth k o 0%nat :: o2 /\ length o1 = k by apply nth_split; lia.
  have Ek : nth k' o 0%nat = nth (k' - k - 1) o2 0%nat.
  { rewrite {1}E app_nth2 L1; [lia|]. have -> : (k' - k = S (k' - k - 1))%nat by lia. cbn [nth]. f_equal. lia. }
  rewrite Ek. rewrite E in SS. have [_ F2] := SS_app_r SS. move: F2; rewrite Forall_forall => F2. apply F2, nth_In.
  have : (length o = k + 1 + length o2)%nat by rewrite E app_length L1 /=; lia. lia.
Qed.
(* the last star at a given distance *)
Lemma last_at r o k : sorted_order o r -> (k < length r)%nat -> exists k', (k <= k' < length r)%nat /\
  nth (nth k' o 0%nat) r 0 = nth (nth k o 0%nat) r 0 /\
  forall j, (k' < j < length r)%nat -> nth (nth j o 0%nat) r 0 <> nth (nth k' o 0%nat) r 0.
Proof.
  move=> HO. have : exists f, (length r - k <= f)%nat by eexists. case=> f. revert k. induction f as [|f IH] => k Hf Hk; [lia|].
  destruct (Nat.lt_ge_cases (S k) (length r)) as [H1|H1].
  2:{ exists k. split; [lia|]. split=> // j Hj. lia. }
  destruct (Req_dec (nth (nth (S k) o 0%nat) r 0) (nth (nth k o 0%nat) r 0)) as [E|E].
  - have [k' [A [B C]]] := IH (S k) ltac:(lia) H1. exists k'. split; [lia|]. split; [by rewrite B|exact C].
  - exists k. split; [lia|]. split=> // j Hj. have := sorted_nth HO (k := S k) (k' := j) ltac:(lia).
    have := sorted_nth HO (k := k) (k' := S k) ltac:(lia). lra.
Qed.

Lemma index_of_nth a l : In a l -> (index_of a l < length l)%nat /\ nth (index_of a l) l 0 = a.
Proof.
  induction l as [|b l IH] => //= I. destruct (Reqb b a) eqn:E; [apply Reqb_spec in E; split=> //; lia|].
  destruct I as [I|I]; [subst; have X : Reqb a a = true by apply Reqb_spec|].
  { congruence. }
  have [H1 H2] := IH I. split=> //. lia.
Qed.
Lemma nearest_ok r x : r <> [] -> exists i, nearest_index r x = Some i /\ (i < length r)%nat /\
  forall j, (j < length r)%nat -> Rabs (nth i r 0 - x) <= Rabs (nth j r 0 - x).
Proof.
  move=> Hr. rewrite /nearest_index. have [v Ev] : exists v, amin (map (fun a => Rabs (a - x)) r) = Some v by destruct r => //=; eexists.
  rewrite Ev. have [I Le] := amin_least Ev. have [H1 H2] := index_of_nth I. rewrite map_length in H1. eexists. split; [reflexivity|]. split=> //.
  move=> j Hj. rewrite (@nth_map' _ _ (fun a => Rabs (a - x)) r _ 0 0) // in H2. rewrite H2. apply Le.
  by apply (in_map (fun a => Rabs (a - x))), nth_In.
Qed.

Section WithGalpy.
Variable G : galpy.

Lemma vcirc_lagrange norm c u o : ready G c u o -> c_origin c <> Some Ogalaxy \/ norm = true ->
  vcirc_frame G norm c = lagrange_frame G c.
Proof.
  move=> [_ [_ [_ [Ho Hf]]]] H. rewrite /vcirc_frame /lagrange_frame Ho. rewrite Ho in H.
  destruct o => //. by destruct H as [H| ->].
Qed.
Lemma profile_lagrange c : profile_frame G true c = lagrange_frame G c. Proof. done. Qed.

(* the half-mass radius recorded in the working frame *)
Lemma frame_half p c u o : ready G c u o -> positive_scales G (c_sc c) -> SpecFrame.aligned c -> well_sorted p c ->
  (p = true -> c_origin c <> Some Ogalaxy) -> nonneg (p_m (c_ph c)) -> 0 < sumR (p_m (c_ph c)) ->
  exists h, half_mass p (lagrange_frame G c) = Some h /\ is_fraction_radius (1/2) (own_distances p c) (p_m (c_ph c)) h.
Proof.
  move=> HR HP HL HW Hp Hm Hs. have F := frame_ok HR HP HL HW.
  move: (lagrange_frame G c) F => c1 F.
  have [u1 [o1 [R1 [R2 [R3 [R4 R5]]]]]] := sees_ready (fr_sees F).
  have [order [O1 [O2 [O3 O4]]]] := frame_order F (ex_intro _ o1 R4) HW Hp.
  have [ro [rp [E HO]]] := vord_settled R4 (fr_settled F) (fr_vord F).
  have Hne : p_m (c_ph c) <> [] by move=> E0; rewrite E0 in Hs; cbn in Hs; lra.
  have [d [D1 D2]] := frac_radius_correct (own_distances_length p c) Hne Hm Hs (ltac:(lra) : 0 < 1/2 <= 1) O3.
  exists d. split => //. rewrite /half_mass. rewrite /lagrange_order E in O1. rewrite /lagrange_radii E in O2. cbn [der_of d_rproorder d_rorder d_r d_rpro] in O1, O2.
  rewrite E. destruct p; cbn [der_of d_rm d_rmpro]; rewrite O2 (fr_m F); by case: O1 => ->.
Qed.
(* the half-mass radius recorded in a cluster that is up to date *)
Lemma stored_half c o : c_origin c = Some o -> well_sorted false c -> SpecFrame.aligned c -> nonneg (p_m (c_ph c)) -> 0 < sumR (p_m (c_ph c)) ->
  exists h, d_rm (c_der c) = Some h /\ is_fraction_radius (1/2) (distances c) (p_m (c_ph c)) h.
Proof.
  move=> Ho HW HL Hm Hs. have V := settled_vord Ho HW. have [HA _] := HW. have [ro [rp [E HO]]] := vord_settled Ho HA V.
  have Hne : p_m (c_ph c) <> [] by move=> E0; rewrite E0 in Hs; cbn in Hs; lra.
  have L : length (distances c) = length (p_m (c_ph c)) by rewrite distances_list // map_length seq_length.
  have [d [D1 D2]] := frac_radius_correct L Hne Hm Hs (ltac:(lra) : 0 < 1/2 <= 1) HO.
  exists d. split=> //. rewrite E. cbn [der_of d_rm]. by rewrite -distances_eq.
Qed.
Lemma distances_own c : SpecFrame.aligned c -> c_origin c <> Some Ogalaxy -> distances c = own_distances false c.
Proof.
  move=> HL Ho. rewrite distances_list // /own_distances /own_distance /own_centre. apply map_ext => k.
  destruct (c_origin c) as [[]|]; try (by case: Ho); cbn; f_equal; ring.
Qed.

Lemma own_radius q s n : measured s n -> own_distances (l_projected q) (g_c (y_k s)) = map (radius_of q s) (seq 0 n).
Proof.
  move=> HM. have Lm := proj1 (proj2 (proj1 HM)). rewrite /own_distances /nstars Lm. apply map_ext_in => i /in_seq Hi.
  rewrite (seen_radius6 q HM); [lia|]. rewrite /own_distance /own_centre /radius6 /own_star.
  destruct (c_origin (g_c (y_k s))) as [[]|]; destruct (l_projected q); cbn [sx sy sz]; f_equal; ring.
Qed.

(* ---------------------------------------------------------------- anisotropy *)
Lemma three_velocities_ok p c c1 n : own_framed G c c1 n -> c_units c1 <> Some Uamuse -> c_origin c1 <> Some Osky ->
  exists r vr vp vt c2, three_velocities G p c1 = Ok (r, vr, vp, vt, c2) /\ length r = n /\ length vr = n /\ length vp = n /\ length vt = n /\
    (forall i, (i < n)%nat -> nth i r 0 = radius6 p (own_star c i)) /\
    (forall i, (i < n)%nat -> radius6 true (own_star c i) <> 0 ->
       nth i vr None = Some (radial_velocity p (own_star c i)) /\ nth i vp None = Some (azimuthal_velocity (own_star c i)) /\
       nth i vt None = Some (if p then 0 else polar_velocity (own_star c i))) /\
    own_framed G c c2 n /\ (c2 = c1 \/ c2 = analyze true true c1).
Proof.
  move=> F HU HO. rewrite /three_velocities.
  have LN : length (rows6 (p_s (c_ph c1))) = n by rewrite -(rows6_len (fun p => p) F) map_id.
  have XN : forall A B (f : A -> B) (g : six R -> A) i d, (i < n)%nat -> nth i (map f (map g (rows6 (p_s (c_ph c1))))) d = f (g (own_star c i)).
  { move=> A B f g i d Hi. rewrite map_map. exact (rows6_nth (fun x => f (g x)) d F Hi). }
  have XL : forall A B (f : A -> B) (g : six R -> A), length (map f (map g (rows6 (p_s (c_ph c1))))) = n.
  { move=> A B f g. by rewrite map_length map_length. }
  destruct p.
  - do 5 eexists. split; [reflexivity|].
    do 4 (split; [exact: XL|]). split; [move=> i Hi; rewrite XN //; exact (proj1 (cyl_radius _))|].
    split; [|split; [exact F|by left]]. move=> i Hi H. rewrite !XN //. have [_ [-> ->]] := cyl_components H. by split.
  - rewrite sphere_coords_ok //. cbn [bind]. do 5 eexists. split; [reflexivity|].
    do 4 (split; [exact: XL|]). split; [move=> i Hi; by rewrite XN|].
    split; [|split; [exact (own_framed_analyze F)|by right]]. move=> i Hi H. rewrite !XN //.
    have [-> K] := sphere_components (axis_zero H). have [-> ->] := K H. by split.
Qed.
Lemma beta_row_ok (p : bool) vr vp vt msk (pt : nat -> six R) n : length msk = n -> length vr = n -> length vp = n -> length vt = n ->
  (forall i, In i (chosen msk) -> nth i vr None = Some (radial_velocity p (pt i)) /\ nth i vp None = Some (azimuthal_velocity (pt i)) /\
       nth i vt None = Some (if p then 0 else polar_velocity (pt i))) ->
  beta_row p vr vp vt msk =
    if Nat.ltb 3 (length (chosen msk)) then
      if Reqb (deviation (map (radial_velocity p) (map pt (chosen msk)))) 0 then None else Some (anisotropy p (map pt (chosen msk)))
    else Some 0.
Proof.
  move=> L L1 L2 L3 H. rewrite /beta_row /enough -chosen_count. destruct (Nat.ltb 3 _) => //.
  have A : forall v f, length v = n -> (forall i, In i (chosen msk) -> nth i v None = Some (f i)) ->
    over_numbers np_std (select msk v) = Some (deviation (map f (chosen msk))).
  { move=> v f Lv Hv. rewrite (@select_row _ None) ?L ?Lv // /over_numbers (@all_some_map _ _ _ f) //=. by rewrite np_std_deviation. }
  rewrite (A vr _ L1 (fun i I => proj1 (H i I))) (A vp _ L2 (fun i I => proj1 (proj2 (H i I)))) (A vt _ L3 (fun i I => proj2 (proj2 (H i I)))).
  rewrite /anisotropy !map_map. destruct (Reqb _ 0) => //. by destruct p.
Qed.

Section OneSystem.
Variables (q : selection) (indx : option (list bool)) (s : system) (n nrad : nat) (bt : bintype) (u : usys) (o : osys).
Let c := g_c (y_k s).
Hypotheses (HR : ready G c u o) (HA : analyze true true c = c) (HM : measured s n) (EK : energies_known q s n)
  (MF : mask_fits indx n).
Let L6 : six_length (p_s (c_ph c)) n. Proof. exact (proj1 (proj1 HM)). Qed.

Lemma beta_prof_gen norm : (0 < nrad)%nat -> profilable q indx s n ->
  (forall i, (i < n)%nat -> asked q indx s i -> radius6 true (own_star c i) <> 0) ->
  (norm = true -> half_mass (l_projected q) (profile_frame G true c) <> None /\
                  analyze true true (profile_frame G true c) = profile_frame G true c) ->
  exists lo mid hi r v s' caller,
    beta_prof G q indx None nrad bt norm s = Ok (r, v, s', caller) /\
    covers q indx s n lo hi /\ (length lo <= nrad)%nat /\ length mid = length lo /\ length v = length lo /\
    scaled norm (half_mass (l_projected q) (profile_frame G true c)) mid r /\
    (forall k, (k < length lo)%nat -> nth k lo 0 < nth k hi 0 /\ nth k lo 0 <= nth k mid 0 <= nth k hi 0 /\
       exists l, members n (in_row_of false q indx s lo hi k) l /\
         nth k v None = if Nat.ltb 3 (length l) then
             if Reqb (deviation (map (radial_velocity (l_projected q)) (map (own_star c) l))) 0 then None
             else Some (anisotropy (l_projected q) (map (own_star c) l))
           else Some 0) /\
    system_restored s s'.
Proof.
  move=> Hr PR RE HN. have F := profile_frame_ok norm HR HA L6. have [U1 U2] := @frame_units G norm norm c u o HR.
  have [r [vr [vp [vt [c2 [E1 [Lr [L1 [L2 [L3 [Er [Ev [F2 E2]]]]]]]]]]]]] := three_velocities_ok (l_projected q) F U1 U2.
  have Er' : forall i, (i < n)%nat -> nth i r 0 = radius_of q s i by move=> i Hi; rewrite Er // (seen_radius6 q HM Hi).
  have [x [W1 [W2 [W3 [W4 [W5 [W6 [W7 [W8 [W9 W10]]]]]]]]]] := rows_ok bt F HM EK MF Hr PR Lr Er'.
  rewrite /beta_prof -/c. cbn zeta. rewrite E1. cbn [bind]. rewrite W1. cbn [bind].
  have [r' [R1 R2]] : exists r', radii_over norm (half_mass (l_projected q) c2) (w_mid x) = Ok r' /\
    scaled norm (half_mass (l_projected q) (profile_frame G true c)) (w_mid x) r'.
  { destruct norm; [|by exists (w_mid x)]. have [N1 N2] := HN eq_refl.
    have -> : c2 = profile_frame G true c by destruct E2 as [->| ->].
    destruct (half_mass (l_projected q) (profile_frame G true c)) as [h|] => //. cbn. eexists. split; [reflexivity|].
    by exists h. }
  rewrite R1. cbn [bind]. exists (w_lo x), (w_mid x), (w_hi x). do 4 eexists. split; [reflexivity|].
  split; [exact W2|]. split; [exact W4|]. split; [exact W3|]. split; [by rewrite /row_count map_length seq_length|].
  split; [exact R2|].
  have LI : length (w_msk x) = length (w_idx x) by rewrite W6 W7. split.
  - move=> k Hk. have [D1 D2] := W5 k Hk. split; [exact D2|]. split; [exact D1|]. exists (chosen (in_row false x k)). split; [exact: W9|].
    rewrite /row_count nth_map_seq ?W3 //. apply (@beta_row_ok (l_projected q) vr vp vt _ _ n) => //; [by rewrite /in_row row_mask_length // W6|].
    move=> i I. destruct (W9 false k) as [_ H9]. apply H9 in I. destruct I as [Hi [A _]]. apply Ev => //. by apply RE.
  - apply (sys_restored HR HA). exact (of_sees F2).
Qed.
End OneSystem.
End WithGalpy.
