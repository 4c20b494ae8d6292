(* Proofs: sub_cluster as a whole, and the overlap of two clusters. *)
From Coq Require Import Sorted.
From Verif Require Import Base ModelCluster ModelOps ModelConv ModelEnergy ModelRecipes ModelStars ModelSubset.
From Verif Require Import SpecStars SpecSubset SpecRecipes SpecOrder ProofsUnits ProofsFrame ProofsOrder ProofsEnergy ProofsRecipes ProofsRecipes2 ProofsStars ProofsStars2 ProofsStars3 ProofsStars5 ProofsSubset ProofsSubset2 ProofsSubset3.
Set Implicit Arguments. Unset Strict Implicit.

Lemma analyze_norms sort p c : let s := p_s (c_ph c) in let d := c_der (analyze sort p c) in
  d_r d = norm3 (sx s) (sy s) (sz s) /\ d_rpro d = norm2 (sx s) (sy s) /\
  d_v d = norm3 (svx s) (svy s) (svz s) /\ d_vpro d = norm2 (svx s) (svy s).
Proof.
  rewrite /analyze /analyze_fracs /sortstars. destruct sort.
  - destruct (d_rorder (c_der (analyze_radii c))) as [o|]; [|by destruct (if p then _ else _)].
    destruct (_ && _); cbn; by destruct (if p then _ else _).
  - by destruct (d_rorder (c_der (analyze_radii c))); destruct (d_rproorder (c_der (analyze_radii c))).
Qed.

(* rows of the masked columns *)
Definition masked_columns (msk : list bool) (k : catalog) : columns :=
  mkCol (select msk (c_id (g_c k))) (select msk (p_m (c_ph (g_c k)))) (map6 (select msk) (p_s (c_ph (g_c k))))
        (select msk (g_m0 k)) (select msk (g_npop k)).
Lemma masked_row msk k n j : aligned k n -> length msk = n -> (j < count msk)%nat ->
  row (masked_columns msk k) j = star_at k (nth j (chosen msk) 0%nat).
Proof.
  move=> [[X [Y [Zz [U [V W]]]]] [M [I [M0 P]]]] L Hj. rewrite star_at_row /row /masked_columns /columns_of /map6; cbn [t_s t_m t_id t_m0 t_npop sx sy sz svx svy svz].
  rewrite !(@nth_select R 0) ?L //. by rewrite !(@nth_select Z 0%Z) ?L //.
Qed.
Lemma columns_aligned k k' msk n : aligned k n -> length msk = n -> columns_of k' = masked_columns msk k -> aligned k' (count msk).
Proof.
  move=> [S6 [M [I [M0 P]]]] L E. have E1 := f_equal t_s E. have E2 := f_equal t_m E. have E3 := f_equal t_id E.
  have E4 := f_equal t_m0 E. have E5 := f_equal t_npop E. cbn in E1, E2, E3, E4, E5.
  rewrite /aligned E1 E2 E3 E4 E5. split; [exact (select6_length L S6)|]. by rewrite !select_length ?L.
Qed.
Lemma seen_row p k k' i j : star_at k' j = star_at k i -> seen_distance p k' j = seen_distance p k i /\ seen_speed p k' j = seen_speed p k i.
Proof. move=> E. by rewrite /seen_distance /seen_speed E. Qed.

(* radii and speeds after analyze *)
Lemma measured_norms k n : aligned k n -> let d := c_der (g_c k) in let s := p_s (c_ph (g_c k)) in
  d_r d = norm3 (sx s) (sy s) (sz s) -> d_rpro d = norm2 (sx s) (sy s) ->
  d_v d = norm3 (svx s) (svy s) (svz s) -> d_vpro d = norm2 (svx s) (svy s) ->
  length (d_r d) = n /\ length (d_rpro d) = n /\ length (d_v d) = n /\ length (d_vpro d) = n /\
  (forall i, (i < n)%nat ->
     nth i (d_r d) 0 = seen_distance false k i /\ nth i (d_rpro d) 0 = seen_distance true k i /\
     nth i (d_v d) 0 = seen_speed false k i /\ nth i (d_vpro d) 0 = seen_speed true k i).
Proof.
  move=> [[X [Y [Z [U [V W]]]]] _] d s -> -> -> ->.
  rewrite !norm3_length ?norm2_length_eq ?X ?Y ?Z ?U ?V ?W //.
  do 4 (split=> //). move=> i Hi. rewrite !norm3_nth ?norm2_nth ?X ?Y ?Z ?U ?V ?W //.
Qed.

Lemma isin_nth a b i : (i < length a)%nat -> nth i (isin a b) false = true <-> In (nth i a 0%Z) b.
Proof.
  move=> H. rewrite /isin (@nth_map_b _ _ _ _ 0%Z) // existsb_exists. split.
  - move=> [x [Hx /Z.eqb_eq ->]] //.
  - move=> Hx. exists (nth i a 0%Z). split=> //. exact: Z.eqb_refl.
Qed.

Lemma fresh_sub sort msk s n sub : complete s n -> length msk = n -> (1 <= count msk)%nat -> build_sub sort msk s = Ok sub ->
  let sub' := mkSys (set_cluster (y_k sub) (analyze sort true (g_c (y_k sub)))) (y_kin sub) (y_pot sub) (y_etot sub) in
  g_ntot (y_k sub) = count msk /\ holds_stars sub' s (chosen msk) /\ binaries_follow sub' s /\
  c_bunits (g_c (y_k sub')) = option_map Bu (c_units (g_c (y_k s))) /\ g_ns (y_k sub') = Z.of_nat (Z.to_nat (g_ns (y_k s))) /\
  (f_id2 (g_bse (y_k s)) = [] -> c_nb (g_c (y_k sub')) = c_nb (g_c (y_k s))) /\
  (sort = true -> sorted_sub sub' (count msk)).
Proof.
  move=> CO L CM EB.
  have [sub0 [E0 [C1 [C2 [C3 [C4 [C5 [C6 [C7 [C8 [C9 [C10 [c1 [[D1 [D2 [D3 D4]]] D5]]]]]]]]]]]]]] := @build_ok sort msk s n CO L CM.
  rewrite EB in E0. have {}E0 : sub0 = sub by congruence. subst sub0.
  have [M [SS [ES [[b BS] SK]]]] := CO. have [AL [NT [_ [_ [_ [_ [_ [KW ET]]]]]]]] := M.
  have LJ := chosen_count msk.
  have AL' := columns_aligned AL L C1.
  have [Q1 [Q2 [Q3 [Q4 [Q5 [Q6 Q7]]]]]] := analyze_ph sort true (g_c (y_k sub)).
  have [R1 R2] := analyze_bin sort true (g_c (y_k sub)).
  have [G1 [G2 [G3 G4]]] := analyze_norms sort true (g_c (y_k sub)).
  set ca := analyze sort true (g_c (y_k sub)) in Q1 Q2 Q3 Q4 Q5 Q6 Q7 R1 R2 G1 G2 G3 G4 |- *.
  move=> sub'.
  have K1 : g_c (y_k sub') = ca by [].
  have AL1 : aligned (y_k sub') (count msk).
  { rewrite /aligned K1 Q1 Q2. exact AL'. }
  have ST : forall j, star_at (y_k sub') j = star_at (y_k sub) j.
  { move=> j. rewrite /star_at K1 Q1 Q2. reflexivity. }
  have STJ : forall j, (j < count msk)%nat -> star_at (y_k sub') j = star_at (y_k s) (nth j (chosen msk) 0%nat).
  { move=> j Hj. rewrite ST star_at_row C1. exact (masked_row AL L Hj). }
  split; [exact C2|]. split.
  { split; [|split].
    - rewrite LJ. split; [exact AL1|]. split; [exact C2|].
      have [N1 [N2 [N3 [N4 N5]]]] := @measured_norms (y_k sub') (count msk) AL1
         ltac:(rewrite K1 Q1; exact G1) ltac:(rewrite K1 Q1; exact G2) ltac:(rewrite K1 Q1; exact G3) ltac:(rewrite K1 Q1; exact G4).
      do 5 (split=> //). split.
      + change (g_sse (y_k sub')) with (g_sse (y_k sub)). destruct C8 as [C8 [C8' _]]. destruct KW as [KW|KW]; [by left; apply C8'|].
        destruct (e_kw (g_sse (y_k s))) as [|w l] eqn:EK; [by left; apply C8'|]. right. rewrite C8 // select_length ?L //.
      + change (y_etot sub') with (y_etot sub). destruct (y_etot s) as [|e l] eqn:EE; [by left; apply C10|]. right.
        destruct ES as [ES|[ES1 ES2]]; [by rewrite EE in ES|].
        have [_ [_ ->]] := C9 ltac:(done). rewrite zip_with_length !select_length ?L // Nat.min_id //.
    - rewrite /parent_data K1 Q1 Q4 Q5 Q6. exact C3.
    - rewrite LJ => j Hj. split; [exact (STJ j Hj)|]. change (g_sse (y_k sub')) with (g_sse (y_k sub)).
      destruct C8 as [C8 [_ C8']]. split; [|split].
      + move=> NE. rewrite C8 //. destruct KW as [KW|KW]; [by rewrite KW in NE|]. rewrite (@nth_select R 0) ?L //.
      + move=> NE. have [-> [-> ->]] := C8' NE. destruct SS as [SS|[S1 [S2 [S3 _]]]]; [by rewrite SS in NE|].
        rewrite !(@nth_select R 0) ?L //. do 2 (split=> //).
        rewrite (@nth_map' _ _ pow10 _ _ 0 0) ?select_length ?L //. rewrite (@nth_select R 0) ?L //.
      + move=> NE. change (y_etot sub') with (y_etot sub). change (y_kin sub') with (y_kin sub). change (y_pot sub') with (y_pot sub).
        have [-> [-> ->]] := C9 NE. destruct ES as [ES|[ES1 ES2]]; [by rewrite ES in NE|].
        rewrite (@nth_select R 0) ?L //. rewrite (@nth_select num None) ?L //. do 2 (split=> //).
        rewrite (@nth_zip_with _ _ _ _ _ _ _ 0 None) ?select_length ?L //. rewrite (@nth_select R 0) ?L // (@nth_select num None) ?L //. }
  split.
  { move=> NE. have [B1 [B2 [B3 [B4 [B5 B6]]]]] := C7 NE. destruct BS as [BS|BS]; [by rewrite BS in NE|].
    have Lb1 := proj1 BS. have Lb2 := proj1 (proj2 BS).
    have IDS : c_id (g_c (y_k sub')) = select msk (c_id (g_c (y_k s))).
    { rewrite K1 Q2. exact (f_equal t_id C1). }
    exists (bin_mask msk (y_k s)). have LB : length (bin_mask msk (y_k s)) = b by rewrite /bin_mask zip_with_length /isin !map_length Lb1 Lb2; lia.
    split; [by rewrite LB Lb2|]. split.
    - rewrite LB => i Hi. rewrite IDS /bin_mask (@nth_zip_with _ _ _ _ _ _ _ false false) /isin ?map_length ?Lb1 ?Lb2 //.
      rewrite orb_true_iff -!/(isin _ _) !isin_nth ?Lb1 ?Lb2 //.
    - rewrite K1 R2. done. }
  split; [by rewrite K1 R1|]. split; [exact C5|]. split; [by rewrite K1 Q3|].
  move=> SO. rewrite /sorted_sub. cbn zeta. move=> NN POS.
  have RO : c_der ca = c_der (analyze true true c1).
  { rewrite /ca SO in D5 |- *. rewrite (@analyze_der_cong true true _ (analyze true true c1)) ?analyze_idem //.
    - have [-> _] := analyze_ph true true c1. rewrite D2. exact (f_equal t_s C1).
    - have [-> _] := analyze_ph true true c1. rewrite D3. exact (f_equal t_m C1).
    - have [_ [_ [_ [_ [-> _]]]]] := analyze_ph true true c1. rewrite D4. exact (proj1 (proj2 C3)). }
  have P6 : six_length (p_s (c_ph c1)) (count msk) by rewrite D2; apply (select6_length L (proj1 AL)).
  have OO : order_other c1 (count msk) by rewrite /order_other D1.
  have [_ [A2 [A3 A4]]] := @analyze_resorts true c1 (count msk) P6 OO.
  have RD := row_distances_norm3 AL1. have RM := row_masses_column AL1.
  have E1 : p_s (c_ph (g_c (y_k sub'))) = p_s (c_ph c1). { rewrite K1 Q1 D2. exact (f_equal t_s C1). }
  have E2 : p_m (c_ph (g_c (y_k sub'))) = p_m (c_ph c1). { rewrite K1 Q1 D3. exact (f_equal t_m C1). }
  rewrite E1 in RD. rewrite E2 in RM. move: NN POS. cbn zeta. rewrite RM K1 RO RD => NN POS.
  set r := norm3 _ _ _ in A2 A3 A4 RD |- *.
  set m := p_m (c_ph c1) in NN POS A3 A4 RM |- *.
  have LR : length r = length m.
  { have Lm : length m = count msk by rewrite /m -E2; case: AL1 => _ []. rewrite Lm. case: P6 => X [Y [Z _]]. by apply norm3_length'. }
  have ME : m <> []. { move=> E. move: POS. rewrite E /=. lra. }
  have SA := argsort_sorted r.
  have [rm [B1 B2]] := @frac_radius_correct (1/2) r m _ LR ME NN POS ltac:(lra) SA.
  have [r10 [B3 B4]] := @frac_radius_correct (1/10) r m _ LR ME NN POS ltac:(lra) SA.
  exists (argsort r), rm, r10. rewrite A2 A3 A4. done.
Qed.

(* ------------------------------------------------------------------ sub_cluster *)
Theorem sub_cluster_ok G q indx sort s n : complete s n -> (1 <= n)%nat -> energies_known q s n -> mask_fits indx n ->
  exists J sub caller, sub_cluster G q indx sort s = Ok (sub, parent_after s, caller) /\
    StronglySorted lt J /\ (forall i, In i J <-> (i < n)%nat /\ in_mask indx i /\ satisfies q s i) /\
    (J = [] -> sub = nothing_selected (p_t (c_ph (g_c (y_k s))))) /\
    (J <> [] -> holds_stars sub s J /\ binaries_follow sub s /\
       c_bunits (g_c (y_k sub)) = option_map Bu (c_units (g_c (y_k s))) /\
       g_ns (y_k sub) = Z.of_nat (Z.to_nat (g_ns (y_k s))) /\
       (f_id2 (g_bse (y_k s)) = [] -> c_nb (g_c (y_k sub)) = c_nb (g_c (y_k s))) /\
       (sort = true -> sorted_sub sub (length J))).
Proof.
  move=> CO Hn EK MF. have [M _] := CO.
  have [m [E [Lm Hm]]] := @subset_mask q indx s n M Hn EK MF.
  exists (chosen m). rewrite /sub_cluster E; cbn [bind]. rewrite return_same.
  have SO : StronglySorted lt (chosen m) by apply filter_seq_sorted.
  have SI : forall i, In i (chosen m) <-> (i < n)%nat /\ in_mask indx i /\ satisfies q s i.
  { move=> i. rewrite chosen_In Lm. split; move=> [H1 H2]; split=> //; by apply (Hm i H1). }
  have LJ := chosen_count m.
  destruct (Nat.ltb 0 (count m)) eqn:C.
  - apply Nat.ltb_lt in C.
    have [sub0 [EB _]] := @build_ok sort m s n CO Lm C. rewrite EB; cbn [bind].
    have [N1 [N2 [N3 [N4 [N5 [N6 N7]]]]]] := @fresh_sub sort m s n sub0 CO Lm C EB.
    rewrite N1. have -> : Nat.ltb 0 (count m) = true by apply Nat.ltb_lt.
    eexists _, _. split; [reflexivity|]. do 2 (split=> //).
    split; [move=> Z; rewrite Z in LJ; cbn in LJ; lia|]. move=> _. do 5 (split=> //). by rewrite LJ.
  - apply Nat.ltb_ge in C. cbn [bind]. change (g_ntot (y_k (nothing_selected (p_t (c_ph (g_c (y_k s))))))) with 0%nat. cbn [Nat.ltb Nat.leb].
    eexists _, _. split; [reflexivity|]. do 3 (split=> //).
    move=> NE. exfalso. apply NE. destruct (chosen m) => //. cbn in LJ; lia.
Qed.

(* a mask of the wrong length selects nothing *)
Lemma wrong_mask_nothing G q l sort s n : complete s n -> (2 <= n)%nat -> energies_known q s n -> length l <> n ->
  sub_cluster G q (Some l) sort s = Ok (nothing_selected (p_t (c_ph (g_c (y_k s)))), parent_after s, Some l).
Proof.
  move=> [M _] Hn EK NE. rewrite /sub_cluster (@wrong_mask q s n l M Hn EK NE); cbn [bind].
  rewrite return_same. reflexivity.
Qed.

(* ------------------------------------------------------------------ masses *)
Lemma ss_nodup J : StronglySorted lt J -> NoDup J.
Proof.
  induction 1 as [|a l H IH F]; constructor=> //. move=> I. move/Forall_forall: F => F. have := F a I. lia.
Qed.
Lemma mass_of_sub sub s J : holds_stars sub s J -> mass_of sub = sumR (map (row_mass (y_k s)) J).
Proof.
  move=> [[_ [N _]] [_ H]]. rewrite /mass_of N /total. f_equal.
  apply (nth_ext _ _ 0 0); first by rewrite !map_length seq_length.
  rewrite map_length seq_length => i Hi. rewrite (@nth_map' _ _ (row_mass (y_k sub)) _ _ 0 0%nat) ?seq_length // seq_nth //.
  rewrite (@nth_map' _ _ (row_mass (y_k s)) _ _ 0 0%nat) //. rewrite /row_mass. by have [-> _] := H _ Hi.
Qed.
Lemma split_mass (f : nat -> R) n J1 J2 : StronglySorted lt J1 -> StronglySorted lt J2 ->
  (forall i, In i J1 \/ In i J2 <-> (i < n)%nat) -> (forall i, In i J1 -> ~ In i J2) ->
  sumR (map f J1) + sumR (map f J2) = total f n.
Proof.
  move=> S1 S2 U D. rewrite /total -sumR_app -map_app. apply sumR_perm. apply Permutation_map. apply NoDup_Permutation.
  - apply NoDup_app'; [by apply ss_nodup|by apply ss_nodup|]. exact D.
  - apply seq_NoDup.
  - move=> i. rewrite in_app_iff U in_seq. lia.
Qed.

(* ------------------------------------------------------------------ overlap *)
Lemma fold_ok (f : nat -> result bool) (g : nat -> bool) l : (forall i, In i l -> f i = Ok (g i)) ->
  fold_right (fun i acc => bind (f i) (fun b => bind acc (fun l => Ok (b :: l)))) (Ok []) l = Ok (map g l).
Proof.
  induction l as [|a l IH] => H //=. rewrite IH; first by move=> i Hi; apply H; right. rewrite H; [by left|]. done.
Qed.
Theorem overlap_mask_ok tol p c1 c2 n1 n2 :
  six_length (p_s (c_ph c1)) n1 -> six_length (p_s (c_ph c2)) n2 -> (1 <= n2)%nat ->
  exists l, overlap_mask tol p c1 c2 = Ok l /\ length l = n1 /\
    forall i, (i < n1)%nat -> nth i l false = true <-> exists j, (j < n2)%nat /\ star_separation p c1 c2 i j < tol.
Proof.
  move=> [X1 [Y1 [Z1 _]]] [X2 [Y2 [Z2 _]]] H2. rewrite /overlap_mask.
  set s1 := p_s (c_ph c1) in X1 Y1 Z1 |- *. set s2 := p_s (c_ph c2) in X2 Y2 Z2 |- *.
  set one := near_any tol p s1 s2.
  set dr := fun i : nat => map (star_separation p c1 c2 i) (seq 0 n2).
  have E : forall i, one i = match amin (dr i) with Some d => Ok (Rltb d tol) | None => Raise end.
  { move=> i. rewrite /one /near_any. cbn zeta. destruct p.
    - rewrite np2_eq; first by rewrite !map_length X2 Y2. cbn [bind].
      have -> // : zip_with (fun a b => sqrt (a ^ 2 + b ^ 2)) (map (fun b => nth i (sx s1) 0 - b) (sx s2)) (map (fun b => nth i (sy s1) 0 - b) (sy s2)) = dr i.
      apply (nth_ext _ _ 0 0); first by rewrite zip_with_length !map_length seq_length X2 Y2; lia.
      rewrite zip_with_length !map_length X2 Y2 Nat.min_id => j Hj. rewrite (@nth_zip_with _ _ _ _ _ _ _ 0 0) ?map_length ?X2 ?Y2 //.
      rewrite !(@nth_map' _ _ (fun b => _ - b) _ _ 0 0) ?X2 ?Y2 //. rewrite nth_map_seq //.
    - rewrite np2_eq; first by rewrite !map_length X2 Y2. cbn [bind].
      rewrite np2_eq; first by rewrite zip_with_length !map_length X2 Y2 Z2 Nat.min_id. cbn [bind].
      set zz := zip_with (fun a b => sqrt (a + b ^ 2)) _ _. have -> // : zz = dr i.
      apply (nth_ext _ _ 0 0); first by rewrite !zip_with_length !map_length seq_length X2 Y2 Z2; lia.
      rewrite !zip_with_length !map_length X2 Y2 Z2 !Nat.min_id => j Hj.
      rewrite (@nth_zip_with _ _ _ _ _ _ _ 0 0) ?zip_with_length ?map_length ?X2 ?Y2 ?Z2 ?Nat.min_id //.
      rewrite (@nth_zip_with _ _ _ _ _ _ _ 0 0) ?zip_with_length ?map_length ?X2 ?Y2 ?Z2 ?Nat.min_id //.
      rewrite !(@nth_map' _ _ (fun b => _ - b) _ _ 0 0) ?X2 ?Y2 ?Z2 //. rewrite nth_map_seq //. }
  have NE : forall i, exists d, amin (dr i) = Some d.
  { move=> i. destruct (amin (dr i)) as [d|] eqn:A; [by exists d|]. exfalso.
    have : length (dr i) = n2 by rewrite /dr map_length seq_length. destruct (dr i) => //=; lia. }
  exists (map (fun i => match amin (dr i) with Some d => Rltb d tol | None => false end) (seq 0 (length (sx s1)))).
  split; [|split].
  - apply fold_ok => i _. rewrite E. have [d ->] := NE i. done.
  - by rewrite map_length seq_length X1.
  - move=> i Hi. rewrite (@nth_map_b _ _ _ _ 0%nat) ?seq_length ?X1 //. rewrite seq_nth ?X1 //= .
    have [d A] := NE i. rewrite A. have [I1 I2] := amin_least A. split.
    + move=> /Rltb_spec D. move: I1. rewrite /dr in_map_iff => [[j [Ej /in_seq Hj]]]. exists j. split; [lia|]. by rewrite Ej.
    + move=> [j [Hj D]]. apply/Rltb_spec. apply: Rle_lt_trans D. apply I2. rewrite /dr. apply in_map. apply in_seq. lia.
Qed.
