(* Proofs: the cluster built by sub_cluster. *)
From Coq Require Import Sorted.
From Verif Require Import Base ModelCluster ModelOps ModelConv ModelEnergy ModelRecipes ModelStars ModelSubset.
From Verif Require Import SpecStars SpecSubset SpecRecipes SpecOrder ProofsUnits ProofsFrame ProofsEnergy ProofsRecipes ProofsRecipes2 ProofsStars ProofsStars2 ProofsStars3 ProofsStars5 ProofsSubset.
Set Implicit Arguments. Unset Strict Implicit.

(* ------------------------------------------------------------------ masks and indices *)
Lemma chosen_In msk i : In i (chosen msk) <-> (i < length msk)%nat /\ nth i msk false = true.
Proof. rewrite /chosen filter_In in_seq. split; move=> [H1 H2]; split=> //; lia. Qed.
Lemma filter_seq_sorted f : forall len a, StronglySorted lt (filter f (seq a len)).
Proof.
  induction len as [|len IH] => a /=; [constructor|]. destruct (f a); [|exact: IH].
  constructor; [exact: IH|]. apply Forall_forall => x /filter_In [/in_seq H _]. lia.
Qed.
Lemma filter_seq_shift (g : nat -> bool) n : forall a, filter g (seq (S a) n) = map S (filter (fun i => g (S i)) (seq a n)).
Proof. induction n as [|n IH] => a //=. destruct (g (S a)); by rewrite IH. Qed.
Lemma select_chosen A (d : A) msk : forall l, length msk = length l -> select msk l = map (fun i => nth i l d) (chosen msk).
Proof.
  rewrite /chosen. induction msk as [|b msk IH]; move=> [|a l] //= [H].
  have E : filter (fun i => match i with O => b | S m => nth m msk false end) (seq 1 (length msk)) =
           map S (filter (fun i => nth i msk false) (seq 0 (length msk))) by rewrite filter_seq_shift.
  destruct b; rewrite E /= map_map -IH //.
Qed.
Lemma chosen_count msk : length (chosen msk) = count msk.
Proof. rewrite -(map_length (fun i => nth i msk false)) -(@select_chosen _ false msk msk eq_refl). exact: select_length. Qed.
Lemma nth_select A (d : A) msk l j : length msk = length l -> (j < count msk)%nat ->
  nth j (select msk l) d = nth (nth j (chosen msk) 0%nat) l d.
Proof. move=> H Hj. rewrite (select_chosen d H) (@nth_map' _ _ (fun i => nth i l d) (chosen msk) j d 0%nat) ?chosen_count //. Qed.
Lemma masked_ok A msk (l : list A) : length msk = length l -> masked msk l = Ok (select msk l).
Proof. move=> H. by rewrite /masked H Nat.eqb_refl. Qed.
Lemma masked6_ok msk s n : length msk = n -> six_length s n -> masked6 msk s = Ok (map6 (select msk) s).
Proof. move=> L [A1 [A2 [A3 [A4 [A5 A6]]]]]. rewrite /masked6 /all6 /map6 /=. by rewrite !masked_ok ?L //. Qed.
Lemma select6_length msk s n : length msk = n -> six_length s n -> six_length (map6 (select msk) s) (count msk).
Proof. move=> L [A1 [A2 [A3 [A4 [A5 A6]]]]]. rewrite /six_length /=. by rewrite !select_length ?L. Qed.

(* ------------------------------------------------------------------ add_stars on a new cluster *)
Definition new_catalog (c0 : cluster) (s : six (list R)) (m : list R) (id : list Z) (m0 : list R) (np : list Z) (sort : bool) (N : nat) : catalog :=
  mkCat (analyze sort true (add_sky_rows s (put_cluster c0 (mkCol id m s m0 np) 0))) m0 np init_pairs init_sse init_bse
        N (Z.of_nat N).
Lemma add_new t u o ro_ vo_ s m id m0 np sort N : (1 <= N)%nat ->
  six_length s N -> length m = N -> length id = N -> length m0 = N -> length np = N ->
  add_stars 0 (mkArgs (map6 Array s) (Some (Array m)) (Some (Array id)) (Some (Array m0)) (Some (Array np))) sort true true
    (init_catalog (init_cluster t u o ro_ vo_)) = Ok (new_catalog (init_cluster t u o ro_ vo_) s m id m0 np sort N).
Proof.
  move=> N1 [A1 [A2 [A3 [A4 [A5 A6]]]]] Lm Li L0 Lp.
  set a := mkArgs _ _ _ _ _.
  have D : describes_stars a N.
  { rewrite /describes_stars /six_sized /=. repeat split => //. by right. }
  rewrite /add_stars (npmax_described D). cbn [Nat.eqb bind]. set c0 := init_cluster t u o ro_ vo_.
  have E : add_single_rows (2 * 0) (map6 (expand N) (a_s a)) (option_map (expand N) (a_m a)) (option_map (expand N) (a_id a))
      (option_map (expand N) (a_m0 a)) (option_map (expand N) (a_npop a)) (init_catalog c0) =
      put_columns (init_catalog c0) (mkCol id m s m0 np).
  { rewrite /add_single_rows /=. by destruct s. }
  rewrite E. have -> : columns_of (put_columns (init_catalog c0) (mkCol id m s m0 np)) = mkCol id m s m0 np by [].
  have CL : columns_length (mkCol id m s m0 np) N by [].
  rewrite (check_lengths_id CL). have -> : map6 (expand N) (a_s a) = s by destruct s.
  rewrite /new_catalog /set_counts /set_cluster; cbn [g_c put_columns g_m0 g_npop g_b g_sse g_bse g_ntot g_ns t_m0 t_npop init_catalog].
  have [P1 [P2 [P3 [P4 [P5 P6]]]]] := sky_ph s (put_cluster c0 (mkCol id m s m0 np) 0).
  have [Q1 [Q2 [Q3 [Q4 [Q5 [Q6 Q7]]]]]] := analyze_ph sort true (add_sky_rows s (put_cluster c0 (mkCol id m s m0 np) 0)).
  have -> : put_cluster (put_cluster c0 (mkCol id m s m0 np) (c_nb c0)) (mkCol id m s m0 np) (c_nb (put_cluster c0 (mkCol id m s m0 np) (c_nb c0))) = put_cluster c0 (mkCol id m s m0 np) 0 by [].
  rewrite Q1 Q3 P1 P3. cbn [put_cluster c_ph p_s t_s c_nb]. rewrite A1. by rewrite Z.sub_0_r.
Qed.

(* ------------------------------------------------------------------ derived quantities only depend on these *)
Lemma analyze_der_cong sort p c c' : c_der c = c_der c' -> p_s (c_ph c) = p_s (c_ph c') -> p_m (c_ph c) = p_m (c_ph c') ->
  c_origin c = c_origin c' -> c_der (analyze sort p c) = c_der (analyze sort p c').
Proof.
  destruct c as [u o b nb [t m s cc g] sc bi sk d id], c' as [u' o' b' nb' [t' m' s' cc' g'] sc' bi' sk' d' id'];
  cbn [c_der p_s p_m c_ph c_origin] => -> -> -> ->.
  rewrite /analyze /analyze_fracs /sortstars. destruct sort.
  - cbn. destruct (d_rorder d') as [r|]; [destruct (_ && _)|]; cbn; by destruct (if p then _ else _).
  - cbn. by destruct (d_rorder d'), (d_rproorder d').
Qed.

Section WithGalpy.
Variable G : galpy.
Lemma return_same c : return_cluster G (save_cluster c) c = analyze true true c.
Proof.
  rewrite /return_cluster /save_cluster; cbn [sv_units sv_origin sv_rorder sv_rorder_origin].
  destruct (ousys_eq_dec (c_units c) (c_units c)) => //. destruct (oosys_eq_dec (c_origin c) (c_origin c)) => //.
Qed.

(* copy_sse, copy_bse keep what is not theirs *)
Lemma copy_sse_ok msk s n k : length msk = n -> sse_sized s n -> (e_kw (g_sse (y_k s)) = [] \/ length (e_kw (g_sse (y_k s))) = n) ->
  g_sse k = init_sse ->
  exists e', copy_sse msk (y_k s) k = Ok (mkCat (g_c k) (g_m0 k) (g_npop k) (g_b k) e' (g_bse k) (g_ntot k) (g_ns k)) /\
    let e := g_sse (y_k s) in
    (e_kw e <> [] -> e_kw e' = select msk (e_kw e)) /\ (e_kw e = [] -> e_kw e' = [] ) /\
    (e_logl e <> [] -> e_logl e' = select msk (e_logl e) /\ e_logr e' = select msk (e_logr e) /\
                       e_lum e' = map pow10 (select msk (e_logl e))).
Proof.
  move=> L S K I. rewrite /copy_sse. set e := g_sse (y_k s). rewrite -/e in K. rewrite /sse_sized -/e in S.
  destruct S as [S|[S1 [S2 [S3 S4]]]].
  { rewrite S; change (Nat.ltb 0 (length (@nil R))) with false; cbn iota. destruct K as [K|K].
    - rewrite K; change (Nat.ltb 0 (length (@nil R))) with false; cbn iota. exists init_sse. split; [destruct k; cbn in I; subst; done|]. by cbn zeta; rewrite -/e ?K ?S.
    - destruct (Nat.ltb 0 (length (e_kw e))) eqn:E.
      + rewrite masked_ok ?L // ; cbn [bind]. eexists. split=> //. rewrite I /=. split=> //. split=> // Q. by rewrite Q in E.
      + have Z : e_kw e = [] by destruct (e_kw e). exists init_sse. split; [destruct k; cbn in I; subst; done|]. by cbn zeta; rewrite -/e ?Z ?S. }
  destruct (Nat.ltb 0 (length (e_logl e))) eqn:E.
  - rewrite (@masked_ok _ msk (e_kw e)) ?L // (@masked_ok _ msk (e_logl e)) ?L // (@masked_ok _ msk (e_logr e)) ?L //; cbn [bind].
    have KW : e_kw e = [] -> select msk (e_kw e) = [] by move=> ->; rewrite select_nil.
    destruct S4 as [S4|[S4|[S4 S5]]].
    + rewrite S4 /add_sse; cbn [length Nat.eqb orb bind]. eexists. split; [reflexivity|]. rewrite I /=. repeat split=> //.
    + rewrite S4 /add_sse orb_true_r; cbn [bind]. eexists. split; [reflexivity|]. rewrite I /=. repeat split=> //.
    + destruct (_ || _).
      * rewrite /add_sse; cbn [bind]. eexists. split; [reflexivity|]. rewrite I /=. repeat split=> //.
      * rewrite !masked_ok ?L //; cbn [bind]. rewrite /add_sse; cbn [bind]. eexists. split; [reflexivity|]. rewrite I /=. repeat split=> //.
  - have Z : e_logl e = [] by destruct (e_logl e). have Zn : n = 0%nat by rewrite -S2 Z.
    have Zk : e_kw e = [] by destruct (e_kw e) => //; cbn in S1; lia.
    rewrite Zk; change (Nat.ltb 0 (length (@nil R))) with false; cbn iota. exists init_sse. split; [destruct k; cbn in I; subst; done|]. by cbn zeta; rewrite -/e ?Zk ?Z.
Qed.

Definition with_bin (k : catalog) (nb : nat) (q : bindata) (e : bsedata) : catalog :=
  let c := g_c k in
  mkCat (mkC (c_units c) (c_origin c) (c_bunits c) nb (c_ph c) (c_sc c) q (c_sky c) (c_der c) (c_id c))
        (g_m0 k) (g_npop k) (g_b k) (g_sse k) e (g_ntot k) (g_ns k).
Definition bin_mask (msk : list bool) (k : catalog) : list bool :=
  zip_with orb (isin (f_id1 (g_bse k)) (select msk (c_id (g_c k)))) (isin (f_id2 (g_bse k)) (select msk (c_id (g_c k)))).
Lemma copy_bse_ok msk s n b k : length msk = n -> length (c_id (g_c (y_k s))) = n -> bse_sized s b ->
  g_bse k = init_bse -> c_bin (g_c k) = mkB [] [] [] [] ->
  exists nb' q' e', copy_bse msk (y_k s) k = Ok (with_bin k nb' q' e') /\
    (f_id2 (g_bse (y_k s)) = [] -> nb' = c_nb (g_c k)) /\
    (f_id2 (g_bse (y_k s)) <> [] -> let B := bin_mask msk (y_k s) in let p := c_bin (g_c (y_k s)) in
       length B = b /\ nb' = count B /\ b_semi q' = select B (b_semi p) /\ b_pb q' = select B (b_pb p) /\
       b_m1 q' = select B (b_m1 p) /\ b_m2 q' = select B (b_m2 p) /\ f_id1 e' = select B (f_id1 (g_bse (y_k s))) /\
       f_id2 e' = select B (f_id2 (g_bse (y_k s)))).
Proof.
  move=> L Li S Ie Ib. rewrite /copy_bse. set e := g_bse (y_k s). rewrite /bse_sized -/e in S.
  destruct S as [S|[S1 [S2 [S3 [S4 [S5 [S6 [S7 [S8 [S9 [S10 [S11 [S12 [S13 S14]]]]]]]]]]]]]].
  { rewrite S. change (Nat.ltb 0 (length (@nil Z))) with false; cbn iota.
    exists (c_nb (g_c k)), (c_bin (g_c k)), (g_bse k). split; [by destruct k as [[] ? ? ? ? ? ? ?]|]. done. }
  destruct (Nat.ltb 0 (length (f_id2 e))) eqn:E.
  - rewrite (@masked_ok _ msk (c_id (g_c (y_k s)))) ?L //. cbn [bind].
    have LB : length (bin_mask msk (y_k s)) = b by rewrite /bin_mask zip_with_length /isin !map_length -/e S1 S2; lia.
    rewrite np2_eq; first by rewrite /isin !map_length S1 S2. rewrite -/(bin_mask msk (y_k s)). cbn [bind].
    set B := bin_mask msk (y_k s) in LB |- *.
    rewrite !(@masked_ok _ B) ?LB //; cbn [bind]. rewrite /add_bse Ie Ib; cbn [b_semi b_pb b_m1 b_m2 f_id1 f_id2 init_bse app].
    rewrite np2_eq; first by rewrite map_length !select_length ?LB. cbn [bind].
    rewrite np2_eq; first by rewrite zip_with_length map_length !select_length ?LB // Nat.min_id. cbn [bind].
    eexists _, _, _. split; [reflexivity|]. split; [by move=> Q; rewrite Q in E|].
    move=> _. cbn. repeat split=> //. by rewrite select_length ?LB.
  - have Z : f_id2 e = [] by destruct (f_id2 e).
    exists (c_nb (g_c k)), (c_bin (g_c k)), (g_bse k). split; [by destruct k as [[] ? ? ? ? ? ? ?]|]. done.
Qed.

(* ------------------------------------------------------------------ the new cluster *)
Lemma store_orbit_fields g c : let c' := store_orbit g c in
  c_units c' = c_units c /\ c_origin c' = c_origin c /\ c_bunits c' = c_bunits c /\ c_nb c' = c_nb c /\
  c_ph c' = mkP (p_t (c_ph c)) (p_m (c_ph c)) (p_s (c_ph c)) (p_c (c_ph c)) g /\ c_sc c' = c_sc c /\ c_bin c' = c_bin c /\
  c_der c' = c_der c /\ c_id c' = c_id c.
Proof. rewrite /store_orbit. destruct (c_units c) as [[]|] => //=; by repeat split. Qed.

End WithGalpy.
