(* Binaries added twice; add_binary_stars; stellar evolution arrays; order and half-mass radius after add_stars. *)
From Verif Require Import Base ModelCluster ModelRecipes ModelStars SpecOrder SpecStars ProofsStars ProofsStars2 ProofsStars3.
From Verif Require Import ProofsPot ProofsOrder ProofsEnergy ProofsRecipes ProofsRecipes2 ProofsRecipes4.
Set Implicit Arguments. Unset Strict Implicit.

(* ------------------------------------------------------------------ a second call with binaries *)
Lemma np2_clash A B C (f : A -> B -> C) l k : (2 <= length l)%nat -> (2 <= length k)%nat -> length l <> length k ->
  np2 f l k = Raise.
Proof.
  move=> H1 H2 H. rewrite /np2. have -> : Nat.eqb (length l) (length k) = false by apply Nat.eqb_neq.
  destruct l as [|a [|b l]]; simpl in H1; try lia. destruct k as [|c [|d k]]; simpl in H2; try lia. done.
Qed.

Theorem second_binaries_raise a N nb k bb sort an proj :
  describes_stars a N -> (2 <= nb)%nat -> (2 * nb <= N)%nat -> (1 <= bb)%nat ->
  length (b_mb1 (g_b k)) = bb -> length (b_mb2 (g_b k)) = bb ->
  add_stars nb a sort an proj k = Raise.
Proof.
  move=> D H2 HN Hb L1 L2. have [H1 [S [Sm _]]] := D. have nb1 : (1 <= nb)%nat by lia.
  rewrite /add_stars (npmax_described D). have -> : Nat.eqb nb 0 = false by apply Nat.eqb_neq; lia.
  have [x1 [P1 [X1 [N1 I1]]]] := @pick6_ok nb 0 N _ nb1 HN (six_expand_length S) (le_S _ _ (le_n 0)).
  have [x2 [P2 [X2 [N2 I2]]]] := @pick6_ok nb 1 N _ nb1 HN (six_expand_length S) (le_n 1).
  rewrite /add_binary_rows P1 P2; cbn [bind].
  have MO : forall second x, (second <= 1)%nat -> arg_len (sx x) = nb -> is_array (sx x) = negb (Nat.eqb nb 1) ->
    exists m l, pick_opt nb second (option_map (expand N) (a_m a)) = Ok m /\ mass_or_ones m (sx x) = Ok l /\ length l = nb.
  { move=> second x Hs Nx Ix. destruct (a_m a) as [p|] eqn:EM; cbn [option_map pick_opt].
    - have [q [E [A1 [A2 _]]]] := @pick_pair_ok _ nb second N (expand N p) 0 nb1 HN (expand_length Sm) Hs.
      rewrite E; cbn [bind]. exists (Some q), (as_list q). split => //. split => //. by rewrite A1 map_length seq_length.
    - exists None. have Hn : Nat.eqb nb 1 = false by apply Nat.eqb_neq; lia. rewrite Hn in Ix.
      destruct (sx x) as [|l] => //. exists (repeat 1 (length l)). split => //. split => //. by rewrite repeat_length. }
  have [m1 [l1 [-> [Q1 Ll1]]]] := MO 0%nat x1 (le_S _ _ (le_n 0)) N1 I1.
  have [m2 [l2 [-> [Q2 Ll2]]]] := MO 1%nat x2 (le_n 1) N2 I2.
  cbn [bind]. rewrite /store_pairs Q1 Q2; cbn [bind]. rewrite /coms /com1; cbn [b_mb1].
  have -> : np2 Rmult (as_list (sx x1)) (b_mb1 (g_b k) ++ l1) = Raise.
  { have E : as_list (sx x1) = _ := f_equal (@sx _) X1. rewrite E /=.
    apply np2_clash; rewrite ?app_length ?map_length ?seq_length; lia. }
  done.
Qed.

Lemma np2_scalar A B C (f : A -> B -> C) a k : np2 f [a] k = Ok (map (f a) k).
Proof.
  rewrite /np2. case: Nat.eqb_spec => //= E. by destruct k as [|b [|c k]].
Qed.
Lemma np2_eq A B C (f : A -> B -> C) l k : length l = length k -> np2 f l k = Ok (zip_with f l k).
Proof. move=> E. by rewrite /np2 E Nat.eqb_refl. Qed.

Theorem second_binary_misaligns a N k n bb sort an proj p :
  describes_stars a N -> (2 <= N)%nat -> a_m a = Some p -> aligned k n -> (1 <= bb)%nat -> (bb <= n)%nat ->
  length (b_mb1 (g_b k)) = bb -> length (b_mb2 (g_b k)) = bb ->
  exists k', add_stars 1 a sort an proj k = Ok k' /\ g_ntot k' = (n + N - 1 + bb)%nat /\
    length (c_id (g_c k')) = (n + N - 1)%nat.
Proof.
  move=> D HN EM AL Hb Hbn L1 L2. have [H1 [S [Sm [Si [S0 [Sp _]]]]]] := D. rewrite EM in Sm.
  rewrite /add_stars (npmax_described D). cbn [Nat.eqb].
  have nb1 : (1 <= 1)%nat by lia.
  have [x1 [P1 [X1 [N1 I1]]]] := @pick6_ok 1 0 N _ nb1 HN (six_expand_length S) (le_S _ _ (le_n 0)).
  have [x2 [P2 [X2 [N2 I2]]]] := @pick6_ok 1 1 N _ nb1 HN (six_expand_length S) (le_n 1).
  rewrite /add_binary_rows P1 P2 EM; cbn [bind option_map pick_opt].
  have [q1 [-> [A1 _]]] := @pick_pair_ok _ 1 0 N (expand N p) 0 nb1 HN (expand_length Sm) (le_S _ _ (le_n 0)).
  have [q2 [-> [A2 _]]] := @pick_pair_ok _ 1 1 N (expand N p) 0 nb1 HN (expand_length Sm) (le_n 1).
  cbn [bind]. rewrite /store_pairs; cbn [mass_or_ones bind].
  set b := mkPairs _ _ _ _.
  have Lb1 : length (b_mb1 b) = (bb + 1)%nat by rewrite /b /= app_length A1 L1.
  have Lb2 : length (b_mb2 b) = (bb + 1)%nat by rewrite /b /= app_length A2 L2.
  have CO : forall v w, exists l, com1 b [v] [w] = Ok l /\ length l = (bb + 1)%nat.
  { move=> v w. rewrite /com1 !np2_scalar; cbn [bind].
    rewrite np2_eq; [by rewrite !map_length Lb1 Lb2|]. cbn [bind]. rewrite np2_eq; [by rewrite Lb1 Lb2|]. cbn [bind].
    rewrite np2_eq; [rewrite !zip_with_length !map_length Lb1 Lb2; lia|]. eexists; split; [reflexivity|].
    rewrite !zip_with_length !map_length Lb1 Lb2; lia. }
  have [s [m [EC [Lm Ls]]]] : exists s m, coms b x1 x2 = Ok (s, m) /\ length m = (bb + 1)%nat /\ six_length s (bb + 1).
  { rewrite /coms.
    have G : forall (g : six (list R) -> list R) (h : six (arg R) -> arg R),
      (forall x, as_list (h x) = g (map6 (@as_list R) x)) ->
      (forall t second, g (map6 (fun l => map (fun i => nth (2 * i + second) l 0) (seq 0 1)) t) = [nth second (g t) 0]) ->
      exists l, com1 b (as_list (h x1)) (as_list (h x2)) = Ok l /\ length l = (bb + 1)%nat.
    { move=> g h Hg Ht. rewrite !Hg X1 X2 !Ht. apply CO. }
    have [l1 [E1 K1]] := G (@sx _) (@sx _) (fun _ => eq_refl) (fun _ _ => eq_refl).
    have [l2 [E2 K2]] := G (@sy _) (@sy _) (fun _ => eq_refl) (fun _ _ => eq_refl).
    have [l3 [E3 K3]] := G (@sz _) (@sz _) (fun _ => eq_refl) (fun _ _ => eq_refl).
    have [l4 [E4 K4]] := G (@svx _) (@svx _) (fun _ => eq_refl) (fun _ _ => eq_refl).
    have [l5 [E5 K5]] := G (@svy _) (@svy _) (fun _ => eq_refl) (fun _ _ => eq_refl).
    have [l6 [E6 K6]] := G (@svz _) (@svz _) (fun _ => eq_refl) (fun _ _ => eq_refl).
    rewrite E1 E2 E3 E4 E5 E6; cbn [all6 bind sx sy sz svx svy svz].
    rewrite np2_eq; [by rewrite Lb1 Lb2|]. cbn [bind]. eexists; eexists; split; [reflexivity|].
    split; [rewrite zip_with_length Lb1 Lb2; lia|done]. }
  rewrite EC; cbn [bind].
  set ids := (match option_map (expand N) (a_id a) with None => _ | Some l => _ end).
  have [il [EI LI]] : exists il, ids = Ok il /\ length il = 1%nat.
  { rewrite /ids. destruct (a_id a) as [pi|]; cbn [option_map]; [|by eexists; split; [reflexivity|]].
    have [qi [-> [Ai _]]] := @pick_pair_ok _ 1 0 N (expand N pi) 0%Z nb1 HN (expand_length Si) (le_S _ _ (le_n 0)).
    cbn [bind]. eexists; split; [reflexivity|]. by rewrite Ai. }
  rewrite EI; cbn [bind].
  set m0 := (match option_map (expand N) (a_m0 a) with None => _ | Some l => _ end).
  have [ml [E0 L0]] : exists ml, m0 = Ok ml /\ length ml = 1%nat.
  { rewrite /m0. destruct (a_m0 a) as [pi|]; cbn [option_map]; [|by eexists; split; [reflexivity|]].
    have [qi [-> [Ai _]]] := @pick_pair_ok _ 1 0 N (expand N pi) 0 nb1 HN (expand_length S0) (le_S _ _ (le_n 0)).
    have [qj [-> [Aj _]]] := @pick_pair_ok _ 1 1 N (expand N pi) 0 nb1 HN (expand_length S0) (le_n 1).
    cbn [bind]. rewrite Ai Aj np2_map. eexists; split; [reflexivity|]. done. }
  rewrite E0; cbn [bind].
  set np := (match option_map (expand N) (a_npop a) with None => _ | Some l => _ end).
  have [pl [EP LP]] : exists pl, np = Ok pl /\ length pl = 1%nat.
  { rewrite /np. destruct (a_npop a) as [pi|]; cbn [option_map]; [|by eexists; split; [reflexivity|]].
    have [qi [-> [Ai _]]] := @pick_pair_ok _ 1 0 N (expand N pi) 0%Z nb1 HN (expand_length Sp) (le_S _ _ (le_n 0)).
    cbn [bind]. eexists; split; [reflexivity|]. by rewrite Ai. }
  rewrite EP; cbn [bind].
  set k1 := mkCat _ _ _ _ _ _ _ _. set sa := map6 (expand N) (a_s a).
  set k2 := add_single_rows _ _ _ _ _ _ _.
  exists (finish sa sort an proj k2). split => //.
  have CF := finish_columns sa sort an proj k2.
  have [[Ax [Ay [Az [Avx [Avy Avz]]]]] [Am [Ai [A0 Ap]]]] := AL.
  have [Cx _] := six_expand_length S.
  have Lx2 : length (sx (t_s (columns_of k2))) = (n + N - 1 + bb)%nat.
  { rewrite /k2 /add_single_rows /k1; cbn [columns_of t_s t_id t_m t_m0 t_npop put_columns put_cluster g_c c_ph p_s c_id c_nb map6 sx app6]. rewrite !app_length skipn_length Ax. case: Ls => ->. rewrite Cx; lia. }
  have Li2 : length (t_id (columns_of k2)) = (n + N - 1)%nat.
  { rewrite /k2 /add_single_rows /k1; cbn [columns_of t_s t_id t_m t_m0 t_npop put_columns put_cluster g_c c_ph p_s c_id c_nb map6 sx app6]. rewrite !app_length LI Ai.
    destruct (a_id a) as [pi|] eqn:EA; cbn [option_map].
    - rewrite skipn_length (expand_length Si). lia.
    - rewrite /zrange !map_length seq_length skipn_length Cx. lia. }
  have NE : forall A (l : list A) q, (2 <= length l)%nat -> stretch q l = l by move=> A [|? [|? ?]] //= q; lia.
  have CK : length (sx (t_s (check_lengths (columns_of k2)))) = (n + N - 1 + bb)%nat /\
            length (t_id (check_lengths (columns_of k2))) = (n + N - 1)%nat.
  { rewrite /check_lengths. destruct (Nat.eqb (list_max (lengths (columns_of k2))) (list_min (lengths (columns_of k2)))) => //; cbn [t_s t_id map6 sx]. rewrite NE; [rewrite Lx2; lia|]. split => //.
    rewrite -Li2. destruct (t_id (columns_of k2)) as [|i0 [|i1 il']] => //. simpl in Li2. lia. }
  rewrite -CF in CK. case: CK => [CK1 CK2]. by split.
Qed.

(* ------------------------------------------------------------------ add_binary_stars called directly *)
Lemma as_map (l : list R) n : length l = n -> l = map (fun i => nth i l 0) (seq 0 n).
Proof.
  move=> <-. apply (nth_ext _ _ 0 0); [by rewrite map_length seq_length|].
  move=> i Hi. by rewrite nth_map_seq.
Qed.

Definition pop_rows (q : pair_args) (n0 : nat) (l : list Z) : Prop :=
  (q_np1 q = None /\ l = []) \/
  (exists p r, q_np1 q = Some (Array p) /\ q_np2 q = Some (Array r) /\ length p = n0 /\ length r = n0 /\ l = zip_with Z.max p r).

Theorem direct_first_call q n0 k n l : pairs_sized q n0 -> aligned k n -> no_binaries k ->
  q_m01 q = None -> pop_rows q n0 l ->
  exists k', add_binary_stars q k = Ok k' /\ c_nb (g_c k') = n0 /\ g_ntot k' = (n0 + n)%nat /\
    six_length (p_s (c_ph (g_c k'))) (n0 + n) /\
    length (p_m (c_ph (g_c k'))) = (n0 + n)%nat /\ length (c_id (g_c k')) = (n0 + n)%nat /\ length (g_m0 k') = (n0 + n)%nat /\
    g_npop k' = l ++ g_npop k /\
    (forall i, (i < n0)%nat -> is_pair_row q i (star_at k' i)) /\
    (forall i, (i < n)%nat -> w_s (star_at k' (n0 + i)) = w_s (star_at k i) /\
       w_m (star_at k' (n0 + i)) = w_m (star_at k i) /\ w_id (star_at k' (n0 + i)) = w_id (star_at k i)).
Proof.
  move=> [x1 [x2 [m1 [m2 [E1 [E2 [EM1 [EM2 [LX1 [LX2 [LM1 [LM2 [SI AI]]]]]]]]]]]]] AL [NB B] M01 PR.
  have [[Ax [Ay [Az [Avx [Avy Avz]]]]] [Am [Ai [A0 Ap]]]] := AL.
  rewrite /add_binary_stars /store_pairs E1 E2 EM1 EM2 NB B; cbn [mass_or_ones bind].
  set b := mkPairs _ _ _ _.
  have B1 : b_mb1 b = map (fun i => nth i m1 0) (seq 0 n0) by rewrite /b /=; apply as_map.
  have B2 : b_mb2 b = map (fun i => nth i m2 0) (seq 0 n0) by rewrite /b /=; apply as_map.
  set W := fun (f : six (list R) -> list R) => map (fun i => weighted (nth i m1 0) (nth i m2 0) (nth i (f x1) 0) (nth i (f x2) 0)) (seq 0 n0).
  have CO : forall f, length (f x1) = n0 -> length (f x2) = n0 -> com1 b (f x1) (f x2) = Ok (W f).
  { move=> f F1 F2. rewrite /com1 B1 B2.
    have X1 := as_map F1. have X2 := as_map F2.
    have -> : np2 Rmult (f x1) (map (fun i => nth i m1 0) (seq 0 n0)) = Ok (map (fun i => nth i (f x1) 0 * nth i m1 0) (seq 0 n0)) by rewrite {1}X1 np2_map.
    have -> : np2 Rmult (f x2) (map (fun i => nth i m2 0) (seq 0 n0)) = Ok (map (fun i => nth i (f x2) 0 * nth i m2 0) (seq 0 n0)) by rewrite {1}X2 np2_map.
    cbn [bind]. rewrite !np2_map; cbn [bind]. rewrite np2_map. f_equal. apply map_ext => i. rewrite /weighted. f_equal; ring. }
  have EC : coms b (map6 Array x1) (map6 Array x2) =
    Ok (mk6 (W (@sx _)) (W (@sy _)) (W (@sz _)) (W (@svx _)) (W (@svy _)) (W (@svz _)), map (fun i => nth i m1 0 + nth i m2 0) (seq 0 n0)).
  { case: LX1 => [X1 [X2 [X3 [X4 [X5 X6]]]]]. case: LX2 => [Y1 [Y2 [Y3 [Y4 [Y5 Y6]]]]].
    rewrite /coms /map6; cbn [sx sy sz svx svy svz as_list].
    rewrite !CO //; cbn [all6 bind sx sy sz svx svy svz]. rewrite B1 B2 np2_map. done. }
  rewrite EC; cbn [bind]. rewrite M01.
  have LW : forall f, length (W f) = n0 by move=> f; rewrite /W map_length seq_length.
  have [_ EN] : True /\ (match q_np1 q, q_np2 q with Some p, Some r => np2 Z.max (as_list p) (as_list r) | _, _ => Ok [] end : result (list Z)) = Ok l.
  { split => //. destruct PR as [[-> ->]|[p [r [-> [-> [Lp [Lr ->]]]]]]] => //. apply np2_eq. by rewrite /= Lp Lr. }
  rewrite EN; cbn [bind]. cbn [sx]. rewrite LW.
  eexists; split; [reflexivity|].
  cbn [set_counts g_c put_cluster c_nb g_ntot c_ph p_s p_m c_id g_m0 g_npop t_id t_m t_s t_m0 t_npop columns_of app6 sx].
  have LI : length (match q_id1 q with None => map (Z.add (id_start false (c_id (g_c k)))) (evens n0) | Some i => as_list i end) = n0.
  { destruct (q_id1 q) as [[v|il]|] => //=. by rewrite /evens !map_length seq_length. }
  split; [exact (proj1 LX1)|]. split; [by rewrite app_length LW Ax|].
  split; [rewrite /six_length; cbn [sx sy sz svx svy svz]; by rewrite !app_length !LW Ax Ay Az Avx Avy Avz|].
  rewrite !app_length map_length seq_length Am LI Ai repeat_length A0. do 4 (split => //).
  split.
  - move=> i Hi. rewrite /is_pair_row /star_at E1 E2 EM1 EM2.
    cbn [set_counts g_c put_cluster c_nb g_ntot c_ph p_s p_m c_id g_m0 g_npop t_id t_m t_s t_m0 t_npop columns_of app6 sx w_s w_m value value_or].
    rewrite /map6; cbn [sx sy sz svx svy svz value].
    rewrite !app_nth1 ?LW ?map_length ?seq_length //. rewrite /W !nth_map_seq //.
  - move=> i Hi. rewrite /star_at.
    cbn [set_counts g_c put_cluster c_nb g_ntot c_ph p_s p_m c_id g_m0 g_npop t_id t_m t_s t_m0 t_npop columns_of app6 sx w_s w_m w_id].
    rewrite /map6; cbn [sx sy sz svx svy svz].
    rewrite !app_nth2 ?LW ?map_length ?seq_length ?LI; try lia. by have -> : (n0 + i - n0 = i)%nat by lia.
Qed.

(* ------------------------------------------------------------------ stellar evolution *)
Theorem sse_appends kw logl logr ep os k n p :
  sse_aligned k n -> length kw = p -> length logl = p -> length logr = p -> opt_list_sized ep p -> opt_list_sized os p ->
  (forall i, (i < n)%nat -> nth i (e_lum (g_sse k)) 0 = Rpower 10 (nth i (e_logl (g_sse k)) 0)) ->
  exists k', add_sse kw logl logr ep os None k = Ok k' /\ sse_aligned k' (n + p) /\
    let e := g_sse k in let e' := g_sse k' in
    (forall i, (i < n)%nat -> nth i (e_kw e') 0 = nth i (e_kw e) 0 /\ nth i (e_logl e') 0 = nth i (e_logl e) 0 /\
       nth i (e_logr e') 0 = nth i (e_logr e) 0 /\ nth i (e_lum e') 0 = nth i (e_lum e) 0 /\
       nth i (e_ep e') 0 = nth i (e_ep e) 0 /\ nth i (e_ospin e') 0 = nth i (e_ospin e) 0) /\
    (forall j, (j < p)%nat -> nth (n + j) (e_kw e') 0 = nth j kw 0 /\ nth (n + j) (e_logl e') 0 = nth j logl 0 /\
       nth (n + j) (e_logr e') 0 = nth j logr 0 /\ nth (n + j) (e_lum e') 0 = Rpower 10 (nth j logl 0) /\
       nth (n + j) (e_ep e') 0 = opt_entry ep j /\ nth (n + j) (e_ospin e') 0 = opt_entry os j) /\
    e_ltot e' = sumR (e_lum e') /\ g_c k' = g_c k /\ g_m0 k' = g_m0 k /\ g_npop k' = g_npop k /\ g_bse k' = g_bse k.
Proof.
  move=> [L1 [L2 [L3 [L4 [L5 L6]]]]] Lk Ll Lr Se So LUM.
  eexists; split; [reflexivity|]. cbn [g_sse e_kw e_logl e_logr e_lum e_ep e_ospin e_ltot g_c g_m0 g_npop g_bse].
  have LE : forall o, opt_list_sized o p -> length (match o with Some v => v | None => repeat 0 (length kw) end) = p.
  { move=> [v|] //= _. by rewrite repeat_length. }
  split.
  { rewrite /sse_aligned; cbn [g_sse e_kw e_logl e_logr e_lum e_ep e_ospin].
    rewrite !map_length !app_length !LE //. lia. }
  split.
  - move=> i Hi. rewrite (@nth_map' _ _ pow10 _ i 0 0); [rewrite app_length; lia|].
    rewrite !app_nth1 ?L1 ?L2 ?L3 ?L5 ?L6 //. by rewrite LUM.
  - split => //. move=> j Hj. rewrite (@nth_map' _ _ pow10 _ (n + j) 0 0); [rewrite app_length; lia|].
    rewrite !app_nth2 ?L1 ?L2 ?L3 ?L5 ?L6; try lia. have -> : (n + j - n = j)%nat by lia.
    do 4 (split => //). split; [destruct ep|destruct os] => //=; apply nth_repeat'; lia.
Qed.

Lemma assign_at_length idx : forall l v l', assign_at l idx v = Ok l' -> length l' = length l.
Proof.
  induction idx as [|i idx IH]; move=> l [|a v] l' //= H; first by case: H => E; rewrite E.
  destruct (Nat.ltb i (length l)) => //. rewrite (IH _ _ _ H). apply put_length.
Qed.
Lemma assign_length idx l v l' : assign l idx v = Ok l' -> length l' = length l.
Proof. rewrite /assign. destruct v as [|a [|b v]]; apply assign_at_length. Qed.

Lemma assign_at_ok idx : forall l v, length idx = length v -> (forall i, In i idx -> (i < length l)%nat) -> NoDup idx ->
  exists l', assign_at l idx v = Ok l' /\ length l' = length l /\
    (forall j, (j < length idx)%nat -> nth (nth j idx 0%nat) l' 0 = nth j v 0) /\
    (forall i, ~ In i idx -> nth i l' 0 = nth i l 0).
Proof.
  induction idx as [|i idx IH]; move=> l [|a v] //= EL IN ND; first by (exists l; split => //; split => //; split => // j; lia).
  have Hi : (i < length l)%nat by apply IN; left.
  have -> : Nat.ltb i (length l) = true by apply Nat.ltb_lt.
  inversion ND as [|? ? Ni ND']; subst.
  have [l' [E [L [P Q]]]] := IH (put l i a) v (eq_add_S _ _ EL)
     (fun j Hj => eq_ind_r (fun q => j < q)%nat (IN j (or_intror Hj)) (put_length l i a)) ND'.
  exists l'. split => //. split; [by rewrite L put_length|]. split.
  - move=> [|j] Hj; last by apply P; lia. rewrite Q // nth_put // Nat.eqb_refl //.
  - move=> j Hj. rewrite Q; [tauto|]. rewrite nth_put //. case: Nat.eqb_spec => // E'. subst. tauto.
Qed.

(* slots named by arg get the given value in kw, logl, logr, but ep and ospin receive the values a second time *)
Theorem sse_slots kw logl logr ep os idx k n p :
  sse_aligned k n -> length kw = p -> length logl = p -> length logr = p -> length ep = p -> length os = p ->
  length idx = p -> NoDup idx -> (forall i, In i idx -> (i < p)%nat) ->
  exists k', add_sse kw logl logr (Some ep) (Some os) (Some idx) k = Ok k' /\
    let e := g_sse k in let e' := g_sse k' in
    length (e_kw e') = (n + p)%nat /\ length (e_logl e') = (n + p)%nat /\ length (e_logr e') = (n + p)%nat /\
    length (e_lum e') = (n + p)%nat /\
    (forall j, (j < p)%nat -> nth (n + nth j idx 0%nat) (e_kw e') 0 = nth j kw 0 /\
       nth (n + nth j idx 0%nat) (e_logl e') 0 = nth j logl 0 /\ nth (n + nth j idx 0%nat) (e_logr e') 0 = nth j logr 0 /\
       nth (n + nth j idx 0%nat) (e_lum e') 0 = Rpower 10 (nth j logl 0)) /\
    (forall i, (i < n)%nat -> nth i (e_kw e') 0 = nth i (e_kw e) 0 /\ nth i (e_logl e') 0 = nth i (e_logl e) 0 /\
       nth i (e_logr e') 0 = nth i (e_logr e) 0) /\
    length (e_ep e') = (n + 2 * p)%nat /\ length (e_ospin e') = (n + 2 * p)%nat.
Proof.
  move=> [L1 [L2 [L3 [L4 [L5 L6]]]]] Lk Ll Lr Le Lo Li ND IN.
  rewrite /add_sse L1.
  have SAME : forall l : list R, length l = n -> (if Nat.eqb n 0 then [] else l) = l.
  { move=> l. case: Nat.eqb_spec => // -> H. by rewrite (proj1 (length_zero_iff_nil l) H). }
  rewrite !SAME //.
  have AS : forall l v : list R, length l = n -> length v = p -> exists l', assign (l ++ repeat 0 (length kw)) (map (Nat.add n) idx) v = Ok l' /\
    length l' = (n + p)%nat /\ (forall j, (j < p)%nat -> nth (n + nth j idx 0%nat) l' 0 = nth j v 0) /\
    (forall i, (i < n)%nat -> nth i l' 0 = nth i l 0).
  { move=> l v Hl Hv.
    have LEN : length (l ++ repeat 0 (length kw)) = (n + p)%nat by rewrite app_length repeat_length Hl Lk.
    have -> : assign (l ++ repeat 0 (length kw)) (map (Nat.add n) idx) v = assign_at (l ++ repeat 0 (length kw)) (map (Nat.add n) idx) v.
    { rewrite /assign. destruct v as [|a [|b v]] => //. rewrite map_length Li -Hv. done. }
    have [l' [E [LL [P Q]]]] := @assign_at_ok (map (Nat.add n) idx) (l ++ repeat 0 (length kw)) v
       (eq_trans (map_length _ _) (eq_trans Li (eq_sym Hv)))
       (fun i Hi => match proj1 (in_map_iff _ _ _) Hi with
          ex_intro _ j (conj Ej Hj) => eq_ind_r (fun q => i < q)%nat (eq_ind (n + j)%nat (fun q => q < n + p)%nat (proj1 (Nat.add_lt_mono_l _ _ n) (IN j Hj)) i Ej) LEN end)
       (FinFun.Injective_map_NoDup (fun x y (Hxy : (n + x = n + y)%nat) => proj1 (Nat.add_cancel_l x y n) Hxy) ND).
    exists l'. rewrite E LL LEN. split => //. split => //. split.
    - move=> j Hj. rewrite map_length Li in P. have := P j Hj.
      by rewrite (@nth_map' _ _ (Nat.add n) idx j 0%nat 0%nat) ?Li.
    - move=> i Hi. rewrite Q; [|by rewrite app_nth1 // Hl].
      rewrite in_map_iff => [[j [Ej _]]]. lia. }
  have [kw' [-> [K1 [K2 K3]]]] := AS _ kw L1 Lk. cbn [bind].
  have [ll' [-> [G1 [G2 G3]]]] := AS _ logl L2 Ll. cbn [bind].
  have [lr' [-> [R1 [R2 R3]]]] := AS _ logr L3 Lr. cbn [bind].
  have [ep' [-> [E1 _]]] := AS _ ep L5 Le. cbn [bind].
  have [os' [-> [O1 _]]] := AS _ os L6 Lo. cbn [bind].
  eexists; split; [reflexivity|]. cbn [g_sse e_kw e_logl e_logr e_lum e_ep e_ospin].
  rewrite map_length !app_length. do 4 (split; [lia|]). split.
  - move=> j Hj. rewrite K2 // G2 // R2 //. do 3 (split => //).
    have Hij : (nth j idx 0%nat < p)%nat by apply IN, nth_In; rewrite Li.
    rewrite (@nth_map' _ _ pow10 _ _ 0 0); [lia|]. by rewrite G2.
  - split; [|lia]. move=> i Hi. by rewrite K3 // G3 // R3.
Qed.

Theorem sse_slots_without_ep kw logl logr os idx k : add_sse kw logl logr None os (Some idx) k = Raise.
Proof.
  rewrite /add_sse. destruct (assign _ _ kw) => //; cbn [bind]. destruct (assign _ _ logl) => //; cbn [bind].
  by destruct (assign _ _ logr).
Qed.

(* ------------------------------------------------------------------ radial order after add_stars *)
Definition order_sized (k : catalog) (n : nat) : Prop :=
  match d_rorder (c_der (g_c k)) with None => True | Some o => length o = n end.

Lemma finish_der s sort proj k n : columns_length (columns_of k) n ->
  c_der (g_c (finish s sort true proj k)) = c_der (analyze sort proj (add_sky_rows s (g_c k))).
Proof.
  move=> L. rewrite /finish (check_lengths_id L).
  have E : put_columns k (columns_of k) = k by destruct k as [[? ? ? ? [] ? ? ? ? ?]].
  by rewrite E.
Qed.
Lemma sky_der s c : c_der (add_sky_rows s c) = c_der c.
Proof. rewrite /add_sky_rows. destruct (c_units c) as [[]|] => //; by destruct (c_origin c) as [[]|]. Qed.

Lemma norm3_length' x y z n : length x = n -> length y = n -> length z = n -> length (norm3 x y z) = n.
Proof. move=> H1 H2 H3. rewrite /norm3 !zip_with_length map_length. lia. Qed.

Definition order_other (c : cluster) (n : nat) : Prop :=
  match d_rorder (c_der c) with None => True | Some o => length o <> n end.
Lemma analyze_resorts proj c n : six_length (p_s (c_ph c)) n -> order_other c n ->
  let s := p_s (c_ph c) in
  let r := norm3 (sx s) (sy s) (sz s) in
  let m := p_m (c_ph c) in
  let d := c_der (analyze true proj c) in
  d_r d = r /\ d_rorder d = Some (argsort r) /\ d_rm d = frac_radius (1/2) m r (sumR m) (argsort r) /\
  d_r10 d = frac_radius (1/10) m r (sumR m) (argsort r).
Proof.
  move=> [X [Y [Z _]]] H s r m d. rewrite /order_other in H.
  have Lr : length r = n by apply norm3_length'.
  have E : d_rorder (c_der (sortstars proj (analyze_radii c))) = Some (argsort r) /\
           d_r (c_der (sortstars proj (analyze_radii c))) = r /\ d_mtot (c_der (sortstars proj (analyze_radii c))) = sumR m /\
           c_ph (sortstars proj (analyze_radii c)) = c_ph c.
  { rewrite /sortstars. cbn [analyze_radii set_der c_der d_rorder d_r]. rewrite -/s -/r.
    destruct (d_rorder (c_der c)) as [o|] eqn:EO.
    - have -> : Nat.eqb (length r) (length o) = false by apply Nat.eqb_neq; lia. by rewrite andb_false_r.
    - done. }
  case: E => [E1 [E2 [E3 E4]]].
  rewrite /d /analyze. move: (sortstars proj (analyze_radii c)) E1 E2 E3 E4 => c2 E1 E2 E3 E4.
  rewrite /analyze_fracs E1 E2 E3 E4. by destruct (d_rproorder (c_der c2)).
Qed.

Lemma row_distances_norm3 k n : aligned k n ->
  row_distances k n = norm3 (sx (p_s (c_ph (g_c k)))) (sy (p_s (c_ph (g_c k)))) (sz (p_s (c_ph (g_c k)))).
Proof.
  move=> [[X [Y [Z _]]] _]. rewrite /row_distances. apply (nth_ext _ _ 0 0).
  - by rewrite map_length seq_length (@norm3_length' _ _ _ n).
  - move=> i. rewrite map_length seq_length => Hi. rewrite nth_map_seq // norm3_nth; try lia. done.
Qed.
Lemma row_masses_column k n : aligned k n -> row_masses k n = p_m (c_ph (g_c k)).
Proof. move=> [_ [M _]]. symmetry. exact (as_map M). Qed.

Theorem sorted_after_add a N k n proj :
  describes_stars a N -> aligned k n -> order_sized k n ->
  exists k', add_stars 0 a true true proj k = Ok k' /\ aligned k' (n + N) /\
    (nonneg (row_masses k' (n + N)) -> 0 < sumR (row_masses k' (n + N)) ->
     exists o rm r10, d_rorder (c_der (g_c k')) = Some o /\ sorted_order o (row_distances k' (n + N)) /\
       d_rm (c_der (g_c k')) = Some rm /\ is_fraction_radius (1/2) (row_distances k' (n + N)) (row_masses k' (n + N)) rm /\
       d_r10 (c_der (g_c k')) = Some r10 /\ is_fraction_radius (1/10) (row_distances k' (n + N)) (row_masses k' (n + N)) r10).
Proof.
  move=> D AL OS. have L : columns_length (columns_of k) n by apply aligned_columns.
  have [k1 [E1 [AL1 _]]] := add_singles_rows true true proj D AL.
  exists k1. split => //. split => //. move=> NN POS.
  rewrite (row_distances_norm3 AL1). rewrite (row_masses_column AL1) in NN POS *.
  have N1 : (1 <= N)%nat by case: D.
  move: E1. rewrite /add_stars (npmax_described D). cbn [Nat.eqb bind].
  have [L' _] := @single_columns 0 a N k n D L.
  set k2 := add_single_rows _ _ _ _ _ _ _ in L' |- *. rewrite Nat.sub_0_r in L'.
  rewrite -/(finish (map6 (expand N) (a_s a)) true true proj k2). set s := map6 (expand N) (a_s a).
  case=> EK. have CF := finish_columns s true true proj k2. rewrite (check_lengths_id L') EK in CF.
  have DF := finish_der s true proj L'. rewrite EK sky_der in DF || rewrite EK in DF.
  have [SP _] := sky_ph s (g_c k2).
  have PS : p_s (c_ph (g_c k1)) = p_s (c_ph (g_c k2)) by exact (f_equal t_s CF).
  have PM : p_m (c_ph (g_c k1)) = p_m (c_ph (g_c k2)) by exact (f_equal t_m CF).
  have AS : six_length (p_s (c_ph (add_sky_rows s (g_c k2)))) (n + N) by rewrite SP; case: L'.
  have OK : order_other (add_sky_rows s (g_c k2)) (n + N).
  { rewrite /order_other sky_der. have -> : c_der (g_c k2) = c_der (g_c k) by [].
    move: OS; rewrite /order_sized. destruct (d_rorder (c_der (g_c k))) as [o|] => // ->. lia. }
  have [R1 [R2 [R3 R4]]] := analyze_resorts proj AS OK.
  rewrite -DF SP -PS -PM in R1 R2 R3 R4.
  set r := norm3 _ _ _ in R2 R3 R4 |- *. set m := p_m (c_ph (g_c k1)) in R2 R3 R4 NN POS |- *.
  have LR : length r = length m.
  { case: AL1 => [[X [Y [Z _]]] [M _]]. rewrite /r /m M. by apply norm3_length'. }
  have ME : m <> [] by move=> E; rewrite E /= in POS; lra.
  have SO := argsort_sorted r.
  have [rm [A1 A2]] := @frac_radius_correct (1/2) r m _ LR ME NN POS ltac:(lra) SO.
  have [rt [B1 B2]] := @frac_radius_correct (1/10) r m _ LR ME NN POS ltac:(lra) SO.
  exists (argsort r), rm, rt. rewrite R2 R3 R4 A1 B1. done.
Qed.

Lemma first_reaching_none o : forall s l thr, nonneg l -> s + sumR l < thr -> first_reaching o (cumsum_from s l) thr = None.
Proof.
  induction o as [|i o IH]; move=> s [|a l] thr //= NN H.
  have Ha : 0 <= a by apply NN; left.
  have NL : nonneg l by move=> b Hb; apply NN; right.
  have Hl : 0 <= sumR l by apply sumR_nonneg.
  have -> : Rleb thr (s + a) = false by apply Rleb_false; lra. apply IH => //. lra.
Qed.

Lemma value_sum a N : describes_stars a N -> sumR (default_tail (a_m a) 0 N (repeat 1 (N - 0))) = total (given_mass a) N.
Proof.
  move=> [H1 [_ [Sm _]]]. rewrite /total /given_mass /default_tail Nat.sub_0_r. destruct (a_m a) as [p|]; cbn [option_map skipn value_or].
  - f_equal. have L := expand_length Sm. rewrite {1}(as_map L). apply map_ext_in => i. rewrite in_seq => Hi. apply nth_expand => //. lia.
  - by rewrite (repeat_map 1 N 0).
Qed.

Theorem stale_order a N k n o proj :
  describes_stars a N -> aligned k n -> d_rorder (c_der (g_c k)) = Some o -> Permutation o (seq 0 n) ->
  nonneg (p_m (c_ph (g_c k))) -> (forall j, (j < N)%nat -> 0 <= given_mass a j) ->
  sumR (p_m (c_ph (g_c k))) < total (given_mass a) N ->
  exists k', add_stars 0 a false true proj k = Ok k' /\ d_rorder (c_der (g_c k')) = Some o /\
    d_rm (c_der (g_c k')) = None.
Proof.
  move=> D AL EO PO NN NG HEAVY. have L : columns_length (columns_of k) n by apply aligned_columns.
  rewrite /add_stars (npmax_described D). cbn [Nat.eqb bind].
  have [L' [E' _]] := @single_columns 0 a N k n D L.
  set k2 := add_single_rows _ _ _ _ _ _ _ in L' E' |- *. rewrite Nat.sub_0_r in L'.
  rewrite -/(finish (map6 (expand N) (a_s a)) false true proj k2). set s := map6 (expand N) (a_s a).
  eexists; split; [reflexivity|]. rewrite (finish_der s false proj L').
  have [SP _] := sky_ph s (g_c k2).
  have A1 : d_rorder (c_der (analyze_radii (add_sky_rows s (g_c k2)))) = Some o.
  { cbn [analyze_radii set_der c_der d_rorder]. by rewrite sky_der. }
  have A2 : c_ph (analyze_radii (add_sky_rows s (g_c k2))) = c_ph (g_c k2) by exact SP.
  have A3 : d_mtot (c_der (analyze_radii (add_sky_rows s (g_c k2)))) = sumR (p_m (c_ph (g_c k2))).
  { cbn [analyze_radii set_der c_der d_mtot]. by rewrite SP. }
  rewrite /analyze. move: (analyze_radii (add_sky_rows s (g_c k2))) A1 A2 A3 => c3 A1 A2 A3.
  rewrite /analyze_fracs A1 A2 A3.
  have EM : p_m (c_ph (g_c k2)) = _ := f_equal t_m E'. cbn [t_m columns_of] in EM.
  set rp := match d_rproorder _ with None => _ | Some _ => _ end. case: rp => rmp r10p. cbn [set_der c_der d_rorder d_rm].
  split => //. rewrite /frac_radius /cumsum first_reaching_none //.
  - move=> x. rewrite /take in_map_iff => [[i [<- Hi]]].
    have Hin : (i < n)%nat by have := Permutation_in _ PO Hi; rewrite in_seq; lia.
    have LM : length (p_m (c_ph (g_c k))) = n by case: AL => [_ []].
    rewrite EM app_nth1 ?LM //. apply NN. apply nth_In. lia.
  - have LM : length (p_m (c_ph (g_c k))) = n by case: AL => [_ []].
    have -> : take 0 (p_m (c_ph (g_c k2))) o = take 0 (p_m (c_ph (g_c k))) o.
    { rewrite /take. apply map_ext_in => i Hi.
      have Hin : (i < n)%nat by have := Permutation_in _ PO Hi; rewrite in_seq; lia.
      rewrite EM app_nth1 ?LM //. }
    rewrite take_perm_sum ?LM // EM sumR_app (value_sum D). lra.
Qed.

(* ------------------------------------------------------------------ add_bse *)
Theorem bse_appends id1 id2 kw1 kw2 kcm ecc pb semi m1 m2 l1 l2 r1 r2 k n p :
  length (f_id1 (g_bse k)) = n -> length (b_semi (c_bin (g_c k))) = n -> length (b_m1 (c_bin (g_c k))) = n ->
  length (b_m2 (c_bin (g_c k))) = n ->
  length id1 = p -> length semi = p -> length m1 = p -> length m2 = p ->
  exists k', add_bse id1 id2 kw1 kw2 kcm ecc pb semi m1 m2 l1 l2 r1 r2 k = Ok k' /\ c_nb (g_c k') = (n + p)%nat /\
    length (f_eb (g_bse k')) = (n + p)%nat /\
    (forall i, (i < n + p)%nat -> nth i (f_eb (g_bse k')) 0 =
       1/2 * nth i (b_m1 (c_bin (g_c k'))) 0 * nth i (b_m2 (c_bin (g_c k'))) 0 / nth i (b_semi (c_bin (g_c k'))) 0) /\
    (forall j, (j < p)%nat -> nth (n + j) (b_m1 (c_bin (g_c k'))) 0 = nth j m1 0 /\
       nth (n + j) (b_m2 (c_bin (g_c k'))) 0 = nth j m2 0 /\ nth (n + j) (b_semi (c_bin (g_c k'))) 0 = nth j semi 0 /\
       nth (n + j) (f_id1 (g_bse k')) 0%Z = nth j id1 0%Z) /\
    c_ph (g_c k') = c_ph (g_c k) /\ c_id (g_c k') = c_id (g_c k).
Proof.
  move=> I S M1 M2 Li Ls L1 L2. rewrite /add_bse; cbn [b_m1 b_m2 b_semi].
  rewrite np2_eq; [by rewrite map_length !app_length M1 M2 L1 L2|]. cbn [bind].
  rewrite np2_eq; [rewrite zip_with_length map_length !app_length M1 M2 L1 L2 S Ls; lia|]. cbn [bind].
  eexists; split; [reflexivity|].
  cbn [g_c c_nb g_bse f_id1 f_eb c_bin b_m1 b_m2 b_semi c_ph c_id].
  split; [by rewrite app_length I Li|].
  split; [rewrite !zip_with_length map_length !app_length M1 M2 L1 L2 S Ls; lia|].
  split; [|split => //].
  - move=> i Hi. rewrite (nth_zip_with _ 0 0 0) ?zip_with_length ?map_length ?app_length ?M1 ?M2 ?L1 ?L2 ?S ?Ls; try lia.
    rewrite (nth_zip_with _ 0 0 0) ?map_length ?app_length ?M1 ?M2 ?L1 ?L2; try lia.
    rewrite (@nth_map' _ _ _ _ i 0 0) //. rewrite app_length M1 L1; lia.
  - move=> j Hj. rewrite !app_nth2 ?M1 ?M2 ?S ?I; try lia. by have -> : (n + j - n = j)%nat by lia.
Qed.
