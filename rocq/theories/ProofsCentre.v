From Verif Require Import Base ModelCluster ModelOps ModelConv ModelEnergy ModelRecipes ModelCoords ModelCentre SpecCentre ProofsRecipes.
Set Implicit Arguments. Unset Strict Implicit.

Definition part_row (b : particle) : R * six R := (y_m b, y_p b).
Definition row_part (r : R * six R) : particle := mkPart (fst r) (snd r).

Lemma six_ext (a b : six R) : sx a = sx b -> sy a = sy b -> sz a = sz b -> svx a = svx b -> svy a = svy b -> svz a = svz b -> a = b.
Proof. destruct a, b; cbn. by move=> -> -> -> -> -> ->. Qed.
Lemma plus_less a b : plus6 a (less6 b a) = b.
Proof. apply six_ext; cbn; lra. Qed.
Lemma less_less a b d : less6 (less6 a b) d = less6 a (plus6 b d).
Proof. apply six_ext; cbn; lra. Qed.
Lemma less_zero a : less6 a zero6 = a.
Proof. apply six_ext; cbn; lra. Qed.
Lemma shift_shift a b l : map (shift_part b) (map (shift_part a) l) = map (shift_part (plus6 a b)) l.
Proof. rewrite map_map. apply map_ext => p. by rewrite /shift_part; cbn [y_m y_p]; rewrite less_less. Qed.

Lemma total_shift d l : total_mass (map (shift_part d) l) = total_mass l.
Proof. by rewrite /total_mass map_map. Qed.
Lemma sum_shift (g : six R -> R) (d : six R) l : (forall p, g (less6 p d) = g p - g d) ->
  sumR (map (fun b => y_m b * g (y_p b)) (map (shift_part d) l)) = sumR (map (fun b => y_m b * g (y_p b)) l) - total_mass l * g d.
Proof. move=> H. rewrite /total_mass. induction l as [|b l IH]; cbn; [lra|]. rewrite IH H. lra. Qed.
Lemma mean_shift d l : total_mass l <> 0 -> mass_mean (map (shift_part d) l) = less6 (mass_mean l) d.
Proof.
  move=> H. rewrite /mass_mean total_shift. apply six_ext; cbn [sx sy sz svx svy svz less6];
  rewrite sum_shift //; field; exact H.
Qed.

Lemma filter_map {A B} (f : A -> B) (P : B -> bool) l : filter P (map f l) = map f (filter (fun a => P (f a)) l).
Proof. induction l as [|a l IH] => //=. destruct (P (f a)) => /=; by rewrite IH. Qed.
Lemma filter_ext' {A} (P Q : A -> bool) l : (forall a, P a = Q a) -> filter P l = filter Q l.
Proof. move=> H. induction l as [|a l IH] => //=. by rewrite H IH. Qed.

(* the loop in absolute coordinates *)
Definition near (q : six R) (rho : R) (b : particle) : bool :=
  Rltb (square_radius (shift_part q b)) (rho ^ 2).
Fixpoint habs (n nsphere : nat) (rmin rlim : R) (l : list particle) (dc : six R) : six R :=
  match n with
  | O => dc
  | S n' => if Rltb rmin rlim then
      let inn := filter (near dc rlim) l in
      if Rltb 0 (total_mass inn) && Nat.ltb nsphere (length inn)
      then habs n' nsphere rmin (rlim * (8 / 10)) l (mass_mean inn) else dc
    else dc
  end.

Lemma harfst_abs n ns rmin : forall rlim l dc,
  harfst_loop n ns rmin rlim (map (shift_part dc) l) dc = habs n ns rmin rlim l dc.
Proof.
  induction n as [|n IH] => rlim l dc //. cbn [harfst_loop habs]. destruct (Rltb rmin rlim) => //.
  cbn zeta. rewrite filter_map total_shift map_length.
  change (filter (fun a => Rltb (square_radius (shift_part dc a)) (rlim ^ 2)) l) with (filter (near dc rlim) l).
  set inn := filter _ l. destruct (Rltb 0 (total_mass inn)) eqn:Em; cbn [andb] => //.
  destruct (Nat.ltb ns (length inn)) => //. move/Rltb_spec in Em.
  have -> : Reqb (total_mass inn) 0 = false by apply Reqb_false; lra.
  rewrite mean_shift; [lra|]. rewrite shift_shift !plus_less. apply IH.
Qed.

(* ---- translation *)
Lemma near_shift d q rho b : near (plus6 q d) rho b = near q rho (shift_part d b).
Proof.
  rewrite /near /shift_part; cbn [y_m y_p]. rewrite /square_radius; cbn [y_m y_p]. f_equal.
  rewrite less_less. f_equal; [f_equal|]; cbn; f_equal; lra.
Qed.
Lemma less_plus a d : less6 (plus6 a d) d = a.
Proof. apply six_ext; cbn; lra. Qed.
Lemma plus_less' a d : plus6 (less6 a d) d = a.
Proof. apply six_ext; cbn; lra. Qed.
Lemma habs_shift d ns rmin n : forall rlim l dc,
  habs n ns rmin rlim l (plus6 dc d) = plus6 (habs n ns rmin rlim (map (shift_part d) l) dc) d.
Proof.
  induction n as [|n IH] => rlim l dc //. cbn [habs]. destruct (Rltb rmin rlim) => //.
  cbn zeta. rewrite filter_map map_length total_shift.
  rewrite (filter_ext' (P := near (plus6 dc d) rlim) (Q := fun a => near dc rlim (shift_part d a)) _ (near_shift d dc rlim)).
  set inn := filter _ l. destruct (Rltb 0 (total_mass inn)) eqn:Em; cbn [andb] => //.
  destruct (Nat.ltb ns (length inn)) => //. move/Rltb_spec in Em.
  rewrite mean_shift; [lra|]. by rewrite -IH plus_less'.
Qed.

Lemma amax_shift start d l :
  map (fun b => sqrt (square_radius b)) (map (shift_part (plus6 start d)) l) =
  map (fun b => sqrt (square_radius b)) (map (shift_part start) (map (shift_part d) l)).
Proof.
  rewrite shift_shift. do 3 f_equal. apply six_ext; cbn; lra.
Qed.
Lemma harfst_shift start d ns rmin rmax nmax l :
  harfst (plus6 start d) ns rmin rmax nmax l = option_map (fun p => plus6 p d) (harfst start ns rmin rmax nmax (map (shift_part d) l)).
Proof.
  rewrite /harfst. rewrite amax_shift. destruct rmax as [r|].
  - cbn. by rewrite !harfst_abs habs_shift.
  - destruct (amax _) => //. cbn. by rewrite !harfst_abs habs_shift.
Qed.

(* ---- order of the stars *)
Lemma filter_perm {A} (P : A -> bool) l k : Permutation l k -> Permutation (filter P l) (filter P k).
Proof.
  induction 1 as [| |x y l|] => //=; try (destruct (P x)); try (destruct (P y)); eauto using Permutation.
Qed.
Lemma total_perm l k : Permutation l k -> total_mass l = total_mass k.
Proof. move=> H. apply sumR_perm. by apply Permutation_map. Qed.
Lemma mean_perm l k : Permutation l k -> mass_mean l = mass_mean k.
Proof.
  move=> H. rewrite /mass_mean (total_perm H). apply six_ext; cbn [sx sy sz svx svy svz]; f_equal; apply sumR_perm; by apply Permutation_map.
Qed.
Lemma habs_perm ns rmin n : forall rlim l k dc, Permutation l k -> habs n ns rmin rlim l dc = habs n ns rmin rlim k dc.
Proof.
  induction n as [|n IH] => rlim l k dc H //. cbn [habs]. destruct (Rltb rmin rlim) => //. cbn zeta.
  have F := filter_perm (near dc rlim) H. rewrite (total_perm F) (Permutation_length F) (mean_perm F). by rewrite (IH _ _ _ _ H).
Qed.
Lemma amax_perm l k : Permutation l k -> amax l = amax k.
Proof.
  move=> H. destruct l as [|a l]. { by rewrite (Permutation_nil H). }
  destruct k as [|b k]. { by have := Permutation_sym H => /Permutation_nil. }
  destruct (amax (a :: l)) as [x|] eqn:E1; [|cbn in E1; congruence]. destruct (amax (b :: k)) as [y|] eqn:E2; [|cbn in E2; congruence].
  have [I1 M1] := amax_greatest E1. have [I2 M2] := amax_greatest E2.
  f_equal. apply Rle_antisym; [apply M2; exact: (Permutation_in _ H I1) | apply M1; exact: (Permutation_in _ (Permutation_sym H) I2)].
Qed.
Lemma harfst_perm start ns rmin rmax nmax l k : Permutation l k ->
  harfst start ns rmin rmax nmax l = harfst start ns rmin rmax nmax k.
Proof.
  move=> H. rewrite /harfst. have -> : amax (map (fun b => sqrt (square_radius b)) (map (shift_part start) l)) =
    amax (map (fun b => sqrt (square_radius b)) (map (shift_part start) k)).
  { apply amax_perm. by do 2 apply Permutation_map. }
  destruct (match rmax with Some r => _ | None => _ end) => //. rewrite !harfst_abs. f_equal. by apply habs_perm.
Qed.

(* ---- what is returned *)
Lemma picked_filter {A} (f : A -> bool) (P : A -> Prop) l : (forall a, f a = true <-> P a) -> picked P l (filter f l).
Proof.
  move=> H. induction l as [|a l IH] => /=; [by constructor|]. destruct (f a) eqn:E.
  - constructor => //. by apply H.
  - constructor => // /H; congruence.
Qed.
Lemma near_within q rho b : near q rho b = true <-> within q rho (part_row b).
Proof. rewrite /near Rltb_spec /within /square_radius /shift_part; cbn. tauto. Qed.
Lemma picked_rows q rho l : picked (within q rho) (map part_row l) (map part_row (filter (near q rho) l)).
Proof.
  induction l as [|a l IH] => /=; [by constructor|]. destruct (near q rho a) eqn:E; cbn.
  - constructor => //. by apply near_within.
  - constructor => // /near_within; congruence.
Qed.
Lemma moment_mean (g : six R -> R) l p : total_mass l <> 0 -> g p = sumR (map (fun b => y_m b * g (y_p b)) l) / total_mass l ->
  moment g (map part_row l) p = 0.
Proof.
  move=> H E. have -> : moment g (map part_row l) p = sumR (map (fun b => y_m b * g (y_p b)) l) - total_mass l * g p.
  { rewrite /moment /total_mass. clear. induction l as [|b l IH] => /=; [lra|]. rewrite IH /=. lra. }
  rewrite E. by field.
Qed.
Lemma mean_is_mean l : total_mass l <> 0 -> mass_weighted_mean (map part_row l) (mass_mean l).
Proof.
  move=> H. split. { by rewrite /table_mass map_map. }
  do 5 (split; [by apply moment_mean|]). by apply moment_mean.
Qed.
Lemma mean_unique (g : six R -> R) t p q : table_mass t <> 0 -> moment g t p = 0 -> moment g t q = 0 -> g p = g q.
Proof.
  have E : forall p, moment g t p = sumR (map (fun r => fst r * g (snd r)) t) - table_mass t * g p.
  { move=> p'. rewrite /moment /table_mass. induction t as [|r t IH] => /=; [lra|]. rewrite IH. lra. }
  rewrite !E => H A B. apply (Rmult_eq_reg_l (table_mass t)) => //. lra.
Qed.
Lemma mwm_unique t p q : mass_weighted_mean t p -> mass_weighted_mean t q -> p = q.
Proof.
  move=> [H [a [b [c [d [e f]]]]]] [_ [a' [b' [c' [d' [e' f']]]]]]. apply six_ext; eapply mean_unique; eauto.
Qed.

Lemma habs_found ns rmin l start n : forall rlim dc, found_from (map part_row l) start dc ns rmin ->
  found_from (map part_row l) start (habs n ns rmin rlim l dc) ns rmin.
Proof.
  induction n as [|n IH] => rlim dc H //. cbn [habs]. destruct (Rltb rmin rlim) eqn:Er => //. cbn zeta.
  destruct (Rltb 0 _) eqn:Em => //. destruct (Nat.ltb ns _) eqn:En => //. cbn [andb]. apply IH. right.
  exists dc, rlim, (map part_row (filter (near dc rlim) l)). split; [by apply Rltb_spec|]. split; [apply picked_rows|].
  rewrite map_length. split; [by apply Nat.ltb_lt|]. move/Rltb_spec in Em. split; [by rewrite /table_mass map_map|].
  apply mean_is_mean; lra.
Qed.
Lemma harfst_found start ns rmin rmax nmax l p : harfst start ns rmin rmax nmax l = Some p ->
  found_from (map part_row l) start p ns rmin.
Proof.
  rewrite /harfst. destruct (match rmax with Some r => _ | None => _ end) => //. case=> <-.
  rewrite harfst_abs. apply habs_found. by left.
Qed.

(* ---- the iteration limit *)
Lemma habs_more ns rmin l : forall n k rlim dc, 0 < rmin -> rlim * (8 / 10) ^ n <= rmin ->
  habs (n + k) ns rmin rlim l dc = habs n ns rmin rlim l dc.
Proof.
  induction n as [|n IH] => k rlim dc H0 H.
  - cbn [Nat.add]. destruct k => //. cbn [habs]. have -> // : Rltb rmin rlim = false. apply Rltb_false. rewrite /= in H; lra.
  - cbn [Nat.add habs]. destruct (Rltb rmin rlim) => //. cbn zeta. destruct (Rltb 0 _ && _) => //. apply IH => //.
    move: H => /=. lra.
Qed.
Lemma geometric rlim rmin : 0 < rmin -> exists n, rlim * (8 / 10) ^ n <= rmin.
Proof.
  move=> H. destruct (Rle_dec rlim 0) as [L|L]. { exists O. rewrite /=; lra. }
  have A : Rabs (8 / 10) < 1 by rewrite Rabs_right; lra.
  have P : rmin / rlim > 0. { apply Rdiv_lt_0_compat; lra. }
  have [N HN] := pow_lt_1_zero _ A _ P. exists N. have := HN N (le_n N). rewrite Rabs_right.
  { apply Rle_ge, pow_le; lra. }
  move=> Hl. apply (Rmult_lt_compat_l rlim) in Hl; [|lra]. have E : rlim * (rmin / rlim) = rmin by field; lra. lra.
Qed.
Lemma harfst_settles start ns rmin rmax l : 0 < rmin -> exists N, forall n, (N <= n)%nat ->
  harfst start ns rmin rmax n l = harfst start ns rmin rmax N l.
Proof.
  move=> H. rewrite /harfst. destruct (match rmax with Some r => _ | None => _ end) as [rlim|]; [|by exists O].
  have [N HN] := geometric rlim H. exists N => n Hn. f_equal. rewrite !harfst_abs.
  have -> : n = (N + (n - N))%nat by lia. by apply habs_more.
Qed.

(* ---- the whole refinement *)
Lemma habs_refined ns rmin l n : forall rlim dc, refined (map part_row l) ns rmin n rlim dc (habs n ns rmin rlim l dc).
Proof.
  induction n as [|n IH] => rlim dc; [by constructor|]. cbn [habs]. destruct (Rltb rmin rlim) eqn:Er.
  2: { apply refined_small. by apply Rltb_false. }
  cbn zeta. move/Rltb_spec in Er. have P := picked_rows dc rlim l. set inn := filter (near dc rlim) l in P |- *.
  have T : table_mass (map part_row inn) = total_mass inn by rewrite /table_mass map_map.
  destruct (Rltb 0 (total_mass inn)) eqn:Em; cbn [andb].
  2: { apply refined_few with (sub := map part_row inn) => //. right. rewrite T. by apply Rltb_false. }
  destruct (Nat.ltb ns (length inn)) eqn:En.
  2: { apply refined_few with (sub := map part_row inn) => //. left. rewrite map_length. by apply Nat.ltb_ge. }
  move/Rltb_spec in Em. apply refined_step with (sub := map part_row inn) (q' := mass_mean inn) => //.
  - rewrite map_length. by apply Nat.ltb_lt.
  - by rewrite T.
  - apply mean_is_mean. lra.
Qed.
Lemma harfst_refined start ns rmin rmax nmax l p : harfst start ns rmin rmax nmax l = Some p ->
  exists rho, first_radius (map part_row l) start rmax rho /\ refined (map part_row l) ns rmin nmax rho start p.
Proof.
  rewrite /harfst. destruct rmax as [r|].
  - case=> <-. exists r. split => //. rewrite harfst_abs. apply habs_refined.
  - destruct (amax _) as [r|] eqn:E => // [[<-]]. exists r. split; [|rewrite harfst_abs; apply habs_refined].
    have [I1 I2] := amax_greatest E. rewrite map_map in I1 I2. rewrite /first_radius map_map. by split.
Qed.
