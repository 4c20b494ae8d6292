From Verif Require Import Base ModelCluster ModelOps ModelConv ModelEnergy ModelRecipes ModelCoords ModelCentre SpecRecipes SpecUnits SpecFrame SpecCentre
  ProofsUnits ProofsFrame ProofsRecipes ProofsSubset2 ProofsCentre ProofsCentre2 ProofsCentre3.
Set Implicit Arguments. Unset Strict Implicit.

(* the standard deviation of numbers between 0 and M is at most M/2 *)
Lemma std_bound x M : x <> [] -> (forall a, In a x -> 0 <= a <= M) -> np_std x <= M / 2.
Proof.
  move=> N H. have L : 0 < INR (length x). { destruct x => //. cbn [length]. apply lt_0_INR. lia. }
  have M0 : 0 <= M. { destruct x as [|a x] => //. have := H a (or_introl eq_refl). lra. }
  rewrite /np_std. set mu := np_mean x.
  have Smu : sumR x = mu * INR (length x). { rewrite /mu /np_mean. field. lra. }
  have E : sumR (map (fun a => Rabs (a - mu) ^ 2) x) <= M * sumR x - 2 * mu * sumR x + INR (length x) * mu ^ 2.
  { clear N L Smu. move: mu => mu. induction x as [|a x IH]; [cbn; lra|].
    have B : forall b, In b x -> 0 <= b <= M by move=> b Hb; apply H; right. specialize (IH B).
    have A := H a (or_introl eq_refl). cbn [map sumR length]. rewrite S_INR.
    have -> : Rabs (a - mu) ^ 2 = (a - mu) ^ 2 by apply pow2_abs.
    have : a ^ 2 <= M * a by nra. nra. }
  have V : np_mean (map (fun a => Rabs (a - mu) ^ 2) x) <= (M / 2) ^ 2.
  { rewrite {1}/np_mean map_length. apply (Rmult_le_reg_r (INR (length x))) => //. rewrite /Rdiv Rmult_assoc Rinv_l; [lra|]. rewrite Rmult_1_r.
    rewrite Smu in E. have := pow2_ge_0 (mu - M / 2). nra. }
  have -> : M / 2 = sqrt ((M / 2) ^ 2) by rewrite /= Rmult_1_r sqrt_square; lra. by apply sqrt_le_1_alt.
Qed.

Lemma clip_radius_pos p : 0 <= clip_radius p.
Proof. destruct p as [[x y] z]. apply sqrt_pos. Qed.
Lemma filter_length_le {A} (f : A -> bool) l : (length (filter f l) <= length l)%nat.
Proof. induction l as [|a l IH] => //=. destruct (f a); cbn; lia. Qed.
Lemma filter_drop {A} (f : A -> bool) l a : In a l -> f a = false -> (length (filter f l) < length l)%nat.
Proof.
  induction l as [|b l IH]; [by []|]. cbn [In filter length]. move=> [->|H] E.
  - rewrite E. have := filter_length_le f l. lia.
  - specialize (IH H E). destruct (f b); cbn; lia.
Qed.
Lemma clip_shrinks nsigma ns l l' : nsigma <= 2 -> clip_step nsigma ns l = Some l' -> (ns < length l' < length l)%nat.
Proof.
  move=> Hs. rewrite /clip_step. destruct (Nat.ltb ns (length l)) eqn:E1 => //. cbn zeta.
  set r := map (fun q => clip_radius (snd q)) l. set sigma := nsigma * np_std r.
  destruct (Nat.ltb ns (length (filter _ l))) eqn:E2 => // [[<-]]. rewrite map_length. apply Nat.ltb_lt in E1, E2. split => //.
  have N : r <> []. { rewrite /r. destruct l => //. cbn in E1; lia. }
  destruct (amax r) as [M|] eqn:EM; [|by destruct r]. have [I1 I2] := amax_greatest EM.
  have B := std_bound (M := M) N. have B' : np_std r <= M / 2.
  { apply B => a Ha. split; [|by apply I2]. move: Ha; rewrite /r => /in_map_iff [q [<- _]]. apply clip_radius_pos. }
  have P : 0 <= np_std r by apply sqrt_pos.
  move: (I1); rewrite /r => /in_map_iff [q [Eq Iq]]. apply (filter_drop Iq). apply Rltb_false. rewrite Eq /sigma.
  destruct (Rle_dec 0 nsigma); nra.
Qed.
Lemma clip_ids nsigma ns l l' : clip_step nsigma ns l = Some l' -> incl (map fst l') (map fst l) /\ (NoDup (map fst l) -> NoDup (map fst l')).
Proof.
  rewrite /clip_step. destruct (Nat.ltb ns (length l)) => //. cbn zeta. set f := fun q => Rltb _ _.
  destruct (Nat.ltb ns (length (filter f l))) => // [[<-]]. rewrite map_map.
  have -> : forall mx my mz, map (fun x => fst (let '(i, (x0, y, z)) := x in (i, (x0 - mx, y - my, z - mz)))) (filter f l) = map fst (filter f l).
  { move=> a b d. apply map_ext => [[i [[x y] z]]] //. }
  clearbody f. clear ns nsigma. split.
  - move=> i /in_map_iff [q [<- Hq]]. apply in_map. by move/filter_In: Hq => [].
  - induction l as [|q l IH] => //= H. inversion H; subst. destruct (f q); [|by apply IH]. cbn. constructor; [|by apply IH].
    move=> Hi. apply H2. move/in_map_iff: Hi => [q' [<- Hq']]. apply in_map. by move/filter_In: Hq' => [].
Qed.
Lemma clip_ends nsigma ns : nsigma <= 2 -> forall fuel l, (length l < fuel)%nat -> exists lf,
  (forall fuel', (length l < fuel')%nat -> clip_loop fuel' nsigma ns l = Some lf) /\
  incl (map fst lf) (map fst l) /\ (NoDup (map fst l) -> NoDup (map fst lf)) /\
  ((ns < length l)%nat -> (ns < length lf)%nat) /\ ((length l <= ns)%nat -> lf = l).
Proof.
  move=> Hs. induction fuel as [|f IH] => l H; [lia|]. destruct (clip_step nsigma ns l) as [l'|] eqn:E.
  - have [A B] := clip_shrinks Hs E. have [I1 I2] := clip_ids E. have Hf : (length l' < f)%nat by lia.
    have [lf [E1 [J1 [J2 [J3 J4]]]]] := IH _ Hf. exists lf. split.
    { move=> [|f'] H'; [lia|]. cbn [clip_loop]. rewrite E. apply E1. lia. }
    split. { move=> i Hi. by apply I1, J1. }
    split. { move=> ND. by apply J2, I2. }
    split. { move=> _. by apply J3. } lia.
  - exists l. split. { move=> [|f'] H'; [lia|]. cbn [clip_loop]. by rewrite E. }
    split; [by move=> i|]. split => //.
Qed.

(* ---- the loop that never ends *)
Lemma clip_fixed nsigma ns l : clip_step nsigma ns l = Some l -> forall fuel, clip_loop fuel nsigma ns l = None.
Proof. move=> H. induction fuel as [|f IH] => //. cbn [clip_loop]. by rewrite H. Qed.
Lemma sum_repeat a n : sumR (repeat a n) = INR n * a.
Proof. induction n as [|n IH]; [cbn; lra|]. cbn [repeat sumR]. rewrite IH S_INR. lra. Qed.
Definition stuck_x (j : nat) : list R := repeat 0 (j + j) ++ repeat 1 j ++ repeat (-1) j.
Lemma stuck_length j : length (stuck_x j) = (4 * j)%nat.
Proof. rewrite /stuck_x !app_length !repeat_length. lia. Qed.
Lemma stuck_mem j a : In a (stuck_x j) -> a = 0 \/ a = 1 \/ a = -1.
Proof.
  rewrite /stuck_x => H. destruct (in_app_or _ _ _ H) as [A|A]; [by left; exact (repeat_spec _ _ _ A)|].
  destruct (in_app_or _ _ _ A) as [B|B]; right; [left|right]; exact (repeat_spec _ _ _ B).
Qed.
Lemma map_repeat {A B} (f : A -> B) a n : map f (repeat a n) = repeat (f a) n.
Proof. induction n as [|n IH] => //=. by rewrite IH. Qed.
Lemma sum_map_stuck (f : R -> R) j : sumR (map f (stuck_x j)) = INR j * (2 * f 0 + f 1 + f (-1)).
Proof. rewrite /stuck_x !map_app !map_repeat !sumR_app !sum_repeat plus_INR. lra. Qed.
Lemma filter_all {A} (f : A -> bool) l : (forall a, In a l -> f a = true) -> filter f l = l.
Proof. induction l as [|a l IH] => //= H. rewrite H; [by left|]. rewrite IH // => b Hb. apply H. by right. Qed.
Lemma radius_on_axis x : clip_radius (x, 0, 0) = Rabs x.
Proof. rewrite /clip_radius -sqrt_Rsqr_abs /Rsqr. f_equal. ring. Qed.
Lemma map_snd_combine {A B} (l : list A) (k : list B) : length l = length k -> map snd (combine l k) = k.
Proof. revert k; induction l as [|a l IH]; move=> [|b k] //= [H]. by rewrite IH. Qed.
Definition on_axis (x : R) : R * R * R := (x, 0, 0).
Lemma stuck_step nsigma ns j ids : 2 < nsigma -> (ns < j)%nat -> length ids = length (stuck_x j) ->
  clip_step nsigma ns (combine ids (map on_axis (stuck_x j))) = Some (combine ids (map on_axis (stuck_x j))).
Proof.
  move=> Hs Hj HL. set l := combine _ _.
  have Ls : map snd l = map on_axis (stuck_x j) by rewrite /l map_snd_combine // map_length.
  have L : length l = (4 * j)%nat by rewrite /l combine_length map_length HL stuck_length; lia.
  have J : 0 < INR j by apply lt_0_INR; lia.
  have Er : map (fun q => clip_radius (snd q)) l = map Rabs (stuck_x j).
  { rewrite -(map_map snd clip_radius) Ls map_map. apply map_ext => x. apply radius_on_axis. }
  have A1 : Rabs 1 = 1 by rewrite Rabs_right; lra. have A2 : Rabs (-1) = 1 by rewrite Rabs_left; lra.
  have I4 : INR (4 * j) = 4 * INR j by rewrite mult_INR /=; lra.
  have Mu : np_mean (map Rabs (stuck_x j)) = 1 / 2.
  { rewrite /np_mean map_length stuck_length sum_map_stuck Rabs_R0 A1 A2 I4. field. lra. }
  have Sd : np_std (map Rabs (stuck_x j)) = 1 / 2.
  { rewrite /np_std Mu. rewrite map_map. rewrite /np_mean map_length stuck_length sum_map_stuck Rabs_R0 A1 A2 I4.
    have -> : Rabs (0 - 1 / 2) ^ 2 = 1 / 4 by rewrite Rabs_left; lra. have -> : Rabs (1 - 1 / 2) ^ 2 = 1 / 4 by rewrite Rabs_right; lra.
    have -> : INR j * (2 * (1 / 4) + 1 / 4 + 1 / 4) / (4 * INR j) = (1 / 2) * (1 / 2) by field; lra. apply sqrt_square. lra. }
  rewrite /clip_step L. have -> : Nat.ltb ns (4 * j) = true by apply Nat.ltb_lt; lia. cbn zeta. rewrite Er Sd.
  have -> : filter (fun q => Rltb (clip_radius (snd q)) (nsigma * (1 / 2))) l = l.
  { apply filter_all => q Hq. apply Rltb_spec. have : In (clip_radius (snd q)) (map Rabs (stuck_x j)).
    { rewrite -Er. by apply (in_map (fun q => clip_radius (snd q))). }
    move=> /in_map_iff [x [<- /stuck_mem [->|[->| ->]]]]; rewrite ?Rabs_R0 ?A1 ?A2; lra. }
  rewrite L. have -> : Nat.ltb ns (4 * j) = true by apply Nat.ltb_lt; lia.
  have Mz : forall f : R * R * R -> R, (forall x, f (on_axis x) = x) \/ (forall x, f (on_axis x) = 0) -> np_mean (map (fun q => f (snd q)) l) = 0.
  { move=> f Hf. rewrite -(map_map snd f) Ls map_map /np_mean map_length stuck_length.
    destruct Hf as [Hf|Hf]; rewrite sum_map_stuck !Hf I4; field; lra. }
  rewrite (Mz (fun p => fst (fst p))); [by left|]. rewrite (Mz (fun p => snd (fst p))); [by right|]. rewrite (Mz (fun p => snd p)); [by right|].
  f_equal. apply map_id_ext => [[i [[x y] z]]]. by rewrite !Rminus_0_r.
Qed.
