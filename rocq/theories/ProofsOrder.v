From Coq Require Import Sorted.
From Verif Require Import Base ModelCluster SpecOrder.
Set Implicit Arguments. Unset Strict Implicit.

Lemma insert_perm key i l : Permutation (insert_by key i l) (i :: l).
Proof.
  induction l as [|j l IH] => //=. destruct (Rleb _ _) => //.
  rewrite IH. apply perm_swap.
Qed.
Lemma sort_perm key l : Permutation (sort_by key l) l.
Proof. induction l as [|a l IH] => //=. rewrite insert_perm. by apply perm_skip. Qed.
Lemma insert_sorted key i l :
  StronglySorted (fun i j => key i <= key j) l -> StronglySorted (fun i j => key i <= key j) (insert_by key i l).
Proof.
  induction 1 as [|j l Hs IH Hf] => /=; [by repeat constructor|].
  destruct (Rleb (key i) (key j)) eqn:E.
  - apply Rleb_spec in E. constructor; [by constructor|]. constructor => //.
    eapply Forall_impl; [|exact Hf] => k /=; lra.
  - apply Rleb_false in E. constructor => //.
    eapply Permutation_Forall; [symmetry; apply insert_perm|]. constructor => //; lra.
Qed.
Lemma sort_sorted key l : StronglySorted (fun i j => key i <= key j) (sort_by key l).
Proof. induction l as [|a l IH] => /=; [constructor|]. exact: insert_sorted. Qed.

Lemma argsort_sorted r : sorted_order (argsort r) r.
Proof. split; [apply sort_perm | apply sort_sorted]. Qed.

(* ---- sums over index lists *)
Definition isum (P : nat -> bool) (w : list R) (o : list nat) : R :=
  sumR (map (fun i => if P i then nth i w 0 else 0) o).

Lemma isum_perm P w o o' : Permutation o o' -> isum P w o = isum P w o'.
Proof. move=> H; apply sumR_perm. by apply Permutation_map. Qed.

Lemma seq_shift_map a n : seq (S a) n = map S (seq a n). Proof. by rewrite seq_shift. Qed.

Lemma filter_combine_isum (P : R -> bool) r w : length r = length w ->
  sumR (map snd (filter (fun p => P (fst p)) (combine r w))) =
  isum (fun i => P (nth i r 0)) w (seq 0 (length r)).
Proof.
  revert w; induction r as [|a r IH]; destruct w as [|b w] => //= [[L]].
  rewrite /isum /= seq_shift_map map_map /=.
  have -> : sumR (map (fun x => if P (nth x r 0) then nth x w 0 else 0) (seq 0 (length r)))
          = isum (fun i => P (nth i r 0)) w (seq 0 (length r)) by [].
  rewrite -IH //. destruct (P a) => /=; lra.
Qed.

Lemma sum_nth_seq w : sumR w = isum (fun _ => true) w (seq 0 (length w)).
Proof.
  rewrite /isum. induction w as [|a w IH] => //=. rewrite seq_shift_map map_map /= IH //.
Qed.

Lemma nth_nonneg w i : nonneg w -> 0 <= nth i w 0.
Proof.
  move=> H. destruct (Nat.lt_ge_cases i (length w)) as [L|L]; [by apply H, nth_In|].
  rewrite nth_overflow //; lra.
Qed.

Lemma isum_nonneg P w o : nonneg w -> 0 <= isum P w o.
Proof.
  move=> H. apply sumR_nonneg => a /in_map_iff [i [<- _]].
  destruct (P i); [exact: nth_nonneg|lra].
Qed.
Lemma isum_app P w o o' : isum P w (o ++ o') = isum P w o + isum P w o'.
Proof. by rewrite /isum map_app sumR_app. Qed.
Lemma isum_true P w o : Forall (fun i => P i = true) o -> isum P w o = sumR (take 0 w o).
Proof. induction 1 as [|i o Hi _ IH] => //=. rewrite /isum /= Hi -/(isum P w o) IH //. Qed.
Lemma isum_false P w o : Forall (fun i => P i = false) o -> isum P w o = 0.
Proof. induction 1 as [|i o Hi _ IH] => //=. rewrite /isum /= Hi -/(isum P w o) IH; lra. Qed.
Lemma isum_le P w o : nonneg w -> isum P w o <= sumR (take 0 w o).
Proof.
  move=> H; induction o as [|i o IH]; rewrite /isum /=; [lra|].
  have := nth_nonneg i H. rewrite -/(isum P w o). destruct (P i); lra.
Qed.

(* ---- first_reaching *)
Lemma first_reaching_split s o w thr i :
  first_reaching o (cumsum_from s (take 0 w o)) thr = Some i ->
  exists o1 o2, o = o1 ++ i :: o2 /\ thr <= s + sumR (take 0 w o1) + nth i w 0 /\
    (o1 = [] \/ s + sumR (take 0 w o1) < thr).
Proof.
  revert s; induction o as [|j o IH] => s //=.
  destruct (Rleb thr (s + nth j w 0)) eqn:E.
  - case=> <-. exists [], o. apply Rleb_spec in E. repeat split => /=; [lra|by left].
  - apply Rleb_false in E. move=> /IH [o1 [o2 [-> [H1 H2]]]].
    exists (j :: o1), o2. repeat split => /=; [lra|]. right. destruct H2 as [->|H2] => /=; lra.
Qed.
Lemma first_reaching_some s o w thr :
  o <> [] -> thr <= s + sumR (take 0 w o) -> exists i, first_reaching o (cumsum_from s (take 0 w o)) thr = Some i.
Proof.
  revert s; induction o as [|j o IH] => s //= _ H.
  destruct (Rleb thr (s + nth j w 0)) eqn:E; [by eexists|].
  apply Rleb_false in E. destruct o as [|k o]; [simpl in H; lra|].
  apply IH => //; simpl in *; lra.
Qed.

Lemma take_perm_sum w o : Permutation o (seq 0 (length w)) -> sumR (take 0 w o) = sumR w.
Proof.
  move=> H. rewrite (sum_nth_seq w) /isum. apply sumR_perm. by apply Permutation_map.
Qed.

Lemma SS_app_r {A} (Rel : A -> A -> Prop) l1 x l2 :
  StronglySorted Rel (l1 ++ x :: l2) -> Forall (fun a => Rel a x) l1 /\ Forall (Rel x) l2.
Proof.
  induction l1 as [|a l1 IH] => /= H; inversion H as [|? ? Hs Hf]; subst; [by split|].
  have [H1 H2] := IH Hs. split => //. constructor => //.
  rewrite Forall_forall in Hf. apply Hf, in_or_app. right; by left.
Qed.

Theorem frac_radius_correct f r w o : length r = length w -> w <> [] -> nonneg w -> 0 < sumR w -> 0 < f <= 1 ->
  sorted_order o r ->
  exists d, frac_radius f w r (sumR w) o = Some d /\ is_fraction_radius f r w d.
Proof.
  move=> L Hne Hn Hpos [Hf0 Hf1] [Hp Hs].
  have Hp' : Permutation o (seq 0 (length w)) by rewrite -L.
  have Ho : o <> [].
  { move=> E; subst. apply Permutation_nil in Hp'. destruct w => //. }
  have Hthr : 0 < f * sumR w by apply Rmult_lt_0_compat.
  have [i Hi] : exists i, first_reaching o (cumsum_from 0 (take 0 w o)) (f * sumR w) = Some i.
  { apply first_reaching_some => //. rewrite take_perm_sum //.
    have : f * sumR w <= 1 * sumR w by apply Rmult_le_compat_r; lra. lra. }
  exists (nth i r 0). rewrite /frac_radius /cumsum Hi /=. split => //.
  have [o1 [o2 [E [H1 H2]]]] := first_reaching_split Hi.
  have Hin : In i o by rewrite E; apply in_or_app; right; left.
  have Hil : (i < length r)%nat.
  { have := Permutation_in _ Hp Hin. rewrite in_seq; lia. }
  rewrite E in Hs. have [F1 F2] := SS_app_r Hs.
  have Hp2 : Permutation (seq 0 (length r)) (o1 ++ i :: o2) by rewrite -E; symmetry.
  split; [by apply nth_In|]. split.
  - rewrite /weight_within (filter_combine_isum (fun a => Rleb a (nth i r 0))) //.
    rewrite (isum_perm _ _ Hp2) isum_app.
    rewrite (@isum_true _ w o1); [eapply Forall_impl; [|exact F1] => j /= Hj; by apply Rleb_spec|].
    have N := @isum_nonneg (fun j => Rleb (nth j r 0) (nth i r 0)) w o2 Hn.
    have -> : isum (fun j => Rleb (nth j r 0) (nth i r 0)) w (i :: o2) =
              nth i w 0 + isum (fun j => Rleb (nth j r 0) (nth i r 0)) w o2.
    { rewrite /isum /=. have -> : Rleb (nth i r 0) (nth i r 0) = true by apply Rleb_spec; lra. by []. }
    lra.
  - rewrite /weight_inside (filter_combine_isum (fun a => Rltb a (nth i r 0))) //.
    rewrite (isum_perm _ _ Hp2) isum_app.
    rewrite (@isum_false _ w (i :: o2)).
    + constructor; [apply Rltb_false; lra|]. eapply Forall_impl; [|exact F2] => j /= Hj. by apply Rltb_false.
    + have := @isum_le (fun j => Rltb (nth j r 0) (nth i r 0)) w o1 Hn.
      destruct H2 as [->|H2]; [rewrite /isum /=; lra|lra].
Qed.
