From Verif Require Import Base ModelCluster ModelOps ModelConv ModelEnergy SpecUnits SpecFrame SpecEnergy ProofsPot.
Set Implicit Arguments. Unset Strict Implicit.

Lemma nth_error_upd {A} (l : list A) k f j : 
  nth_error (upd l k f) j = if Nat.eqb j k then option_map f (nth_error l k) else nth_error l j.
Proof.
  revert k j; induction l as [|a l IH] => k j /=.
  - destruct (Nat.eqb j k); by destruct j, k.
  - destruct k as [|k], j as [|j] => //=.
Qed.

(* ------------------------------------------------ workers that own their cell *)
Definition own (w : nat) (m : micro) : Prop := match m with Load k => k = w | Store k _ => k = w end.
Definition solo (vr : num * num) (m : micro) : num * num :=
  match m with Load _ => (fst vr, fst vr) | Store _ t => (nadd (snd vr) t, snd vr) end.
Definition fin (v : num) (w : worker) : num := fst (fold_left solo (w_todo w) (v, w_reg w)).

Definition owned (n : nat) (C : nat -> num) (s : shared) : Prop :=
  length (s_pot s) = n /\ length (s_workers s) = n /\
  forall w x, nth_error (s_workers s) w = Some x ->
    Forall (own w) (w_todo x) /\ fin (nth w (s_pot s) None) x = C w.

Lemma owned_step n C w s : owned n C s -> owned n C (step w s).
Proof.
  move=> [H1 [H2 H3]]. rewrite /step. destruct (nth_error (s_workers s) w) as [[reg [|[k|k t] rest]]|] eqn:E; try by [].
  - have [F1 F2] := H3 _ _ E. inversion F1; subst. simpl in H4; subst.
    split; [done|]. split; [by rewrite upd_length|]. move=> w' x. cbn [s_workers s_pot]. rewrite nth_error_upd.
    destruct (Nat.eqb w' w) eqn:Ew; [|exact: H3]. apply Nat.eqb_eq in Ew. subst. rewrite E /=. case=> <-. split => //.
  - have [F1 F2] := H3 _ _ E. inversion F1; subst. simpl in H4; subst.
    have Hw : (w < length (s_pot s))%nat by rewrite -H2; apply nth_error_Some; rewrite E.
    split; [by rewrite upd_length|]. split; [by rewrite upd_length|]. move=> w' x. cbn [s_workers s_pot].
    rewrite nth_error_upd nth_upd //.
    destruct (Nat.eqb w' w) eqn:Ew; [|exact: H3]. apply Nat.eqb_eq in Ew. subst. rewrite E /=. case=> <-. split => //.
Qed.
Lemma owned_exec n C sched : forall s, owned n C s -> owned n C (execute sched s).
Proof. induction sched as [|w sched IH] => s H //=. apply IH. exact: owned_step. Qed.

Lemma owned_final n C s : owned n C s -> finished s -> s_pot s = map C (seq 0 n).
Proof.
  move=> [H1 [H2 H3]] HF. apply (nth_ext _ _ None None); [by rewrite map_length seq_length|].
  move=> k Hk. have Hk' : (k < n)%nat by rewrite -H1.
  rewrite (@nth_map_in _ _ _ _ _ 0%nat) ?seq_length //. rewrite seq_nth //.
  destruct (nth_error (s_workers s) k) as [x|] eqn:E; [|apply nth_error_None in E; lia].
  have [_ F] := H3 _ _ E. rewrite -F /fin. 
  have -> : w_todo x = []. { apply nth_error_In in E. rewrite /finished Forall_forall in HF. exact: HF. }
  by [].
Qed.

Lemma solo_updates i ts : forall v r,
  fst (fold_left solo (flat_map (fun t => micro_update i t) ts) (v, r)) = nadd v (nsum ts).
Proof.
  induction ts as [|t ts IH] => v r /=; [by rewrite nadd_0r|]. rewrite IH nadd_assoc //.
Qed.

Lemma subset_code_updates soft sub full i :
  subset_worker_code soft sub full i = flat_map (fun t => micro_update i t)
    (map (fun b => Some (pair_energy soft (nth i sub star0) b)) (filter (fun b => negb (Reqb (dist2 (nth i sub star0) b) 0)) full)).
Proof.
  rewrite /subset_worker_code. set a := nth i sub star0. elim: full => [|b full IH] //. cbn [flat_map filter].
  have -> : Reqb (distance a b) 0 = Reqb (dist2 a b) 0.
  { destruct (Reqb (dist2 a b) 0) eqn:E; [apply Reqb_spec in E; apply Reqb_spec; by apply distance_zero|].
    apply Reqb_false in E. apply Reqb_false. move=> X; apply E; by apply distance_zero. }
  destruct (Reqb (dist2 a b) 0); cbn [negb]; rewrite IH //. cbn [map flat_map]. by rewrite distance_sq.
Qed.

Lemma own_flat i ts : Forall (own i) (flat_map (fun t => micro_update i t) ts).
Proof. induction ts as [|t ts IH] => /=; [constructor|]. constructor => //. constructor => //. Qed.

Lemma sum_filter_ite {A} (f : A -> R) (p : A -> bool) l :
  sumR (map f (filter (fun b => negb (p b)) l)) = sumR (map (fun b => if p b then 0 else f b) l).
Proof. elim: l => //= a l IH. destruct (p a) => /=; rewrite IH; lra. Qed.

Lemma subset_parallel soft sub full sched :
  finished (execute sched (parallel_subset_start soft sub full)) ->
  s_pot (execute sched (parallel_subset_start soft sub full)) = map Some (potential_energy_subset soft sub full).
Proof.
  move=> HF. set C := fun i => Some (nth i (potential_energy_subset soft sub full) 0).
  have HO : owned (length sub) C (parallel_subset_start soft sub full).
  { rewrite /owned /parallel_subset_start. cbn [s_pot s_workers]. rewrite repeat_length map_length seq_length.
    split; [done|]. split; [done|]. move=> w x Hx.
    have Hw : (w < length sub)%nat.
    { have : nth_error (map (fun i => mkW (Some 0) (subset_worker_code soft sub full i)) (seq 0 (length sub))) w <> None by rewrite Hx.
      move=> /nth_error_Some. by rewrite map_length seq_length. }
    apply (nth_error_nth _ _ (mkW (Some 0) (subset_worker_code soft sub full 0))) in Hx.
    rewrite (@nth_map_in _ _ _ _ _ 0%nat) ?seq_length // seq_nth // in Hx. subst x. cbn [w_todo w_reg].
    rewrite subset_code_updates. split; [exact: own_flat|].
    rewrite /fin. cbn [w_todo w_reg]. rewrite solo_updates.
    rewrite (nth_indep _ None (Some 0)) ?repeat_length // nth_repeat nadd_0l. cbn [plus].
    rewrite -/(bsum _ _) bsum_Some sum_filter_ite. rewrite /C. f_equal.
    rewrite subset_eq (@nth_map_in _ _ _ _ _ star0) //. }
  rewrite (owned_final (owned_exec sched HO) HF). rewrite /C.
  have -> : map Some (potential_energy_subset soft sub full) =
     map (fun x => Some x) (map (fun a => a) (potential_energy_subset soft sub full)) by rewrite map_id.
  rewrite (list_as_nth _ (potential_energy_subset soft sub full) 0) map_map /potential_energy_subset map_length //.
Qed.

(* ------------------------------------------------ atomic executions of the full computation *)
Definition code (us : list (nat * num)) : list micro := flat_map (fun u => micro_update (fst u) (snd u)) us.
Definition wupdates (soft : R) (l : list star4) (i : nat) : list (nat * num) :=
  flat_map (fun j => let t := pair_term soft (nth i l star0) (nth j l star0) in [(i, t); (j, t)]) (seq (S i) (length l - S i)).
Lemma flat_map_flat_map {A B C} (f : B -> list C) (g : A -> list B) l :
  flat_map f (flat_map g l) = flat_map (fun a => flat_map f (g a)) l.
Proof. elim: l => //= a l IH. by rewrite flat_map_app IH. Qed.
Lemma worker_code_eq soft l i : worker_code soft l i = code (wupdates soft l i).
Proof. rewrite /code /wupdates flat_map_flat_map //. Qed.
Lemma wupdates_all soft l :
  concat (map (wupdates soft l) (seq 0 (length l - 1))) =
  updates (fun i j => pair_term soft (nth i l star0) (nth j l star0)) (length l).
Proof.
  rewrite -flat_map_concat_map /updates /pairs flat_map_flat_map. apply flat_map_ext => i. rewrite /wupdates.
  elim: (seq (S i) (length l - S i)) => //= j js IH. by rewrite IH.
Qed.

Definition upstate (n : nat) (C : nat -> num) (s : shared) : Prop :=
  length (s_pot s) = n /\
  exists uss, map w_todo (s_workers s) = map code uss /\ Forall (Forall (fun u => (fst u < n)%nat)) uss /\
    forall k, (k < n)%nat -> nadd (nth k (s_pot s) None) (bsum (at_ k) (concat uss)) = C k.

Lemma nth_error_map_inv {A B} (f : A -> B) l i y : nth_error (map f l) i = Some y -> exists x, nth_error l i = Some x /\ y = f x.
Proof. rewrite nth_error_map. destruct (nth_error l i) => //=. case=> <-. eexists; by split. Qed.
Lemma map_upd {A B} (g : A -> B) l k f h : (forall x, g (f x) = h (g x)) -> map g (upd l k f) = upd (map g l) k h.
Proof. move=> H. revert k; induction l as [|a l IH] => [|[|k]] //=; [by rewrite H|by rewrite IH]. Qed.

Lemma upd_nth_split {A} (l : list A) k x f : nth_error l k = Some x -> exists l1 l2, l = l1 ++ x :: l2 /\ upd l k f = l1 ++ f x :: l2.
Proof.
  revert k; induction l as [|a l IH] => k; [by destruct k|]. destruct k as [|k] => /=.
  - case=> ->. by exists [], l.
  - move=> H. have [l1 [l2 [E1 E2]]] := IH _ H. exists (a :: l1), l2. by rewrite E2 {1}E1.
Qed.

Lemma upd_const {A} (l : list A) k f g : (forall x, nth_error l k = Some x -> f x = g x) -> upd l k f = upd l k g.
Proof. revert k; induction l as [|a l IH] => [|[|k]] //= H; [by rewrite (H a)|by rewrite (IH _ H)]. Qed.

Lemma upstate_step n C w s : upstate n C s -> upstate n C (step w (step w s)).
Proof.
  move=> [H1 [uss [H2 [H3 H4]]]].
  destruct (nth_error (s_workers s) w) as [[reg todo]|] eqn:E; last first.
  { rewrite {2}/step E /step E. split => //. by exists uss. }
  have Hu : nth_error (map w_todo (s_workers s)) w = Some todo by rewrite nth_error_map E.
  rewrite H2 in Hu. have [us [Eu Et0]] := nth_error_map_inv Hu.
  destruct us as [|[k t] us].
  { subst todo. have Es : step w s = s by rewrite /step E. rewrite !Es. split => //. by exists uss. }
  have Et : todo = Load k :: Store k t :: code us by [].
  subst todo.
  have Hk : (k < n)%nat.
  { rewrite Forall_forall in H3. have := H3 _ (nth_error_In _ _ Eu). rewrite Forall_forall => /(_ (k, t)) /=. apply. by left. }
  have E1 : step w s = mkS (s_pot s) (upd (s_workers s) w (fun _ => mkW (nth k (s_pot s) None) (Store k t :: code us))) by rewrite /step E.
  rewrite E1 /step. cbn [s_workers s_pot]. rewrite nth_error_upd Nat.eqb_refl E. cbn [option_map].
  split; cbn [s_pot s_workers]; [by rewrite upd_length|].
  exists (upd uss w (fun _ => us)).
  have [l1 [l2 [D1 D2]]] := @upd_nth_split _ _ _ _ (fun _ => us) Eu.
  split; [|split].
  - rewrite (@map_upd _ _ w_todo _ _ _ (fun _ => code us)) // (@map_upd _ _ w_todo _ _ _ (fun _ => Store k t :: code us)) //.
    rewrite (@map_upd _ _ code _ _ _ (fun _ => code us)) // -H2. 
    clear. move: (map w_todo (s_workers s)) w. elim => [|a l IH] [|w] //=. by rewrite IH.
  - rewrite D2. rewrite D1 in H3. apply Forall_app in H3 as [H3 H3']. inversion H3' as [|? ? Ha Hb]; subst. inversion Ha; subst.
    apply Forall_app. split => //. by constructor.
  - move=> k' Hk'. rewrite -(H4 k' Hk') D2 D1.
    have B : forall x, bsum (at_ k') (concat (l1 ++ x :: l2)) = nadd (bsum (at_ k') (concat l1)) (nadd (bsum (at_ k') x) (bsum (at_ k') (concat l2))).
    { move=> x. by rewrite concat_app bsum_app /= bsum_app. }
    rewrite !B. have -> : bsum (at_ k') ((k, t) :: us) = nadd (if Nat.eqb k k' then t else Some 0) (bsum (at_ k') us) by [].
    rewrite nth_upd; [by rewrite H1|]. rewrite (Nat.eqb_sym k k').
    destruct (Nat.eqb k' k) eqn:Ek; [|by rewrite nadd_0l].
    apply Nat.eqb_eq in Ek. subst k'. move: (nth k (s_pot s) None) (bsum (at_ k) (concat l1)) (bsum (at_ k) us) (bsum (at_ k) (concat l2)) => p q r v.
    rewrite -!nadd_assoc. f_equal. rewrite !nadd_assoc. f_equal. f_equal. exact: nadd_comm.
Qed.

Lemma code_nil us : code us = [] -> us = []. Proof. by destruct us. Qed.

Lemma parallel_atomic soft l ws :
  let s := execute (flat_map (fun w => [w; w]) ws) (parallel_start soft l) in
  finished s -> s_pot s = potential_energy soft l.
Proof.
  move=> s HF. set t := fun i j => pair_term soft (nth i l star0) (nth j l star0).
  set C := fun k => nadd (Some 0) (bsum (at_ k) (updates t (length l))).
  have HI : upstate (length l) C (parallel_start soft l).
  { split; cbn [s_pot s_workers parallel_start]; [by rewrite repeat_length|].
    exists (map (wupdates soft l) (seq 0 (length l - 1))). split; [|split].
    - rewrite !map_map. apply map_ext => i. cbn [w_todo]. exact: worker_code_eq.
    - apply Forall_forall => us /in_map_iff [i [<- /in_seq Hi]]. apply Forall_forall => u /in_flat_map [j [/in_seq Hj [<-|[<-|[]]]]] /=; lia.
    - move=> k Hk. rewrite wupdates_all. rewrite (nth_indep _ None (Some 0)) ?repeat_length // nth_repeat //. }
  have HE : upstate (length l) C s.
  { rewrite /s /execute. move: (parallel_start soft l) HI. clear. elim: ws => [|w ws IH] s H //=. apply IH. exact: upstate_step. }
  destruct HE as [L [uss [E1 [_ E3]]]].
  have Hn : concat uss = [].
  { have : Forall (fun us => us = []) uss.
    { apply Forall_forall => us Hin. apply code_nil. have : In (code us) (map w_todo (s_workers s)) by rewrite E1; apply in_map.
      move=> /in_map_iff [x [<- Hx]]. rewrite /finished Forall_forall in HF. exact: HF. }
    clear. elim => //= us uss' -> _ ->. by []. }
  apply (nth_ext _ _ None None); [by rewrite potential_energy_length|].
  move=> k Hk. rewrite L in Hk. have := E3 k Hk. rewrite Hn /bsum /= nadd_0r => ->.
  rewrite potential_energy_updates add_all_nth; [exact: updates_bound|].
  by rewrite (nth_indep _ None (Some 0)) ?repeat_length // nth_repeat.
Qed.

(* ------------------------------------------------ the race *)
Definition race_schedule : list nat := [0; 0; 0; 1; 1; 0; 0; 0; 0; 0; 1; 1]%nat.

Lemma parallel_race soft a b c : 0 < fm b -> 0 < fm c -> separated [a; b; c] -> 
  let s := execute race_schedule (parallel_start soft [a; b; c]) in
  finished s /\ s_pot s <> potential_energy soft [a; b; c].
Proof.
  move=> Hb Hc HS.
  have S12 : dist2 b c <> 0 by apply (HS 1%nat 2%nat) => /=; lia.
  have S01 : dist2 a b <> 0 by apply (HS 0%nat 1%nat) => /=; lia.
  have S02 : dist2 a c <> 0 by apply (HS 0%nat 2%nat) => /=; lia.
  split.
  - rewrite /finished. repeat constructor.
  - move=> E. have F : nth 1 (s_pot (execute race_schedule (parallel_start soft [a; b; c]))) None = nth 1 (potential_energy soft [a; b; c]) None by rewrite E.
    move: F. rewrite potential_energy_spec //=; [lia|].
    rewrite /worker_code /= ?(pair_term_sep _ S12) ?(pair_term_sep _ S01) ?(pair_term_sep _ S02) /newton_potential /others /=.
    rewrite /nadd. case => H.
    have P : pair_energy soft b c < 0.
    { rewrite /pair_energy. have D : 0 < dist2 b c + soft ^ 2.
      { have := dist2_nonneg b c. have := pow2_ge_0 soft. have : 0 <= dist2 b c by apply dist2_nonneg. move=> ? ? ?. destruct (Req_dec (dist2 b c) 0) => //. lra. }
      have D' := sqrt_lt_R0 _ D. have M : 0 < fm b * fm c by apply Rmult_lt_0_compat.
      rewrite /Rdiv. have I := Rinv_0_lt_compat _ D'. nra. }
    have Sy : pair_energy soft b a = pair_energy soft a b.
    { by rewrite /pair_energy dist2_sym (Rmult_comm (fm b)). }
    rewrite Sy in H. lra.
Qed.
