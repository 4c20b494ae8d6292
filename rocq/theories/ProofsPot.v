From Verif Require Import Base ModelCluster ModelOps ModelConv ModelEnergy SpecUnits SpecFrame SpecEnergy.
Set Implicit Arguments. Unset Strict Implicit.

Lemma upd_length {A} (l : list A) k f : length (upd l k f) = length l.
Proof. revert k; induction l as [|a l IH] => [|[|k]] //=. by rewrite IH. Qed.
Lemma nth_upd {A} (l : list A) k f j d : (k < length l)%nat ->
  nth j (upd l k f) d = if Nat.eqb j k then f (nth k l d) else nth j l d.
Proof.
  revert k j; induction l as [|a l IH] => k j /=; [lia|]. destruct k as [|k], j as [|j] => //= H. apply IH. lia.
Qed.

Lemma nadd_comm a b : nadd a b = nadd b a.
Proof. destruct a, b => //=. by rewrite Rplus_comm. Qed.
Lemma nadd_assoc a b c : nadd a (nadd b c) = nadd (nadd a b) c.
Proof. destruct a, b, c => //=. by rewrite Rplus_assoc. Qed.
Lemma nadd_0l a : nadd (Some 0) a = a. Proof. destruct a => //=. by rewrite Rplus_0_l. Qed.
Lemma nadd_0r a : nadd a (Some 0) = a. Proof. by rewrite nadd_comm nadd_0l. Qed.

Arguments nadd : simpl never.
Definition nsum (l : list num) : num := fold_right nadd (Some 0) l.
Definition bsum {A} (f : A -> num) (l : list A) : num := nsum (map f l).

Lemma nsum_app l k : nsum (l ++ k) = nadd (nsum l) (nsum k).
Proof. induction l as [|a l IH]; [by rewrite nadd_0l|]. by rewrite /= -!/(nsum _) IH nadd_assoc. Qed.
Lemma bsum_app {A} (f : A -> num) l k : bsum f (l ++ k) = nadd (bsum f l) (bsum f k).
Proof. by rewrite /bsum map_app nsum_app. Qed.
Lemma bsum_flat_map {A B} (f : B -> num) (g : A -> list B) l : bsum f (flat_map g l) = bsum (fun a => bsum f (g a)) l.
Proof. induction l as [|a l IH] => //=. by rewrite bsum_app IH. Qed.
Lemma bsum_ext {A} (f g : A -> num) l : (forall a, In a l -> f a = g a) -> bsum f l = bsum g l.
Proof. move=> H. rewrite /bsum. f_equal. exact: map_ext_in. Qed.
Lemma bsum_0 {A} (l : list A) : bsum (fun _ => Some 0) l = Some 0.
Proof. induction l as [|a l IH] => //=. by rewrite /bsum /= nadd_0l. Qed.
Lemma bsum_add {A} (f g : A -> num) l : bsum (fun a => nadd (f a) (g a)) l = nadd (bsum f l) (bsum g l).
Proof.
  induction l as [|a l IH] => /=; [by rewrite nadd_0l|]. rewrite /bsum /= in IH *. rewrite IH.
  rewrite -!nadd_assoc. f_equal. rewrite !nadd_assoc. f_equal. exact: nadd_comm.
Qed.
Lemma bsum_map {A B} (f : B -> num) (g : A -> B) l : bsum f (map g l) = bsum (fun a => f (g a)) l.
Proof. by rewrite /bsum map_map. Qed.
Lemma bsum_Some {A} (f : A -> R) l : bsum (fun a => Some (f a)) l = Some (sumR (map f l)).
Proof. induction l as [|a l IH] => //. rewrite /bsum /= in IH *. by rewrite IH. Qed.

(* a sequence of updates pot[i] += t *)
Definition addto (pot : list num) (u : nat * num) : list num := upd pot (fst u) (fun p => nadd p (snd u)).
Definition add_all (us : list (nat * num)) (pot : list num) := fold_left addto us pot.
Definition at_ (k : nat) (u : nat * num) : num := if Nat.eqb (fst u) k then snd u else Some 0.

Lemma add_all_length us : forall pot, length (add_all us pot) = length pot.
Proof. induction us as [|u us IH] => pot //. by rewrite /= IH /addto upd_length. Qed.

Lemma add_all_nth us : forall pot k, (forall u, In u us -> (fst u < length pot)%nat) ->
  nth k (add_all us pot) None = nadd (nth k pot None) (bsum (at_ k) us).
Proof.
  induction us as [|u us IH] => pot k H; [by rewrite /bsum /= nadd_0r|].
  have Hu : (fst u < length pot)%nat by apply H; left.
  rewrite /add_all /= -/(add_all us (addto pot u)) IH; last first.
  { rewrite /addto nth_upd // /bsum /= nadd_assoc. f_equal. rewrite /at_ Nat.eqb_sym.
    destruct (Nat.eqb (fst u) k) eqn:E; [apply Nat.eqb_eq in E; by subst|by rewrite nadd_0r]. }
  move=> v Hv. rewrite /addto upd_length. apply H. by right.
Qed.

Lemma nsum_upd pot k t : (k < length pot)%nat -> nsum (upd pot k (fun p => nadd p t)) = nadd (nsum pot) t.
Proof.
  revert k; induction pot as [|p pot IH] => k /=; [lia|]. destruct k as [|k] => /= H.
  - by rewrite -!nadd_assoc (nadd_comm t).
  - rewrite IH; [|by rewrite nadd_assoc]. lia.
Qed.
Lemma add_all_sum us : forall pot, (forall u, In u us -> (fst u < length pot)%nat) ->
  nsum (add_all us pot) = nadd (nsum pot) (bsum snd us).
Proof.
  induction us as [|u us IH] => pot H; [by rewrite /bsum /= nadd_0r|].
  have Hu : (fst u < length pot)%nat by apply H; left.
  rewrite /add_all /= -/(add_all us (addto pot u)) IH; last first.
  { by rewrite /addto nsum_upd // /bsum /= nadd_assoc. }
  move=> v Hv. rewrite /addto upd_length. apply H. by right.
Qed.

(* updates made by the double loop *)
Definition updates (t : nat -> nat -> num) (n : nat) : list (nat * num) :=
  flat_map (fun '(i, j) => [(i, t i j); (j, t i j)]) (pairs n).

Lemma pairs_in n i j : In (i, j) (pairs n) <-> (i < j < n)%nat.
Proof.
  rewrite /pairs in_flat_map. split.
  - move=> [i' [Hi /in_map_iff [j' [[E1 E2] Hj]]]]. subst. apply in_seq in Hi. apply in_seq in Hj. lia.
  - move=> H. exists i. split; [apply in_seq; lia|]. apply in_map_iff. exists j. split => //. apply in_seq. lia.
Qed.
Lemma NoDup_flat_map {A B} (f : A -> list B) l : NoDup l -> (forall a, In a l -> NoDup (f a)) ->
  (forall a b x, In a l -> In b l -> In x (f a) -> In x (f b) -> a = b) -> NoDup (flat_map f l).
Proof.
  induction l as [|a l IH] => /= Hn H1 H2; [constructor|]. inversion Hn; subst.
  have : NoDup (flat_map f l). { apply IH => //. - move=> b Hb; apply H1; by right. - move=> b c x Hb Hc; apply H2; by right. }
  have Ha : NoDup (f a) by apply H1; left.
  have Hd : forall x, In x (f a) -> ~ In x (flat_map f l).
  { move=> x Hx /in_flat_map [b [Hb Hxb]]. have E : a = b by apply (H2 a b x) => //; [by left|by right]. by subst. }
  clear -Ha Hd. induction (f a) as [|x k IHk] => //= Hl. inversion Ha; subst. constructor.
  - move=> /in_app_iff [//|Hx]. apply (Hd x) => //. by left.
  - apply IHk => //. move=> y Hy. apply Hd. by right.
Qed.
Lemma pairs_set n : pair_set n (pairs n).
Proof.
  split; [|exact: pairs_in]. apply NoDup_flat_map.
  - exact: seq_NoDup.
  - move=> i _. apply FinFun.Injective_map_NoDup; [by move=> x y []|exact: seq_NoDup].
  - move=> a b x _ _ /in_map_iff [j [<- _]] /in_map_iff [k [[<- _] _]] //.
Qed.

Lemma filter_all {A} (p : A -> bool) l : (forall a, In a l -> p a = true) -> filter p l = l.
Proof. induction l as [|a l IH] => //= H. rewrite H; [by left|]. f_equal. apply IH => b Hb. apply H. by right. Qed.
Lemma others_split k n : (k < n)%nat -> others k n = seq 0 k ++ seq (S k) (n - S k).
Proof.
  move=> H. rewrite /others. have -> : n = (k + S (n - S k))%nat by lia. rewrite seq_app filter_app.
  rewrite filter_all; [|cbn [seq filter]; rewrite Nat.eqb_refl; cbn [negb]].
  - move=> a /in_seq Ha. apply negb_true_iff, Nat.eqb_neq. lia.
  - rewrite filter_all; [|by have -> : (k + S (n - S k) - S k = n - S k)%nat by lia].
    move=> a /in_seq Ha. apply negb_true_iff, Nat.eqb_neq. lia.
Qed.

Lemma bsum_pick (f : nat -> num) k a n : 
  bsum (fun j => if Nat.eqb j k then f j else Some 0) (seq a n) =
  if Nat.leb a k && Nat.ltb k (a + n) then f k else Some 0.
Proof.
  revert a; induction n as [|n IH] => a /=.
  { destruct (Nat.leb a k) eqn:E => //=. have -> : Nat.ltb k (a + 0) = false => //. apply Nat.ltb_ge. apply Nat.leb_le in E. lia. }
  rewrite /bsum /=. have -> : nsum (map (fun j => if Nat.eqb j k then f j else Some 0) (seq (S a) n)) = bsum (fun j => if Nat.eqb j k then f j else Some 0) (seq (S a) n) by [].
  rewrite IH. destruct (Nat.eqb a k) eqn:E.
  - apply Nat.eqb_eq in E. subst. have -> : Nat.leb (S k) k = false by apply Nat.leb_gt; lia.
    have -> : Nat.leb k k = true by apply Nat.leb_le; lia. have -> : Nat.ltb k (k + S n) = true by apply Nat.ltb_lt; lia.
    by rewrite /= nadd_0r.
  - apply Nat.eqb_neq in E. rewrite nadd_0l. have -> : (S a + n = a + S n)%nat by lia.
    have -> // : Nat.leb (S a) k = Nat.leb a k.
    destruct (Nat.leb a k) eqn:F; [apply Nat.leb_le in F; apply Nat.leb_le; lia|apply Nat.leb_gt in F; apply Nat.leb_gt; lia].
Qed.

Lemma updates_at t n k : (k < n)%nat -> (forall i j, (i < j < n)%nat -> t i j = t j i) ->
  bsum (at_ k) (updates t n) = bsum (t k) (others k n).
Proof.
  move=> Hk Hsym. rewrite /updates /pairs !bsum_flat_map.
  have E : bsum (fun i => bsum (fun a => bsum (at_ k) (let '(i, j) := a in [(i, t i j); (j, t i j)]))
                  (map (fun j => (i, j)) (seq (S i) (n - S i)))) (seq 0 n) = bsum (t k) (others k n).
  2:{ rewrite -E. have -> : n = (S (n - 1))%nat by lia. rewrite seq_S bsum_app /=.
      have -> : (n - 1 - 0 = n - 1)%nat by lia. rewrite /bsum /=. rewrite Nat.sub_diag /= !nadd_0r //. }
  have F : forall i, (i < n)%nat -> bsum (fun a => bsum (at_ k) (let '(i, j) := a in [(i, t i j); (j, t i j)]))
                  (map (fun j => (i, j)) (seq (S i) (n - S i))) =
           nadd (if Nat.eqb i k then bsum (t k) (seq (S k) (n - S k)) else Some 0) (if Nat.ltb i k then t k i else Some 0).
  { move=> i Hi. rewrite bsum_map.
    rewrite (@bsum_ext _ _ (fun j => nadd (if Nat.eqb i k then t k j else Some 0) (if Nat.eqb j k then t i j else Some 0))).
    { move=> j _. rewrite /bsum /= /at_ /= nadd_0r. f_equal. destruct (Nat.eqb i k) eqn:E => //. apply Nat.eqb_eq in E; by subst. }
    rewrite bsum_add. f_equal.
    - destruct (Nat.eqb i k) eqn:E; [apply Nat.eqb_eq in E; by subst|exact: bsum_0].
    - rewrite (bsum_pick (t i)). have -> : (S i + (n - S i) = n)%nat by lia.
      have -> : Nat.ltb k n = true by apply Nat.ltb_lt. rewrite andb_true_r.
      change (Nat.leb (S i) k) with (Nat.ltb i k). destruct (Nat.ltb i k) eqn:E => //. apply Nat.ltb_lt in E. apply Hsym. lia. }
  rewrite (@bsum_ext _ _ (fun i => nadd (if Nat.eqb i k then bsum (t k) (seq (S k) (n - S k)) else Some 0) (if Nat.ltb i k then t k i else Some 0))).
  { move=> i /in_seq Hi. apply F. lia. }
  rewrite bsum_add (bsum_pick (fun _ => bsum (t k) (seq (S k) (n - S k)))).
  have -> : Nat.leb 0 k && Nat.ltb k (0 + n) = true by rewrite /=; apply Nat.ltb_lt.
  rewrite others_split // bsum_app nadd_comm. f_equal.
  have -> : n = (k + (n - k))%nat by lia. rewrite seq_app bsum_app.
  rewrite (@bsum_ext _ _ (fun _ => Some 0) (seq (0 + k) _)).
  { move=> i /in_seq Hi. have -> // : Nat.ltb i k = false. apply Nat.ltb_ge. lia. }
  rewrite bsum_0 nadd_0r. apply bsum_ext => i /in_seq Hi. have -> // : Nat.ltb i k = true. apply Nat.ltb_lt. lia.
Qed.

(* ------------------------------------------------ distances *)
Lemma dist2_nonneg a b : 0 <= dist2 a b.
Proof. rewrite /dist2. have := pow2_ge_0 (fx a - fx b). have := pow2_ge_0 (fy a - fy b). have := pow2_ge_0 (fz a - fz b). lra. Qed.
Lemma distance_sq a b : distance a b ^ 2 = dist2 a b.
Proof.
  rewrite /distance. have -> : forall x, x ^ 2 = x * x by move=> x; ring.
  rewrite sqrt_sqrt; [have := dist2_nonneg a b; rewrite /dist2; lra|rewrite /dist2; ring].
Qed.
Lemma distance_sqrt a b : distance a b = sqrt (dist2 a b).
Proof. rewrite /distance /dist2. f_equal. ring. Qed.
Lemma dist2_sym a b : dist2 a b = dist2 b a. Proof. rewrite /dist2; ring. Qed.
Lemma distance_zero a b : distance a b = 0 <-> dist2 a b = 0.
Proof.
  rewrite distance_sqrt. split => H; [|by rewrite H sqrt_0].
  apply sqrt_eq_0 in H => //. exact: dist2_nonneg.
Qed.
Lemma pair_term_sym soft a b : pair_term soft a b = pair_term soft b a.
Proof. rewrite /pair_term !distance_sqrt (dist2_sym a b) (Rmult_comm (fm a)) //. Qed.
Lemma pair_term_sep soft a b : dist2 a b <> 0 -> pair_term soft a b = Some (pair_energy soft a b).
Proof.
  move=> H. rewrite /pair_term. destruct (Reqb _ 0) eqn:E; [apply Reqb_spec in E; by apply distance_zero in E|].
  by rewrite distance_sq.
Qed.

Section PE.
Variables (soft : R) (l : list star4).
Let n := length l.
Let t i j := pair_term soft (nth i l star0) (nth j l star0).

Lemma potential_energy_updates : potential_energy soft l = add_all (updates t n) (repeat (Some 0) n).
Proof.
  rewrite /potential_energy /updates -/n. generalize (repeat (Some 0) n). induction (pairs n) as [|[i j] ps IH] => pot //=.
Qed.
Lemma updates_bound : forall u, In u (updates t n) -> (fst u < length (repeat (Some 0%R) n))%nat.
Proof.
  move=> u /in_flat_map [[i j] [/pairs_in H [<-|[<-|[]]]]]; rewrite repeat_length /=; lia.
Qed.
Lemma potential_energy_length : length (potential_energy soft l) = n.
Proof. by rewrite potential_energy_updates add_all_length repeat_length. Qed.

Lemma potential_energy_num k : (k < n)%nat ->
  nth k (potential_energy soft l) None = bsum (t k) (others k n).
Proof.
  move=> Hk. rewrite potential_energy_updates add_all_nth; [exact updates_bound|].
  rewrite updates_at //; [move=> i j _; exact: pair_term_sym|].
  rewrite (nth_indep _ None (Some 0)); [by rewrite repeat_length|]. by rewrite nth_repeat nadd_0l.
Qed.

Lemma potential_energy_spec k : separated l -> (k < n)%nat ->
  nth k (potential_energy soft l) None = Some (newton_potential soft l k).
Proof.
  move=> HS Hk. rewrite potential_energy_num // /newton_potential -bsum_Some. apply bsum_ext => j Hj.
  apply filter_In in Hj as [Hj1 Hj2]. apply in_seq in Hj1. apply negb_true_iff, Nat.eqb_neq in Hj2.
  apply pair_term_sep. apply HS => //; lia.
Qed.

Lemma potential_energy_all : separated l ->
  potential_energy soft l = map (fun k => Some (newton_potential soft l k)) (seq 0 n).
Proof.
  move=> HS. apply (nth_ext _ _ None None); [by rewrite potential_energy_length map_length seq_length|].
  rewrite potential_energy_length => k Hk. rewrite potential_energy_spec //.
  rewrite (nth_indep _ None (Some (newton_potential soft l 0))) ?map_length ?seq_length //.
  rewrite (map_nth (fun k => Some (newton_potential soft l k)) (seq 0 n) 0%nat k) seq_nth //.
Qed.

Lemma others_nil_bsum f k x : In x (others k n) -> f x = None -> bsum f (others k n) = None.
Proof.
  rewrite /bsum. generalize (others k n). elim => [//|a k' IH] /= [->|H] E.
  - by rewrite E.
  - rewrite (IH H E). by destruct (f a).
Qed.
Lemma potential_energy_nan k j : (k < n)%nat -> (j < n)%nat -> k <> j -> dist2 (nth k l star0) (nth j l star0) = 0 ->
  nth k (potential_energy soft l) None = None.
Proof.
  move=> Hk Hj Hne H0. rewrite potential_energy_num //. apply (@others_nil_bsum _ _ j).
  - apply filter_In. split; [apply in_seq; lia|]. apply negb_true_iff, Nat.eqb_neq. congruence.
  - rewrite /t /pair_term. have -> // : Reqb (distance (nth k l star0) (nth j l star0)) 0 = true.
    apply Reqb_spec. by apply distance_zero.
Qed.

Lemma potential_energy_total : separated l ->
  sumR (map (newton_potential soft l) (seq 0 n)) =
  2 * sumR (map (fun '(i, j) => pair_energy soft (nth i l star0) (nth j l star0)) (pairs n)).
Proof.
  move=> HS.
  have E1 : nsum (potential_energy soft l) = Some (sumR (map (newton_potential soft l) (seq 0 n))).
  { rewrite potential_energy_all //. exact: bsum_Some. }
  have E2 : nsum (potential_energy soft l) = bsum snd (updates t n).
  { rewrite potential_energy_updates add_all_sum; [exact updates_bound|].
    have -> : forall m, nsum (repeat (Some 0) m) = Some 0. { elim => // m IH. by rewrite /= -/(nsum _) IH nadd_0l. }
    by rewrite nadd_0l. }
  have E3 : bsum snd (updates t n) = Some (2 * sumR (map (fun '(i, j) => pair_energy soft (nth i l star0) (nth j l star0)) (pairs n))).
  { rewrite /updates bsum_flat_map.
    have -> : 2 * sumR (map (fun '(i, j) => pair_energy soft (nth i l star0) (nth j l star0)) (pairs n)) =
              sumR (map (fun p => let '(i, j) := p in 2 * pair_energy soft (nth i l star0) (nth j l star0)) (pairs n)).
    { rewrite Rmult_comm -sumR_map_mul map_map. f_equal. apply map_ext => [[i j]]. ring. }
    rewrite -bsum_Some. apply bsum_ext => [[i j]] /pairs_in H. rewrite /bsum /= /t pair_term_sep; [|rewrite /nadd; f_equal; ring].
    apply HS; rewrite -/n; lia. }
  move: E1. rewrite E2 E3. case. by move=> ->.
Qed.
End PE.

(* ------------------------------------------------ subset computation *)
Lemma subset_eq soft sub full :
  potential_energy_subset soft sub full =
  map (fun a => sumR (map (fun b => if Reqb (dist2 a b) 0 then 0 else pair_energy soft a b) full)) sub.
Proof.
  rewrite /potential_energy_subset. apply map_ext => a.
  have H : forall p, fold_left (fun p b => if Reqb (distance a b) 0 then p else p + - (fm a * fm b) / sqrt (distance a b ^ 2 + soft ^ 2)) full p
    = p + sumR (map (fun b => if Reqb (dist2 a b) 0 then 0 else pair_energy soft a b) full).
  { elim: full => [|b full IH] p; cbn [fold_left map sumR]; [lra|]. rewrite IH.
    have -> : Reqb (distance a b) 0 = Reqb (dist2 a b) 0.
    { destruct (Reqb (dist2 a b) 0) eqn:E; [apply Reqb_spec in E; apply Reqb_spec; by apply distance_zero|].
      apply Reqb_false in E. apply Reqb_false. move=> X; apply E; by apply distance_zero. }
    destruct (Reqb (dist2 a b) 0); [lra|]. rewrite distance_sq /pair_energy. lra. }
  by rewrite H Rplus_0_l.
Qed.

Lemma sumR_map_split (f : nat -> R) k n : (k < n)%nat -> sumR (map f (seq 0 n)) = f k + sumR (map f (others k n)).
Proof.
  move=> H. rewrite others_split // map_app sumR_app.
  have -> : seq 0 n = seq 0 k ++ k :: seq (S k) (n - S k).
  { have -> : n = (k + S (n - S k))%nat by lia. rewrite seq_app /=. by have -> : (k + S (n - S k) - S k = n - S k)%nat by lia. }
  rewrite map_app sumR_app /=. lra.
Qed.

Lemma list_as_nth {A B} (f : A -> B) (l : list A) d : map f l = map (fun j => f (nth j l d)) (seq 0 (length l)).
Proof.
  induction l as [|a l IH] => //=. f_equal. rewrite IH -seq_shift map_map //.
Qed.

Lemma subset_member soft l k : separated l -> (k < length l)%nat ->
  sumR (map (fun b => if Reqb (dist2 (nth k l star0) b) 0 then 0 else pair_energy soft (nth k l star0) b) l) = newton_potential soft l k.
Proof.
  move=> HS Hk. rewrite (list_as_nth _ l star0) (sumR_map_split _ Hk).
  have -> : Reqb (dist2 (nth k l star0) (nth k l star0)) 0 = true by apply Reqb_spec; rewrite /dist2; ring.
  rewrite Rplus_0_l. rewrite /newton_potential. f_equal. apply map_ext_in => j Hj.
  apply filter_In in Hj as [Hj1 Hj2]. apply in_seq in Hj1. apply negb_true_iff, Nat.eqb_neq in Hj2.
  have -> // : Reqb (dist2 (nth k l star0) (nth j l star0)) 0 = false. apply Reqb_false. apply HS => //; lia.
Qed.

Lemma subset_all soft l : separated l ->
  potential_energy_subset soft l l = map (newton_potential soft l) (seq 0 (length l)).
Proof.
  move=> HS. rewrite subset_eq (list_as_nth _ l star0). apply map_ext_in => k /in_seq Hk. apply subset_member => //. lia.
Qed.

Lemma subset_select soft mask l : separated l -> length mask = length l ->
  potential_energy_subset soft (select mask l) l = select mask (map (newton_potential soft l) (seq 0 (length l))).
Proof. move=> HS Hm. rewrite -subset_all // /potential_energy_subset select_map //. Qed.

(* ------------------------------------------------ translations and dilations *)
Lemma newton_ext soft l l' k : length l' = length l ->
  (forall i j, (i < length l)%nat -> (j < length l)%nat ->
     pair_energy soft (nth i l' star0) (nth j l' star0) = pair_energy soft (nth i l star0) (nth j l star0)) ->
  (k < length l)%nat -> newton_potential soft l' k = newton_potential soft l k.
Proof.
  move=> HL H Hk. rewrite /newton_potential HL. f_equal. apply map_ext_in => j Hj.
  apply filter_In in Hj as [Hj _]. apply in_seq in Hj. apply H; lia.
Qed.
Lemma nth_map_in {A B} (f : A -> B) l i d d' : (i < length l)%nat -> nth i (map f l) d' = f (nth i l d).
Proof. move=> H. rewrite (nth_indep _ d' (f d)); [by rewrite map_length|]. exact: map_nth. Qed.

Lemma newton_translate soft d l k : (k < length l)%nat ->
  newton_potential soft (map (translate d) l) k = newton_potential soft l k.
Proof.
  move=> Hk. apply newton_ext => //; [by rewrite map_length|]. move=> i j Hi Hj.
  rewrite !(@nth_map_in _ _ _ _ _ star0) //. rewrite /pair_energy /dist2 /translate. destruct d as [[x y] z]. cbn [fx fy fz fm].
  congr (_ / sqrt (_ + _)). ring.
Qed.
Lemma newton_dilate soft s m l k : 0 < s -> (k < length l)%nat -> 
  newton_potential (s * soft) (map (dilate s m) l) k = m ^ 2 / s * newton_potential soft l k.
Proof.
  move=> Hs Hk. rewrite /newton_potential map_length [RHS]Rmult_comm -sumR_map_mul map_map. f_equal.
  apply map_ext_in => j Hj. apply filter_In in Hj as [Hj _]. apply in_seq in Hj.
  rewrite !(@nth_map_in _ _ _ _ _ star0); try lia. rewrite /pair_energy.
  set a := nth k l star0. set b := nth j l star0.
  have -> : dist2 (dilate s m a) (dilate s m b) + (s * soft) ^ 2 = (s * s) * (dist2 a b + soft ^ 2) by rewrite /dist2 /=; ring.
  have Hn : 0 <= dist2 a b + soft ^ 2 by have := dist2_nonneg a b; have := pow2_ge_0 soft; lra.
  rewrite sqrt_mult //; [nra|]. rewrite sqrt_square; [lra|]. cbn [fm dilate].
  set r := sqrt _. destruct (Req_dec r 0) as [->|Hr]; [by rewrite Rmult_0_r /Rdiv Rinv_0; ring|]. field. lra.
Qed.
Lemma separated_translate d l : separated l -> separated (map (translate d) l).
Proof.
  move=> H i j. rewrite map_length => Hi Hj Hne. rewrite !(@nth_map_in _ _ _ _ _ star0) //.
  move=> E. apply (H i j) => //. rewrite -E /dist2 /translate. destruct d as [[x y] z] => /=. ring.
Qed.
