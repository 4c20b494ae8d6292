From Coq Require Import Sorted.
From Verif Require Import Base ModelCluster ModelRecipes SpecOrder ProofsOrder SpecRecipes ProofsRecipes ProofsRecipes2.
Set Implicit Arguments. Unset Strict Implicit.

(* ------------------------------------------------ minimum_distance *)
Lemma distance_euclid p q : distance p q = euclid p q.
Proof. destruct p as [[? ?] ?], q as [[? ?] ?]. rewrite /distance /euclid /=. f_equal. ring. Qed.
Lemma euclid_sym p q : euclid p q = euclid q p.
Proof. rewrite /euclid. f_equal. ring. Qed.
Lemma euclid_pos p q : 0 <= euclid p q. Proof. apply sqrt_pos. Qed.
Lemma euclid_self p : euclid p p = 0.
Proof. rewrite /euclid !Rminus_diag_eq //. rewrite /= !Rmult_0_l !Rplus_0_l. exact sqrt_0. Qed.

Lemma put_length {A} (l : list A) i a : length (put l i a) = length l.
Proof. revert i; induction l as [|b l IH]; destruct i => //=. by rewrite IH. Qed.
Lemma nth_put {A} (l : list A) i a j d : (i < length l)%nat -> nth j (put l i a) d = if Nat.eqb j i then a else nth j l d.
Proof.
  revert i j; induction l as [|b l IH]; move=> [|i] [|j] //= H; try lia.
  apply IH; lia.
Qed.

Definition partner (S : list (nat * nat)) i j := In (i, j) S \/ In (j, i) S.
Definition md_inv (x : list point) (S : list (nat * nat)) (md : list R) : Prop :=
  length md = length x /\ forall i, (i < length x)%nat ->
    ((forall j, ~ partner S i j) /\ nth i md 0 = -1) \/
    ((exists j, partner S i j /\ nth i md 0 = euclid (nth i x origin3) (nth j x origin3)) /\
     forall j, partner S i j -> nth i md 0 <= euclid (nth i x origin3) (nth j x origin3)).

Lemma relax_length md i r : length (relax md i r) = length md. Proof. apply put_length. Qed.
Lemma relax_nth md i r j : (i < length md)%nat -> nth j (relax md i r) 0 =
  if Nat.eqb j i then (if Rlt_dec (nth i md 0) 0 then r else Rmin (nth i md 0) r) else nth j md 0.
Proof. move=> H. by rewrite /relax nth_put. Qed.

Lemma md_step x S md i j : (i < j)%nat -> (j < length x)%nat -> md_inv x S md ->
  let r := distance (nth i x origin3) (nth j x origin3) in
  md_inv x ((i, j) :: S) (relax (relax md i r) j r).
Proof.
  move=> Hij Hj [L H] r. split; [by rewrite !relax_length|].
  have Er : r = euclid (nth i x origin3) (nth j x origin3) := distance_euclid _ _.
  have rp : 0 <= r by rewrite Er; apply euclid_pos.
  have upd : forall k p, (k < length x)%nat -> euclid (nth k x origin3) (nth p x origin3) = r ->
    (forall q, partner ((i, j) :: S) k q <-> q = p \/ partner S k q) ->
    let v := if Rlt_dec (nth k md 0) 0 then r else Rmin (nth k md 0) r in
    (exists q, partner ((i, j) :: S) k q /\ v = euclid (nth k x origin3) (nth q x origin3)) /\
    (forall q, partner ((i, j) :: S) k q -> v <= euclid (nth k x origin3) (nth q x origin3)).
  { move=> k p Hk Ep Hp v. rewrite /v. destruct (H k Hk) as [[N E]|[[q [Pq Eq]] B]].
    - rewrite E. destruct (Rlt_dec (-1) 0); [|lra]. split.
      + exists p. split; [by apply Hp; left|done].
      + move=> q /Hp [->|Q]; [lra|by case: (N q)].
    - destruct (Rlt_dec (nth k md 0) 0) as [Q|_].
      { have := euclid_pos (nth k x origin3) (nth q x origin3). lra. }
      split.
      + rewrite /Rmin. destruct (Rle_dec (nth k md 0) r).
        * exists q. split; [by apply Hp; right|done].
        * exists p. split; [by apply Hp; left|done].
      + move=> s /Hp [->|Q]; [rewrite Ep; apply Rmin_r|]. have := B s Q. have := Rmin_l (nth k md 0) r. lra. }
  move=> k Hk. rewrite relax_nth; first by rewrite relax_length L.
  rewrite !relax_nth; try (rewrite ?relax_length L; lia).
  destruct (Nat.eqb_spec k j) as [->|Nj].
  - destruct (Nat.eqb_spec j i) as [?|_]; [lia|]. right.
    apply (upd j i Hj); [by rewrite euclid_sym|]. move=> q. rewrite /partner /=. split.
    + move=> [[[? ?]|?]|[[?]|?]]; try lia; auto.
    + move=> [->|[?|?]]; auto.
  - destruct (Nat.eqb_spec k i) as [->|Ni].
    + right. apply (upd i j); [lia|done|]. move=> q. rewrite /partner /=. split.
      * move=> [[[?]|?]|[[? ?]|?]]; try lia; auto.
      * move=> [->|[?|?]]; auto.
    + have Pk : forall q, partner ((i, j) :: S) k q <-> partner S k q.
      { move=> q. rewrite /partner /=. split; [|tauto]. move=> [[[? ?]|?]|[[? ?]|?]]; try congruence; auto. }
      destruct (H k Hk) as [[N E]|[[q [Pq Eq]] B]]; [left|right].
      * split => // q /Pk. exact (N q).
      * split; [exists q; split => //; by apply Pk|]. move=> s /Pk. exact (B s).
Qed.

Lemma md_inner x i : forall l S md, (forall j, In j l -> (i < j < length x)%nat) -> md_inv x S md ->
  exists S', md_inv x S' (fold_left (fun md j =>
      let r := distance (nth i x origin3) (nth j x origin3) in relax (relax md i r) j r) l md) /\
    forall p, In p S' <-> In p S \/ exists j, In j l /\ p = (i, j).
Proof.
  induction l as [|j l IH] => S md Hl I.
  - exists S. split => // p. split; [by left|]. by move=> [?|[? [[] _]]].
  - cbn [fold_left]. have [H1 H2] := Hl j ltac:(by left).
    have [S' [I' E]] := IH ((i, j) :: S) _ (fun q Q => Hl q ltac:(by right)) (md_step H1 H2 I).
    exists S'. split => // p. rewrite E /=. split.
    + move=> [[<-|?]|[q [? ?]]]; [right; exists j; auto|by left|right; exists q; auto].
    + move=> [?|[q [[->|?] ->]]]; [by left; right|by left; left|right; exists q; auto].
Qed.

Lemma md_outer x : forall l S md, (forall i, In i l -> (i < length x)%nat) -> md_inv x S md ->
  exists S', md_inv x S' (fold_left (fun md i => fold_left (fun md j =>
      let r := distance (nth i x origin3) (nth j x origin3) in relax (relax md i r) j r) (seq (Datatypes.S i) (length x - Datatypes.S i)) md) l md) /\
    forall p, In p S' <-> In p S \/ exists i j, In i l /\ (i < j < length x)%nat /\ p = (i, j).
Proof.
  induction l as [|i l IH] => S md Hl I.
  - exists S. split => // p. split; [by left|]. by move=> [?|[? [? [[] _]]]].
  - cbn [fold_left].
    have [S1 [I1 E1]] := @md_inner x i (seq (Datatypes.S i) (length x - Datatypes.S i)) S md (fun j Q => ltac:(apply in_seq in Q; lia)) I.
    have [S' [I' E]] := IH S1 _ (fun q Q => Hl q ltac:(by right)) I1.
    exists S'. split => // p. rewrite E E1. split.
    + move=> [[?|[j [/in_seq ? ?]]]|[a [b [? [? ?]]]]]; [by left|right; exists i, j; split; [by left|split => //; lia]|right; exists a, b; split => //; by right].
    + move=> [?|[a [b [[->|?] [? ->]]]]]; [by left; left|left; right; exists b; split => //; apply in_seq; lia|right; exists a, b; auto].
Qed.

Theorem minimum_distance_nearest x : (1 < length x)%nat ->
  length (minimum_distance x) = length x /\
  forall i, (i < length x)%nat -> nearest euclid origin3 x i (nth i (minimum_distance x) 0).
Proof.
  move=> Hn. rewrite /minimum_distance.
  have I0 : md_inv x [] (repeat (-1) (length x)).
  { split; [by rewrite repeat_length|]. move=> i Hi. left. split; [by move=> j [[]|[]]|].
    apply (repeat_spec (length x) (-1)). apply nth_In. by rewrite repeat_length. }
  have [S [[L H] E]] := @md_outer x (seq 0 (length x - 1)) [] _ (fun i Q => ltac:(apply in_seq in Q; lia)) I0.
  split => // i Hi.
  have P : forall j, partner S i j <-> (j < length x)%nat /\ j <> i.
  { move=> j. rewrite /partner !E. split.
    - move=> [[[]|[a [b [? [? [-> ->]]]]]]|[[]|[a [b [? [? [-> ->]]]]]]]; lia.
    - move=> [Hj Nj]. destruct (Nat.lt_total i j) as [Q|[Q|Q]]; [left|lia|right]; right.
      + exists i, j. split; [apply in_seq; lia|]. split => //; lia.
      + exists j, i. split; [apply in_seq; lia|]. split => //; lia. }
  destruct (H i Hi) as [[N _]|[[j [Pj Ej]] B]].
  - exfalso. destruct (Nat.eq_dec i 0) as [->|Ni]; [apply (N 1%nat)|apply (N 0%nat)]; apply P; lia.
  - split; [exists j; apply P in Pj as [? ?]; auto|]. move=> k Hk Nk. apply B, P; auto.
Qed.
Theorem minimum_distance_one p : minimum_distance [p] = [-1].
Proof. done. Qed.

(* ------------------------------------------------ closest_star *)
Lemma kd_second_nearest x i : (1 < length x)%nat -> (i < length x)%nat ->
  nearest euclid origin3 x i (kd_second x (nth i x origin3)).
Proof.
  move=> Hn Hi. rewrite /kd_second.
  have -> : map (distance (nth i x origin3)) x = map (euclid (nth i x origin3)) x by apply map_ext => q; apply distance_euclid.
  set p := nth i x origin3. set D := map (euclid p) x.
  have LD : length D = length x by rewrite /D map_length.
  have nD : forall k, (k < length x)%nat -> nth k D 0 = euclid p (nth k x origin3) by move=> k Hk; rewrite /D (@nth_map' _ _ _ x k 0 origin3).
  have [P S] := argsort_sorted D. have Lo : length (argsort D) = length x by rewrite (Permutation_length P) seq_length LD.
  have Io : forall k, (k < length x)%nat -> (nth k (argsort D) 0 < length x)%nat.
  { move=> k Hk. have : In (nth k (argsort D) 0%nat) (seq 0 (length D)) by apply (Permutation_in _ P), nth_In; lia.
    move=> /in_seq. lia. }
  have ND : NoDup (argsort D) by apply (Permutation_NoDup (Permutation_sym P)), seq_NoDup.
  have Pos : forall j, (j < length x)%nat -> exists k, (k < length x)%nat /\ nth k (argsort D) 0%nat = j.
  { move=> j Hj. have : In j (argsort D) by apply (Permutation_in _ (Permutation_sym P)), in_seq; lia.
    move=> /(In_nth _ _ 0%nat) [k [? ?]]. exists k. split => //; lia. }
  have Sort : forall k l, (k < l < length x)%nat -> nth (nth k (argsort D) 0%nat) D 0 <= nth (nth l (argsort D) 0%nat) D 0.
  { move=> k l [? ?]. apply (SS_nth 0%nat S); lia. }
  rewrite /sortR /take (@nth_map' _ _ _ (argsort D) 1 0 0%nat); first lia.
  set a := nth 0 (argsort D) 0%nat. set b := nth 1 (argsort D) 0%nat.
  have Ha : (a < length x)%nat by apply Io; lia. have Hb : (b < length x)%nat by apply Io; lia.
  have Nab : a <> b.
  { move=> E. have := proj1 (NoDup_nth (argsort D) 0%nat) ND 0%nat 1%nat. rewrite Lo. move=> /(_ ltac:(lia) ltac:(lia) E). lia. }
  have Di : nth i D 0 = 0 by rewrite nD // euclid_self.
  have Dp : forall k, (k < length x)%nat -> 0 <= nth k D 0 by move=> k Hk; rewrite nD //; apply euclid_pos.
  rewrite /nearest -/p. destruct (Nat.eq_dec a i) as [Ea|Na].
  - split; [exists b; split => //; split; [lia|by rewrite nD]|].
    move=> j Hj Nj. have [k [Hk Ek]] := Pos j Hj. rewrite -nD // -Ek.
    have Nk0 : k <> 0%nat by move=> Z; subst k; apply Nj; rewrite -Ek.
    destruct (Nat.eq_dec k 1) as [->|N1]; [rewrite -/b; lra|]. apply Sort; lia.
  - have [k [Hk Ek]] := Pos i Hi.
    have Nk0 : k <> 0%nat by move=> Z; subst k; apply Na.
    have B0 : nth b D 0 = 0.
    { have : nth b D 0 <= nth i D 0; [|have := Dp b Hb; lra].
      rewrite -Ek. destruct (Nat.eq_dec k 1) as [->|N1]; [rewrite -/b; lra|]. apply Sort; lia. }
    have A0 : nth a D 0 = 0 by have := Sort 0%nat 1%nat ltac:(lia); rewrite -/a -/b; have := Dp a Ha; lra.
    rewrite B0. split; [|move=> j Hj _; rewrite -nD //; by apply Dp].
    exists a. split => //. split => //. by rewrite -nD.
Qed.


Theorem closest_star_nearest projected c :
  let s := p_s (c_ph c) in let n := length (sx s) in
  length (sy s) = n -> length (sz s) = n -> (1 < n)%nat -> ~ (c_units c = Some Uradec /\ c_origin c = Some Osky) ->
  exists d, closest_star projected c = Some d /\ length d = n /\
  forall i, (i < n)%nat -> nearest euclid origin3 (map (star_position projected c) (seq 0 n)) i (nth i d 0).
Proof.
  move=> s n Ly Lz Hn Nr. rewrite /closest_star -/s.
  set pts := zip_with _ _ _.
  have Ep : pts = map (star_position projected c) (seq 0 n).
  { have Lp : length pts = n by rewrite /pts zip_with_length combine_length Ly; destruct projected; rewrite ?map_length ?Lz -/n; lia.
    apply (nth_ext _ _ origin3 origin3); [by rewrite Lp map_length seq_length|]. rewrite Lp => i Hi.
    rewrite nth_map_seq // Nat.add_0_l /star_position -/s.
    have zn : forall (f : R * R -> R -> point) l h k, (k < length l)%nat -> (k < length h)%nat ->
       nth k (zip_with f l h) origin3 = f (nth k l (0, 0)) (nth k h 0).
    { clear. move=> f l; induction l as [|c l IH]; move=> [|d h] [|k] /=; try lia; move=> Q1 Q2 //; apply IH; lia. }
    have Li : length (if projected then map (fun _ => 0) (sx s) else sz s) = n by destruct projected; rewrite ?map_length.
    rewrite /pts zn ?combine_length ?Ly -/n ?Nat.min_id ?Li // combine_nth // /=. f_equal.
    destruct projected => //. by rewrite (@nth_map' _ _ _ (sx s) i 0 0). }
  have L : length pts = n by rewrite Ep map_length seq_length.
  exists (map (kd_second pts) pts). split.
  { destruct (c_units c) as [[]|], (c_origin c) as [[]|] => //. by case: Nr. }
  split; [by rewrite map_length|]. move=> i Hi. rewrite -Ep (@nth_map' _ _ _ pts i 0 origin3) ?L //.
  apply kd_second_nearest; rewrite L //.
Qed.

(* ------------------------------------------------ interpolate *)
Theorem interpolate_line x1 y1 x2 y2 : x1 <> x2 ->
  interpolate (x1, y1) (x2, y2) (Some x1) None = y1 /\ interpolate (x1, y1) (x2, y2) (Some x2) None = y2 /\
  forall x, y1 <> y2 -> interpolate (x1, y1) (x2, y2) None (Some (interpolate (x1, y1) (x2, y2) (Some x) None)) = x.
Proof.
  move=> N. rewrite /interpolate. split; [field; lra|]. split; [field; lra|].
  move=> x Ny. field. lra.
Qed.
Theorem interpolate_affine x1 y1 x2 y2 s x : x1 <> x2 -> x = x1 + s * (x2 - x1) ->
  interpolate (x1, y1) (x2, y2) (Some x) None = y1 + s * (y2 - y1).
Proof. move=> N ->. rewrite /interpolate. field; lra. Qed.

(* ------------------------------------------------ mean_prof, smooth *)
Lemma flat_map_nil {A B} (f : A -> list B) l : (forall a, In a l -> f a = []) -> flat_map f l = [].
Proof. induction l as [|a l IH] => // H /=. rewrite H; [by left|]. apply IH => b I; apply H; by right. Qed.
Lemma div_le_one a d : 0 < d -> d <= a -> 1 <= a / d.
Proof. move=> Hd H. apply (Rmult_le_reg_r d) => //. have -> : a / d * d = a by field; lra. lra. Qed.

Definition group (lo hi : list R) (k : nat) (x y : list R) : list R :=
  map snd (filter (fun p => Z.eqb (bin_index1 hi (fst p)) (Z.of_nat k)) (combine x y)).

Lemma in_group_group x y lo hi k : in_group (bin_index x lo hi) k y = group lo hi k x y.
Proof.
  rewrite /in_group /group /bin_index. revert y. induction x as [|a x IH]; move=> [|b y] //=.
  destruct (Z.eqb _ _) => /=; by rewrite IH.
Qed.
Lemma group_length x y lo hi k : length x = length y ->
  length (group lo hi k x y) = length (filter (fun v => Z.eqb (bin_index1 hi v) (Z.of_nat k)) x).
Proof.
  rewrite /group map_length. revert y. induction x as [|a x IH]; move=> [|b y] //= [L].
  destruct (Z.eqb _ _) => /=; by rewrite IH.
Qed.

Lemma group_values x y lo hi k : adjacent lo hi -> spans x lo hi -> length x = length y -> (k < length lo)%nat ->
  values_where (in_bin lo hi k) x y (group lo hi k x y).
Proof.
  move=> Ad Sp L Hk.
  exists (filter (fun p => Z.eqb (bin_index1 hi (fst p)) (Z.of_nat k)) (combine x y)),
         (filter (fun p => negb (Z.eqb (bin_index1 hi (fst p)) (Z.of_nat k))) (combine x y)).
  have Ix : forall p, In p (combine x y) -> In (fst p) x by move=> [a b] I; apply (in_combine_l _ _ _ _ I).
  split; [apply filter_split|]. split; [|split => //].
  - apply filter_Forall => p I E. apply (bin_index_iff Ad Sp k (Ix p I)). exact E.
  - apply filter_Forall => p I /negb_true_iff E B. have := proj2 (bin_index_iff Ad Sp k (Ix p I)) B. congruence.
Qed.

Lemma perm_groups {A} (f : A -> nat) (x : list A) K : (forall v, In v x -> (f v < K)%nat) ->
  Permutation (flat_map (fun b => filter (fun v => Nat.eqb (f v) b) x) (seq 0 K)) x.
Proof.
  revert x. induction K as [|K IH] => x H.
  - destruct x as [|a x] => //=. have := H a ltac:(by left). lia.
  - rewrite seq_S flat_map_app /= app_nil_r.
    rewrite [X in Permutation _ X](filter_split (fun v => Nat.ltb (f v) K) x).
    apply Permutation_app.
    + rewrite -[X in Permutation _ X](IH (filter (fun v => Nat.ltb (f v) K) x)); last first.
      * have E : forall s, (forall b, In b s -> (b < K)%nat) -> flat_map (fun b => filter (fun v => Nat.eqb (f v) b) x) s =
          flat_map (fun b => filter (fun v => Nat.eqb (f v) b) (filter (fun v => Nat.ltb (f v) K) x)) s; last first.
        { rewrite E // => b /in_seq; lia. }
        clear. induction s as [|b s IHs] => Hs //=. rewrite IHs; [by move=> c I; apply Hs; right|]. f_equal.
        have Hb := Hs b ltac:(by left). clear -Hb. induction x as [|a x IH] => //=.
        destruct (Nat.eqb_spec (f a) b) as [E|N].
        -- destruct (Nat.ltb_spec (f a) K); [|lia]. cbn [filter]. destruct (Nat.eqb_spec (f a) b) => //. by rewrite IH.
        -- destruct (Nat.ltb_spec (f a) K) => //. cbn [filter]. destruct (Nat.eqb_spec (f a) b) => //.
      * move=> v /filter_In [_ /Nat.ltb_lt]. done.
    + have -> : filter (fun v => Nat.eqb (f v) K) x = filter (fun v => negb (Nat.ltb (f v) K)) x; [|done].
      apply filter_ext_in' => v I. have := H v I. destruct (Nat.eqb_spec (f v) K), (Nat.ltb_spec (f v) K) => //=; lia.
Qed.

Lemma groups_all x y lo hi : adjacent lo hi -> spans x lo hi -> length x = length y ->
  Permutation (flat_map (fun k => group lo hi k x y) (seq 0 (length lo))) y.
Proof.
  move=> Ad Sp L.
  have -> : flat_map (fun k => group lo hi k x y) (seq 0 (length lo)) =
    map snd (flat_map (fun b => filter (fun p => Nat.eqb (Z.to_nat (bin_index1 hi (fst p))) b) (combine x y)) (seq 0 (length lo))).
  { elim: (seq 0 (length lo)) => //= b s IH. rewrite map_app IH. f_equal. rewrite /group. f_equal.
    apply filter_ext_in' => [[v w] I]. cbn [fst]. have [k [-> _]] := in_bin_of Ad Sp (in_combine_l _ _ _ _ I). rewrite Nat2Z.id.
    destruct (Nat.eqb_spec k b); [subst; apply Z.eqb_refl|apply Z.eqb_neq; lia]. }
  rewrite perm_groups; last first.
  - have -> : map snd (combine x y) = y; [|done]. clear Ad Sp; revert y L; induction x as [|a x IH]; move=> [|b y] //= [L]. by rewrite IH.
  - move=> [v w] I. cbn [fst]. have [k [-> [H _]]] := in_bin_of Ad Sp (in_combine_l _ _ _ _ I). by rewrite Nat2Z.id.
Qed.

Lemma np_mean_average l : np_mean l = average l. Proof. done. Qed.
Lemma np_std_deviation l : np_std l = deviation l.
Proof.
  rewrite /np_std /deviation !np_mean_average. f_equal. f_equal. apply map_ext => a. by rewrite pow2_abs.
Qed.
Lemma deviation_one a : deviation [a] = 0.
Proof.
  rewrite /deviation. cbn [map]. rewrite /average /= !Rplus_0_r /Rdiv Rinv_1 !Rmult_1_r.
  have -> : (a - a) * (a - a) = 0 by ring. exact sqrt_0.
Qed.
Lemma average_one a : average [a] = a. Proof. rewrite /average /=; field. Qed.

Lemma profile_row_ok mid g : profile_row (length g) mid g = match g with [] => [] | _ => [(mid, average g, deviation g)] end.
Proof.
  destruct g as [|a [|b t]] => //=; first by rewrite average_one deviation_one.
  by rewrite np_mean_average np_std_deviation.
Qed.


Lemma own_bins_ok x nbin bt st : x <> [] -> (0 < nbin)%nat -> (bt = Num -> ~ constant x) -> (bt = Fix -> st = Log -> all_positive x) ->
  exists b, own_bins x nbin bt st = Ok b /\ adjacent (b_lo b) (b_hi b) /\ spans x (b_lo b) (b_hi b) /\
   describes x (b_lo b) (b_hi b) (b_hist b) (b_sum b) /\ (length (b_lo b) <= nbin)%nat.
Proof.
  move=> Nx Hb H1 H2. destruct bt.
  - have [b [E [Ad [Sp [L [D _]]]]]] := nbinmaker_partition Nx (H1 eq_refl) Hb. exists b. auto.
  - have [b [E [L [Ad [Sp [D _]]]]]] := @binmaker_partition x nbin st Nx Hb (fun e => H2 eq_refl e). exists b.
    do 4 split => //. by rewrite L.
Qed.

Theorem mean_prof_correct x y nbin bt st : x <> [] -> length x = length y -> (0 < nbin)%nat ->
  (bt = Num -> ~ constant x) -> (bt = Fix -> st = Log -> all_positive x) ->
  exists b groups, own_bins x nbin bt st = Ok b /\ length groups = length (b_lo b) /\
    (forall k, (k < length (b_lo b))%nat -> values_where (in_bin (b_lo b) (b_hi b) k) x y (nth k groups [])) /\
    Permutation (concat groups) y /\
    mean_prof x y nbin bt st = Ok (flat_map (fun k => match nth k groups [] with [] => [] | g => [(nth k (b_mid b) 0, average g, deviation g)] end)
                                            (seq 0 (length (b_lo b)))).
Proof.
  move=> Nx L Hb H1 H2. have [b [E [Ad [Sp [D Lb]]]]] := own_bins_ok Nx Hb H1 H2.
  exists b, (map (fun k => group (b_lo b) (b_hi b) k x y) (seq 0 (length (b_lo b)))).
  split => //. split; [by rewrite map_length seq_length|]. split; last split.
  - move=> k Hk. rewrite nth_map_seq //. by apply group_values.
  - rewrite -flat_map_concat_map. by apply groups_all.
  - rewrite /mean_prof E bincount_ok //. f_equal.
    rewrite !flat_map_concat_map. f_equal. apply map_ext_in => k /in_seq [_ Hk]. rewrite !nth_map_seq // in_group_group Nat.add_0_l.
    rewrite -(@group_length x y (b_lo b)) // profile_row_ok. by destruct (group _ _ _ _ _).
Qed.

Lemma smooth_row_ok mid g : smooth_row (length g) mid g =
  match g with [] => [] | a :: t => [((mid, average g, deviation g), (fold_left Rmin t a, fold_left Rmax t a))] end.
Proof.
  destruct g as [|a [|b t]] => //=; first by rewrite average_one deviation_one.
  by rewrite np_mean_average np_std_deviation.
Qed.

Theorem smooth_correct x y dx bt : x <> [] -> length x = length y -> 0 < dx -> ~ constant x ->
  (exists m M, least x m /\ greatest x M /\ dx <= M - m) ->
  exists nbin b groups, own_bins x nbin bt Linear = Ok b /\ (0 < nbin)%nat /\
    (exists m M, least x m /\ greatest x M /\ INR nbin * dx <= M - m < INR nbin * dx + dx) /\
    length groups = length (b_lo b) /\
    (forall k, (k < length (b_lo b))%nat -> values_where (in_bin (b_lo b) (b_hi b) k) x y (nth k groups [])) /\
    exists rows, smooth x y dx bt = Ok rows /\
      Forall2 (fun row kg => let '((xb, yb, ys), (ymin, ymax)) := row in
          xb = nth (fst kg) (b_mid b) 0 /\ yb = average (snd kg) /\ ys = deviation (snd kg) /\
          least (snd kg) ymin /\ greatest (snd kg) ymax)
        rows (filter (fun kg => match snd kg with [] => false | _ => true end) (combine (seq 0 (length groups)) groups)).
Proof.
  move=> Nx L Hd Nc [m [M [Lm [GM Hw]]]].
  have Em : amin x = Some m.
  { destruct (amin x) as [m'|] eqn:E; last by destruct x. by rewrite (least_unique (amin_least E) Lm). }
  have EM : amax x = Some M.
  { destruct (amax x) as [m'|] eqn:E; last by destruct x. by rewrite (greatest_unique (amax_greatest E) GM). }
  set nbin := trunc ((M - m) / dx).
  have [B1 B2] : INR nbin * dx <= M - m < INR nbin * dx + dx.
  { have [Q1 Q2] := base_Int_part ((M - m) / dx).
    have P : 1 <= (M - m) / dx by apply div_le_one.
    have Ip : (0 <= Int_part ((M - m) / dx))%Z.
    { have : (-1 < Int_part ((M - m) / dx))%Z; [|lia]. apply lt_IZR. rewrite /=. lra. }
    have -> : INR nbin = IZR (Int_part ((M - m) / dx)) by rewrite /nbin /trunc INR_IZR_INZ Z2Nat.id.
    have e : M - m = (M - m) / dx * dx by field; lra.
    split.
    - rewrite [X in _ <= X]e. apply Rmult_le_compat_r; lra.
    - rewrite [X in X < _]e. have := Rmult_lt_compat_r dx ((M - m) / dx) (IZR (Int_part ((M - m) / dx)) + 1) Hd ltac:(lra). lra. }
  have Hb : (0 < nbin)%nat.
  { destruct nbin as [|n]; [|lia]. simpl in B2. lra. }
  have [b [E [Ad [Sp [D Lb]]]]] := @own_bins_ok x nbin bt Linear Nx Hb (fun _ => Nc) ltac:(done).
  set groups := map (fun k => group (b_lo b) (b_hi b) k x y) (seq 0 (length (b_lo b))).
  have Lg : length groups = length (b_lo b) by rewrite map_length seq_length.
  exists nbin, b, groups. split => //. split => //. split; [by exists m, M|]. split => //. split.
  { move=> k Hk. rewrite nth_map_seq //. by apply group_values. }
  have Hh : forall k, (k < length (b_lo b))%nat -> nth k (b_hist b) 0%nat = length (group (b_lo b) (b_hi b) k x y).
  { move=> k Hk. have [_ [_ Q]] := D. have [C _] := Q k Hk. rewrite group_length //.
    apply (counts_det C). apply counts_filter => v I. exact: (bin_index_iff Ad Sp). }
  rewrite /smooth Em EM -/nbin E. eexists; split; [reflexivity|].
  (* bins beyond the last are empty *)
  have -> : nbin = (length (b_lo b) + (nbin - length (b_lo b)))%nat by lia.
  rewrite seq_app flat_map_app Nat.add_0_l.
  have -> : flat_map (fun i => smooth_row (nth i (b_hist b) 0%nat) (nth i (b_mid b) 0) (in_group (bin_index x (b_lo b) (b_hi b)) i y))
     (seq (length (b_lo b)) (nbin - length (b_lo b))) = [].
  { apply flat_map_nil => i /in_seq [Hi _]. rewrite in_group_group /group filter_none //.
    move=> [v w] I. cbn [fst]. have [k [-> [H _]]] := in_bin_of Ad Sp (in_combine_l _ _ _ _ I). apply Z.eqb_neq; lia. }
  rewrite app_nil_r Lg.
  have G : forall s, (forall k, In k s -> (k < length (b_lo b))%nat) ->
    Forall2 (fun row kg => let '((xb, yb, ys), (ymin, ymax)) := row in
          xb = nth (fst kg) (b_mid b) 0 /\ yb = average (snd kg) /\ ys = deviation (snd kg) /\
          least (snd kg) ymin /\ greatest (snd kg) ymax)
      (flat_map (fun i => smooth_row (nth i (b_hist b) 0%nat) (nth i (b_mid b) 0) (in_group (bin_index x (b_lo b) (b_hi b)) i y)) s)
      (filter (fun kg => match snd kg with [] => false | _ => true end) (combine s (map (fun k => group (b_lo b) (b_hi b) k x y) s))).
  { induction s as [|k s IH] => Hs //=. rewrite in_group_group Hh ?smooth_row_ok; first by apply Hs; left.
    have IH' := IH (fun q Q => Hs q (or_intror Q)).
    destruct (group (b_lo b) (b_hi b) k x y) as [|a t] eqn:Eg; [exact IH'|].
    cbn [app]. constructor; [|exact IH']. cbn [fst snd]. do 3 split => //. split; [apply fold_min|apply fold_max]. }
  apply G => k /in_seq [_ H]. done.
Qed.
