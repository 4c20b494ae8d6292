From Coq Require Import Sorted.
From Verif Require Import Base ModelCluster ModelRecipes SpecOrder ProofsOrder SpecRecipes.
Set Implicit Arguments. Unset Strict Implicit.

(* ------------------------------------------------ counting *)
Lemma filter_split {A} (b : A -> bool) l :
  Permutation l (filter b l ++ filter (fun v => negb (b v)) l).
Proof.
  induction l as [|a l IH] => //=. destruct (b a) => /=; [by apply perm_skip|].
  by apply Permutation_cons_app.
Qed.
Lemma filter_Forall {A} (b : A -> bool) (P : A -> Prop) l :
  (forall v, In v l -> b v = true -> P v) -> Forall P (filter b l).
Proof. move=> H; apply Forall_forall => v /filter_In [I E]. exact (H v I E). Qed.

Lemma counts_filter (P : R -> Prop) b x : (forall v, In v x -> b v = true <-> P v) ->
  counts P x (length (filter b x)).
Proof.
  move=> H. exists (filter b x), (filter (fun v => negb (b v)) x).
  split; [apply filter_split|]. split; [apply filter_Forall => v I; apply H, I|]. split => //.
  apply filter_Forall => v I /negb_true_iff E /(proj2 (H v I)). congruence.
Qed.
Lemma totals_filter (P : R -> Prop) b x : (forall v, In v x -> b v = true <-> P v) ->
  totals P x (sumR (filter b x)).
Proof.
  move=> H. exists (filter b x), (filter (fun v => negb (b v)) x).
  split; [apply filter_split|]. split; [apply filter_Forall => v I; apply H, I|]. split => //.
  apply filter_Forall => v I /negb_true_iff E /(proj2 (H v I)). congruence.
Qed.

Lemma natsum_add {A} (f g : A -> nat) l :
  natsum (map (fun b => (f b + g b)%nat) l) = (natsum (map f l) + natsum (map g l))%nat.
Proof. induction l as [|a l IH] => //=. rewrite IH; lia. Qed.
Lemma natsum_one k s n : (s <= k < s + n)%nat ->
  natsum (map (fun b => if Nat.eqb k b then 1%nat else 0%nat) (seq s n)) = 1%nat.
Proof.
  revert s; induction n as [|n IH] => s H /=; [lia|].
  destruct (Nat.eqb_spec k s) as [->|N]; last first.
  { rewrite IH; lia. }
  have -> : natsum (map (fun b => if Nat.eqb s b then 1%nat else 0%nat) (seq (S s) n)) = 0%nat; [|lia].
  have: forall t, (s < t)%nat -> natsum (map (fun b => if Nat.eqb s b then 1%nat else 0%nat) (seq t n)) = 0%nat; last by apply; lia.
  clear. induction n as [|n IH] => t L //=. destruct (Nat.eqb_spec s t); [lia|]. rewrite IH; lia.
Qed.
Lemma natsum_class {A} (f : A -> nat) x K : (forall v, In v x -> (f v < K)%nat) ->
  natsum (map (fun b => length (filter (fun v => Nat.eqb (f v) b) x)) (seq 0 K)) = length x.
Proof.
  induction x as [|a x IH] => H /=.
  - induction (seq 0 K) => //=.
  - rewrite -[X in _ = S X]IH; first by move=> v I; apply H; right.
    have -> : map (fun b => length (if Nat.eqb (f a) b then a :: filter (fun v => Nat.eqb (f v) b) x else filter (fun v => Nat.eqb (f v) b) x)) (seq 0 K)
       = map (fun b => ((if Nat.eqb (f a) b then 1 else 0) + length (filter (fun v => Nat.eqb (f v) b) x))%nat) (seq 0 K).
    { apply map_ext => b. by destruct (Nat.eqb _ _). }
    rewrite natsum_add natsum_one //. split; [lia|]. rewrite Nat.add_0_l; apply H; by left.
Qed.

Lemma filter_map_swap {A B} (g : B -> bool) (f : A -> B) l :
  filter g (map f l) = map f (filter (fun a => g (f a)) l).
Proof. induction l as [|a l IH] => //=. destruct (g (f a)) => /=; by rewrite IH. Qed.

Lemma filter_ext_in' {A} (f g : A -> bool) l : (forall a, In a l -> f a = g a) -> filter f l = filter g l.
Proof.
  induction l as [|a l IH] => // H /=. rewrite (H a); [by left|]. rewrite IH //. move=> b I; apply H; by right.
Qed.

(* ------------------------------------------------ bins *)
Lemma adj_hi lo hi : adjacent lo hi -> forall j k, (k <= j)%nat -> (j < length lo)%nat -> nth k hi 0 <= nth j hi 0.
Proof.
  move=> [L [N [W A]]] j. induction j as [|j IH] => k Hk Hj.
  - have -> : k = 0%nat by lia. lra.
  - destruct (Nat.eq_dec k (S j)) as [->|Nk]; [lra|].
    have H1 := IH k ltac:(lia) ltac:(lia). have := W (S j) Hj. rewrite (A j Hj). lra.
Qed.
Lemma adj_lo lo hi : adjacent lo hi -> forall j k, (k < j)%nat -> (j < length lo)%nat -> nth k hi 0 <= nth j lo 0.
Proof.
  move=> Ad j k Hk Hj. destruct j as [|j]; [lia|].
  have [L [N [W A]]] := Ad. rewrite (A j Hj). apply (adj_hi Ad); lia.
Qed.
Lemma in_bin_unique lo hi k j v : adjacent lo hi -> in_bin lo hi k v -> in_bin lo hi j v -> k = j.
Proof.
  move=> Ad.
  have W : forall a b, (a < b)%nat -> in_bin lo hi a v -> in_bin lo hi b v -> False.
  { move=> a b Lt [La [Ha Ha']] [Lb [Hb _]]. have := adj_lo Ad Lt Lb.
    destruct Ha' as [Q|[Q _]]; [lra|lia]. }
  move=> Hk Hj. destruct (Nat.lt_trichotomy k j) as [X|[X|X]] => //.
  - case: (W _ _ X Hk Hj).
  - case: (W _ _ X Hj Hk).
Qed.

Lemma ss_prefix hi v : (forall i j, (i <= j)%nat -> (j < length hi)%nat -> nth i hi 0 <= nth j hi 0) ->
  forall i, (i < length hi)%nat -> nth i hi 0 <= v <-> (i < searchsorted_right hi v)%nat.
Proof.
  induction hi as [|a hi IH] => S i Li /=; [simpl in Li; lia|].
  have S' : forall i j, (i <= j)%nat -> (j < length hi)%nat -> nth i hi 0 <= nth j hi 0.
  { move=> p q Hpq Hq. apply (S (Datatypes.S p) (Datatypes.S q)); simpl; lia. }
  rewrite /searchsorted_right /=. destruct (Rleb a v) eqn:E => /=.
  - apply Rleb_spec in E. destruct i as [|i]; [split => _; [lia|done]|].
    have -> : (Datatypes.S i < Datatypes.S (length (filter (fun e => Rleb e v) hi)))%nat <-> (i < searchsorted_right hi v)%nat
      by rewrite /searchsorted_right; lia.
    apply IH => //. simpl in Li; lia.
  - apply Rleb_false in E.
    have Z : length (filter (fun e => Rleb e v) hi) = 0%nat.
    { destruct hi as [|b hi]; [done|].
      destruct (Nat.eq_dec (length (filter (fun e => Rleb e v) (b :: hi))) 0) as [?|Nz] => //.
      have /(IH S' 0%nat ltac:(simpl; lia)) /= : (0 < searchsorted_right (b :: hi) v)%nat
        by rewrite /searchsorted_right; lia.
      have /= := S 0%nat 1%nat ltac:(lia) ltac:(simpl; lia). lra. }
    rewrite Z. split; [|lia]. move=> H. have /= := S 0%nat i ltac:(lia) Li. lra.
Qed.

Lemma ss_le hi v : (searchsorted_right hi v <= length hi)%nat.
Proof. rewrite /searchsorted_right. induction hi as [|a hi IH] => //=. destruct (Rleb a v) => /=; lia. Qed.

Lemma bin_index_correct lo hi v : adjacent lo hi -> nth 0 lo 0 <= v <= nth (length hi - 1) hi 0 ->
  exists k, bin_index1 hi v = Z.of_nat k /\ in_bin lo hi k v.
Proof.
  move=> Ad [Hlo Hhi]. have [L [N [W A]]] := Ad.
  have Lp : (0 < length hi)%nat by rewrite -L; destruct lo => //=; lia.
  have SS := @ss_prefix hi v (fun i j Hij Hj => adj_hi Ad Hij (eq_ind_r (fun n => (j < n)%nat) Hj L)).
  have Le := ss_le hi v.
  destruct (Nat.eq_dec (searchsorted_right hi v) (length hi)) as [E|Ne].
  - exists (length hi - 1)%nat. split; [rewrite /bin_index1 E; lia|].
    split; [lia|]. have Hv : nth (length hi - 1) hi 0 <= v by apply SS; lia.
    split; [have := W (length hi - 1)%nat ltac:(lia); lra|right; split; [lia|lra]].
  - exists (searchsorted_right hi v). split; [rewrite /bin_index1; lia|].
    move: (searchsorted_right hi v) Ne Le SS => k Ne Le SS.
    split; [lia|]. split.
    + destruct k as [|k'] => //. rewrite A; first lia. apply SS; lia.
    + left. apply Rnot_le_lt => /SS. lia.
Qed.

Lemma mask_in_bin lo hi k v : length lo = length hi -> (forall k, (k < length lo)%nat -> nth k lo 0 <= nth k hi 0) ->
  (k < length lo)%nat -> mask_bin lo hi k v = true <-> in_bin lo hi k v.
Proof.
  move=> L W Hk. rewrite /mask_bin /in_bin. destruct (Nat.ltb_spec k (length lo - 1)) as [Lt|Ge].
  - rewrite /half_open andb_true_iff Rleb_spec Rltb_spec. split; [by move=> [? ?]; auto|].
    move=> [_ [? [?|[? ?]]]]; [done|lia].
  - rewrite /closed andb_true_iff !Rleb_spec. split.
    + move=> [? ?]; do 2 split => //. destruct (Req_dec v (nth k hi 0)); [right; split; [lia|done]|left; lra].
    + have := W k Hk. move=> ? [_ [? [?|[? ->]]]]; split; lra.
Qed.

Lemma masked_describes x lo hi : length lo = length hi -> (forall k, (k < length lo)%nat -> nth k lo 0 <= nth k hi 0) ->
  describes x lo hi (masked_hist x lo hi) (masked_sum x lo hi).
Proof.
  move=> L W. rewrite /describes /masked_hist /masked_sum !map_length seq_length. do 2 split => //.
  move=> k Hk.
  rewrite (nth_indep _ 0%nat (length (filter (mask_bin lo hi 0%nat) x))); [by rewrite map_length seq_length|].
  rewrite (nth_indep _ 0 (sumR (filter (mask_bin lo hi 0%nat) x))); [by rewrite map_length seq_length|].
  rewrite (map_nth (fun j => length (filter (mask_bin lo hi j) x))) (map_nth (fun j => sumR (filter (mask_bin lo hi j) x))).
  rewrite seq_nth //=. split; [apply counts_filter|apply totals_filter] => v _; exact: mask_in_bin.
Qed.

Lemma in_bin_of lo hi x : adjacent lo hi -> spans x lo hi -> forall v, In v x ->
  exists k, bin_index1 hi v = Z.of_nat k /\ in_bin lo hi k v.
Proof. move=> Ad [[_ H0] [_ H1]] v I. apply bin_index_correct => //. split; [by apply H0|by apply H1]. Qed.

Lemma bin_index_iff lo hi x : adjacent lo hi -> spans x lo hi -> forall v k, In v x ->
  Z.eqb (bin_index1 hi v) (Z.of_nat k) = true <-> in_bin lo hi k v.
Proof.
  move=> Ad Sp v k I. have [j [E B]] := in_bin_of Ad Sp I. rewrite E Z.eqb_eq. split.
  - move=> /Nat2Z.inj <- //.
  - move=> B'. by rewrite (in_bin_unique Ad B B').
Qed.

Lemma combine_map_filter (g : R -> Z) (b : Z) x :
  map snd (filter (fun p => Z.eqb (fst p) b) (combine (map g x) x)) = filter (fun v => Z.eqb (g v) b) x.
Proof. induction x as [|a x IH] => //=. destruct (Z.eqb (g a) b) => /=; by rewrite IH. Qed.

Lemma bincount_ok x lo hi : adjacent lo hi -> spans x lo hi ->
  bincount (bin_index x lo hi) (length lo) =
  Some (map (fun b => length (filter (fun v => Z.eqb (bin_index1 hi v) (Z.of_nat b)) x)) (seq 0 (length lo))).
Proof.
  move=> Ad Sp. rewrite /bincount /bin_index.
  have -> : existsb (fun i => Z.ltb i 0) (map (bin_index1 hi) x) = false.
  { apply not_true_is_false => /existsb_exists [i [/in_map_iff [v [<- I]] /Z.ltb_lt]].
    have [k [-> _]] := in_bin_of Ad Sp I. lia. }
  f_equal. apply map_ext => b. by rewrite filter_map_swap map_length.
Qed.

Lemma index_describes x lo hi : adjacent lo hi -> spans x lo hi -> forall hist,
  bincount (bin_index x lo hi) (length lo) = Some hist ->
  describes x lo hi hist (wbincount (bin_index x lo hi) x (length lo)).
Proof.
  move=> Ad Sp hist. rewrite bincount_ok // => [[<-]].
  rewrite /describes /wbincount !map_length seq_length. do 2 split => //. move=> k Hk.
  set f := (fun b => length _). set g := (fun b => sumR _).
  rewrite (nth_indep _ 0%nat (f 0%nat)); [by rewrite map_length seq_length|].
  rewrite (nth_indep _ 0 (g 0%nat)); [by rewrite map_length seq_length|].
  rewrite (map_nth f) (map_nth g) seq_nth //=. rewrite /f /g /bin_index combine_map_filter.
  split; [apply counts_filter|apply totals_filter] => v I; exact: (bin_index_iff Ad Sp).
Qed.

Lemma index_total x lo hi hist : adjacent lo hi -> spans x lo hi ->
  bincount (bin_index x lo hi) (length lo) = Some hist -> natsum hist = length x.
Proof.
  move=> Ad Sp. rewrite bincount_ok // => [[<-]].
  rewrite -[RHS](@natsum_class _ (fun v => Z.to_nat (bin_index1 hi v)) x (length lo)); last first.
  - f_equal. apply map_ext => b. f_equal. apply filter_ext_in' => v I.
    have [k [-> _]] := in_bin_of Ad Sp I. rewrite Nat2Z.id.
    destruct (Nat.eqb_spec k b); [subst; apply Z.eqb_refl|apply Z.eqb_neq; lia].
  - move=> v I. have [k [-> [H _]]] := in_bin_of Ad Sp I. rewrite Nat2Z.id //.
Qed.

Lemma masked_total x lo hi : adjacent lo hi -> spans x lo hi -> natsum (masked_hist x lo hi) = length x.
Proof.
  move=> Ad Sp. have [L [N [W A]]] := Ad.
  have E := bincount_ok Ad Sp. rewrite -(index_total Ad Sp E). f_equal. rewrite /masked_hist.
  apply map_ext_in => j /in_seq [_ Hj]. f_equal. apply filter_ext_in' => v I.
  have H1 := mask_in_bin v L W Hj. have H2 := bin_index_iff Ad Sp j I.
  destruct (mask_bin lo hi j v), (Z.eqb (bin_index1 hi v) (Z.of_nat j)) => //.
  - have := proj2 H2 (proj1 H1 eq_refl); congruence.
  - have := proj2 H1 (proj1 H2 eq_refl); congruence.
Qed.

(* ------------------------------------------------ extrema *)
Lemma fold_max a t : greatest (a :: t) (fold_left Rmax t a).
Proof.
  have [M [m1 m2]] : (fold_left Rmax t a = a \/ In (fold_left Rmax t a) t) /\ a <= fold_left Rmax t a /\
    (forall v, In v t -> v <= fold_left Rmax t a).
  { revert a; induction t as [|b t IH] => a /=; [split; [by left|split => //; lra]|].
    have [A [B C]] := IH (Rmax a b). split; last split.
    - destruct A as [A|A]; [|by right; right]. rewrite A. rewrite /Rmax. destruct (Rle_dec a b); [right; by left|by left].
    - have := Rmax_l a b; lra.
    - move=> v [<-|I]; [have := Rmax_r a b; lra|by apply C]. }
  split; [destruct M as [->|?]; [by left|by right]|]. move=> v [<-|I] //. by apply m2.
Qed.
Lemma fold_min a t : least (a :: t) (fold_left Rmin t a).
Proof.
  have [M [m1 m2]] : (fold_left Rmin t a = a \/ In (fold_left Rmin t a) t) /\ fold_left Rmin t a <= a /\
    (forall v, In v t -> fold_left Rmin t a <= v).
  { revert a; induction t as [|b t IH] => a /=; [split; [by left|split => //; lra]|].
    have [A [B C]] := IH (Rmin a b). split; last split.
    - destruct A as [A|A]; [|by right; right]. rewrite A. rewrite /Rmin. destruct (Rle_dec a b); [by left|right; by left].
    - have := Rmin_l a b; lra.
    - move=> v [<-|I]; [have := Rmin_r a b; lra|by apply C]. }
  split; [destruct M as [->|?]; [by left|by right]|]. move=> v [<-|I] //. by apply m2.
Qed.
Lemma amax_greatest x M : amax x = Some M -> greatest x M.
Proof. destruct x => //= [[<-]]. apply fold_max. Qed.
Lemma amin_least x m : amin x = Some m -> least x m.
Proof. destruct x => //= [[<-]]. apply fold_min. Qed.
Lemma greatest_unique x a b : greatest x a -> greatest x b -> a = b.
Proof. move=> [I H] [I' H']. have := H _ I'. have := H' _ I. lra. Qed.
Lemma least_unique x a b : least x a -> least x b -> a = b.
Proof. move=> [I H] [I' H']. have := H _ I'. have := H' _ I. lra. Qed.

(* ------------------------------------------------ sorting *)
Lemma sortR_perm x : Permutation (sortR x) x.
Proof.
  rewrite /sortR /take. have [P _] := argsort_sorted x.
  rewrite (Permutation_map (fun i => nth i x 0) P).
  clear. induction x as [|a x IH] => //=. rewrite -seq_shift map_map. by apply perm_skip.
Qed.
Lemma sortR_length x : length (sortR x) = length x.
Proof. apply Permutation_length, sortR_perm. Qed.
Lemma SS_nth {A} (Rel : A -> A -> Prop) d l : StronglySorted Rel l ->
  forall i j, (i < j)%nat -> (j < length l)%nat -> Rel (nth i l d) (nth j l d).
Proof.
  induction 1 as [|a l S IH F] => i j Hij Hj; [simpl in Hj; lia|].
  destruct j as [|j]; [lia|]. destruct i as [|i] => /=.
  - move: F => /Forall_forall; apply. apply nth_In. simpl in Hj; lia.
  - apply IH; simpl in Hj; lia.
Qed.
Lemma sortR_mono x i j : (i <= j)%nat -> (j < length x)%nat -> nth i (sortR x) 0 <= nth j (sortR x) 0.
Proof.
  move=> Hij Hj. destruct (Nat.eq_dec i j) as [->|N]; [lra|].
  have [P S] := argsort_sorted x. have La : length (argsort x) = length x by rewrite (Permutation_length P) seq_length.
  rewrite /sortR /take.
  rewrite !(nth_indep (map _ _) 0 ((fun i => nth i x 0) 0%nat)); try (rewrite map_length La; lia).
  rewrite !(map_nth (fun i => nth i x 0)). apply (SS_nth 0%nat S); lia.
Qed.
Lemma sortR_first x : x <> [] -> least x (nth 0 (sortR x) 0).
Proof.
  move=> Nx. have Lx : (0 < length x)%nat by destruct x => //=; lia. split.
  - apply (Permutation_in _ (sortR_perm x)). apply nth_In. rewrite sortR_length; lia.
  - move=> v I. have I' : In v (sortR x) by apply (Permutation_in _ (Permutation_sym (sortR_perm x))).
    have [j [Hj <-]] := In_nth _ _ 0 I'. rewrite sortR_length in Hj. apply sortR_mono; lia.
Qed.
Lemma sortR_last x : x <> [] -> greatest x (nth (length x - 1) (sortR x) 0).
Proof.
  move=> Nx. have Lx : (0 < length x)%nat by destruct x => //=; lia. split.
  - apply (Permutation_in _ (sortR_perm x)). apply nth_In. rewrite sortR_length; lia.
  - move=> v I. have I' : In v (sortR x) by apply (Permutation_in _ (Permutation_sym (sortR_perm x))).
    have [j [Hj <-]] := In_nth _ _ 0 I'. rewrite sortR_length in Hj. apply sortR_mono; lia.
Qed.
Lemma sortR_in x i : (i < length x)%nat -> In (nth i (sortR x) 0) x.
Proof. move=> H. apply (Permutation_in _ (sortR_perm x)). apply nth_In. by rewrite sortR_length. Qed.

(* ------------------------------------------------ nbinmaker *)
Definition increasing (lo hi : list R) := forall k, (k < length lo)%nat -> nth k lo 0 < nth k hi 0.

Fixpoint chain (a : R) (l : list R) : Prop := match l with [] => True | b :: t => a <= b /\ chain b t end.

Lemma drop_degenerate L M : forall a, chain a (L ++ [M]) ->
  let lo0 := a :: L in let hi0 := L ++ [M] in
  let lo := select (nondegenerate lo0 hi0) lo0 in let hi := select (nondegenerate lo0 hi0) hi0 in
  length lo = length hi /\ a <= M /\ (lo = [] <-> a = M) /\ increasing lo hi /\
  (lo <> [] -> nth 0 lo 0 = a /\ nth (length hi - 1) hi 0 = M) /\
  (forall k, (S k < length lo)%nat -> nth (S k) lo 0 = nth k hi 0) /\
  (forall v, In v lo -> In v lo0).
Proof.
  induction L as [|b L IH] => a /= Hc.
  - destruct Hc as [Hc _]. destruct (Reqb a M) eqn:E => /=.
    + apply Reqb_spec in E. do 3 split => //. split; [move=> k; simpl; lia|]. split => //. split => // k; simpl; lia.
    + apply Reqb_false in E. split => //. split => //. split; [split => //|].
      split; [move=> [|k] /= H; [lra|lia]|]. split => //. split; [move=> k; simpl; lia|]. by move=> v [->|[]]; left.
  - destruct Hc as [Hab Hc]. pose proof (IH b Hc) as E. cbv zeta in E.
    set lo := select (nondegenerate (b :: L) (L ++ [M])) (b :: L) in E |- *.
    set hi := select (nondegenerate (b :: L) (L ++ [M])) (L ++ [M]) in E |- *.
    destruct E as [E1 [E2 [E3 [E4 [E5 [E6 E7]]]]]].
    destruct (Reqb a b) eqn:E => /=.
    + apply Reqb_spec in E. subst b. do 6 (split => //). move=> v /E7 /= I. right; exact I.
    + apply Reqb_false in E. split; [by rewrite E1|]. split; [lra|]. split; [split => //; lra|].
      split; [move=> [|k] /= H; [lra|apply E4; lia]|].
      split; [move=> _; split => //|split].
      * destruct hi as [|h hi]; simpl in *.
        { destruct lo => //. exact (proj1 E3 eq_refl). }
        have Nl : lo <> [] by move=> Z; rewrite Z in E1.
        destruct (E5 Nl) as [_ <-]. by rewrite Nat.sub_0_r.
      * move=> [|k] H; [|apply E6; lia].
        have Nl : lo <> [] by move=> Z; rewrite Z /= in H; lia.
        by destruct (E5 Nl) as [-> _].
      * move=> v [->|I]; [by left|right; by apply E7].
Qed.

Lemma nth_map' {A B} (f : A -> B) l i d d' : (i < length l)%nat -> nth i (map f l) d = f (nth i l d').
Proof. move=> H. rewrite (nth_indep _ d (f d')) ?map_length //. apply map_nth. Qed.

Lemma chain_nth l : forall a, (forall i, (i < length l)%nat -> nth i (a :: l) 0 <= nth i l 0) -> chain a l.
Proof.
  induction l as [|b l IH] => a H //=. split; [apply (H 0%nat); simpl; lia|].
  apply IH => i Hi. apply (H (S i)). simpl; lia.
Qed.

Lemma cut_lt n nbin i : (0 < n)%nat -> (i < nbin)%nat -> (i * n / nbin < n)%nat.
Proof. move=> Hn Hi. apply Nat.div_lt_upper_bound; [lia|nia]. Qed.
Lemma cut_mono n nbin i j : (0 < nbin)%nat -> (i <= j)%nat -> (i * n / nbin <= j * n / nbin)%nat.
Proof. move=> Hn Hi. apply Nat.div_le_mono; [lia|nia]. Qed.

Lemma take_comp x o idx : (forall i, In i idx -> (i < length o)%nat) ->
  take 0 x (take 0%nat o idx) = map (fun i => nth i (take 0 x o) 0) idx.
Proof.
  move=> H. rewrite /take map_map. apply map_ext_in => i I. by rewrite (@nth_map' _ _ (fun i => nth i x 0) o i 0 0%nat); first exact (H i I).
Qed.

(* the raw lower edges are order statistics *)
Lemma raw_lower x nbin : x <> [] -> (0 < nbin)%nat ->
  take 0 x (take 0%nat (argsort x) (cut_idx (length x) nbin)) =
  map (fun i => nth (i * length x / nbin) (sortR x) 0) (seq 0 nbin).
Proof.
  move=> Nx Hb. have Lx : (0 < length x)%nat by destruct x => //=; lia.
  have [P _] := argsort_sorted x. have La : length (argsort x) = length x by rewrite (Permutation_length P) seq_length.
  rewrite take_comp.
  - move=> i /in_map_iff [j [<- /in_seq [_ H]]]. rewrite La. apply cut_lt; lia.
  - by rewrite /cut_idx map_map.
Qed.

Lemma mean_between a b s h : (0 < h)%nat -> a * INR h <= s <= b * INR h -> a <= s / INR h <= b.
Proof.
  move=> H [H1 H2]. have Hp : 0 < INR h by apply lt_0_INR.
  split; apply (Rmult_le_reg_r (INR h)) => //; rewrite /Rdiv Rmult_assoc Rinv_l; lra.
Qed.
Lemma sum_between a b l : Forall (fun v => a <= v <= b) l -> a * INR (length l) <= sumR l <= b * INR (length l).
Proof.
  induction 1 as [|v l H F IH]; [simpl; lra|]. cbn [length]. rewrite S_INR /=. lra.
Qed.


Lemma hist_unique P x h : (exists v, In v x /\ P v) -> counts P x h -> (0 < h)%nat.
Proof.
  move=> [v [I Pv]] [sel [rest [Pe [Fs [Fr <-]]]]].
  have := Permutation_in _ Pe I. rewrite in_app_iff => [[Is|Ir]].
  - destruct sel => //=; lia.
  - move: Fr => /Forall_forall H. by case: (H v Ir).
Qed.

Lemma counts_det P x h h' : counts P x h -> counts P x h' -> h = h'.
Proof.
  move=> [s [r [Pe [Fs [Fr <-]]]]] [s' [r' [Pe' [Fs' [Fr' <-]]]]].
  have Q : Permutation (s ++ r) (s' ++ r') by rewrite -Pe.
  clear Pe Pe' x. revert s' Fs' Q. induction s as [|a s IH] => s' Fs' Q.
  - destruct s' as [|b s'] => //. exfalso.
    have I : In b r by apply (Permutation_in _ (Permutation_sym Q)); left.
    move: Fr => /Forall_forall H. apply (H b I). by inversion Fs'.
  - inversion Fs as [|? ? Pa Fs2]; subst.
    have : In a (s' ++ r') by apply (Permutation_in _ Q); left.
    rewrite in_app_iff => [[I|I]]; last first.
    { move: Fr' => /Forall_forall H. by case: (H a I). }
    have [l1 [l2 E]] := in_split _ _ I. subst s'.
    rewrite app_length /= -app_assoc /= in Q |- *. apply Permutation_cons_app_inv in Q.
    rewrite (IH Fs2 (l1 ++ l2)).
    + by apply Forall_app in Fs' as [F1 F2]; apply Forall_app; inversion F2.
    + by rewrite -app_assoc.
    + rewrite app_length; lia.
Qed.

Lemma totals_counts_mean P x h s a b : counts P x h -> totals P x s -> (forall v, P v -> a <= v <= b) ->
  (0 < h)%nat -> a <= s / INR h <= b.
Proof.
  move=> C [sel [rest [Pe [Fs [Fr <-]]]]] H Hh.
  have C' : counts P x (length sel) by exists sel, rest.
  rewrite -(counts_det C' C) in Hh |- *. apply mean_between => //. apply sum_between.
  eapply Forall_impl; [|exact Fs]. exact H.
Qed.

(* every returned fact about nbinmaker *)
Theorem nbinmaker_partition x nbin : x <> [] -> ~ constant x -> (0 < nbin)%nat ->
  exists b, nbinmaker x nbin = Ok b /\
    adjacent (b_lo b) (b_hi b) /\ spans x (b_lo b) (b_hi b) /\ (length (b_lo b) <= nbin)%nat /\
    describes x (b_lo b) (b_hi b) (b_hist b) (b_sum b) /\ natsum (b_hist b) = length x /\
    (forall k, (k < length (b_lo b))%nat -> nth k (b_lo b) 0 < nth k (b_hi b) 0 /\ (0 < nth k (b_hist b) 0)%nat /\
       nth k (b_mid b) 0 = nth k (b_sum b) 0 / INR (nth k (b_hist b) 0%nat) /\
       nth k (b_lo b) 0 <= nth k (b_mid b) 0 <= nth k (b_hi b) 0) /\
    (forall v, In v x -> exists! k, in_bin (b_lo b) (b_hi b) k v).
Proof.
  move=> Nx Nc Hb. have Lx : (0 < length x)%nat by destruct x => //=; lia.
  rewrite /nbinmaker raw_lower //.
  destruct (amax x) as [M|] eqn:EM; last by destruct x.
  have GM := amax_greatest EM.
  set L0 := map _ (seq 0 nbin).
  have [a [L EL]] : exists a L, L0 = a :: L by rewrite /L0; destruct nbin => //=; [lia|eauto].
  have Ea : a = nth 0 (sortR x) 0.
  { have -> : a = nth 0 L0 0 by rewrite EL. rewrite /L0 (@nth_map' _ _ _ (seq 0 nbin) 0 0 0%nat) ?seq_length //.
    rewrite seq_nth // Nat.add_0_r Nat.mul_0_l Nat.div_0_l //; lia. }
  have LenL : length L = (nbin - 1)%nat.
  { have := f_equal (@length R) EL. rewrite /L0 map_length seq_length /=; lia. }
  have nthL : forall i, (i < nbin)%nat -> nth i (a :: L) 0 = nth (i * length x / nbin) (sortR x) 0.
  { move=> i Hi. rewrite -EL /L0 (@nth_map' _ _ _ _ i 0 0%nat) ?seq_length // seq_nth //. }
  have Ch : chain a (L ++ [M]).
  { apply chain_nth => i. rewrite app_length LenL; cbn [length] => Hi.
    have -> : nth i (a :: (L ++ [M])) 0 = nth i (a :: L) 0.
    { rewrite app_comm_cons app_nth1 //=; lia. }
    rewrite nthL; first lia. have C1 := @cut_lt (length x) nbin i Lx ltac:(lia).
    destruct (Nat.eq_dec i (nbin - 1)) as [->|Ni].
    - rewrite app_nth2; first lia. rewrite LenL Nat.sub_diag /=. apply GM. apply sortR_in. apply cut_lt; lia.
    - rewrite app_nth1; first lia. have -> : nth i L 0 = nth (S i) (a :: L) 0 by [].
      rewrite nthL; first lia. apply sortR_mono; [apply cut_mono; lia|apply cut_lt; lia]. }
  have Sub : forall v, In v (a :: L) -> In v x.
  { rewrite -EL /L0 => v /in_map_iff [i [<- /in_seq [_ Hi]]]. apply sortR_in, cut_lt; lia. }
  rewrite EL. cbn [tl]. cbv zeta. pose proof (drop_degenerate Ch) as D. cbv zeta in D.
  have Lbound : (length (select (nondegenerate (a :: L) (L ++ [M])) (a :: L)) <= nbin)%nat.
  { have : forall A m (l : list A), (length (select m l) <= length l)%nat.
    { clear. move=> A m; induction m as [|b m IH]; destruct l as [|c l] => //=; [lia|]. destruct b => /=; have := IH l; lia. }
    move=> /(_ _ (nondegenerate (a :: L) (L ++ [M])) (a :: L)) /=. rewrite LenL. lia. }
  move: (select (nondegenerate (a :: L) (L ++ [M])) (a :: L)) (select (nondegenerate (a :: L) (L ++ [M])) (L ++ [M])) D Lbound
    => lo hi [D1 [D2 [D3 [D4 [D5 [D6 D7]]]]]] Lb.
  have Nl : lo <> [].
  { move=> /D3 E. apply Nc => v w Iv Iw. have [_ H1] := sortR_first Nx. have [_ H2] := GM.
    have := H1 v Iv. have := H1 w Iw. have := H2 v Iv. have := H2 w Iw. lra. }
  have [F1 F2] := D5 Nl.
  have Ad : adjacent lo hi by do 2 split => //; split => // k Hk; left; exact (D4 k Hk).
  have Sp : spans x lo hi by split; rewrite ?F1 ?F2 ?Ea //; apply sortR_first.
  have E := bincount_ok Ad Sp. rewrite E.
  eexists. split; [reflexivity|]. cbn [b_lo b_hi b_mid b_hist b_sum].
  have Ds := index_describes Ad Sp E. have [Ds1 [Ds2 Ds3]] := Ds.
  do 3 (split => //). split => //. split; [exact (index_total Ad Sp E)|]. split.
  - move=> k Hk. split; [exact (D4 k Hk)|].
    have [C T] := Ds3 k Hk.
    have Hp : (0 < nth k (map (fun b => length (filter (fun v => Z.eqb (bin_index1 hi v) (Z.of_nat b)) x)) (seq 0 (length lo))) 0)%nat.
    { refine (hist_unique _ C). exists (nth k lo 0). split; [apply Sub, D7, nth_In => //|].
      split => //. split; [lra|left; exact (D4 k Hk)]. }
    split => //.
    have Em : forall (f : R -> nat -> R) (l : list R) (h : list nat), (k < length l)%nat -> (k < length h)%nat ->
      nth k (zip_with f l h) 0 = f (nth k l 0) (nth k h 0%nat).
    { clear. move=> f l; revert k. induction l as [|c l IH]; move=> k [|d h] /=; try lia.
      destruct k => //= ? ?. apply IH; lia. }
    rewrite Em ?Ds1 ?Ds2 //. split => //.
    apply (totals_counts_mean C T) => // v [_ [? [?|[_ ->]]]]; [lra|]. have := D4 k Hk. lra.
  - move=> v I. have [k [_ B]] := in_bin_of Ad Sp I. exists k. split => // j B'. exact (in_bin_unique Ad B B').
Qed.

Theorem nbinmaker_constant x nbin : x <> [] -> constant x -> (0 < nbin)%nat -> nbinmaker x nbin = Raise.
Proof.
  move=> Nx Co Hb. have Lx : (0 < length x)%nat by destruct x => //=; lia.
  rewrite /nbinmaker raw_lower //.
  destruct (amax x) as [M|] eqn:EM => //. have [IM GM] := amax_greatest EM.
  set L0 := map _ (seq 0 nbin).
  have HL : forall v, In v L0 -> v = M.
  { rewrite /L0 => v /in_map_iff [i [<- /in_seq [_ Hi]]]. apply Co => //. apply sortR_in, cut_lt; lia. }
  have E : forall l h : list R, (forall v, In v l -> v = M) -> (forall v, In v h -> v = M) ->
    forall A (k : list A), select (nondegenerate l h) k = [].
  { clear. induction l as [|a l IH]; move=> [|b h] Hl Hh A [|c k] //=.
    rewrite (Hl a); [by left|]. rewrite (Hh b); [by left|].
    have -> : Reqb M M = true by apply Reqb_spec. apply IH => v I; [apply Hl|apply Hh]; by right. }
  have Hh : forall v, In v (tl L0 ++ [M]) -> v = M.
  { move=> v /in_app_iff [I|[<-|[]]] //. apply HL. destruct L0 => //=. by right. }
  cbv zeta. rewrite !E //. rewrite /bincount /bin_index.
  destruct x as [|a x] => //=.
Qed.

(* ------------------------------------------------ equal numbers *)
Lemma filter_none {A} (b : A -> bool) l : (forall a, In a l -> b a = false) -> filter b l = [].
Proof. induction l as [|a l IH] => // H /=. rewrite H; [by left|]. apply IH => c I; apply H; by right. Qed.
Lemma filter_every {A} (b : A -> bool) l : (forall a, In a l -> b a = true) -> filter b l = l.
Proof. induction l as [|a l IH] => // H /=. rewrite H; [by left|]. rewrite IH // => c I; apply H; by right. Qed.

Lemma count_interval p q n : (p <= q)%nat -> (q <= n)%nat ->
  length (filter (fun i => Nat.leb p i && Nat.ltb i q) (seq 0 n)) = (q - p)%nat.
Proof.
  move=> Hp Hq. have -> : seq 0 n = seq 0 p ++ seq p (q - p) ++ seq q (n - q).
  { have -> : n = (p + ((q - p) + (n - q)))%nat by lia.
    rewrite !seq_app Nat.add_0_l. do 2 f_equal; f_equal; lia. }
  rewrite !filter_app filter_none; last rewrite filter_every; last rewrite filter_none.
  - move=> i /in_seq H. destruct (Nat.leb_spec p i); [lia|done].
  - move=> i /in_seq H. destruct (Nat.leb_spec p i), (Nat.ltb_spec i q); lia || done.
  - move=> i /in_seq H. destruct (Nat.ltb_spec i q); [lia|apply andb_false_r].
  - rewrite app_nil_r seq_length //.
Qed.

Lemma filter_seq_nth (b : R -> bool) l :
  length (filter b l) = length (filter (fun i => b (nth i l 0)) (seq 0 (length l))).
Proof.
  induction l as [|a l IH] => //=. rewrite -seq_shift filter_map_swap.
  destruct (b a) => /=; rewrite map_length IH //.
Qed.

Lemma filter_perm_length {A} (b : A -> bool) l k : Permutation l k -> length (filter b l) = length (filter b k).
Proof. induction 1 => //=; repeat (destruct (b _) => //=); congruence. Qed.

Lemma sortR_strict x i j : NoDup x -> (i < j)%nat -> (j < length x)%nat -> nth i (sortR x) 0 < nth j (sortR x) 0.
Proof.
  move=> ND Hij Hj. have := @sortR_mono x i j ltac:(lia) Hj.
  have ND' : NoDup (sortR x) by apply (Permutation_NoDup (Permutation_sym (sortR_perm x))).
  have : nth i (sortR x) 0 <> nth j (sortR x) 0; [|lra].
  move=> E. have := proj1 (NoDup_nth (sortR x) 0) ND' i j. rewrite sortR_length => H.
  have : i = j by apply H => //; lia. lia.
Qed.

Lemma cut_step n nbin k : (0 < nbin)%nat ->
  (S k * n / nbin - k * n / nbin = n / nbin \/ S k * n / nbin - k * n / nbin = S (n / nbin))%nat.
Proof.
  move=> Hb.
  have E1 := Nat.div_mod n nbin ltac:(lia). have B1 := Nat.mod_upper_bound n nbin ltac:(lia).
  have E2 := Nat.div_mod (k * n) nbin ltac:(lia). have B2 := Nat.mod_upper_bound (k * n) nbin ltac:(lia).
  have E3 := Nat.div_mod (S k * n) nbin ltac:(lia). have B3 := Nat.mod_upper_bound (S k * n) nbin ltac:(lia).
  move: (n / nbin)%nat (n mod nbin)%nat ((k * n) / nbin)%nat ((k * n) mod nbin)%nat ((S k * n) / nbin)%nat ((S k * n) mod nbin)%nat E1 B1 E2 B2 E3 B3
    => q r q1 r1 q2 r2 E1 B1 E2 B2 E3 B3.
  have E4 : (nbin * q2 + r2 = nbin * (q1 + q) + (r1 + r))%nat by nia.
  have : (q2 = q1 + q \/ q2 = q1 + q + 1)%nat; [|lia].
  have : (q2 < q1 + q + 2)%nat by nia. have : (q1 + q < q2 + 1)%nat by nia. lia.
Qed.

Lemma cut_strict n nbin i j : (nbin < n)%nat -> (0 < nbin)%nat -> (i < j)%nat -> (i * n / nbin < j * n / nbin)%nat.
Proof.
  move=> H Hb Hij. have Q : (1 <= n / nbin)%nat by apply Nat.div_le_lower_bound; lia.
  have C := cut_step n i Hb. have M := @cut_mono n nbin (S i) j Hb ltac:(lia).
  have M2 := @cut_mono n nbin i (S i) Hb ltac:(lia). lia.
Qed.

Lemma select_all {A} m (l : list A) : length m = length l -> Forall (fun b => b = true) m -> select m l = l.
Proof. revert l; induction m as [|b m IH]; destruct l => //= [[L]] F. inversion F; subst. by rewrite IH. Qed.

Theorem nbinmaker_balanced x nbin : NoDup x -> (0 < nbin)%nat -> (nbin < length x)%nat ->
  exists b, nbinmaker x nbin = Ok b /\ length (b_lo b) = nbin /\
    forall k, (k < nbin)%nat ->
      (nth k (b_hist b) 0 = length x / nbin \/ nth k (b_hist b) 0 = S (length x / nbin))%nat.
Proof.
  move=> ND Hb Hn. have Nx : x <> [] by move=> E; rewrite E /= in Hn; lia.
  have Lx : (0 < length x)%nat by lia.
  have Nc : ~ constant x.
  { move=> C. have := C _ _ (@sortR_in x 0 Lx) (@sortR_in x 1 ltac:(lia)).
    have := @sortR_strict x 0 1 ND ltac:(lia) ltac:(lia). lra. }
  have [b [E [Ad [Sp [Lb [Ds [Tot [Pt Uq]]]]]]]] := nbinmaker_partition Nx Nc Hb.
  exists b. split => //.
  (* the raw edges are already strict *)
  have [M EM] : exists M, amax x = Some M by destruct x => //=; eauto.
  have GM := amax_greatest EM. have EMl : M = nth (length x - 1) (sortR x) 0.
  { apply (greatest_unique GM). by apply sortR_last. }
  have El : b_lo b = map (fun i => nth (i * length x / nbin) (sortR x) 0) (seq 0 nbin) /\
            b_hi b = tl (map (fun i => nth (i * length x / nbin) (sortR x) 0) (seq 0 nbin)) ++ [M].
  { move: E. rewrite /nbinmaker raw_lower // EM. set L0 := map _ (seq 0 nbin). cbv zeta.
    have L0l : length L0 = nbin by rewrite /L0 map_length seq_length.
    have ntl : forall l : list R, forall i, nth i (tl l) 0 = nth (S i) l 0 by move=> [|? ?] [|i].
    have ltl : length (tl L0) = (nbin - 1)%nat by destruct L0 => /=; simpl in L0l; lia.
    have Lz : length (nondegenerate L0 (tl L0 ++ [M])) = nbin.
    { rewrite /nondegenerate zip_with_length app_length /= L0l ltl. lia. }
    have nz : forall (f : R -> R -> bool) l h i, (i < length l)%nat -> (i < length h)%nat ->
       nth i (zip_with f l h) false = f (nth i l 0) (nth i h 0).
    { clear. move=> f l; induction l as [|c l IH]; move=> [|d h] [|i] /=; try lia; move=> Q1 Q2 //; apply IH; lia. }
    have All : Forall (fun b => b = true) (nondegenerate L0 (tl L0 ++ [M])).
    { apply Forall_forall => v I. have [i [Hi <-]] := In_nth _ _ false I. rewrite Lz in Hi.
      rewrite /nondegenerate nz ?app_length ?ltl ?L0l /=; try lia. apply negb_true_iff, Reqb_false.
      have nL : forall j, (j < nbin)%nat -> nth j L0 0 = nth (j * length x / nbin) (sortR x) 0.
      { move=> j Hj. rewrite /L0 (@nth_map' _ _ _ _ j 0 0%nat) ?seq_length // seq_nth //. }
      destruct (Nat.eq_dec i (nbin - 1)) as [Ei|Ni].
      - subst i. rewrite app_nth2 ltl; try lia. rewrite Nat.sub_diag /= nL; first lia. rewrite EMl.
        apply Rlt_not_eq, sortR_strict => //; try lia.
        have C1 := @cut_strict (length x) nbin (nbin - 1) nbin Hn Hb ltac:(lia).
        have : (nbin * length x / nbin = length x)%nat by rewrite Nat.mul_comm Nat.div_mul; lia.
        have : ((nbin - 1) * length x <= nbin * length x - nbin - 1)%nat by nia.
        move=> Q Q2. have : ((nbin - 1) * length x / nbin < length x - 1)%nat; [|lia].
        apply Nat.div_lt_upper_bound; [lia|]. nia.
      - rewrite app_nth1; first lia. rewrite ntl !nL; try lia.
        apply Rlt_not_eq, sortR_strict => //; [apply cut_strict; lia|apply cut_lt; lia]. }
    rewrite !select_all //; try (rewrite Lz ?app_length /= ?ltl ?L0l; lia).
    destruct (bincount _ _) => // [[<-]] //=. }
  destruct El as [El Eh].
  have Ll : length (b_lo b) = nbin by rewrite El map_length seq_length.
  split => // k Hk. have [_ [_ D]] := Ds. have [C _] := D k ltac:(lia).
  have [AdL [_ [W _]]] := Ad.
  have C2 : counts (in_bin (b_lo b) (b_hi b) k) x (length (filter (mask_bin (b_lo b) (b_hi b) k) x)).
  { apply counts_filter => v _. apply mask_in_bin => //; lia. }
  rewrite (counts_det C C2) (filter_perm_length _ (Permutation_sym (sortR_perm x))) filter_seq_nth sortR_length.
  have nlo : forall j, (j < nbin)%nat -> nth j (b_lo b) 0 = nth (j * length x / nbin) (sortR x) 0.
  { move=> j Hj. rewrite El (@nth_map' _ _ _ _ j 0 0%nat) ?seq_length // seq_nth //. }
  have Hq : (nbin * length x / nbin = length x)%nat by rewrite Nat.mul_comm Nat.div_mul; lia.
  have lex : forall i j, (i < length x)%nat -> (j < length x)%nat -> nth i (sortR x) 0 <= nth j (sortR x) 0 <-> (i <= j)%nat.
  { move=> i j Hi Hj. split => H; [|by apply sortR_mono]. destruct (Nat.le_gt_cases i j) => //.
    have := @sortR_strict x j i ND ltac:(lia) Hi. lra. }
  have Ck := @cut_lt (length x) nbin k Lx Hk.
  have -> : length (filter (fun i => mask_bin (b_lo b) (b_hi b) k (nth i (sortR x) 0)) (seq 0 (length x)))
     = length (filter (fun i => Nat.leb (k * length x / nbin) i && Nat.ltb i (S k * length x / nbin)) (seq 0 (length x))).
  { f_equal. apply filter_ext_in' => i /in_seq [_ Hi]. rewrite /mask_bin Ll.
    destruct (Nat.ltb_spec k (nbin - 1)) as [Lt|Ge].
    - have [_ [_ [_ A]]] := Ad. rewrite -(A k ltac:(lia)) nlo // nlo; first lia.
      have Ck' := @cut_lt (length x) nbin (S k) Lx ltac:(lia).
      rewrite /half_open. f_equal.
      + destruct (Nat.leb_spec (k * length x / nbin) i); [apply Rleb_spec, lex => //; lia|apply Rleb_false, Rnot_le_lt => /lex; lia].
      + destruct (Nat.ltb_spec i (S k * length x / nbin)); [apply Rltb_spec, sortR_strict => //; lia|apply Rltb_false, sortR_mono; lia].
    - have Ek : k = (nbin - 1)%nat by lia. have ESk : S k = nbin by lia. rewrite ESk Hq.
      have -> : nth k (b_hi b) 0 = M.
      { rewrite Eh app_nth2; rewrite (_ : length (tl _) = (nbin - 1)%nat) ?Ek; try lia.
        1,2: by destruct nbin => //=; rewrite map_length seq_length; lia. by rewrite Nat.sub_diag. }
      rewrite nlo // /closed. f_equal.
      + destruct (Nat.leb_spec (k * length x / nbin) i); [apply Rleb_spec, lex => //; lia|apply Rleb_false, Rnot_le_lt => /lex; lia].
      + destruct (Nat.ltb_spec i (length x)); [|lia]. apply Rleb_spec. rewrite EMl. apply sortR_mono; lia. }
  rewrite count_interval; first by apply cut_mono; lia.
  - have := @cut_mono (length x) nbin (S k) nbin Hb ltac:(lia). rewrite Hq. done.
  - apply cut_step; lia.
Qed.
