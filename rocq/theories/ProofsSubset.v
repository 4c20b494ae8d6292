(* Proofs: the mask computed by a selection. *)
From Verif Require Import Base ModelCluster ModelOps ModelConv ModelEnergy ModelRecipes ModelStars ModelSubset.
From Verif Require Import SpecStars SpecSubset SpecRecipes ProofsEnergy ProofsRecipes ProofsStars ProofsStars5.
Set Implicit Arguments. Unset Strict Implicit.

Lemma nth_map_b A (f : A -> bool) (l : list A) i d : (i < length l)%nat -> nth i (map f l) false = f (nth i l d).
Proof. move=> H. rewrite (nth_indep _ false (f d)) ?map_length // map_nth //. Qed.

Lemma bands_ok n a b : length a = n -> length b = n ->
  exists x, bands a b = Ok x /\ length x = n /\ forall i, (i < n)%nat -> nth i x false = nth i a false && nth i b false.
Proof.
  move=> La Lb. rewrite /bands np2_eq; first by rewrite La Lb. eexists; split=> //. split.
  - rewrite zip_with_length La Lb. lia.
  - move=> i Hi. rewrite (@nth_zip_with _ _ _ _ _ _ _ false false) ?La ?Lb //.
Qed.
Lemma bands_all_ok n l : forall a, length a = n -> Forall (fun b => length b = n) l ->
  exists x, bands_all a l = Ok x /\ length x = n /\
    forall i, (i < n)%nat -> nth i x false = nth i a false && forallb (fun b => nth i b false) l.
Proof.
  induction l as [|b l IH] => a La F /=.
  - exists a. do 2 (split=> //). move=> i _. by rewrite andb_true_r.
  - inversion F as [|? ? Lb F' E1]; subst. have [c [-> [Lc Hc]]] := bands_ok eq_refl Lb. cbn [bind].
    have [x [-> [Lx Hx]]] := IH c Lc F'. exists x. do 2 (split=> //). move=> i Hi. rewrite Hx // Hc // andb_assoc //.
Qed.

Lemma in_place_ok n a x : length a = n -> length x = n ->
  exists y, in_place_and a x = Some y /\ length y = n /\ forall i, (i < n)%nat -> nth i y false = nth i a false && nth i x false.
Proof.
  move=> La Lx. rewrite /in_place_and La Lx Nat.eqb_refl. eexists; split=> //. split.
  - rewrite zip_with_length La Lx. lia.
  - move=> i Hi. rewrite (@nth_zip_with _ _ _ _ _ _ _ false false) ?La ?Lx //.
Qed.

Lemma limit_lo o r : (1 <= length r)%nat -> exists a, limit o (amin r) = Ok a /\
  forall i, (i < length r)%nat -> Rleb a (nth i r 0) = true <-> (forall b, o = Some b -> b <= nth i r 0).
Proof.
  move=> H. destruct o as [a|] => /=.
  - exists a. split=> // i Hi. split; [move=> /Rleb_spec Q b [<-] //|move=> Q; apply/Rleb_spec; exact: Q].
  - destruct (amin r) as [m|] eqn:E; [|by destruct r; [cbn in H; lia|]].
    have [_ M] := amin_least E. exists m. split=> // i Hi. split=> // _. apply/Rleb_spec. apply M. by apply nth_In.
Qed.
Lemma limit_hi o r : (1 <= length r)%nat -> exists a, limit o (amax r) = Ok a /\
  forall i, (i < length r)%nat -> Rleb (nth i r 0) a = true <-> (forall b, o = Some b -> nth i r 0 <= b).
Proof.
  move=> H. destruct o as [a|] => /=.
  - exists a. split=> // i Hi. split; [move=> /Rleb_spec Q b [<-] //|move=> Q; apply/Rleb_spec; exact: Q].
  - destruct (amax r) as [m|] eqn:E; [|by destruct r; [cbn in H; lia|]].
    have [_ M] := amax_greatest E. exists m. split=> // i Hi. split=> // _. apply/Rleb_spec. apply M. by apply nth_In.
Qed.

Lemma ones_len n : length (repeat true n) = n. Proof. exact: repeat_length. Qed.
Lemma ones_nth n i : (i < n)%nat -> nth i (repeat true n) false = true.
Proof. move=> H. by rewrite (nth_indep _ false true) ?repeat_length // nth_repeat. Qed.

(* the energy mask *)
Lemma energy_mask q s n ones : energies_known q s n -> length ones = n -> (forall i, (i < n)%nat -> nth i ones false = true) ->
  exists x, match l_emin q, l_emax q with
        | None, Some b => Ok (nat_most b (y_etot s))
        | Some a, None => Ok (nat_least a (y_etot s))
        | Some a, Some b => bands (nat_most b (y_etot s)) (nat_least a (y_etot s))
        | None, None => Ok ones end = Ok x /\ length x = n /\
    forall i, (i < n)%nat -> nth i x false = true <->
      (l_emin q = None /\ l_emax q = None \/ exists e, nth i (y_etot s) None = Some e /\ within (l_emin q) (l_emax q) e).
Proof.
  move=> K L1 O.
  have A : forall a, length (y_etot s) = n -> forall i, (i < n)%nat -> nth i (nat_least a (y_etot s)) false = true <->
      exists e, nth i (y_etot s) None = Some e /\ a <= e.
  { move=> a L i Hi. rewrite /nat_least (@nth_map_b _ _ _ _ None) ?L //.
    change (@nth num i (y_etot s) None) with (@nth (option R) i (y_etot s) None); destruct (@nth (option R) i (y_etot s) None) as [e|]; [rewrite Rleb_spec|]; split; try (by move=> [? [? ?]]); try congruence.
    - by exists e.
    - by move=> [e' [[->] ?]]. }
  have B : forall a, length (y_etot s) = n -> forall i, (i < n)%nat -> nth i (nat_most a (y_etot s)) false = true <->
      exists e, nth i (y_etot s) None = Some e /\ e <= a.
  { move=> a L i Hi. rewrite /nat_most (@nth_map_b _ _ _ _ None) ?L //.
    change (@nth num i (y_etot s) None) with (@nth (option R) i (y_etot s) None); destruct (@nth (option R) i (y_etot s) None) as [e|]; [rewrite Rleb_spec|]; split; try (by move=> [? [? ?]]); try congruence.
    - by exists e.
    - by move=> [e' [[->] ?]]. }
  rewrite /within. destruct K as [[-> ->]|L].
  { exists ones. do 2 (split=> //). move=> i Hi. split; [by left|]. move=> _. exact: O. }
  destruct (l_emin q) as [a|], (l_emax q) as [b|].
  - have [x [E [Lx Hx]]] := @bands_ok n (nat_most b (y_etot s)) (nat_least a (y_etot s))
      ltac:(by rewrite /nat_most map_length) ltac:(by rewrite /nat_least map_length).
    exists x. do 2 (split=> //). move=> i Hi. rewrite Hx // andb_true_iff A // B //. split.
    + move=> [[e [E1 Q1]] [e' [E2 Q2]]]. right. exists e. split=> //. rewrite E1 in E2. case: E2 => ?; subst e'.
      split=> ? [<-] //.
    + move=> [[]|[e [E1 [Q1 Q2]]]] //. split; exists e; split=> //; [exact: Q2|exact: Q1].
  - eexists. split=> //. rewrite /nat_least map_length. split=> // i Hi. rewrite -/(nat_least a (y_etot s)) A //. split.
    + move=> [e [E1 Q]]. right. exists e. split=> //. split=> ? [] // <-. done.
    + move=> [[]|[e [E1 [Q1 Q2]]]] //. exists e; split=> //; exact: Q1.
  - eexists. split=> //. rewrite /nat_most map_length. split=> // i Hi. rewrite -/(nat_most b (y_etot s)) B //. split.
    + move=> [e [E1 Q]]. right. exists e. split=> //. split=> ? [] // <-. done.
    + move=> [[]|[e [E1 [Q1 Q2]]]] //. exists e; split=> //; exact: Q2.
  - exists ones. do 2 (split=> //). move=> i Hi. split; [by left|]. move=> _. exact: O.
Qed.

Lemma kw_mask q (kw : list R) n ones : (kw = [] \/ length kw = n) -> length ones = n ->
  (forall i, (i < n)%nat -> nth i ones false = true) ->
  exists x, (if Nat.ltb 0 (length kw) then bands (at_least (l_kwmin q) kw) (at_most (l_kwmax q) kw) else Ok ones) = Ok x /\
    length x = n /\ forall i, (i < n)%nat -> nth i x false = true <-> (kw = [] \/ l_kwmin q <= nth i kw 0 <= l_kwmax q).
Proof.
  move=> K L1 O. destruct kw as [|w kw'] eqn:E.
  { exists ones. do 2 (split=> //). move=> i Hi. split; [by left|]. move=> _; exact: O. }
  rewrite -E in K |- *. destruct K as [K|K]; [by rewrite E in K|].
  have -> : Nat.ltb 0 (length kw) = true by rewrite E.
  have [x [Ex [Lx Hx]]] := @bands_ok n (at_least (l_kwmin q) kw) (at_most (l_kwmax q) kw)
    ltac:(by rewrite /at_least map_length) ltac:(by rewrite /at_most map_length).
  exists x. do 2 (split=> //). move=> i Hi. rewrite Hx // andb_true_iff /at_least /at_most !(@nth_map_b _ _ _ _ 0) ?K //.
  rewrite !Rleb_spec. split; [by right|]. move=> [Q|] //. by rewrite E in Q.
Qed.

Lemma npop_mask q (l : list Z) n ones : length l = n -> length ones = n -> (forall i, (i < n)%nat -> nth i ones false = true) ->
  let x := match l_npop q with None => ones | Some p => map (Z.eqb p) l end in
  length x = n /\ forall i, (i < n)%nat -> nth i x false = true <-> (forall p, l_npop q = Some p -> nth i l 0%Z = p).
Proof.
  move=> L L1 O. cbn zeta. destruct (l_npop q) as [p|].
  - rewrite map_length. split=> // i Hi. rewrite (@nth_map_b _ _ _ _ 0%Z) ?L // Z.eqb_eq. split; [by move=> -> ? [] ->|]. move=> Q. symmetry. exact: Q.
  - split=> // i Hi. split=> // _. exact: O.
Qed.

Theorem subset_mask q indx s n : measured s n -> (1 <= n)%nat -> energies_known q s n -> mask_fits indx n ->
  exists m, get_subset q indx s = Ok (Some m, match indx with None => None | Some _ => Some m end) /\ length m = n /\
    forall i, (i < n)%nat -> nth i m false = true <-> in_mask indx i /\ satisfies q s i.
Proof.
  move=> [AL [NT [L1 [L2 [L3 [L4 [D [KW ET]]]]]]]] Hn EK MF.
  have [_ [LM [_ [_ LP]]]] := AL.
  rewrite /get_subset. set d := c_der _. set r := if l_projected q then _ else d_r d. set v := if l_projected q then d_vpro d else _.
  have Lr : length r = n by rewrite /r; destruct (l_projected q).
  have Lv : length v = n by rewrite /v; destruct (l_projected q).
  have Dr : forall i, (i < n)%nat -> nth i r 0 = seen_distance (l_projected q) (y_k s) i.
  { move=> i Hi. have [A [B _]] := D i Hi. by rewrite /r; destruct (l_projected q). }
  have Dv : forall i, (i < n)%nat -> nth i v 0 = seen_speed (l_projected q) (y_k s) i.
  { move=> i Hi. have [_ [_ [A B]]] := D i Hi. by rewrite /v; destruct (l_projected q). }
  set m := p_m _. set ones := repeat true _.
  have LO : length ones = n by rewrite /ones NT ones_len.
  have NO : forall i, (i < n)%nat -> nth i ones false = true by move=> i Hi; rewrite /ones NT; exact: ones_nth.
  have [rmin [-> R1]] := @limit_lo (l_rmin q) r ltac:(lia). cbn [bind].
  have [rmax [-> R2]] := @limit_hi (l_rmax q) r ltac:(lia). cbn [bind].
  have [vmin [-> V1]] := @limit_lo (l_vmin q) v ltac:(lia). cbn [bind].
  have [vmax [-> V2]] := @limit_hi (l_vmax q) v ltac:(lia). cbn [bind].
  have [mmin [-> M1]] := @limit_lo (l_mmin q) m ltac:(rewrite LM; lia). cbn [bind].
  have [mmax [-> M2]] := @limit_hi (l_mmax q) m ltac:(rewrite LM; lia). cbn [bind].
  have [LNP NP] := npop_mask q LP LO NO. cbn zeta in LNP, NP.
  set np := match l_npop q with None => _ | Some p => _ end in LNP NP |- *.
  have [em [-> [Le He]]] := energy_mask EK LO NO. cbn [bind].
  have [kwm [-> [Lk Hk]]] := kw_mask q KW LO NO. cbn [bind].
  have [x [-> [Lx Hx]]] := @bands_all_ok n [at_most rmax r; at_least mmin m; at_most mmax m; at_least vmin v; at_most vmax v; np; kwm; em]
     (at_least rmin r) ltac:(by rewrite /at_least map_length)
     ltac:(repeat constructor; rewrite /at_least /at_most ?map_length //).
  set st := match indx with None => ones | Some l => l end.
  have Ls : length st = n by rewrite /st; destruct indx.
  have [y [-> [Ly Hy]]] := @in_place_ok n st x Ls Lx.
  exists y. split; [by destruct indx|]. split=> // i Hi. rewrite Hy // Hx //. cbn [forallb].
  rewrite /at_least /at_most !(@nth_map_b _ _ _ _ 0) ?Lr ?Lv ?LM //. rewrite !andb_true_iff.
  rewrite (R1 i) ?Lr // (R2 i) ?Lr // (V1 i) ?Lv // (V2 i) ?Lv // (M1 i) ?LM // (M2 i) ?LM //.
  rewrite (NP i) // (Hk i) // (He i) // (Dr i) // (Dv i) //.
  have -> : nth i st false = true <-> in_mask indx i.
  { rewrite /st /in_mask. destruct indx => //. by split=> // _; apply NO. }
  have -> : nth i m 0 = row_mass (y_k s) i by [].
  rewrite /satisfies /within /=. tauto.
Qed.

(* the caller's array accumulates the selections *)
Theorem mask_accumulates s n qs : measured s n -> (1 <= n)%nat -> (forall q, In q qs -> energies_known q s n) ->
  forall l, length l = n -> exists l', repeated_calls qs (Some l) s = Some l' /\ length l' = n /\
    forall i, (i < n)%nat -> nth i l' false = true <-> nth i l false = true /\ forall q, In q qs -> satisfies q s i.
Proof.
  move=> M Hn. induction qs as [|q qs IH] => EK l L /=.
  { exists l. do 2 (split=> //). move=> i Hi. split; [by split|by case]. }
  have [m [-> [Lm Hm]]] := @subset_mask q (Some l) s n M Hn (EK q ltac:(by left)) L.
  have [l' [E [L' H']]] := IH ltac:(by move=> p Hp; apply EK; right) m Lm.
  exists l'. do 2 (split=> //). move=> i Hi. rewrite H' // Hm // /in_mask. split.
  - move=> [[A B] C]. split=> // p [<-|Hp] //. by apply C.
  - move=> [A B]. split; [split=> //; apply B; by left|]. move=> p Hp. apply B. by right.
Qed.

Theorem subset_repeat q l s n : measured s n -> (1 <= n)%nat -> energies_known q s n -> length l = n ->
  exists m, get_subset q (Some l) s = Ok (Some m, Some m) /\ get_subset q (Some m) s = Ok (Some m, Some m).
Proof.
  move=> M Hn EK L. have [m [E [Lm Hm]]] := @subset_mask q (Some l) s n M Hn EK L.
  exists m. split=> //. have [m' [E' [Lm' Hm']]] := @subset_mask q (Some m) s n M Hn EK Lm.
  rewrite E'. have -> // : m' = m. apply (nth_ext _ _ false false); [by rewrite Lm Lm'|]. rewrite Lm' => i Hi.
  have := Hm' i Hi. have := Hm i Hi. rewrite /in_mask /=.
  destruct (nth i m' false), (nth i m false) => //; intuition congruence.
Qed.

(* a mask of the wrong length: -1 *)
Lemma wrong_mask q s n l : measured s n -> (2 <= n)%nat -> energies_known q s n -> length l <> n ->
  get_subset q (Some l) s = Ok (None, Some l).
Proof.
  move=> [AL [NT [L1 [L2 [L3 [L4 [D [KW ET]]]]]]]] Hn EK MF.
  have [_ [LM [_ [_ LP]]]] := AL.
  rewrite /get_subset. set d := c_der _. set r := if l_projected q then _ else d_r d. set v := if l_projected q then d_vpro d else _.
  have Lr : length r = n by rewrite /r; destruct (l_projected q).
  have Lv : length v = n by rewrite /v; destruct (l_projected q).
  set m := p_m _. set ones := repeat true _.
  have LO : length ones = n by rewrite /ones NT ones_len.
  have NO : forall i, (i < n)%nat -> nth i ones false = true by move=> i Hi; rewrite /ones NT; exact: ones_nth.
  have [rmin [-> R1]] := @limit_lo (l_rmin q) r ltac:(lia). cbn [bind].
  have [rmax [-> R2]] := @limit_hi (l_rmax q) r ltac:(lia). cbn [bind].
  have [vmin [-> V1]] := @limit_lo (l_vmin q) v ltac:(lia). cbn [bind].
  have [vmax [-> V2]] := @limit_hi (l_vmax q) v ltac:(lia). cbn [bind].
  have [mmin [-> M1]] := @limit_lo (l_mmin q) m ltac:(rewrite LM; lia). cbn [bind].
  have [mmax [-> M2]] := @limit_hi (l_mmax q) m ltac:(rewrite LM; lia). cbn [bind].
  have [LNP NP] := npop_mask q LP LO NO. cbn zeta in LNP, NP.
  set np := match l_npop q with None => _ | Some p => _ end in LNP NP |- *.
  have [em [-> [Le He]]] := energy_mask EK LO NO. cbn [bind].
  have [kwm [-> [Lk Hk]]] := kw_mask q KW LO NO. cbn [bind].
  have [x [-> [Lx Hx]]] := @bands_all_ok n [at_most rmax r; at_least mmin m; at_most mmax m; at_least vmin v; at_most vmax v; np; kwm; em]
     (at_least rmin r) ltac:(by rewrite /at_least map_length)
     ltac:(repeat constructor; rewrite /at_least /at_most ?map_length //).
  rewrite /in_place_and Lx. have -> : Nat.eqb n (length l) = false by apply Nat.eqb_neq; lia.
  destruct x as [|b [|b2 x]] => //. cbn in Lx. lia.
Qed.
