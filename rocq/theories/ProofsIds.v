(* Proofs about energies of some of the stars. *)
From Verif Require Import Base ModelCluster ModelOps ModelConv ModelEnergy ModelStars ModelIds.
From Verif Require Import SpecUnits SpecFrame SpecConv SpecEnergy SpecIds.
From Verif Require Import ProofsUnits ProofsFrame ProofsPot ProofsSees ProofsEnergy ProofsVirial.
Set Implicit Arguments.
Unset Strict Implicit.

Fixpoint places (k : nat) (m : list bool) : list nat := match m with [] => [] | b :: t => if b then k :: places (S k) t else places (S k) t end.
Lemma places_in m : forall k i, In i (places k m) <-> (k <= i < k + length m)%nat /\ nth (i - k) m false = true.
Proof.
  induction m as [|b m IH]; move=> k i; cbn [places length].
  - split; [by []|]. move=> [H _]. lia.
  - have IHk := IH (S k) i. have Q : i <> k -> (k <= i)%nat -> nth (i - k) (b :: m) false = nth (i - S k) m false.
    { move=> N L. have -> : (i - k = S (i - S k))%nat by lia. by []. }
    destruct b; cbn [In]; rewrite ?IHk; split.
    + move=> [<-|[H1 H2]]; [split; [lia|]; by rewrite Nat.sub_diag|]. split; [lia|]. rewrite Q //; lia.
    + move=> [H1 H2]. destruct (Nat.eq_dec k i) as [->|N]; [by left|right]. split; [lia|]. rewrite -Q //; lia.
    + move=> [H1 H2]. split; [lia|]. rewrite Q //; lia.
    + move=> [H1 H2]. destruct (Nat.eq_dec k i) as [E|N]; [subst i; rewrite Nat.sub_diag in H2; by []|]. split; [lia|]. rewrite -Q //; lia.
Qed.
Lemma places_sorted m : forall k i j, (i < j < length (places k m))%nat -> (nth i (places k m) 0 < nth j (places k m) 0)%nat.
Proof.
  induction m as [|b m IH]; move=> k i j; cbn [places length]; [lia|].
  destruct b; [|exact: IH]. cbn [length]. move=> H. destruct j as [|j]; [lia|]. cbn [nth]. destruct i as [|i]; [|apply IH; lia].
  have : In (nth j (places (S k) m) 0%nat) (places (S k) m) by apply nth_In; lia. rewrite places_in. lia.
Qed.
Lemma select_places {A} (d : A) m : forall (l : list A), length l = length m -> select m l = map (fun i => nth i l d) (places 0 m).
Proof.
  have SH : forall m k (a : A) l, map (fun i => nth i (a :: l) d) (places (S k) m) = map (fun i => nth i l d) (places k m).
  { induction m0 as [|b m0 IH]; move=> k a l; [by []|]. cbn [places]. destruct b; cbn [map]; rewrite IH //. }
  induction m as [|b m IH]; move=> [|a l] H; try by []. cbn [select places]. cbn [length] in H. destruct b; cbn [map]; rewrite SH -IH //; lia.
Qed.
Lemma scatter_length m : forall p, length (scatter m p) = length m.
Proof. induction m as [|b m IH]; move=> p //. destruct b; [destruct p|]; cbn [scatter length]; by rewrite IH. Qed.
Lemma scatter_nth m : forall (l : list R) k, length l = length m -> nth k (scatter m (select m l)) 0 = if nth k m false then nth k l 0 else 0.
Proof.
  induction m as [|b m IH]; move=> [|a l] k H; try by []; [by destruct k|]. cbn [length] in H. destruct b; cbn [select scatter].
  - destruct k as [|k]; [by []|]. cbn [nth]. apply IH. lia.
  - destruct k as [|k]; [by []|]. cbn [nth]. apply IH. lia.
Qed.
(* the conversion of the argument *)
Lemma chosen_ok a c : understood a c -> length (c_id c) = nstars c -> exists m, chosen a (c_id c) = Ok m /\ length m = nstars c /\
  forall k, (k < nstars c)%nat -> nth k m false = true <-> asked a c k.
Proof.
  move=> U L. have NM : forall (f : Z -> bool) k, (k < nstars c)%nat -> nth k (map f (c_id c)) false = f (nth k (c_id c) 0%Z).
  { move=> f k Hk. rewrite (nth_indep _ false (f 0%Z)) ?map_length ?L // map_nth //. }
  destruct a as [z|l|l|l]; cbn [understood] in U.
  - eexists. split; [reflexivity|]. split; [by rewrite map_length|]. move=> k Hk. rewrite NM // Z.eqb_eq //.
  - destruct l as [|x l]; [by []|]. cbn [chosen]. eexists. split; [reflexivity|]. split; [by rewrite map_length|]. move=> k Hk. rewrite NM // existsb_exists. cbn [asked]. split.
    + move=> [y [H1 H2]]. apply Z.eqb_eq in H2. by rewrite H2.
    + move=> H. eexists. split; [exact H|]. by apply Z.eqb_eq.
  - destruct U as [E N]. exists l. split; [|split; [exact E|by []]]. cbn [chosen]. destruct l as [|x l]; [by []|]. by rewrite L E Nat.eqb_refl.
  - by [].
Qed.
Section WithGalpy.
Variable G : galpy.
Lemma ids_frame spec soft m c u o : ready G c u o -> aligned c -> analyze true true c = c ->
  energies_ids G spec soft m (energy_frame G c) = (fst (energies_ids G spec soft m c), return_cluster G (save_cluster (energy_frame G c)) (energy_frame G c)).
Proof.
  move=> R HA HN. have FR := energy_frame_framed R HA (fresh_settled HN). have [SE [F1 [AL [OC [GR [HM [HB [HV NA]]]]]]]] := FR.
  unfold energies_ids. move: (energy_frame G c) OC NA => c1 OC NA. rewrite (@energy_frame_idem G c1 OC NA). reflexivity.
Qed.
Lemma ids_values spec soft m c u o : ready G c u o -> aligned c -> analyze true true c = c -> separated (bodies c) -> length m = nstars c -> Forall (fun m => m <> 0) (p_m (c_ph c)) ->
  fst (fst (energies_ids G spec soft m c)) = select m (fst (fst (energies G spec false true soft c))) /\
  map Some (snd (fst (energies_ids G spec soft m c))) = select m (snd (fst (energies G spec false true soft c))).
Proof.
  intros R HA HN HS HL Hm. generalize (@energies_ids_spec G spec soft m c u o R HA HN HS HL Hm).
  generalize (energies_ids G spec soft m c) (energies G spec false true soft c). intros [[k p] c1] [[k' p'] c2] [E1 [E2 _]]. split; [exact E1|exact E2].
Qed.
Lemma all_values spec soft c u o : ready G c u o -> aligned c -> analyze true true c = c -> separated (bodies c) ->
  let all := fst (energies G spec false true soft c) in length (fst all) = nstars c /\ length (snd all) = nstars c /\
  forall k, (k < nstars c)%nat -> nth k (fst all) 0 = star_kinetic spec c k /\ nth k (snd all) None = Some (star_potential spec soft c k).
Proof.
  intros R HA HN HS. assert (E0 : bodies_seen false c = bodies c) by (unfold bodies_seen; apply map_id_ext; now intros []).
  assert (HS2 : separated (bodies_seen false c)) by now rewrite E0.
  generalize (@energies_spec G spec false soft c u o R HA HN HS2). rewrite E0. generalize (energies G spec false true soft c). intros [[k' p'] c2] [L1 [L2 [L3 _]]]. split; [exact L1|]. split; [exact L2|exact L3].
Qed.
Lemma map_places {A} (d : A) (f : nat -> A) m l : length l = length m -> (forall k, (k < length m)%nat -> nth k l d = f k) -> select m l = map f (places 0 m).
Proof. move=> L H. rewrite (@select_places _ d) //. apply map_ext_in => i /places_in [H1 _]. apply H. lia. Qed.
Lemma ids_method spec p soft a c u o : ready G c u o -> aligned c -> analyze true true c = c -> separated (bodies c) -> Forall (fun m => m <> 0) (p_m (c_ph c)) ->
  length (c_id c) = nstars c -> understood a c ->
  exists m e c', let ks := places 0 m in
    energies_ids_method G spec p soft a c = Ok ((map (star_kinetic spec c) ks, map (star_potential spec soft c) ks), e, c') /\ restored c c' /\ in_order a c ks /\ length m = nstars c /\
    (forall k, (k < nstars c)%nat -> nth k m false = true <-> asked a c k) /\
    e = add_energies (scatter m (map (star_kinetic spec c) ks)) (map Some (scatter m (map (star_potential spec soft c) ks))).
Proof.
  move=> RD HA HN HS Hm LI UN. have [m [CH [LM MS]]] := chosen_ok UN LI.
  have [E1 E2] := @ids_values spec soft m c u o RD HA HN HS LM Hm. have [L1 [L2 L3]] := @all_values spec soft c u o RD HA HN HS. cbv zeta in L1, L2, L3.
  have IF := @ids_frame spec soft m c u o RD HA HN.
  have FR := energy_frame_framed RD HA (fresh_settled HN). have [SE [F1 [AL [OC [GR [HM [HB [HV NA]]]]]]]] := FR.
  have ID1 : c_id (energy_frame G c) = c_id c by have [_ [_ [_ [? _]]]] := SE.
  have [u1 [o1 R1]] := sees_ready SE. have [_ [Hu1 [Hl1 [Ho1 Hf1]]]] := R1.
  have S2 := @sees_return G c (energy_frame G c) (save_cluster (energy_frame G c)) u1 o1 SE Hu1 Hl1 Ho1 Hf1.
  have ID2 : c_id (return_cluster G (save_cluster (energy_frame G c)) (energy_frame G c)) = c_id c by have [_ [_ [_ [? _]]]] := S2.
  have BR := bracket_sees RD S2 HN.
  revert E1 E2 L1 L2 L3 IF. generalize (fst (energies G spec false true soft c)) (fst (energies_ids G spec soft m c)). intros [ka pa] [kin pot]. cbn [fst snd]. intros E1 E2 L1 L2 L3 IF.
  have K1 : kin = map (star_kinetic spec c) (places 0 m). { rewrite E1. apply (map_places (d := 0)); [by rewrite L1|]. move=> k Hk. rewrite LM in Hk. by have [-> _] := L3 k Hk. }
  have K2 : pot = map (star_potential spec soft c) (places 0 m).
  { have SI : forall l l' : list R, map Some l = map Some l' -> l = l'. { induction l as [|x l IH]; move=> [|y l'] H //. cbn [map] in H. injection H as H1 H2. by rewrite H1 (IH _ H2). }
    apply SI. rewrite E2 map_map. apply (map_places (d := None)); [by rewrite L2|]. move=> k Hk. rewrite LM in Hk. by have [_ ->] := L3 k Hk. }
  exists m, (add_energies (scatter m kin) (map Some (scatter m pot))), (return_cluster G (save_cluster c) (return_cluster G (save_cluster (energy_frame G c)) (energy_frame G c))).
  cbv zeta. rewrite -K1 -K2. split; [|split; [exact BR|]].
  - unfold energies_ids_method. cbv zeta. rewrite ID1 CH. unfold bind at 1. rewrite IF. cbv beta iota. rewrite ID2 CH. reflexivity.
  - split; [|split; [exact LM|split; [exact MS|reflexivity]]]. split.
    + move=> k. rewrite places_in Nat.sub_0_r LM. split; [move=> [H1 H2]; split; [lia|apply MS => //; lia]|move=> [H1 H2]; split; [lia|by apply MS]].
    + exact: places_sorted.
Qed.
Lemma sum_scatter f n m : length m = n -> sumR (scatter m (map f (places 0 m))) = sumR (map f (places 0 m)).
Proof.
  move=> _. suff H : forall k, sumR (scatter m (map f (places k m))) = sumR (map f (places k m)) by exact: H.
  induction m as [|b m IH]; move=> k; [by []|]. destruct b; cbn [places map scatter sumR]; rewrite IH; lra.
Qed.
Lemma scatter_places f m k : nth k (scatter m (map f (places 0 m))) 0 = if nth k m false then f k else 0.
Proof.
  have E : forall (d : nat) m, map f (places d m) = select m (map f (seq d (length m))).
  { move=> d m0; revert d. induction m0 as [|b m0 IH]; move=> d; [by []|]. cbn [places length seq map select]. destruct b; cbn [map]; by rewrite IH. }
  rewrite E scatter_nth ?map_length ?seq_length //. case M : (nth k m false); [|by []].
  have Hk : (k < length m)%nat by destruct (le_lt_dec (length m) k) as [H|H]; [rewrite nth_overflow in M|].
  rewrite (nth_indep _ 0 (f 0%nat)) ?map_length ?seq_length // map_nth seq_nth //.
Qed.
End WithGalpy.
