(* add_stars: scalar and one-entry arguments; conservation of mass and momentum; identifiers. *)
From Verif Require Import Base ModelCluster ModelRecipes ModelStars SpecStars ProofsStars ProofsStars2.
From Verif Require Import ProofsPot ProofsEnergy ProofsRecipes2.
Set Implicit Arguments. Unset Strict Implicit.

(* ------------------------------------------------------------------ scalars *)
Definition spell {A} (N : nat) (p : arg A) : arg A := match p with Scalar a => Array (repeat a N) | Array l => Array l end.
Definition spell_out (N : nat) (a : star_args) : star_args :=
  mkArgs (map6 (spell N) (a_s a)) (option_map (spell N) (a_m a)) (option_map (spell N) (a_id a))
         (option_map (spell N) (a_m0 a)) (option_map (spell N) (a_npop a)).

Lemma spell_sized A N (p : arg A) : arg_sized N p -> arg_sized N (spell N p).
Proof. destruct p => //= _. apply repeat_length. Qed.
Lemma spell_expand A N (p : arg A) : expand N (spell N p) = expand N p.
Proof. by destruct p. Qed.
Lemma opt_spell_sized A N (p : option (arg A)) : opt_sized N p -> opt_sized N (option_map (spell N) p).
Proof. destruct p => //=. apply spell_sized. Qed.
Lemma opt_spell_expand A N (p : option (arg A)) : option_map (expand N) (option_map (spell N) p) = option_map (expand N) p.
Proof. destruct p => //=. by rewrite spell_expand. Qed.

Lemma spell_describes a N : describes_stars a N -> describes_stars (spell_out N a) N.
Proof.
  move=> [H1 [[A1 [A2 [A3 [A4 [A5 A6]]]]] [Sm [Si [S0 [Sp _]]]]]].
  split => //. split; [rewrite /six_sized /=; repeat split; by apply spell_sized|].
  split; [by apply opt_spell_sized|]. split; [by apply opt_spell_sized|]. split; [by apply opt_spell_sized|].
  split; [by apply opt_spell_sized|]. right. rewrite /six_array /spell_out /=. by destruct (sx (a_s a)).
Qed.

Theorem scalars_spelled_out a N nb sort an proj k : describes_stars a N ->
  add_stars nb a sort an proj k = add_stars nb (spell_out N a) sort an proj k.
Proof.
  move=> D. rewrite /add_stars (npmax_described D) (npmax_described (spell_describes D)).
  rewrite /spell_out /map6; cbn [a_s a_m a_id a_m0 a_npop sx sy sz svx svy svz].
  by rewrite !spell_expand !opt_spell_expand.
Qed.

(* ------------------------------------------------------------------ one-entry arrays on an empty cluster *)
Definition one_as_scalar {A} (p : arg A) : arg A := match p with Array [a] => Scalar a | _ => p end.
Definition ones_as_scalars (a : star_args) : star_args :=
  mkArgs (map6 one_as_scalar (a_s a)) (option_map one_as_scalar (a_m a)) (option_map one_as_scalar (a_id a))
         (option_map one_as_scalar (a_m0 a)) (option_map one_as_scalar (a_npop a)).

Lemma finish_columns s sort an proj k : columns_of (finish s sort an proj k) = check_lengths (columns_of k).
Proof.
  rewrite /finish. set t := check_lengths _.
  set k3 := put_columns k t.
  have E : columns_of k3 = t by rewrite /k3 /columns_of /put_columns /=; destruct t.
  have [P1 [P2 _]] := sky_ph s (g_c k3).
  have [Q1 [Q2 _]] := analyze_ph sort proj (add_sky_rows s (g_c k3)).
  rewrite -E /columns_of /set_counts /=. by destruct an; rewrite ?Q1 ?Q2 P1 P2.
Qed.

Lemma one_len A N (p : arg A) : (1 <= N)%nat -> arg_sized N (one_as_scalar p) ->
  arg_len p = 1%nat \/ arg_len p = N.
Proof. destruct p as [a|[|a [|b l]]] => //=; auto. Qed.
Lemma one_array_len A N (p : arg A) : arg_sized N (one_as_scalar p) -> is_array (one_as_scalar p) = true -> arg_len p = N.
Proof. destruct p as [a|[|a [|b l]]] => //=. Qed.
Lemma expand_one_len A N (p : arg A) : arg_len p = 1%nat \/ arg_len p = N ->
  length (expand N p) = 1%nat \/ length (expand N p) = N.
Proof. destruct p as [a|l] => //= _. right. apply repeat_length. Qed.
Lemma stretch_expand A N (p : arg A) : stretch N (expand N p) = expand N (one_as_scalar p).
Proof.
  destruct p as [a|[|a [|b l]]] => //=. destruct N as [|[|N]] => //=.
Qed.
Lemma stretch_same A N (l : list A) : length l = N -> stretch N l = l.
Proof. destruct l as [|a [|b l]] => //= <-. done. Qed.

Lemma list_max_ten (a b c d e f g h i j N : nat) :
  (a <= N -> b <= N -> c <= N -> d <= N -> e <= N -> f <= N -> g <= N -> h <= N -> i <= N -> j <= N ->
   (a = N \/ b = N \/ c = N \/ d = N \/ e = N \/ f = N \/ g = N \/ h = N \/ i = N \/ j = N) ->
   list_max [a; b; c; d; e; f; g; h; i; j] = N)%nat.
Proof. cbn [list_max fold_right]. lia. Qed.

Lemma list_min_ten (a b c d e f g h i j N : nat) :
  list_min [a; b; c; d; e; f; g; h; i; j] = N ->
  (N <= a /\ N <= b /\ N <= c /\ N <= d /\ N <= e /\ N <= f /\ N <= g /\ N <= h /\ N <= i /\ N <= j)%nat.
Proof. rewrite /list_min; cbn [fold_right hd]. lia. Qed.

(* ------------------------------------------------------------------ sums *)
Lemma total_S f n : total f (S n) = total f n + f n.
Proof. rewrite /total seq_S map_app sumR_app /=. lra. Qed.
Lemma total_add f n p : total f (n + p) = total f n + total (fun i => f (n + i)%nat) p.
Proof.
  induction p as [|p IH]; first by rewrite Nat.add_0_r /total /=; lra.
  rewrite Nat.add_succ_r !total_S IH. lra.
Qed.
Lemma total_ext f g n : (forall i, (i < n)%nat -> f i = g i) -> total f n = total g n.
Proof.
  move=> H. rewrite /total. f_equal. apply map_ext_in => i. rewrite in_seq => Hi. apply H. lia.
Qed.
Lemma total_pairs f n : total (fun i => f (2 * i)%nat + f (2 * i + 1)%nat) n = total f (2 * n).
Proof.
  induction n as [|n IH]; first by rewrite /total /=.
  rewrite total_S IH. have -> : (2 * S n = S (S (2 * n)))%nat by lia. rewrite !total_S.
  have -> : (S (2 * n) = 2 * n + 1)%nat by lia. lra.
Qed.

Definition given_mass (a : star_args) (j : nat) : R := value_or 1 0 (a_m a) j.
Definition given_moment (f : six R -> R) (a : star_args) (j : nat) : R :=
  given_mass a j * f (map6 (fun p => value 0 p j) (a_s a)).

Definition components : list (six R -> R) := [@sx R; @sy R; @sz R; @svx R; @svy R; @svz R].

Theorem binaries_conserve a N nb k n sort an proj :
  describes_stars a N -> aligned k n -> no_binaries k -> (1 <= nb)%nat -> (2 * nb <= N)%nat ->
  (nb = 1%nat -> a_m a <> None) -> (forall j, (j < N)%nat -> 0 < given_mass a j) ->
  exists k', add_stars nb a sort an proj k = Ok k' /\
    let n' := (nb + n + (N - 2 * nb))%nat in
    total (row_mass k') n' = total (row_mass k) n + total (given_mass a) N /\
    forall f, In f components ->
      total (row_moment f k') n' = total (row_moment f k) n + total (given_moment f a) N.
Proof.
  move=> D AL NB H1 H2 M1 POS.
  have [k' [E [_ [RP [RO [RS _]]]]]] := add_binaries_rows sort an proj D AL NB H1 H2 M1.
  exists k'; split => // n'.
  have EN : (N = 2 * nb + (N - 2 * nb))%nat by lia.
  split.
  - rewrite /n' !total_add (total_ext (g := fun i => given_mass a (2 * i) + given_mass a (2 * i + 1))).
    { move=> i Hi. rewrite /row_mass. by have [_ [-> _]] := RP i Hi. }
    rewrite total_pairs (total_ext (f := fun i => row_mass k' (nb + i)) (g := row_mass k)).
    { move=> i Hi. by rewrite /row_mass RO. }
    rewrite (total_ext (f := fun i => row_mass k' (nb + n + i)) (g := fun j => given_mass a (2 * nb + j))).
    { move=> i Hi. rewrite /row_mass. by have [_ [-> _]] := RS i Hi. }
    rewrite {2}EN total_add. lra.
  - move=> f Hf.
    rewrite /n' !total_add (total_ext (g := fun i => given_moment f a (2 * i) + given_moment f a (2 * i + 1))).
    { move=> i Hi. have [W [Wm _]] := RP i Hi. rewrite /row_moment W Wm /given_moment -!/(given_mass a _).
      have P0 : 0 < given_mass a (2 * i) by apply POS; lia.
      have P1 : 0 < given_mass a (2 * i + 1) by apply POS; lia.
      rewrite /weighted -!/(given_mass a _).
      case: Hf => [<-|[<-|[<-|[<-|[<-|[<-|[]]]]]]]; cbn [map6 sx sy sz svx svy svz]; field; lra. }
    rewrite total_pairs (total_ext (f := fun i => row_moment f k' (nb + i)) (g := row_moment f k)).
    { move=> i Hi. by rewrite /row_moment RO. }
    rewrite (total_ext (f := fun i => row_moment f k' (nb + n + i)) (g := fun j => given_moment f a (2 * nb + j))).
    { move=> i Hi. have [W [Wm _]] := RS i Hi. by rewrite /row_moment W Wm. }
    rewrite {2}EN total_add. lra.
Qed.

(* ------------------------------------------------------------------ identifiers *)
Lemma zmax_ge d l : (d <= zmax d l)%Z /\ forall a, In a l -> (a <= zmax d l)%Z.
Proof.
  revert d; induction l as [|b l IH] => d /=; [split; [lia|done]|].
  have [A B] := IH (Z.max d b). split; [lia|]. move=> a [<-|/B //]. lia.
Qed.

Lemma id_start_above (extra : bool) ids a : In a ids -> (a + 1 + (if extra then 1 else 0) <= id_start extra ids)%Z.
Proof.
  destruct ids as [|d l] => //=. have [A B] := zmax_ge d l. move=> [E|/B H]; [subst a|]; destruct extra; lia.
Qed.

Lemma NoDup_app' A (l k : list A) : NoDup l -> NoDup k -> (forall a, In a l -> ~ In a k) -> NoDup (l ++ k).
Proof.
  move=> Hl Hk H. induction Hl as [|a l Ha Hl IH] => //=. constructor.
  - rewrite in_app_iff => [[|]] // X. by apply (H a); [left|].
  - apply IH => b Hb. by apply H; right.
Qed.
Lemma NoDup_app_inv A (l k : list A) : NoDup (l ++ k) -> NoDup l /\ NoDup k /\ (forall a, In a l -> ~ In a k).
Proof.
  induction l as [|a l IH] => /= H; [split; [constructor|done]|].
  inversion H as [|? ? Ha Hl]; subst. have [A1 [A2 A3]] := IH Hl. split; [|split => //].
  - constructor => // X. apply Ha. apply in_app_iff; by left.
  - move=> b [<-|Hb]; [|by apply A3]. move=> X; apply Ha; apply in_app_iff; by right.
Qed.

Lemma in_range start n a : In a (map (Z.add start) (zrange n)) <-> (start <= a < start + Z.of_nat n)%Z.
Proof.
  rewrite /zrange map_map in_map_iff. split.
  - move=> [i [<- Hi]]. rewrite in_seq in Hi. lia.
  - move=> H. exists (Z.to_nat (a - start)). rewrite in_seq. split; lia.
Qed.
Lemma nodup_range start n : NoDup (map (Z.add start) (zrange n)).
Proof. rewrite /zrange map_map. apply FinFun.Injective_map_NoDup; [move=> x y; lia|apply seq_NoDup]. Qed.
Lemma in_evens start n a : In a (map (Z.add start) (evens n)) <->
  exists i, (i < n)%nat /\ a = (start + 2 * Z.of_nat i)%Z.
Proof.
  rewrite /evens map_map in_map_iff. split.
  - move=> [i [<- Hi]]. rewrite in_seq in Hi. exists i; lia.
  - move=> [i [Hi ->]]. exists i. rewrite in_seq. lia.
Qed.
Lemma nodup_evens start n : NoDup (map (Z.add start) (evens n)).
Proof. rewrite /evens map_map. apply FinFun.Injective_map_NoDup; [move=> x y; lia|apply seq_NoDup]. Qed.
Lemma nth_evens start n i : (i < n)%nat -> nth i (map (Z.add start) (evens n)) 0%Z = (start + 2 * Z.of_nat i)%Z.
Proof. move=> H. rewrite /evens map_map nth_map_seq //. Qed.

Definition sound_ids (k : catalog) : Prop :=
  exists n, aligned k n /\ (c_nb (g_c k) <= n)%nat /\ (c_nb (g_c k) = 0%nat -> g_b k = init_pairs) /\ NoDup (all_ids k).

Lemma one_binary_without_mass a N k sort an proj : describes_stars a N -> (2 <= N)%nat -> a_m a = None ->
  add_stars 1 a sort an proj k = Raise.
Proof.
  move=> D H2 M. have [H1 [S _]] := D.
  rewrite /add_stars (npmax_described D); cbn [Nat.eqb].
  have [x1 [P1 [X1 [N1 I1]]]] := @pick6_ok 1 0 N _ (le_n 1) H2 (six_expand_length S) (le_S _ _ (le_n 0)).
  have [x2 [P2 [X2 [N2 I2]]]] := @pick6_ok 1 1 N _ (le_n 1) H2 (six_expand_length S) (le_n 1).
  rewrite /add_binary_rows P1 P2 M; cbn [bind option_map pick_opt]. rewrite /store_pairs; cbn [mass_or_ones].
  by destruct (sx x1).
Qed.

Theorem history_ids k : default_history k -> sound_ids k.
Proof.
  induction 1 as [c B I M S|k a N sort an proj k' Hk IH D NI E|k a N nb sort an proj k' Hk IH D NI NB H1 H2 E].
  - exists 0%nat. rewrite /init_catalog /aligned /all_ids /=. rewrite B I M S /six_length /=.
    split; [by repeat split|]. split; [lia|]. split => //. constructor.
  - case: IH => n [AL [LE [IB ND]]].
    have [k1 [E1 [AL1 [_ [_ [_ [_ [B1 [B2 [_ [_ C]]]]]]]]]]] := add_singles_rows sort an proj D AL.
    rewrite E1 in E; case: E => E; subst k1.
    exists (n + N)%nat. split => //. rewrite B1 B2. split; [lia|]. split => //.
    have CI : c_id (g_c k') = c_id (g_c k) ++ map (Z.add (id_start (negb (Nat.eqb (c_nb (g_c k)) 0)) (c_id (g_c k)))) (zrange N).
    { have := f_equal t_id C. rewrite /columns_of /app_columns /single_part; cbn [t_id]. by rewrite NI /default_tail /= Nat.sub_0_r. }
    rewrite /all_ids CI B1.
    have LI : length (c_id (g_c k)) = n by case: AL => [_ [_ []]].
    have -> : map (fun i => (nth i (c_id (g_c k) ++ map (Z.add (id_start (negb (Nat.eqb (c_nb (g_c k)) 0)) (c_id (g_c k)))) (zrange N)) 0 + 1)%Z)
        (seq 0 (c_nb (g_c k))) = map (fun i => (nth i (c_id (g_c k)) 0 + 1)%Z) (seq 0 (c_nb (g_c k))).
    { apply map_ext_in => i. rewrite in_seq => Hi. rewrite app_nth1 //; lia. }
    have [ND1 [ND2 ND3]] := NoDup_app_inv ND.
    set st := id_start _ _. rewrite -app_assoc. apply NoDup_app' => //.
    + apply NoDup_app' => //; [by apply nodup_range|].
      move=> a0 /in_range Ha. rewrite in_map_iff => [[i [Hi Hs]]]. rewrite in_seq in Hs.
      have INi : In (nth i (c_id (g_c k)) 0%Z) (c_id (g_c k)) by apply nth_In; lia.
      have := @id_start_above (negb (Nat.eqb (c_nb (g_c k)) 0)) _ _ INi.
      rewrite -/st. destruct (Nat.eqb_spec (c_nb (g_c k)) 0) as [Z0|]; cbn [negb]; lia.
    + move=> a0 Ha. rewrite in_app_iff => [[/in_range Hb|]]; last by apply ND3.
      have := @id_start_above (negb (Nat.eqb (c_nb (g_c k)) 0)) _ _ Ha. rewrite -/st. destruct (negb _); lia.
  - case: IH => n [AL [LE [IB ND]]].
    have NBk : no_binaries k by split => //; apply IB.
    have M1 : nb = 1%nat -> a_m a <> None.
    { move=> N1 M. subst nb. rewrite (one_binary_without_mass k sort an proj D H2 M) in E. done. }
    have [k1 [E1 [AL1 [_ [_ [_ [_ [_ [B1 [_ [_ [_ C]]]]]]]]]]]] := add_binaries_rows sort an proj D AL NBk H1 H2 M1.
    rewrite E1 in E; case: E => E; subst k1.
    exists (nb + n + (N - 2 * nb))%nat. split => //. rewrite B1. split; [lia|]. split; [lia|].
    have [ND1 _] := NoDup_app_inv ND.
    set st := id_start false (c_id (g_c k)) in C.
    have PI : t_id (pair_part a nb N st) = map (Z.add st) (evens nb) by rewrite /pair_part NI.
    set ev := map (Z.add st) (evens nb) in PI.
    have LE' : length ev = nb by rewrite /ev /evens !map_length seq_length.
    have CI : c_id (g_c k') = (ev ++ c_id (g_c k)) ++ map (Z.add (id_start true (ev ++ c_id (g_c k)))) (zrange (N - 2 * nb)).
    { have := f_equal t_id C. rewrite /columns_of /app_columns PI; cbn [t_id]. move=> ->. by rewrite /single_part NI. }
    rewrite /all_ids CI B1.
    set st' := id_start true (ev ++ c_id (g_c k)).
    have -> : map (fun i => (nth i ((ev ++ c_id (g_c k)) ++ map (Z.add st') (zrange (N - 2 * nb))) 0 + 1)%Z) (seq 0 nb) =
              map (fun i => (st + 2 * Z.of_nat i + 1)%Z) (seq 0 nb).
    { apply map_ext_in => i. rewrite in_seq => Hi. rewrite -app_assoc app_nth1; first lia. rewrite nth_evens; [lia|done]. }
    have INO : forall a0, In a0 (c_id (g_c k)) -> (a0 < st)%Z.
    { move=> a0 Ha. have := @id_start_above false _ _ Ha. rewrite -/st. lia. }
    rewrite -!app_assoc. apply NoDup_app'; [by apply nodup_evens| |].
    + apply NoDup_app' => //.
      * apply NoDup_app'; [by apply nodup_range| |].
        { apply FinFun.Injective_map_NoDup; [move=> x y; lia|apply seq_NoDup]. }
        move=> a0 /in_range Ha. rewrite in_map_iff => [[i [Hi Hs]]]. rewrite in_seq in Hs.
        have INi : In (st + 2 * Z.of_nat i)%Z (ev ++ c_id (g_c k)).
        { apply in_app_iff; left. apply in_evens. exists i; lia. }
        have := @id_start_above true _ _ INi. rewrite -/st'. lia.
      * move=> a0 Ha. rewrite in_app_iff => [[/in_range Hb|]].
        { have INi : In a0 (ev ++ c_id (g_c k)) by apply in_app_iff; right.
          have := @id_start_above true _ _ INi. rewrite -/st'. lia. }
        rewrite in_map_iff => [[i [Hi Hs]]]. have := INO a0 Ha. lia.
    + move=> a0 Ha. have [i [Hi ->]] := proj1 (in_evens _ _ _) Ha.
      rewrite !in_app_iff => [[Hb|[/in_range Hb|]]].
      * have := INO _ Hb. lia.
      * have INi : In (st + 2 * Z.of_nat i)%Z (ev ++ c_id (g_c k)).
        { apply in_app_iff; left. apply in_evens. exists i; lia. }
        have := @id_start_above true _ _ INi. rewrite -/st'. lia.
      * rewrite in_map_iff => [[j [Hj Hs]]]. lia.
Qed.
