(* File names and tables. *)
From Coq Require Import String Ascii DecimalString DecimalNat DecimalFacts.
From Verif Require Import Base ModelCluster ModelStars SpecStars ModelLoad SpecLoad ProofsStars.
Set Implicit Arguments.
Unset Strict Implicit.
Open Scope string_scope. Open Scope list_scope. Open Scope R_scope.

Lemma append_assoc a b c : append (append a b) c = append a (append b c).
Proof. induction a => //=. by f_equal. Qed.
Lemma append_nil a : append a "" = a.
Proof. induction a => //=. by f_equal. Qed.
Lemma append_inj_l a b c : append a b = append a c -> b = c.
Proof. induction a => //= E. apply IHa. congruence. Qed.
Lemma append_length a b : String.length (append a b) = (String.length a + String.length b)%nat.
Proof. induction a => //=. by f_equal. Qed.
Lemma append_inj_r a b c : append a c = append b c -> a = b.
Proof.
  move: b. induction a as [|x a IH]; case => [|y b] //= E.
  - have := f_equal String.length E. rewrite /= append_length. lia.
  - have := f_equal String.length E. rewrite /= append_length. lia.
  - case: E => -> /IH ->. done.
Qed.

(* decimal numerals *)
Lemma value_digits u : forall acc, digits_value acc (NilEmpty.string_of_uint u) = Some (Nat.of_uint_acc u acc).
Proof.
  induction u => acc //=; rewrite IHu; do 2 f_equal; rewrite Nat.tail_mul_spec; lia.
Qed.
Lemma str_value n : digits_value 0 (str n) = Some n.
Proof. rewrite /str value_digits. f_equal. exact (Unsigned.of_to n). Qed.
Lemma zeros_value k s : digits_value 0 (zeros k s) = digits_value 0 s.
Proof. induction k => //=. Qed.
Lemma zeros_length k s : String.length (zeros k s) = (k + String.length s)%nat.
Proof. induction k => //=. by f_equal. Qed.

Lemma digits_grow s : forall acc n, digits_value acc s = Some n -> (acc * 10 ^ String.length s <= n)%nat.
Proof.
  induction s as [|c s IH] => acc n /=; [case => <-; lia|].
  destruct (digit c) as [d|] => // /IH H.
  have : ((acc * 10) * 10 ^ String.length s <= (10 * acc + d) * 10 ^ String.length s)%nat by apply Nat.mul_le_mono_r; lia.
  lia.
Qed.
Lemma to_uint_norm n : Decimal.unorm (Nat.to_uint n) = Nat.to_uint n.
Proof. by rewrite -Unsigned.to_of Unsigned.of_to. Qed.
Lemma norm_cases u : Decimal.unorm u = u -> u = Decimal.D0 Decimal.Nil \/ (Decimal.nzhead u = u /\ u <> Decimal.Nil).
Proof.
  move=> E. have D : Decimal.nzhead u = Decimal.Nil \/ Decimal.nzhead u <> Decimal.Nil by destruct (Decimal.nzhead u); auto; right.
  case: D => [H|N]; [left; rewrite -E; by apply unorm_0|right].
  have Q := unorm_nzhead _ N. rewrite E in Q. split => //. by rewrite Q.
Qed.
Lemma str_nonempty n : (1 <= String.length (str n))%nat.
Proof.
  rewrite /str. case: (norm_cases (to_uint_norm n)) => [->|[_ N]] /=; [lia|]. destruct (Nat.to_uint n) => //=; lia.
Qed.
Lemma str_tight n : String.length (str n) = 1%nat \/ (10 ^ (String.length (str n) - 1) <= n)%nat.
Proof.
  have V := str_value n. move: V. rewrite /str. case: (norm_cases (to_uint_norm n)) => [->|[H N]]; [by left|].
  destruct (Nat.to_uint n) as [|u|u|u|u|u|u|u|u|u|u] => //; first by case: (nzhead_nonzero u u).
  all: cbn [NilEmpty.string_of_uint digits_value]; cbn [digit nat_of_ascii]; move=> /digits_grow Q; right; cbn [String.length]; rewrite Nat.sub_succ Nat.sub_0_r; revert Q; cbn; lia.
Qed.
Lemma zfill_numeral n k : numeral n k (zfill k (str n)).
Proof.
  rewrite /zfill /numeral zeros_value str_value zeros_length. have := str_nonempty n. have := str_tight n.
  split => //. split; [lia|]. split; [lia|]. move=> H1.
  have -> : (k - String.length (str n) + String.length (str n) = String.length (str n))%nat by lia. done.
Qed.

(* directories *)
Lemma last_char_append u c : last_char (append u (String c EmptyString)) = Some c.
Proof. induction u as [|x u IH] => //=. rewrite IH. by destruct u. Qed.
Lemma last_char_some w c : last_char w = Some c -> exists u, w = append u (String c EmptyString).
Proof.
  induction w as [|x w IH] => //=. destruct w as [|y w].
  - case=> ->. by exists "".
  - move=> /IH [u ->]. by exists (String x u).
Qed.
Lemma last_char_none w : last_char w = None -> w = "".
Proof. induction w as [|x w IH] => //=. destruct w as [|y w] => // /IH. done. Qed.
Lemma with_slash_ok w : slashed w (with_slash w).
Proof.
  rewrite /slashed /with_slash. destruct (last_char w) as [c|] eqn:E; last by left; rewrite (last_char_none E).
  right. destruct (Ascii.eqb_spec c slash) as [->|N].
  - left. have [u U] := last_char_some E. by exists u.
  - right. split; [by move=> Q; rewrite Q in E|]. split => // u U. rewrite U last_char_append in E. apply N. by case: E.
Qed.
Lemma search_model o filename :
  search o filename match filename with
               | Some f => [cat3 (with_slash (o_wdir o)) (with_slash (o_snapdir o)) f; append (with_slash (o_wdir o)) f; f]
               | None => [append (append (with_slash (o_wdir o)) (with_slash (o_snapdir o))) (snap_name o); append (with_slash (o_wdir o)) (snap_name o)]
               end.
Proof.
  exists (with_slash (o_wdir o)), (with_slash (o_snapdir o)), (zfill (o_nzfill o) (str (o_nsnap o))).
  split; [apply with_slash_ok|]. split; [apply with_slash_ok|]. split; [apply zfill_numeral|].
  destruct filename => //. by rewrite append_assoc.
Qed.
(* the names are determined *)
Lemma slashed_unique w a b : slashed w a -> slashed w b -> a = b.
Proof.
  rewrite /slashed.
  intros [[W E]|[[u [W E]]|[W [N E]]]] [[W' E']|[[u' [W' E']]|[W' [N' E']]]]; rewrite E E'; try congruence.
  all: try (subst w; destruct u; discriminate).
  all: try (subst w; destruct u'; discriminate).
Qed.
Lemma digits_exact s : forall acc n, digits_value acc s = Some n -> (n < (acc + 1) * 10 ^ String.length s)%nat.
Proof.
  induction s as [|c s IH] => acc n /=; [case => <-; lia|].
  destruct (digit c) as [d|] eqn:D => // /IH H.
  have L : (d <= 9)%nat by move: D; rewrite /digit; destruct (_ && _)%bool eqn:B => //; case=> <-; move: B; rewrite andb_true_iff !Nat.leb_le; lia.
  have : ((10 * acc + d + 1) * 10 ^ String.length s <= ((acc + 1) * 10) * 10 ^ String.length s)%nat by apply Nat.mul_le_mono_r; lia.
  lia.
Qed.
Lemma digit_inj a b d : digit a = Some d -> digit b = Some d -> a = b.
Proof.
  have D c : digit c = Some d -> nat_of_ascii c = (d + 48)%nat.
  { rewrite /digit. destruct (_ && _)%bool eqn:B => //. case=> <-. move: B. rewrite andb_true_iff !Nat.leb_le. lia. }
  move=> /D A /D B. rewrite -(ascii_nat_embedding a) -(ascii_nat_embedding b). by rewrite A B.
Qed.
Lemma digit_bound c d : digit c = Some d -> (d <= 9)%nat.
Proof. rewrite /digit; destruct (_ && _)%bool eqn:B => //; case=> <-; move: B; rewrite andb_true_iff !Nat.leb_le; lia. Qed.
Lemma digits_inj s : forall t acc n, String.length s = String.length t -> digits_value acc s = Some n -> digits_value acc t = Some n -> s = t.
Proof.
  induction s as [|c s IH]; case=> [|c' t] acc n //= [L].
  destruct (digit c) as [d|] eqn:D => // H1. destruct (digit c') as [d'|] eqn:D' => // H2.
  have G1 := digits_grow H1. have G2 := digits_grow H2. have U1 := digits_exact H1. have U2 := digits_exact H2.
  rewrite -L in G2 U2. have P : (0 < 10 ^ String.length s)%nat by apply Nat.neq_0_lt_0; apply Nat.pow_nonzero.
  have E : d = d' by have := digit_bound D; have := digit_bound D'; nia.
  subst d'. rewrite (digit_inj D D'). f_equal. exact (IH _ _ _ L H1 H2).
Qed.
Lemma numeral_unique n k s t : numeral n k s -> numeral n k t -> s = t.
Proof.
  move=> [V1 [L1 [N1 T1]]] [V2 [L2 [N2 T2]]]. apply (digits_inj (acc := 0) (n := n)) => //.
  have U1 := digits_exact V1. have U2 := digits_exact V2. cbn [Nat.add Nat.mul] in U1, U2. rewrite Nat.add_0_r in U1, U2.
  destruct (Nat.lt_trichotomy (String.length s) (String.length t)) as [H|[H|H]] => //; exfalso.
  - case: T2 => [|Q|Q]; [lia|lia|]. have : (10 ^ String.length s <= 10 ^ (String.length t - 1))%nat by apply Nat.pow_le_mono_r; lia. lia.
  - case: T1 => [|Q|Q]; [lia|lia|]. have : (10 ^ String.length t <= 10 ^ (String.length s - 1))%nat by apply Nat.pow_le_mono_r; lia. lia.
Qed.
Lemma search_unique o filename l l' : search o filename l -> search o filename l' -> l = l'.
Proof.
  move=> [w [s [n [W [S [N ->]]]]]] [w' [s' [n' [W' [S' [N' ->]]]]]].
  by rewrite (slashed_unique W W') (slashed_unique S S') (numeral_unique N N').
Qed.
Lemma first_file_content d l f : first_content d l f -> match first_file d l with Some p => files d p | None => None end = Some f.
Proof.
  move=> [pre [p [post [-> [N F]]]]]. rewrite /first_file. induction pre as [|q pre IH] => /=; [by rewrite F|].
  rewrite (N q); [by left|]. apply IH => r Hr. apply N. by right.
Qed.
Lemma first_file_none d l : (forall q, In q l -> files d q = None) -> first_file d l = None.
Proof.
  move=> N. rewrite /first_file. induction l as [|q l IH] => //=. rewrite (N q); [by left|]. apply IH => r Hr. apply N. by right.
Qed.
Lemma finds_file d o filename f : finds d o filename f ->
  match snapshot_file d o filename with Some p => files d p | None => None end = Some f.
Proof.
  move=> [l [S F]]. rewrite /snapshot_file; cbn zeta. apply first_file_content. have E := search_unique S (search_model o filename).
  rewrite -E. exact F.
Qed.
Lemma finds_no_file d o filename : finds_none d o filename -> snapshot_file d o filename = None.
Proof.
  move=> [l [S F]]. rewrite /snapshot_file; cbn zeta. apply first_file_none. have E := search_unique S (search_model o filename).
  rewrite -E. exact F.
Qed.

(* tables *)
Lemma mapM_Forall2 {A B} (f : A -> option B) l r : Forall2 (fun a b => f a = Some b) l r -> mapM f l = Some r.
Proof. induction 1 as [|a b l r H F IH] => //=. by rewrite H IH. Qed.
Lemma line_holds_plain rd l r : line_holds rd l r -> uncomment l = l /\ mapM (float_of rd) l = Some r.
Proof.
  induction 1 as [|a b l r [H P] F [IH1 IH2]] => //=. by rewrite P IH1 H IH2.
Qed.
Lemma line_holds_length rd l r : line_holds rd l r -> length l = length r.
Proof. by induction 1 => /=; f_equal. Qed.
Lemma loadtxt_ok rd skip f rows w : file_holds rd skip f rows w -> (2 <= w)%nat ->
  loadtxt rd skip None f = Ok (if Nat.leb (length rows) 1 then Flat else Mat rows).
Proof.
  move=> [pre [data [-> [L [F W]]]]] Hw. rewrite /loadtxt.
  have -> : skipn skip (pre ++ data) = data by rewrite -L skipn_app skipn_all Nat.sub_diag.
  have E : map uncomment data = data /\ filter nonempty data = data /\ mapM (mapM (float_of rd)) data = Some rows.
  { induction F as [|l r data rows H F IH] => //=.
    have [U M] := line_holds_plain H. rewrite U. inversion W as [|? ? W1 W2]; subst.
    have [E1 [E2 E3]] := IH W2. rewrite E1 E2 M E3. have Q := line_holds_length H. destruct l => //=. rewrite /= in Q; lia. }
  case: E => E1 [E2 E3]. rewrite E1 E2 E3.
  destruct rows as [|r rows] => //. have W1 : length r = w by inversion W. rewrite [hd _ _]/= W1.
  have -> : forallb (fun l => Nat.eqb (length l) w) (r :: rows) = true.
  { apply forallb_forall => l Hl. apply Nat.eqb_eq. move: W. rewrite Forall_forall => Q. exact (Q l Hl). }
  have -> : Nat.leb w 1 = false by apply Nat.leb_gt; lia. by rewrite orb_false_r.
Qed.
Lemma column_ok rows w k : Forall (fun r => length r = w) rows -> (k < w)%nat -> column (Mat rows) k = Ok (map (fun r => nth k r 0) rows).
Proof.
  move=> W K. rewrite /column.
  have -> : mapM (fun r => nth_error r k) rows = Some (map (fun r => nth k r 0) rows) => //.
  apply mapM_Forall2. induction W as [|r rows H W IH] => //=. constructor => //. apply nth_error_nth'. lia.
Qed.
Lemma index_of_name_in s l : forall i, index_of_name s l = Some i -> exists pre post, l = pre ++ s :: post /\ ~ In s pre /\ length pre = i.
Proof.
  induction l as [|a l IH] => //= i. destruct (String.eqb_spec s a) as [->|N].
  - case=> <-. exists [], l. split => //. split => //.
  - destruct (index_of_name s l) as [j|] => //= [[<-]]. have [pre [post [-> [NI L]]]] := IH j eq_refl.
    exists (a :: pre), post. split => //. split; [|by rewrite /= L]. case=> [E|] //. by apply N.
Qed.
Lemma index_of_name_split s pre post : ~ In s pre -> index_of_name s (pre ++ s :: post) = Some (length pre).
Proof.
  induction pre as [|a pre IH] => /= N; [by rewrite String.eqb_refl|].
  destruct (String.eqb_spec s a) as [E|_]; [by case: N; left|]. rewrite IH //. move=> H. apply N. by right.
Qed.
Lemma index_of_name_none s l : ~ In s l -> index_of_name s l = None.
Proof.
  induction l as [|a l IH] => //= N. destruct (String.eqb_spec s a) as [E|_]; [by case: N; left|].
  rewrite IH //. move=> H. apply N. by right.
Qed.
Lemma stands_named rows w names nums s k : Forall (fun r => length r = w) rows -> (k < w)%nat -> stands_for names nums s k ->
  named (Mat rows) names nums s = Ok (Some (map (fun r => nth k r 0) rows)).
Proof.
  move=> W K [pre [post [-> [N E]]]]. rewrite /named (index_of_name_split _ N) E (column_ok W K). done.
Qed.
Lemma absent_named t names nums s : ~ In s names -> named t names nums s = Ok None.
Proof. move=> N. by rewrite /named index_of_name_none. Qed.
Lemma stands_unique names nums s k k' : stands_for names nums s k -> stands_for names nums s k' -> k = k'.
Proof.
  move=> [pre [post [E [N H]]]] [pre' [post' [E' [N' H']]]].
  have Q1 := index_of_name_split post N. have Q2 := index_of_name_split post' N'. rewrite -E in Q1. rewrite -E' in Q2.
  rewrite Q1 in Q2. case: Q2 => Q. rewrite Q in H. congruence.
Qed.
Lemma stands_in names nums s k : stands_for names nums s k -> In s names.
Proof. move=> [pre [post [-> _]]]. apply in_or_app. right. by left. Qed.
