(* OUT3 and OUT33 records. *)
From Coq Require Import String Ascii.
From Coq Require Import Init.Byte.
From Verif Require Import Base ModelCluster ModelRecipes ModelStars SpecStars ModelLoad SpecLoad ModelNbody6 SpecNbody6.
Set Implicit Arguments.
Unset Strict Implicit.
Open Scope string_scope. Open Scope list_scope. Open Scope R_scope.

Lemma ints_cons_inv D z l f : ints D (z :: l) f -> exists f', (forall g, read_int D (f ++ g) = Ok (z, f' ++ g)) /\ ints D l f'.
Proof. move=> H. inversion H; subst. eexists. by split. Qed.
Lemma reals_cons_inv D z l f : reals D (z :: l) f -> exists f', (forall g, read_real D (f ++ g) = Ok (z, f' ++ g)) /\ reals D l f'.
Proof. move=> H. inversion H; subst. eexists. by split. Qed.
Lemma ints_nil_inv D f : ints D [] f -> f = []. Proof. move=> H. by inversion H. Qed.
Lemma reals_nil_inv D f : reals D [] f -> f = []. Proof. move=> H. by inversion H. Qed.
Lemma read_ints D l : forall f g, ints D l f -> read_many (read_int D) (length l) (f ++ g) = Ok (l, g).
Proof.
  elim: l => [|z l IH] f g H; [by rewrite (ints_nil_inv H)|]. have [f' [E I]] := ints_cons_inv H. cbn [length read_many]. rewrite E; cbn [bind fst snd].
  by rewrite (IH _ _ I).
Qed.
Lemma read_reals D l : forall f g, reals D l f -> read_many (read_real D) (length l) (f ++ g) = Ok (l, g).
Proof.
  elim: l => [|z l IH] f g H; [by rewrite (reals_nil_inv H)|]. have [f' [E I]] := reals_cons_inv H. cbn [length read_many]. rewrite E; cbn [bind fst snd].
  by rewrite (IH _ _ I).
Qed.
Lemma read_threes D A (h1 h2 h3 : A -> R) l : forall f g, reals D (flat_map (fun p => [h1 p; h2 p; h3 p]) l) f ->
  read_many (read_three D) (length l) (f ++ g) = Ok (map (fun p => (h1 p, h2 p, h3 p)) l, g).
Proof.
  elim: l => [|z l IH] f g H; [by rewrite (reals_nil_inv H)|]. cbn [flat_map app] in H.
  have [f1 [E1 I1]] := reals_cons_inv H. have [f2 [E2 I2]] := reals_cons_inv I1. have [f3 [E3 I3]] := reals_cons_inv I2.
  cbn [length read_many]. rewrite /read_three E1; cbn [bind fst snd]. rewrite E2; cbn [bind fst snd]. rewrite E3; cbn [bind fst snd].
  by rewrite -/(read_three D) (IH _ _ I3).
Qed.
Lemma count_nat A (l : list A) : Z.to_nat (count l) = length l. Proof. apply Nat2Z.id. Qed.
Lemma read_one D z f g : ints D [z] f -> read_int D (f ++ g) = Ok (z, g).
Proof. move=> H. have [f' [E I]] := ints_cons_inv H. by rewrite E (ints_nil_inv I). Qed.
Lemma read_data_ok D sc ps f g : data_block D sc ps f -> read_data D (count ps) (count sc) (f ++ g) = Ok (read_record sc ps, g).
Proof.
  move=> [mark [b1 [b2 [b3 [b4 [b5 [b6 [b7 [-> [H1 [H2 [H3 [H4 [H5 [H6 H7]]]]]]]]]]]]]]]. rewrite /read_data !count_nat -!app_assoc.
  rewrite (read_one _ H1); cbn [bind fst snd]. rewrite (read_reals _ H2); cbn [bind fst snd].
  have L3 : length (map pt_m ps) = length ps by rewrite map_length. rewrite -{1}L3 (read_reals _ H3); cbn [bind fst snd].
  rewrite (read_threes _ H4); cbn [bind fst snd]. rewrite (read_threes _ H5); cbn [bind fst snd].
  have L6 : length (map pt_id ps) = length ps by rewrite map_length. rewrite -{1}L6 (read_ints _ H6); cbn [bind fst snd].
  rewrite (read_one _ H7); cbn [bind fst snd]. rewrite Z.eqb_refl /read_record !map_map. by [].
Qed.
Lemma get_out3_ok D sc ps f g : out3_record D sc ps f -> get_out3 D (f ++ g) = Ok (read_record sc ps, g).
Proof.
  move=> [mark [model [nrun [h [b [-> [H B]]]]]]]. rewrite /get_out3 -app_assoc.
  have [h1 [E1 H1]] := ints_cons_inv H. have [h2 [E2 H2]] := ints_cons_inv H1. have [h3 [E3 H3]] := ints_cons_inv H2.
  have [h4 [E4 H4]] := ints_cons_inv H3. have [h5 [E5 H5]] := ints_cons_inv H4.
  rewrite E1; cbn [snd]. rewrite E2; cbn [bind snd]. rewrite E3; cbn [bind snd]. rewrite E4; cbn [bind snd]. rewrite E5; cbn [bind snd].
  rewrite (read_one _ H5); cbn [bind fst snd]. rewrite Z.eqb_refl. by apply read_data_ok.
Qed.
Lemma get_out33_ok D sc ps f g : out33_record D sc ps f -> get_out33 D (f ++ g) = Ok (match ps with [] => no_out | _ => read_record sc ps end, g).
Proof.
  move=> [mark [model [h [b [-> [H B]]]]]]. rewrite /get_out33 -app_assoc.
  have [h1 [E1 H1]] := ints_cons_inv H. have [h2 [E2 H2]] := ints_cons_inv H1. have [h3 [E3 H3]] := ints_cons_inv H2.
  have [h4 [E4 H4]] := ints_cons_inv H3.
  rewrite E1; cbn [snd]. rewrite E2; cbn [bind snd]. rewrite E3; cbn [bind snd]. rewrite E4; cbn [bind snd].
  rewrite (read_one _ H4); cbn [bind fst snd]. rewrite Z.eqb_refl. destruct ps as [|p ps].
  - cbn. by rewrite B.
  - have -> : Z.ltb 0 (count (p :: ps)) = true by apply Z.ltb_lt; rewrite /count; cbn [length]; lia. by apply read_data_ok.
Qed.

(* reading does not depend on what follows *)
Definition stable {A} (rd : bytes -> result (A * bytes)) : Prop := forall f x f' g, rd f = Ok (x, f') -> rd (f ++ g) = Ok (x, f' ++ g).
Lemma stable_int D : stable (read_int D).
Proof. move=> [|a [|b [|c [|d f]]]] x f' g //=. by case=> <- <-. Qed.
Lemma stable_real D : stable (read_real D).
Proof. move=> [|a [|b [|c [|d f]]]] x f' g //=. by case=> <- <-. Qed.
Lemma stable_bind A B (r : bytes -> result (A * bytes)) (k : A -> bytes -> result (B * bytes)) : stable r -> (forall a, stable (k a)) ->
  stable (fun f => bind (r f) (fun q => k (fst q) (snd q))).
Proof.
  move=> S K f x f' g. destruct (r f) as [[a f1]|] eqn:E => //; cbn [bind fst snd] => H. rewrite (S _ _ _ g E); cbn [bind fst snd]. by apply K.
Qed.
Lemma stable_ret A (a : A) : stable (fun f => Ok (a, f)). Proof. by move=> f x f' g [<- <-]. Qed.
Lemma stable_raise A : stable (fun f => @Raise (A * bytes)). Proof. done. Qed.
Lemma stable_many A (r : bytes -> result (A * bytes)) n : stable r -> stable (read_many r n).
Proof.
  move=> S. elim: n => [|n IH]; cbn [read_many]; [exact (@stable_ret (list A) [])|].
  apply (@stable_bind _ _ r (fun a f => bind (read_many r n f) (fun q => Ok (a :: fst q, snd q)))) => // a.
  apply (@stable_bind _ _ _ (fun q f => Ok (a :: q, f))) => // q. apply stable_ret.
Qed.
Lemma stable_three D : stable (read_three D).
Proof.
  rewrite /read_three. apply (@stable_bind _ _ _ (fun x f => bind (read_real D f) (fun y => bind (read_real D (snd y)) (fun z => Ok ((x, fst y, fst z), snd z))))); [exact (@stable_real D)|] => x.
  apply (@stable_bind _ _ _ (fun y f => bind (read_real D f) (fun z => Ok ((x, y, fst z), snd z)))); [exact (@stable_real D)|] => y.
  apply (@stable_bind _ _ _ (fun z f => Ok ((x, y, z), f))); [exact (@stable_real D)|] => z. apply stable_ret.
Qed.
Lemma stable_data D n nk : stable (read_data D n nk).
Proof.
  move=> f x f' g. rewrite /read_data.
  destruct (read_int D f) as [b0|] eqn:E0 => //; cbn [bind]. rewrite (stable_int g (eq_trans E0 (f_equal Ok (surjective_pairing b0)))); cbn [bind fst snd].
  destruct (read_many (read_real D) (Z.to_nat nk) (snd b0)) as [q1|] eqn:E1 => //; cbn [bind].
  rewrite (stable_many (@stable_real D) g (eq_trans E1 (f_equal Ok (surjective_pairing q1)))); cbn [bind fst snd].
  destruct (read_many (read_real D) (Z.to_nat n) (snd q1)) as [q2|] eqn:E2 => //; cbn [bind].
  rewrite (stable_many (@stable_real D) g (eq_trans E2 (f_equal Ok (surjective_pairing q2)))); cbn [bind fst snd].
  destruct (read_many (read_three D) (Z.to_nat n) (snd q2)) as [q3|] eqn:E3 => //; cbn [bind].
  rewrite (stable_many (@stable_three D) g (eq_trans E3 (f_equal Ok (surjective_pairing q3)))); cbn [bind fst snd].
  destruct (read_many (read_three D) (Z.to_nat n) (snd q3)) as [q4|] eqn:E4 => //; cbn [bind].
  rewrite (stable_many (@stable_three D) g (eq_trans E4 (f_equal Ok (surjective_pairing q4)))); cbn [bind fst snd].
  destruct (read_many (read_int D) (Z.to_nat n) (snd q4)) as [q5|] eqn:E5 => //; cbn [bind].
  rewrite (stable_many (@stable_int D) g (eq_trans E5 (f_equal Ok (surjective_pairing q5)))); cbn [bind fst snd].
  destruct (read_int D (snd q5)) as [b1|] eqn:E6 => //; cbn [bind]. rewrite (stable_int g (eq_trans E6 (f_equal Ok (surjective_pairing b1)))); cbn [bind fst snd].
  destruct (Z.eqb (fst b0) (fst b1)) => //. by case=> <- <-.
Qed.
Lemma stable_out3 D f x f' g : (4 <= length f)%nat -> get_out3 D f = Ok (x, f') -> get_out3 D (f ++ g) = Ok (x, f' ++ g).
Proof.
  move=> L. rewrite /get_out3. destruct (read_int D f) as [b0|] eqn:E0; [|by destruct f as [|? [|? [|? [|? ?]]]] => //; cbn in L; lia].
  rewrite (stable_int g (eq_trans E0 (f_equal Ok (surjective_pairing b0)))); cbn [fst snd].
  destruct (read_int D (snd b0)) as [b1|] eqn:E1 => //; cbn [bind]. rewrite (stable_int g (eq_trans E1 (f_equal Ok (surjective_pairing b1)))); cbn [bind fst snd].
  destruct (read_int D (snd b1)) as [b2|] eqn:E2 => //; cbn [bind]. rewrite (stable_int g (eq_trans E2 (f_equal Ok (surjective_pairing b2)))); cbn [bind fst snd].
  destruct (read_int D (snd b2)) as [b3|] eqn:E3 => //; cbn [bind]. rewrite (stable_int g (eq_trans E3 (f_equal Ok (surjective_pairing b3)))); cbn [bind fst snd].
  destruct (read_int D (snd b3)) as [b4|] eqn:E4 => //; cbn [bind]. rewrite (stable_int g (eq_trans E4 (f_equal Ok (surjective_pairing b4)))); cbn [bind fst snd].
  destruct (read_int D (snd b4)) as [b5|] eqn:E5 => //; cbn [bind]. rewrite (stable_int g (eq_trans E5 (f_equal Ok (surjective_pairing b5)))); cbn [bind fst snd].
  destruct (Z.eqb (fst b0) (fst b5)) => //. by apply stable_data.
Qed.
Lemma stable_out33 D f x f' g : (4 <= length f)%nat -> get_out33 D f = Ok (x, f') -> get_out33 D (f ++ g) = Ok (x, f' ++ g).
Proof.
  move=> L. rewrite /get_out33. destruct (read_int D f) as [b0|] eqn:E0; [|by destruct f as [|? [|? [|? [|? ?]]]] => //; cbn in L; lia].
  rewrite (stable_int g (eq_trans E0 (f_equal Ok (surjective_pairing b0)))); cbn [fst snd].
  destruct (read_int D (snd b0)) as [b1|] eqn:E1 => //; cbn [bind]. rewrite (stable_int g (eq_trans E1 (f_equal Ok (surjective_pairing b1)))); cbn [bind fst snd].
  destruct (read_int D (snd b1)) as [b2|] eqn:E2 => //; cbn [bind]. rewrite (stable_int g (eq_trans E2 (f_equal Ok (surjective_pairing b2)))); cbn [bind fst snd].
  destruct (read_int D (snd b2)) as [b3|] eqn:E3 => //; cbn [bind]. rewrite (stable_int g (eq_trans E3 (f_equal Ok (surjective_pairing b3)))); cbn [bind fst snd].
  destruct (read_int D (snd b3)) as [b4|] eqn:E4 => //; cbn [bind]. rewrite (stable_int g (eq_trans E4 (f_equal Ok (surjective_pairing b4)))); cbn [bind fst snd].
  destruct (Z.eqb (fst b0) (fst b4)) => //. destruct (Z.ltb 0 (fst b1)); [by apply stable_data|]. by case=> <- <-.
Qed.
(* a record cut short is not misread *)
Lemma truncated_out3 D sc ps f f1 f2 : out3_record D sc ps f -> f = f1 ++ f2 -> f2 <> [] -> (4 <= length f1)%nat -> get_out3 D f1 = Raise.
Proof.
  move=> Rc E N L. destruct (get_out3 D f1) as [[x f']|] eqn:Q => //. have := stable_out3 f2 L Q. rewrite -E.
  have := get_out3_ok [] Rc. rewrite app_nil_r. move=> -> E2. have H : [] = f' ++ f2 by congruence. have [_ Q0] := app_eq_nil _ _ (eq_sym H). by [].
Qed.
Lemma truncated_out33 D sc ps f f1 f2 : out33_record D sc ps f -> f = f1 ++ f2 -> f2 <> [] -> (4 <= length f1)%nat -> get_out33 D f1 = Raise.
Proof.
  move=> Rc E N L. destruct (get_out33 D f1) as [[x f']|] eqn:Q => //. have := stable_out33 f2 L Q. rewrite -E.
  have := get_out33_ok [] Rc. rewrite app_nil_r. move=> -> E2. have H : [] = f' ++ f2 by congruence. have [_ Q0] := app_eq_nil _ _ (eq_sym H). by [].
Qed.
