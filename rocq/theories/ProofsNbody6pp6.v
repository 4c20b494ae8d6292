(* A conf.3 file cut short. *)
From Coq Require Import String Ascii.
From Coq Require Import Init.Byte.
From Verif Require Import Base ModelCluster ModelOps ModelRecipes ModelEnergy ModelCoords ModelCentre ModelStars SpecStars ModelLoad SpecLoad
  ModelNbody6 SpecNbody6 ProofsNbody6 ModelNbody6pp SpecNbody6pp ProofsNbody6pp.
Set Implicit Arguments.
Unset Strict Implicit.
Open Scope string_scope. Open Scope list_scope. Open Scope R_scope.
Definition takes {A} (w : nat) (r : bytes -> result (A * bytes)) : Prop := forall f q, r f = Ok q -> length f = (w + length (snd q))%nat.
Lemma takes_int D : takes 4 (read_int D). Proof. move=> [|a [|b [|c [|d f]]]] q //= [<-]. done. Qed.
Lemma takes_real D : takes 4 (read_real D). Proof. move=> [|a [|b [|c [|d f]]]] q //= [<-]. done. Qed.
Lemma takes_three D : takes 12 (read_three D).
Proof.
  move=> f q. rewrite /read_three. destruct (read_real D f) as [x|] eqn:E1 => //; cbn [bind]. destruct (read_real D (snd x)) as [y|] eqn:E2 => //; cbn [bind].
  destruct (read_real D (snd y)) as [z|] eqn:E3 => //; cbn [bind]. move=> [<-]. cbn [snd]. have := takes_real E1. have := takes_real E2. have := takes_real E3. lia.
Qed.
Lemma takes_many A (r : bytes -> result (A * bytes)) w n : takes w r -> takes (n * w) (read_many r n).
Proof.
  move=> T. elim: n => [|n IH] f q; cbn [read_many]; [by move=> [<-]|]. destruct (r f) as [a|] eqn:E => //; cbn [bind]. destruct (read_many r n (snd a)) as [b|] eqn:E2 => //; cbn [bind].
  move=> [<-]. cbn [snd]. have := T _ _ E. have := IH _ _ E2. cbn [Nat.mul]. lia.
Qed.
Lemma read_conf_long D n nk f c : read_conf D n nk f = Ok c -> (8 + 4 * Z.to_nat nk + 44 * Z.to_nat n <= length f)%nat.
Proof.
  rewrite /read_conf; cbv zeta. move: (Z.to_nat n) (Z.to_nat nk) => N K.
  destruct (read_int D f) as [b0|] eqn:E0 => //; cbn [bind]. have T0 := takes_int E0.
  destruct (read_many (read_real D) K _) as [q1|] eqn:E1 => //; cbn [bind]. have T1 := takes_many (@takes_real D) E1.
  destruct (read_many (read_real D) N (snd q1)) as [q2|] eqn:E2 => //; cbn [bind]. have T2 := takes_many (@takes_real D) E2.
  destruct (read_many (read_real D) N (snd q2)) as [q3|] eqn:E3 => //; cbn [bind]. have T3 := takes_many (@takes_real D) E3.
  destruct (read_many (read_real D) N (snd q3)) as [q4|] eqn:E4 => //; cbn [bind]. have T4 := takes_many (@takes_real D) E4.
  destruct (read_many (read_three D) N (snd q4)) as [q5|] eqn:E5 => //; cbn [bind]. have T5 := takes_many (@takes_three D) E5.
  destruct (read_many (read_three D) N (snd q5)) as [q6|] eqn:E6 => //; cbn [bind]. have T6 := takes_many (@takes_three D) E6.
  destruct (read_many (read_int D) N (snd q6)) as [q7|] eqn:E7 => //; cbn [bind]. have T7 := takes_many (@takes_int D) E7.
  destruct (read_many (read_int D) N (snd q7)) as [q8|] eqn:E8 => //; cbn [bind]. have T8 := takes_many (@takes_int D) E8.
  destruct (read_int D (snd q8)) as [b1|] eqn:E9 => //; cbn [bind]. have T9 := takes_int E9. move=> _. lia.
Qed.
Lemma ints_len D l f : ints D l f -> length f = (4 * length l)%nat. Proof. move=> H. induction H; cbn [length]; lia. Qed.
Lemma reals_len D l f : reals D l f -> length f = (4 * length l)%nat. Proof. move=> H. induction H; cbn [length]; lia. Qed.
Lemma flat3_len (A : Type) (g : A -> list R) l : (forall a, length (g a) = 3%nat) -> length (flat_map g l) = (3 * length l)%nat.
Proof. move=> H. elim: l => [|a l IH] //. cbn [flat_map length]. rewrite app_length H IH. lia. Qed.
Lemma prefix_int D f1 f2 q x g : read_int D f1 = Ok q -> read_int D (f1 ++ f2) = Ok (x, g) -> x = fst q /\ g = snd q ++ f2.
Proof. move=> E E2. have := stable_int f2 (eq_trans E (f_equal Ok (surjective_pairing q))). rewrite E2. by move=> [-> ->]. Qed.
Lemma conf3_truncated D sc bs phi f f1 f2 : conf3_record D sc bs phi f -> bs <> [] -> f = f1 ++ f2 -> f2 <> [] -> (4 <= length f1)%nat -> get_conf3 D (Some f1) = Raise.
Proof.
  move=> [mk [mark [model [nrun [h [b1 [b2 [b3 [b4 [b5 [b6 [b7 [b8 [b9 [F [H [I1 [I2 [I3 [I4 [I5 [I6 [I7 [IP [I8 I9]]]]]]]]]]]]]]]]]]]]]]]]] NE E N L.
  set rest := b1 ++ b2 ++ b3 ++ b4 ++ b5 ++ b6 ++ b7 ++ phi ++ b8 ++ b9 in F.
  have LR : length rest = (8 + 4 * length sc + 44 * length bs)%nat.
  { rewrite /rest !app_length (ints_len I1) (reals_len I2) (reals_len I3) (reals_len I4) (reals_len I5) (reals_len I6) (reals_len I7) (reals_len IP) (ints_len I8) (ints_len I9) !map_length.
    rewrite !flat3_len //. cbn [length]. lia. }
  have LH := ints_len H. cbn [length] in LH. have LF : (length f1 < 24 + length rest)%nat.
  { have : length f = (length h + length rest)%nat by rewrite F app_length. rewrite E app_length LH. have : (0 < length f2)%nat by destruct f2 => //; cbn; lia. lia. }
  rewrite E in F. rewrite /get_conf3.
  destruct (read_int D f1) as [q0|] eqn:E0; [|by destruct f1 as [|? [|? [|? [|? ?]]]] => //; cbn in L; lia].
  have [h1 [R1 H1]] := ints_cons_inv H. have [h2 [R2 H2]] := ints_cons_inv H1. have [h3 [R3 H3]] := ints_cons_inv H2.
  have [h4 [R4 H4]] := ints_cons_inv H3. have [h5 [R5 H5]] := ints_cons_inv H4. have R6 := read_one rest H5.
  have R1' := R1 rest. rewrite -F in R1'. have [A0 B0] := prefix_int E0 R1'. have T0 := takes_int E0.
  destruct (read_int D (snd q0)) as [q1|] eqn:E1 => //; cbn [bind]. have R2' := R2 rest. rewrite B0 in R2'. have [A1 B1] := prefix_int E1 R2'. have T1 := takes_int E1.
  destruct (read_int D (snd q1)) as [q2|] eqn:E2 => //; cbn [bind]. have R3' := R3 rest. rewrite B1 in R3'. have [A2 B2] := prefix_int E2 R3'. have T2 := takes_int E2.
  destruct (read_int D (snd q2)) as [q3|] eqn:E3 => //; cbn [bind]. have R4' := R4 rest. rewrite B2 in R4'. have [A3 B3] := prefix_int E3 R4'. have T3 := takes_int E3.
  destruct (read_int D (snd q3)) as [q4|] eqn:E4 => //; cbn [bind]. have R5' := R5 rest. rewrite B3 in R5'. have [A4 B4] := prefix_int E4 R5'. have T4 := takes_int E4.
  destruct (read_int D (snd q4)) as [q5|] eqn:E5 => //; cbn [bind]. rewrite B4 in R6. have [A5 B5] := prefix_int E5 R6. have T5 := takes_int E5.
  rewrite -A0 -A1 -A4 -A5 Z.eqb_refl. have -> : Z.ltb 0 (count bs) = true by apply Z.ltb_lt; rewrite /count; destruct bs => //=; lia.
  destruct (read_conf D (count bs) (count sc) (snd q5)) as [c|] eqn:EC => //. have := read_conf_long EC. rewrite !count_nat. lia.
Qed.
