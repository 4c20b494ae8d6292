(* add_stars: what each row of the result holds; scalar arguments; conservation; identifiers. *)
From Verif Require Import Base ModelCluster ModelRecipes ModelStars SpecStars ProofsStars.
From Verif Require Import ProofsPot ProofsEnergy ProofsRecipes2.
Set Implicit Arguments. Unset Strict Implicit.

Definition row (t : columns) (i : nat) : star :=
  mkStar (map6 (fun l => nth i l 0) (t_s t)) (nth i (t_m t) 0) (nth i (t_id t) 0%Z) (nth i (t_m0 t) 0) (nth i (t_npop t) 0%Z).
Lemma star_at_row k i : star_at k i = row (columns_of k) i. Proof. done. Qed.

Definition app_columns (t u : columns) : columns :=
  mkCol (t_id t ++ t_id u) (t_m t ++ t_m u) (app6 (t_s t) (t_s u)) (t_m0 t ++ t_m0 u) (t_npop t ++ t_npop u).

Lemma row_app_l t u n i : columns_length t n -> (i < n)%nat -> row (app_columns t u) i = row t i.
Proof.
  move=> [[A1 [A2 [A3 [A4 [A5 A6]]]]] [A7 [A8 [A9 A10]]]] H.
  rewrite /row /app_columns /map6 /app6 /=. by rewrite !app_nth1 ?A1 ?A2 ?A3 ?A4 ?A5 ?A6 ?A7 ?A8 ?A9 ?A10.
Qed.
Lemma row_app_r t u n i : columns_length t n -> row (app_columns t u) (n + i) = row u i.
Proof.
  move=> [[A1 [A2 [A3 [A4 [A5 A6]]]]] [A7 [A8 [A9 A10]]]].
  rewrite /row /app_columns /map6 /app6 /=.
  rewrite !app_nth2 ?A1 ?A2 ?A3 ?A4 ?A5 ?A6 ?A7 ?A8 ?A9 ?A10; try lia.
  by have -> : (n + i - n = i)%nat by lia.
Qed.

(* the columns of the new single stars *)
Definition single_part (a : star_args) (args N : nat) (start : Z) : columns :=
  mkCol (default_tail (a_id a) args N (map (Z.add start) (zrange (N - args))))
    (default_tail (a_m a) args N (repeat 1 (N - args)))
    (map6 (skipn args) (map6 (expand N) (a_s a)))
    (default_tail (a_m0 a) args N (repeat 0 (N - args)))
    (default_tail (a_npop a) args N (repeat 1%Z (N - args))).

Lemma nth_repeat' A (a d : A) n j : (j < n)%nat -> nth j (repeat a n) d = a.
Proof. revert n; induction j as [|j IH]; destruct n => //= H; try lia. apply IH; lia. Qed.

Lemma single_part_given a args N start j : describes_stars a N -> (args + j < N)%nat ->
  is_given a (args + j) (row (single_part a args N start) j).
Proof.
  move=> [H1 [[A1 [A2 [A3 [A4 [A5 A6]]]]] [Sm [Si [S0 [Sp _]]]]]] H.
  rewrite /is_given /row /single_part; cbn [w_s w_m w_m0 w_npop w_id t_s t_m t_id t_m0 t_npop].
  split.
  { rewrite /map6; cbn [sx sy sz svx svy svz]. by rewrite !nth_skipn' !nth_expand. }
  have L : (j < N - args)%nat by lia.
  rewrite (nth_tail H1 Sm H (dflt := 1)); first by apply nth_repeat'.
  rewrite (nth_tail H1 S0 H (dflt := 0)); first by apply nth_repeat'.
  rewrite (nth_tail H1 Sp H (dflt := 1%Z)); first by apply nth_repeat'.
  do 3 (split => //). move=> p E. rewrite E in Si *. cbn. rewrite nth_skipn'. by apply nth_expand.
Qed.

Lemma opt_map_some A N (o : option (arg A)) : opt_sized N o ->
  forall l, option_map (expand N) o = Some l -> length l = N.
Proof. move=> S l. by apply opt_expand_length. Qed.

Theorem add_singles_rows a N k n sort an proj :
  describes_stars a N -> aligned k n ->
  exists k', add_stars 0 a sort an proj k = Ok k' /\ aligned k' (n + N) /\
    (forall i, (i < n)%nat -> star_at k' i = star_at k i) /\
    (forall j, (j < N)%nat -> is_given a j (star_at k' (n + j))) /\
    g_ntot k' = (n + N)%nat /\ g_ns k' = (Z.of_nat (n + N) - Z.of_nat (c_nb (g_c k)))%Z /\
    c_nb (g_c k') = c_nb (g_c k) /\ g_b k' = g_b k /\
    c_units (g_c k') = c_units (g_c k) /\ c_origin (g_c k') = c_origin (g_c k) /\
    columns_of k' = app_columns (columns_of k)
      (single_part a 0 N (id_start (negb (Nat.eqb (c_nb (g_c k)) 0)) (c_id (g_c k)))).
Proof.
  move=> D AL. have L : columns_length (columns_of k) n by apply aligned_columns.
  rewrite /add_stars (npmax_described D). cbn [Nat.eqb bind].
  have [L' [E [B1 [B2 [B3 [B4 [B5 [B6 B7]]]]]]]] := @single_columns 0 a N k n D L.
  set k2 := add_single_rows _ _ _ _ _ _ _ in L' E B1 B2 B3 B4 B5 B6 B7 |- *.
  have [C0 [C1 [C2 [C3 [C4 [C5 [C6 _]]]]]]] := finish_ok (map6 (expand N) (a_s a)) sort an proj L'.
  eexists; split; [reflexivity|]. rewrite -/(finish (map6 (expand N) (a_s a)) sort an proj k2).
  move: (finish (map6 (expand N) (a_s a)) sort an proj k2) C0 C1 C2 C3 C4 C5 C6 => k' C0 C1 C2 C3 C4 C5 C6.
  rewrite Nat.sub_0_r in L' C1 C2.
  have EC : columns_of k' = app_columns (columns_of k)
      (single_part a 0 N (id_start (negb (Nat.eqb (c_nb (g_c k)) 0)) (c_id (g_c k)))) by rewrite C0 E.
  split; [by apply aligned_columns; rewrite C0|].
  split; [by move=> i Hi; rewrite !star_at_row EC; apply row_app_l with n|].
  split; [by move=> j Hj; rewrite star_at_row EC (row_app_r _ _ L); apply (@single_part_given a 0)|].
  rewrite C1 C2 C3 C4 C5 C6 B1 B2 B5 B6. done.
Qed.

Definition pair_part (a : star_args) (nb N : nat) (start : Z) : columns :=
  let m := option_map (expand N) (a_m a) in
  mkCol
    (match option_map (expand N) (a_id a) with None => map (Z.add start) (evens nb)
                 | Some l => map (fun i => nth (2 * i) l 0%Z) (seq 0 nb) end)
    (map (fun i => mass_at m (2 * i) + mass_at m (2 * i + 1)) (seq 0 nb))
    (map6 (fun l => map (fun i => weighted (mass_at m (2 * i)) (mass_at m (2 * i + 1)) (nth (2 * i) l 0) (nth (2 * i + 1) l 0)) (seq 0 nb)) (map6 (expand N) (a_s a)))
    (map (fun i => opt_row 0 0 (option_map (expand N) (a_m0 a)) (2 * i) + opt_row 0 0 (option_map (expand N) (a_m0 a)) (2 * i + 1)) (seq 0 nb))
    (map (fun i => opt_row 1%Z 0%Z (option_map (expand N) (a_npop a)) (2 * i)) (seq 0 nb)).

Lemma opt_row_value A (d0 d : A) (o : option (arg A)) N i : (i < N)%nat -> opt_sized N o ->
  opt_row d0 d (option_map (expand N) o) i = value_or d0 d o i.
Proof. destruct o as [p|] => //= H S. by apply nth_expand. Qed.
Lemma mass_at_value (o : option (arg R)) N i : (i < N)%nat -> opt_sized N o ->
  mass_at (option_map (expand N) o) i = value_or 1 0 o i.
Proof. destruct o as [p|] => //= H S. by apply nth_expand. Qed.

Lemma pair_part_given a nb N start i : describes_stars a N -> (2 * nb <= N)%nat -> (i < nb)%nat ->
  is_pair a (2 * i) (2 * i + 1) (row (pair_part a nb N start) i).
Proof.
  move=> [H1 [[A1 [A2 [A3 [A4 [A5 A6]]]]] [Sm [Si [S0 [Sp _]]]]]] H2 Hi.
  have I0 : (2 * i < N)%nat by lia. have I1 : (2 * i + 1 < N)%nat by lia.
  rewrite /is_pair /row /pair_part; cbn [w_s w_m w_m0 w_npop w_id t_s t_m t_id t_m0 t_npop].
  rewrite /map6; cbn [sx sy sz svx svy svz].
  rewrite !nth_map_seq // !(mass_at_value I0 Sm) !(mass_at_value I1 Sm) !(opt_row_value _ _ I0 S0) !(opt_row_value _ _ I1 S0)
    (opt_row_value _ _ I0 Sp) !(nth_expand _ I0) // !(nth_expand _ I1) //.
  do 4 (split => //). move=> p E. rewrite E in Si *. cbn [option_map]. rewrite nth_map_seq //. by apply nth_expand.
Qed.

Theorem add_binaries_rows a N nb k n sort an proj :
  describes_stars a N -> aligned k n -> no_binaries k -> (1 <= nb)%nat -> (2 * nb <= N)%nat ->
  (nb = 1%nat -> a_m a <> None) ->
  exists k', add_stars nb a sort an proj k = Ok k' /\ aligned k' (nb + n + (N - 2 * nb)) /\
    (forall i, (i < nb)%nat -> is_pair a (2 * i) (2 * i + 1) (star_at k' i)) /\
    (forall i, (i < n)%nat -> star_at k' (nb + i) = star_at k i) /\
    (forall j, (j < N - 2 * nb)%nat -> is_given a (2 * nb + j) (star_at k' (nb + n + j))) /\
    g_ntot k' = (nb + n + (N - 2 * nb))%nat /\ g_ns k' = (Z.of_nat (n + (N - 2 * nb)))%Z /\
    c_nb (g_c k') = nb /\
    (forall i, (i < nb)%nat ->
       map6 (fun l => nth i l 0) (b_1 (g_b k')) = map6 (fun p => value 0 p (2 * i)) (a_s a) /\
       map6 (fun l => nth i l 0) (b_2 (g_b k')) = map6 (fun p => value 0 p (2 * i + 1)) (a_s a) /\
       nth i (b_mb1 (g_b k')) 0 = value_or 1 0 (a_m a) (2 * i) /\
       nth i (b_mb2 (g_b k')) 0 = value_or 1 0 (a_m a) (2 * i + 1)) /\
    c_units (g_c k') = c_units (g_c k) /\ c_origin (g_c k') = c_origin (g_c k) /\
    columns_of k' = app_columns (app_columns (pair_part a nb N (id_start false (c_id (g_c k)))) (columns_of k))
      (single_part a (2 * nb) N (id_start true
         (t_id (pair_part a nb N (id_start false (c_id (g_c k)))) ++ c_id (g_c k)))).
Proof.
  move=> D AL NB H1 H2 M1. have L : columns_length (columns_of k) n by apply aligned_columns.
  have [N1 [S [Sm [Si [S0 [Sp _]]]]]] := D.
  rewrite /add_stars (npmax_described D).
  have -> : Nat.eqb nb 0 = false by apply Nat.eqb_neq; lia.
  have M1' : nb = 1%nat -> option_map (expand N) (a_m a) <> None.
  { move=> /M1. by destruct (a_m a). }
  have [k1 [E1 [L1 [F1 [G1 [G2 [G3 [G4 [G5 [G6 G7]]]]]]]]]] :=
    binary_columns H1 H2 (six_expand_length S) (opt_map_some Sm) (opt_map_some Si) (opt_map_some S0) (opt_map_some Sp) M1' NB L.
  rewrite E1; cbn [bind].
  have [L' [E [B1 [B2 [B3 [B4 [B5 [B6 B7]]]]]]]] := @single_columns (2 * nb) a N k1 (nb + n) D L1.
  set k2 := add_single_rows _ _ _ _ _ _ _ in L' E B1 B2 B3 B4 B5 B6 B7 |- *.
  have [C0 [C1 [C2 [C3 [C4 [C5 [C6 _]]]]]]] := finish_ok (map6 (expand N) (a_s a)) sort an proj L'.
  eexists; split; [reflexivity|]. rewrite -/(finish (map6 (expand N) (a_s a)) sort an proj k2).
  move: (finish (map6 (expand N) (a_s a)) sort an proj k2) C0 C1 C2 C3 C4 C5 C6 => k' C0 C1 C2 C3 C4 C5 C6.
  set P := pair_part a nb N (id_start false (c_id (g_c k))).
  have F1' : columns_of k1 = app_columns P (columns_of k) by rewrite F1.
  have LP : columns_length P nb.
  { rewrite /P /pair_part /columns_length /six_length /map6 /=. rewrite !map_length !seq_length.
    repeat match goal with |- _ /\ _ => split end; try reflexivity.
    destruct (option_map (expand N) (a_id a)); rewrite /evens ?map_length ?seq_length //. }
  have EC : columns_of k' = app_columns (app_columns P (columns_of k))
      (single_part a (2 * nb) N (id_start true (t_id P ++ c_id (g_c k)))).
  { rewrite C0 E F1' G1. have -> : Nat.eqb nb 0 = false by apply Nat.eqb_neq; lia. done. }
  rewrite -F1' in EC.
  split; [by apply aligned_columns; rewrite C0|].
  split; [move=> i Hi; rewrite star_at_row EC (row_app_l _ L1); [lia|rewrite F1' (row_app_l _ LP) //; by apply pair_part_given]|].
  split; [move=> i Hi; rewrite !star_at_row EC (row_app_l _ L1); [lia|by rewrite F1' (row_app_r _ _ LP)]|].
  split; [move=> j Hj; rewrite star_at_row EC (row_app_r _ _ L1); apply single_part_given => //; lia|].
  rewrite C1 C2 C3 C4 C5 C6 B1 B2 B5 B6 G1 G2 G5 G6.
  split => //. split; [lia|]. split => //. split; last by rewrite EC F1'.
  case: S => [A1 [A2 [A3 [A4 [A5 A6]]]]].
  move=> i Hi. cbn [b_1 b_2 b_mb1 b_mb2]. rewrite /map6; cbn [sx sy sz svx svy svz].
  have I0 : (2 * i < N)%nat by lia. have I1 : (2 * i + 1 < N)%nat by lia.
  by rewrite !nth_map_seq // !(mass_at_value I0 Sm) !(mass_at_value I1 Sm) !(nth_expand _ I0) // !(nth_expand _ I1).
Qed.
