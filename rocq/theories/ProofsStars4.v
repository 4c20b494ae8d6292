(* One-entry arrays; binaries added twice; stellar evolution arrays; a stale radial order. *)
From Verif Require Import Base ModelCluster ModelRecipes ModelStars SpecStars ProofsStars ProofsStars2 ProofsStars3.
From Verif Require Import ProofsPot ProofsEnergy ProofsRecipes2 ProofsRecipes4.
Set Implicit Arguments. Unset Strict Implicit.

(* ------------------------------------------------------------------ one-entry arrays *)
Lemma arg_one_len A N (p : arg A) : (1 <= N)%nat -> arg_sized N (one_as_scalar p) ->
  (arg_len p <= N)%nat /\ (1 <= arg_len p)%nat /\ (is_array (one_as_scalar p) = true -> arg_len p = N).
Proof.
  move=> H S. have B := @one_array_len A N p S. have := one_len H S. move=> C. split; [lia|split => //; lia].
Qed.
Lemma opt_one_len A N (p : option (arg A)) : (1 <= N)%nat -> opt_sized N (option_map one_as_scalar p) ->
  (opt_len p <= N)%nat /\ (opt_array (option_map one_as_scalar p) = true -> opt_len p = N).
Proof.
  destruct p as [p|] => //= H; last lia. move=> S. have [A1 [A2 A3]] := arg_one_len H S. done.
Qed.

Lemma npmax_ones a N : describes_stars (ones_as_scalars a) N -> npmax a = N.
Proof.
  move=> [H1 [[S1 [S2 [S3 [S4 [S5 S6]]]]] [Sm [Si [S0 [Sp D]]]]]].
  rewrite /ones_as_scalars /map6 in S1 S2 S3 S4 S5 S6 Sm Si S0 Sp D.
  cbn [a_s a_m a_id a_m0 a_npop sx sy sz svx svy svz] in S1, S2, S3, S4, S5, S6, Sm, Si, S0, Sp, D.
  have [B1 [P1 Q1]] := arg_one_len H1 S1. have [B2 [P2 Q2]] := arg_one_len H1 S2.
  have [B3 [P3 Q3]] := arg_one_len H1 S3. have [B4 [P4 Q4]] := arg_one_len H1 S4.
  have [B5 [P5 Q5]] := arg_one_len H1 S5. have [B6 [P6 Q6]] := arg_one_len H1 S6.
  have [Bm Qm] := opt_one_len H1 Sm. have [Bi Qi] := opt_one_len H1 Si.
  have [B0 Q0] := opt_one_len H1 S0. have [Bp Qp] := opt_one_len H1 Sp.
  rewrite /npmax. apply list_max_ten => //.
  destruct D as [D|D]; [left; lia|].
  rewrite /six_array !orb_true_iff in D. cbn [sx sy sz svx svy svz] in D.
  clear - D Q1 Q2 Q3 Q4 Q5 Q6 Qm Qi Q0 Qp. tauto.
Qed.

Lemma expand_len_cases A N (p : arg A) : (1 <= N)%nat -> arg_sized N (one_as_scalar p) ->
  (length (expand N p) <= N)%nat /\ (1 <= length (expand N p))%nat /\
  (is_array (one_as_scalar p) = true -> length (expand N p) = N).
Proof.
  move=> H S. have [A1 [A2 A3]] := arg_one_len H S. destruct p as [v|l] => /=; [rewrite repeat_length; lia|by []].
Qed.

Definition opt_default {A} (o : option (arg A)) (N : nat) (d : list A) : list A :=
  match option_map (expand N) o with Some l => l | None => d end.

Lemma opt_default_cases A N (p : option (arg A)) d : (1 <= N)%nat -> opt_sized N (option_map one_as_scalar p) ->
  (length d <= N)%nat -> (1 <= length d)%nat ->
  ((length (opt_default p N d) <= N)%nat /\ (1 <= length (opt_default p N d))%nat) /\
  (opt_array (option_map one_as_scalar p) = true -> length (opt_default p N d) = N).
Proof.
  destruct p as [p|] => //= H S Ld Ld1. have [A1 [A2 A3]] := expand_len_cases H S. by split.
Qed.
Lemma stretch_opt A N (p : option (arg A)) (v : A) n : (n = 1 \/ n = N)%nat ->
  stretch N (opt_default p N (repeat v n)) = opt_default (option_map one_as_scalar p) N (repeat v N).
Proof.
  destruct p as [p|] => /= H; [apply stretch_expand|]. destruct H as [->| ->]; first done.
  apply stretch_same. apply repeat_length.
Qed.

Theorem one_entry_arrays a N sort an proj k :
  describes_stars (ones_as_scalars a) N -> aligned k 0 -> c_nb (g_c k) = 0%nat ->
  (forall v, a_id a <> Some (Array [v])) ->
  exists k1 k2, add_stars 0 a sort an proj k = Ok k1 /\ add_stars 0 (ones_as_scalars a) sort an proj k = Ok k2 /\
    columns_of k1 = columns_of k2 /\ aligned k1 N.
Proof.
  move=> D AL NB ID.
  have [k2 [E2 [AL2 [_ [_ [_ [_ [_ [_ [_ [_ C2]]]]]]]]]]] := add_singles_rows sort an proj D AL.
  rewrite /add_stars (npmax_ones D); cbn [Nat.eqb bind].
  set s := map6 _ _. set k3 := add_single_rows _ _ _ _ _ _ _.
  exists (finish s sort an proj k3), k2. split => //. split; [exact E2|].
  suff C : columns_of (finish s sort an proj k3) = columns_of k2.
  { split => //. apply aligned_columns. rewrite C. by apply aligned_columns. }
  rewrite finish_columns C2.
  have EMPTY : columns_of k = mkCol [] [] nil6 [] [].
  { case: AL => [[A1 [A2 [A3 [A4 [A5 A6]]]]] [A7 [A8 [A9 A10]]]].
    rewrite /columns_of /nil6. destruct (p_s (c_ph (g_c k))) as [x y z vx vy vz]; simpl in *.
    have Z0 := fun A (l : list A) => proj1 (length_zero_iff_nil l).
    by rewrite (Z0 _ _ A1) (Z0 _ _ A2) (Z0 _ _ A3) (Z0 _ _ A4) (Z0 _ _ A5) (Z0 _ _ A6) (Z0 _ _ A7) (Z0 _ _ A8) (Z0 _ _ A9) (Z0 _ _ A10). }
  have EI : c_id (g_c k) = [] by have := f_equal t_id EMPTY.
  set n := length (expand N (sx (a_s a))).
  have K3 : columns_of k3 = mkCol (opt_default (a_id a) N (zrange n)) (opt_default (a_m a) N (repeat 1 n)) s
     (opt_default (a_m0 a) N (repeat 0 n)) (opt_default (a_npop a) N (repeat 1%Z n)).
  { rewrite /k3 /add_single_rows EMPTY; cbn [t_id t_m t_s t_m0 t_npop id_start Nat.mul skipn app].
    rewrite /columns_of /put_columns /=. rewrite /opt_default -/n.
    have Z0 : map (fun x : Z => x) (zrange n) = zrange n by apply map_id.
    by rewrite Z0. }
  rewrite K3.
  have K2 : app_columns (columns_of k) (single_part (ones_as_scalars a) 0 N (id_start (negb (Nat.eqb (c_nb (g_c k)) 0)) (c_id (g_c k)))) =
     mkCol (opt_default (option_map one_as_scalar (a_id a)) N (zrange N)) (opt_default (option_map one_as_scalar (a_m a)) N (repeat 1 N))
       (map6 (expand N) (map6 one_as_scalar (a_s a))) (opt_default (option_map one_as_scalar (a_m0 a)) N (repeat 0 N))
       (opt_default (option_map one_as_scalar (a_npop a)) N (repeat 1%Z N)).
  { rewrite EMPTY EI /app_columns /single_part app6_nil_l; cbn [t_id t_m t_s t_m0 t_npop app id_start].
    rewrite Nat.sub_0_r. have Z0 : map (Z.add 0) (zrange N) = zrange N by apply map_id.
    rewrite Z0 /default_tail /opt_default. by []. }
  rewrite K2.
  have [H1 [[S1 [S2 [S3 [S4 [S5 S6]]]]] [Sm [Si [S0 [Sp DD]]]]]] := D.
  rewrite /ones_as_scalars /map6 in S1 S2 S3 S4 S5 S6 Sm Si S0 Sp DD.
  cbn [a_s a_m a_id a_m0 a_npop sx sy sz svx svy svz] in S1, S2, S3, S4, S5, S6, Sm, Si, S0, Sp, DD.
  have [B1 [P1 Q1]] := expand_len_cases H1 S1. have [B2 [P2 Q2]] := expand_len_cases H1 S2.
  have [B3 [P3 Q3]] := expand_len_cases H1 S3. have [B4 [P4 Q4]] := expand_len_cases H1 S4.
  have [B5 [P5 Q5]] := expand_len_cases H1 S5. have [B6 [P6 Q6]] := expand_len_cases H1 S6.
  have Ln : (length (repeat 1%R n) <= N)%nat by rewrite repeat_length.
  have Ln' : (length (repeat 0%R n) <= N)%nat by rewrite repeat_length.
  have Lz : (length (repeat 1%Z n) <= N)%nat by rewrite repeat_length.
  have Li : (length (zrange n) <= N)%nat by rewrite /zrange map_length seq_length.
  have n0 : (1 <= n)%nat by exact P1.
  have [[Bm Pm] Qm] := opt_default_cases H1 Sm Ln (eq_ind_r (fun q => 1 <= q)%nat n0 (repeat_length 1 n)).
  have [[Bi Pi] Qi] := opt_default_cases H1 Si Li (eq_ind_r (fun q => 1 <= q)%nat n0 (eq_trans (map_length _ _) (seq_length n 0))).
  have [[B0 P0] Q0] := opt_default_cases H1 S0 Ln' (eq_ind_r (fun q => 1 <= q)%nat n0 (repeat_length 0 n)).
  have [[Bp Pp] Qp] := opt_default_cases H1 Sp Lz (eq_ind_r (fun q => 1 <= q)%nat n0 (repeat_length 1%Z n)).
  have n1 : (n = 1 \/ n = N)%nat by rewrite /n; apply expand_one_len; apply one_len.
  have EM := stretch_opt (a_m a) 1 n1. have E0 := stretch_opt (a_m0 a) 0 n1. have EP := stretch_opt (a_npop a) 1%Z n1.
  have ES : map6 (stretch N) s = map6 (expand N) (map6 one_as_scalar (a_s a)).
  { rewrite /s /map6; cbn [sx sy sz svx svy svz]. by rewrite !stretch_expand. }
  rewrite -EM -E0 -EP -ES.
  have MX : list_max (lengths (mkCol (opt_default (a_id a) N (zrange n)) (opt_default (a_m a) N (repeat 1 n)) s
     (opt_default (a_m0 a) N (repeat 0 n)) (opt_default (a_npop a) N (repeat 1%Z n)))) = N.
  { rewrite /lengths; cbn [t_id t_m t_s t_m0 t_npop]. rewrite /s /map6; cbn [sx sy sz svx svy svz].
    apply list_max_ten => //.
    destruct DD as [DD|DD]; [right; right; left; lia|].
    rewrite /six_array !orb_true_iff in DD. cbn [sx sy sz svx svy svz] in DD.
    clear - DD Q1 Q2 Q3 Q4 Q5 Q6 Qm Qi Q0 Qp. tauto. }
  rewrite /check_lengths MX; cbn [t_id t_m t_s t_m0 t_npop].
  case: Nat.eqb_spec => EQ.
  - symmetry in EQ. move: EQ => /list_min_ten; cbn [t_id t_m t_s t_m0 t_npop]. rewrite /s /map6; cbn [sx sy sz svx svy svz].
    move=> [C1 [C2' [C3 [C4 [C5 [C6 [C7 [C8 [C9 C10]]]]]]]]].
    rewrite !stretch_same //; try lia. f_equal.
    move: C1 Bi; rewrite /opt_default. destruct (a_id a) as [[v|[|v [|w l]]]|] eqn:EA => //=; first by case: (ID v).
    rewrite /zrange map_length seq_length => X Y. by have -> : n = N by lia.
  - f_equal.
    have N2 : (2 <= N)%nat.
    { destruct N as [|[|N]]; [lia| |lia]. exfalso. apply EQ.
      rewrite /lengths; cbn [t_id t_m t_s t_m0 t_npop]. rewrite /s /map6; cbn [sx sy sz svx svy svz].
      rewrite /list_min; cbn [fold_right hd]. lia. }
    destruct (a_id a) as [[v|[|v [|w l]]]|] eqn:EA => //=; [by destruct N as [|[|N]]; try lia|by case: (ID v)|].
    rewrite /opt_default /=. destruct n1 as [-> | ->]; [done|]. destruct N as [|[|N]]; try lia. done.
Qed.
