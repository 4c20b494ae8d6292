(* Proofs for interpolation in a table. *)
From Verif Require Import Base ModelEnergy ModelTail ModelMassFunction ProofsRecipes ProofsTail3 ModelKing SpecKing.
Set Implicit Arguments.
Unset Strict Implicit.
Open Scope R_scope.

Lemma rising_le xs i j : rising xs -> (i <= j < length xs)%nat -> nth i xs 0 <= nth j xs 0.
Proof. move=> H [Hi Hj]. destruct (Nat.eq_dec i j) as [->|N]; [lra|]. have := H i j ltac:(lia). lra. Qed.
Lemma nearest_entry xs x : xs <> [] -> let k := argmin (map (fun a => Rabs (a - x)) xs) in
  (k < length xs)%nat /\ forall j, (j < length xs)%nat -> Rabs (nth k xs 0 - x) <= Rabs (nth j xs 0 - x).
Proof.
  move=> N k. have ND : map (fun a => Rabs (a - x)) xs <> [] by destruct xs. have [H1 [H2 _]] := argmin_ok ND. rewrite map_length in H1 H2.
  have V : forall j, (j < length xs)%nat -> nth j (map (fun a => Rabs (a - x)) xs) 0 = Rabs (nth j xs 0 - x).
  { move=> j Hj. by rewrite (@nth_map' _ _ (fun a => Rabs (a - x)) xs j 0 0). }
  split; [exact H1|]. move=> j Hj. rewrite -!V //. by apply H2.
Qed.
Lemma line_on a b c d x m : c <> a -> m = (d - b) / (c - a) -> (m * x + (b - m * a) - b) * (c - a) = (d - b) * (x - a).
Proof. move=> N ->. field. lra. Qed.
Lemma interp_ok xs ys x : rising xs -> (2 <= length xs)%nat -> nth 0 xs 0 <= x <= nth (length xs - 1) xs 0 ->
  exists y, interp xs ys x = Ok y /\ on_table xs ys x y.
Proof.
  move=> RS L [X0 X1]. have N : xs <> [] by destruct xs; cbn in L; [lia|]. have [K1 K2] := nearest_entry x N.
  rewrite /interp. set k := argmin _ in K1 K2 |- *. clearbody k. cbv zeta. destruct (Rltb (nth k xs 0) x) eqn:E.
  - apply Rltb_spec in E. have KL : (k + 1 < length xs)%nat.
    { destruct (Nat.lt_ge_cases (k + 1) (length xs)) as [H|H] => //. have EK : k = (length xs - 1)%nat by lia. subst k. lra. }
    have -> : Nat.ltb (k + 1) (length xs) = true by apply Nat.ltb_lt. eexists; split; [reflexivity|].
    exists k. split; [exact KL|]. have R1 := RS k (k + 1)%nat ltac:(lia). split.
    + split; [lra|]. have := K2 (k + 1)%nat KL. rewrite /Rabs. repeat destruct (Rcase_abs _); lra.
    + rewrite /line_value. apply line_on; [lra|reflexivity].
  - apply Rltb_false in E. eexists; split; [reflexivity|]. destruct k as [|k].
    + have EX : x = nth 0 xs 0 by lra. exists 0%nat. split; [lia|]. have R1 := RS 0%nat (0 + 1)%nat ltac:(lia). split; [lra|]. rewrite /line_value EX. ring.
    + exists k. rewrite !Nat.add_1_r. split; [exact K1|]. have R1 := RS k (S k) ltac:(lia). split.
      * split; [|lra]. have := K2 k ltac:(lia). rewrite /Rabs. repeat destruct (Rcase_abs _); lra.
      * rewrite /line_value. field. lra.
Qed.
Lemma on_table_range xs ys x y : rising xs -> rising ys -> length xs = length ys -> on_table xs ys x y ->
  exists i, (i + 1 < length xs)%nat /\ nth i xs 0 <= x <= nth (i + 1) xs 0 /\ nth i ys 0 <= y <= nth (i + 1) ys 0 /\
    (y - nth i ys 0) * (nth (i + 1) xs 0 - nth i xs 0) = (nth (i + 1) ys 0 - nth i ys 0) * (x - nth i xs 0).
Proof.
  move=> RX RY L [i [Hi [Hx E]]]. exists i. split; [exact Hi|]. split; [exact Hx|]. split; [|exact E].
  have A := RX i (i + 1)%nat ltac:(lia). have B := RY i (i + 1)%nat ltac:(lia).
  set a := nth i xs 0 in Hx E A |- *. set b := nth (i + 1) xs 0 in Hx E A |- *. set c := nth i ys 0 in E B |- *. set d := nth (i + 1) ys 0 in E B |- *.
  clearbody a b c d. split.
  - apply Rmult_le_reg_r with (b - a); [lra|]. have : 0 <= (d - c) * (x - a) by apply Rmult_le_pos; lra. rewrite -E. lra.
  - apply Rmult_le_reg_r with (b - a); [lra|]. have : (d - c) * (x - a) <= (d - c) * (b - a) by apply Rmult_le_compat_l; lra. rewrite -E. lra.
Qed.
Lemma on_table_swap xs ys x y : rising xs -> rising ys -> length xs = length ys -> on_table xs ys x y -> on_table ys xs y x.
Proof.
  move=> RX RY L H. have [i [Hi [Hx [Hy E]]]] := on_table_range RX RY L H. exists i. split; [lia|]. split; [exact Hy|]. lra.
Qed.
Lemma on_table_mono xs ys x y x' y' : rising xs -> rising ys -> length xs = length ys -> on_table xs ys x y -> on_table xs ys x' y' -> x < x' -> y < y'.
Proof.
  move=> RX RY L H H' LT. have [i [Hi [Hx [Hy E]]]] := on_table_range RX RY L H. have [j [Hj [Hx' [Hy' E']]]] := on_table_range RX RY L H'.
  have A := RX i (i + 1)%nat ltac:(lia). have B := RY i (i + 1)%nat ltac:(lia). have A' := RX j (j + 1)%nat ltac:(lia). have B' := RY j (j + 1)%nat ltac:(lia).
  destruct (Nat.lt_total i j) as [C|[C|C]].
  - have Q := @rising_le ys (i + 1) j RY ltac:(lia). have Q' := @rising_le xs (i + 1) j RX ltac:(lia).
    destruct (Rlt_le_dec y y') as [|G] => //. exfalso.
    have E1 : y = nth (i + 1) ys 0 by lra. have E2 : y' = nth j ys 0 by lra.
    have EX : x = nth (i + 1) xs 0.
    { rewrite E1 in E. have : (nth (i + 1) ys 0 - nth i ys 0) * (nth (i + 1) xs 0 - nth i xs 0 - (x - nth i xs 0)) = 0 by rewrite Rmult_minus_distr_l E; ring.
      move=> /Rmult_integral [Z|Z]; lra. }
    have EX' : x' = nth j xs 0.
    { rewrite E2 in E'. have : (nth (j + 1) ys 0 - nth j ys 0) * (x' - nth j xs 0) = 0 by rewrite -E'; ring. move=> /Rmult_integral [Z|Z]; lra. }
    have EJ : (i + 1)%nat = j. { destruct (Nat.eq_dec (i + 1) j) as [|NE] => //. have := RY (i + 1)%nat j ltac:(lia). lra. }
    subst j. lra.
  - subst j. apply Rmult_lt_reg_r with (nth (i + 1) xs 0 - nth i xs 0); [lra|].
    have : (nth (i + 1) ys 0 - nth i ys 0) * (x - nth i xs 0) < (nth (i + 1) ys 0 - nth i ys 0) * (x' - nth i xs 0) by apply Rmult_lt_compat_l; lra. lra.
  - have Q := @rising_le xs (j + 1) i RX ltac:(lia). lra.
Qed.
Lemma on_table_fun xs ys x y y' : rising xs -> rising ys -> length xs = length ys -> on_table xs ys x y -> on_table xs ys x y' -> y = y'.
Proof.
  move=> RX RY L H H'. have S := on_table_swap RX RY L H. have S' := on_table_swap RX RY L H'. have L' : length ys = length xs by [].
  destruct (Rtotal_order y y') as [C|[C|C]] => //.
  - have := on_table_mono RY RX L' S S' C. lra.
  - have := on_table_mono RY RX L' S' S C. lra.
Qed.
Lemma on_table_ends xs ys x y : rising xs -> rising ys -> length xs = length ys -> on_table xs ys x y ->
  nth 0 ys 0 <= y <= nth (length ys - 1) ys 0.
Proof.
  move=> RX RY L H. have [i [Hi [Hx [Hy E]]]] := on_table_range RX RY L H.
  have := @rising_le ys 0 i RY ltac:(lia). have := @rising_le ys (i + 1) (length ys - 1) RY ltac:(lia). lra.
Qed.
Lemma interp_inverse xs ys x y : rising xs -> rising ys -> length xs = length ys -> (2 <= length xs)%nat -> on_table xs ys x y -> interp ys xs y = Ok x.
Proof.
  move=> RX RY L L2 H. have S := on_table_swap RX RY L H. have [x' [E T]] := @interp_ok ys xs y RY ltac:(lia) (on_table_ends RX RY L H).
  rewrite E. f_equal. by apply (on_table_fun RY RX (eq_sym L) T S).
Qed.
Lemma on_table_entry xs ys i : rising xs -> (2 <= length xs)%nat -> (i < length xs)%nat -> on_table xs ys (nth i xs 0) (nth i ys 0).
Proof.
  move=> RX L H. destruct (Nat.lt_ge_cases (i + 1) (length xs)) as [C|C].
  - exists i. have := RX i (i + 1)%nat ltac:(lia). split; [exact C|]. split; [lra|]. ring.
  - destruct i as [|i]; [lia|]. exists i. rewrite Nat.add_1_r. have := RX i (S i) ltac:(lia). split; [lia|]. split; [lra|]. ring.
Qed.
Lemma interp_above xs ys x : rising xs -> (1 <= length xs)%nat -> nth (length xs - 1) xs 0 < x -> interp xs ys x = Raise.
Proof.
  move=> RS L X. have N : xs <> [] by destruct xs; cbn in L; [lia|]. have [K1 K2] := nearest_entry x N.
  rewrite /interp. set k := argmin _ in K1 K2 |- *. clearbody k. cbv zeta.
  have EK : k = (length xs - 1)%nat.
  { destruct (Nat.eq_dec k (length xs - 1)) as [|NE] => //. exfalso. have := RS k (length xs - 1)%nat ltac:(lia). have := K2 (length xs - 1)%nat ltac:(lia).
    rewrite /Rabs. repeat destruct (Rcase_abs _); lra. }
  subst k. have -> : Rltb (nth (length xs - 1) xs 0) x = true by apply Rltb_spec. have -> : Nat.ltb (length xs - 1 + 1) (length xs) = false by apply Nat.ltb_ge; lia. by [].
Qed.
Lemma interp_below xs ys x : rising xs -> (1 <= length xs)%nat -> x < nth 0 xs 0 ->
  interp xs ys x = Ok (line_value xs ys (length xs - 1) 0 0 x).
Proof.
  move=> RS L X. have N : xs <> [] by destruct xs; cbn in L; [lia|]. have [K1 K2] := nearest_entry x N.
  rewrite /interp. set k := argmin _ in K1 K2 |- *. clearbody k. cbv zeta.
  have EK : k = 0%nat.
  { destruct k as [|k] => //. exfalso. have := RS 0%nat (S k) ltac:(lia). have := K2 0%nat ltac:(lia).
    rewrite /Rabs. repeat destruct (Rcase_abs _); lra. }
  subst k. have -> : Rltb (nth 0 xs 0) x = false by apply Rltb_false; lra. by [].
Qed.

(* the tables *)
Fixpoint zrising (l : list Z) : bool := match l with a :: (b :: _) as t => (Z.ltb a b && zrising t)%bool | _ => true end.
Lemma zrising_ok l : zrising l = true -> forall i j, (i < j < length l)%nat -> (nth i l 0 < nth j l 0)%Z.
Proof.
  induction l as [|a [|b t] IH]; cbn [length]; try by (move=> _ i j; lia). cbn [zrising]. move=> /andb_prop [/Z.ltb_lt H0 H1] i j [Hi Hj].
  have IH' := IH H1. destruct j as [|j]; [lia|]. destruct i as [|i].
  - destruct j as [|j]; [exact H0|]. have := IH' 0%nat (S j) ltac:(cbn [length] in *; lia). cbn [nth] in *. lia.
  - have := IH' i j ltac:(cbn [length] in *; lia). by cbn [nth].
Qed.
Lemma scaled_rising l d : 0 < d -> zrising l = true -> rising (map (fun z => IZR z / d) l).
Proof.
  move=> D H i j [Hi Hj]. rewrite map_length in Hj. rewrite !(@nth_map' _ _ (fun z => IZR z / d) l _ 0 0%Z) //; [lia|].
  have := zrising_ok H (conj Hi Hj). move=> /IZR_lt Q. apply Rmult_lt_compat_r => //. by apply Rinv_0_lt_compat.
Qed.
Lemma w0_rising : rising w0_grid.
Proof. apply scaled_rising; [lra|]. by vm_compute. Qed.
Lemma conc_rising : rising conc_grid.
Proof. apply scaled_rising; [lra|]. by vm_compute. Qed.
Lemma w0_length : length w0_grid = 193%nat.
Proof. rewrite /w0_grid map_length. by vm_compute. Qed.
Lemma conc_length : length conc_grid = 193%nat.
Proof. rewrite /conc_grid map_length. by vm_compute. Qed.
Lemma nth_w0 i : (i < 193)%nat -> nth i w0_grid 0 = (3 + INR i) / 10.
Proof.
  move=> H. rewrite /w0_grid. have LW : length w0_tenths = 193%nat by rewrite /w0_tenths map_length seq_length.
  rewrite (@nth_map' _ _ (fun z => IZR z / 10) w0_tenths i 0 0%Z); [lia|].
  rewrite /w0_tenths (@nth_map' _ _ (fun k => (3 + Z.of_nat k)%Z) (seq 0 193) i 0%Z 0%nat) ?seq_length // seq_nth // Nat.add_0_l plus_IZR -INR_IZR_INZ. by [].
Qed.
Lemma nth_conc i : (i < 193)%nat -> nth i conc_grid 0 = IZR (nth i conc_millionths 0%Z) / 1000000.
Proof.
  move=> H. rewrite /conc_grid. rewrite (@nth_map' _ _ (fun z => IZR z / 1000000) conc_millionths i 0 0%Z) //.
Qed.
