(* C91: central potential and concentration of King models. *)
From Verif Require Import Base ModelEnergy ModelRecipes ModelTail ModelMassFunction ModelKing SpecKing ProofsKing.
Open Scope R_scope.

(* y is the power of ten of x *)
Definition ten_to (x y : R) : Prop := 0 < y /\ x * ln 10 = ln y.
Lemma ln10_pos : 0 < ln 10.
Proof. rewrite <- ln_1. apply ln_increasing; lra. Qed.
Lemma ten_power x : ten_to x (Rpower 10 x).
Proof. split; [apply exp_pos|]. unfold Rpower. now rewrite ln_exp. Qed.
Lemma ten_unique x y : ten_to x y -> Rpower 10 x = y.
Proof. intros [P E]. unfold Rpower. rewrite E. now apply exp_ln. Qed.
Lemma ten_log x y : ten_to x y -> log10 y = x.
Proof. intros [P E]. unfold log10. rewrite <- E. field. pose proof ln10_pos. lra. Qed.
Lemma log_ten y : 0 < y -> ten_to (log10 y) y.
Proof. intros P. split; [exact P|]. unfold log10. field. pose proof ln10_pos. lra. Qed.
Lemma ten_less x y x' y' : ten_to x y -> ten_to x' y' -> (x < x' <-> y < y').
Proof.
  intros [P E] [P' E']. pose proof ln10_pos as L. split; intros H.
  - apply ln_lt_inv; try assumption. rewrite -E -E'. now apply Rmult_lt_compat_r.
  - apply (Rmult_lt_reg_r (ln 10)); [exact L|]. rewrite E E'. now apply ln_increasing.
Qed.
Lemma same_length : length w0_grid = length conc_grid.
Proof. now rewrite w0_length conc_length. Qed.
Lemma w0_first : nth 0 w0_grid 0 = 3 / 10.
Proof. rewrite nth_w0; [lia|]. cbn [INR]. lra. Qed.
Lemma w0_last : nth (length w0_grid - 1) w0_grid 0 = 195 / 10.
Proof. rewrite w0_length nth_w0; [lia|]. rewrite INR_IZR_INZ. cbn [Nat.sub Z.of_nat Pos.of_succ_nat Pos.succ]. lra. Qed.
Lemma conc_first : nth 0 conc_grid 0 = 100471 / 100000.
Proof. rewrite nth_conc; [lia|]. cbn [nth conc_millionths]. lra. Qed.
Lemma conc_last : nth (length conc_grid - 1) conc_grid 0 = 227097 / 10.
Proof. rewrite conc_length nth_conc; [lia|]. cbn [nth Nat.sub conc_millionths]. lra. Qed.

(* C91: from 0.3 to 19.5 the concentration is that of the table, interpolated along straight lines, and c_to_w0 gives the potential back *)
Theorem C91_potential_and_back :
  forall (w : R), 3 / 10 <= w <= 195 / 10 ->
    exists c y, w0_to_c w = Ok (Some c) /\ ten_to c y /\ on_table w0_grid conc_grid w y /\ c_to_w0 c = Ok w.
Proof.
  intros w H. destruct (@interp_ok w0_grid conc_grid w w0_rising) as [y [E T]]; [rewrite w0_length; lia|rewrite w0_first w0_last; exact H|].
  assert (P : 0 < y). { pose proof (on_table_ends w0_rising conc_rising same_length T) as Q. rewrite conc_first in Q. lra. }
  exists (log10 y), y. split; [|split; [exact (log_ten y P)|split; [exact T|]]].
  - unfold w0_to_c. rewrite E. unfold nlog10. now rewrite (proj2 (Rltb_spec 0 y) P).
  - unfold c_to_w0. rewrite (ten_unique _ _ (log_ten y P)). apply (interp_inverse w0_rising conc_rising same_length); [rewrite w0_length; lia|exact T].
Qed.
Print Assumptions C91_potential_and_back.
(* C91: and the other way, for the concentrations of the table *)
Theorem C91_concentration_and_back :
  forall (c y : R), ten_to c y -> 100471 / 100000 <= y <= 227097 / 10 ->
    exists w, c_to_w0 c = Ok w /\ 3 / 10 <= w <= 195 / 10 /\ on_table conc_grid w0_grid y w /\ w0_to_c w = Ok (Some c).
Proof.
  intros c y C H. destruct (@interp_ok conc_grid w0_grid y conc_rising) as [w [E T]]; [rewrite conc_length; lia|rewrite conc_first conc_last; exact H|].
  assert (L : length conc_grid = length w0_grid) by (symmetry; exact same_length).
  exists w. split; [unfold c_to_w0; rewrite (ten_unique _ _ C); exact E|]. split.
  { pose proof (on_table_ends conc_rising w0_rising L T) as Q. now rewrite w0_first w0_last in Q. }
  split; [exact T|]. unfold w0_to_c. rewrite (@interp_inverse conc_grid w0_grid y w conc_rising w0_rising L); [rewrite conc_length; lia|exact T|].
  unfold nlog10. destruct C as [P C]. rewrite (proj2 (Rltb_spec 0 y) P). now rewrite (ten_log c y (conj P C)).
Qed.
Print Assumptions C91_concentration_and_back.
(* C91: exact at the entries of the table *)
Theorem C91_entries :
  forall (i : nat) (c : R), (i < 193)%nat -> ten_to c (nth i conc_grid 0) ->
    c_to_w0 c = Ok ((3 + INR i) / 10) /\ w0_to_c ((3 + INR i) / 10) = Ok (Some c).
Proof.
  intros i c Hi C. pose proof (@on_table_entry w0_grid conc_grid i w0_rising) as T. rewrite w0_length in T. specialize (T ltac:(lia) Hi). rewrite (nth_w0 Hi) in T.
  split.
  - unfold c_to_w0. rewrite (ten_unique _ _ C). apply (interp_inverse w0_rising conc_rising same_length); [rewrite w0_length; lia|exact T].
  - unfold w0_to_c. rewrite (@interp_inverse conc_grid w0_grid (nth i conc_grid 0) ((3 + INR i) / 10) conc_rising w0_rising (eq_sym same_length)).
    + rewrite conc_length. lia.
    + exact (on_table_swap w0_rising conc_rising same_length T).
    + unfold nlog10. destruct C as [P C]. rewrite (proj2 (Rltb_spec 0 _) P). now rewrite (ten_log c _ (conj P C)).
Qed.
Print Assumptions C91_entries.
(* C91: a deeper potential is more concentrated *)
Theorem C91_increasing :
  forall (w w' c c' : R), 3 / 10 <= w -> w' <= 195 / 10 -> w < w' -> w0_to_c w = Ok (Some c) -> w0_to_c w' = Ok (Some c') -> c < c'.
Proof.
  intros w w' c c' H1 H2 L E E'.
  destruct (C91_potential_and_back w) as [d [y [F [D [T _]]]]]; [lra|]. destruct (C91_potential_and_back w') as [d' [y' [F' [D' [T' _]]]]]; [lra|].
  assert (EC : c = d) by congruence. assert (EC' : c' = d') by congruence. subst c c'.
  apply (ten_less d y d' y' D D'). exact (on_table_mono w0_rising conc_rising same_length T T' L).
Qed.
Print Assumptions C91_increasing.
(* finding: beyond the table both raise *)
Theorem C91_above_refuted :
  (forall w, 195 / 10 < w -> w0_to_c w = Raise) /\ (forall c y, ten_to c y -> 227097 / 10 < y -> c_to_w0 c = Raise).
Proof.
  split.
  - intros w H. unfold w0_to_c. rewrite interp_above; [exact w0_rising|rewrite w0_length; lia|rewrite w0_last; exact H|reflexivity].
  - intros c y C H. unfold c_to_w0. rewrite (ten_unique _ _ C). apply interp_above; [exact conc_rising|rewrite conc_length; lia|rewrite conc_last; exact H].
Qed.
Print Assumptions C91_above_refuted.
(* finding: before the table the line goes to its last entry: no concentration comes out for potentials below 0.299, and no
   potential below 0.299 comes out for any concentration *)
Theorem C91_below_refuted :
  (forall w, w <= 299 / 1000 -> w0_to_c w = Ok None) /\
  (forall c y, ten_to c y -> y < 100471 / 100000 -> exists w, c_to_w0 c = Ok w /\ 299 / 1000 < w < 3 / 10).
Proof.
  split.
  - intros w H. unfold w0_to_c. rewrite interp_below; [exact w0_rising|rewrite w0_length; lia|rewrite w0_first; lra|].
    unfold line_value. rewrite w0_last w0_first conc_first. rewrite same_length conc_last.
    unfold nlog10. destruct (Rltb _ _) eqn:E; [|reflexivity]. exfalso. apply Rltb_spec in E. lra.
  - intros c y C H. unfold c_to_w0. rewrite (ten_unique _ _ C). destruct C as [P _].
    rewrite interp_below; [exact conc_rising|rewrite conc_length; lia|rewrite conc_first; lra|]. eexists; split; [reflexivity|].
    unfold line_value. rewrite conc_last conc_first w0_first. rewrite -same_length w0_last. lra.
Qed.
Print Assumptions C91_below_refuted.

(* ------------------------------------------------------------------ non-vacuity *)
(* the table at W0 = 7: concentration 33.1 or so *)
Example C91_hypotheses_met : 3 / 10 <= 7 <= 195 / 10 /\ nth 67 w0_grid 0 = 7 /\ (exists c, ten_to c (nth 67 conc_grid 0)) /\ 30 < nth 67 conc_grid 0 < 40.
Proof.
  split; [lra|]. split; [rewrite nth_w0; [lia|]; rewrite INR_IZR_INZ; cbn [Z.of_nat Pos.of_succ_nat Pos.succ]; lra|].
  assert (B : 30 < nth 67 conc_grid 0 < 40) by (rewrite nth_conc; [lia|]; cbn [nth conc_millionths]; lra).
  split; [exists (log10 (nth 67 conc_grid 0)); apply log_ten; lra|exact B].
Qed.
