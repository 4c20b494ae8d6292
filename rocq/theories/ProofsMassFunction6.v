(* Proofs: dx_function and meq_func. *)
From Coq Require Import Sorted.
From Verif Require Import Base ModelCluster ModelOps ModelConv ModelEnergy ModelRecipes ModelStars ModelSubset ModelCoords ModelLagrange ModelProfiles ModelMassFunction.
From Verif Require Import SpecUnits SpecFrame SpecOrder SpecRecipes SpecEnergy SpecStars SpecSubset SpecLagrange SpecProfiles SpecMassFunction.
From Verif Require Import ProofsCentre ProofsRecipes ProofsRecipes2 ProofsRecipes3 ProofsRecipes4 ProofsProfiles2 ProofsMassFunction ProofsMassFunction2.
Set Implicit Arguments. Unset Strict Implicit.

Lemma counts_pos (P : R -> Prop) x h : counts P x h -> (0 < h)%nat <-> exists v, In v x /\ P v.
Proof.
  move=> [sel [rest [PE [F1 [F2 L]]]]]. subst h. rewrite Forall_forall in F1. rewrite Forall_forall in F2. split.
  - destruct sel as [|v t] => /=; [lia|]. move=> _. exists v. split; [apply (Permutation_in _ (Permutation_sym PE)); by left|apply F1; by left].
  - move=> [v [I Pv]]. have := Permutation_in _ PE I. rewrite in_app_iff => [[J|J]]; [destruct sel => //=; lia|by case: (F2 v J)].
Qed.
Lemma describes_total x lo hi hist sums : adjacent lo hi -> spans x lo hi -> describes x lo hi hist sums -> natsum hist = length x.
Proof.
  move=> Ad Sp [Lh [_ D]]. have B := bincount_ok Ad Sp. rewrite -(index_total Ad Sp B). f_equal.
  apply (nth_ext _ _ 0%nat 0%nat). { by rewrite map_length seq_length. }
  move=> k. rewrite Lh => Hk. have [C _] := D k Hk. rewrite nth_map_seq //.
  apply (counts_det C). apply counts_filter => v I. exact: (bin_index_iff Ad Sp).
Qed.
Lemma natsum_filter (f : nat -> nat) ks : natsum (map f (filter (fun k => Nat.ltb 0 (f k)) ks)) = natsum (map f ks).
Proof. induction ks as [|k ks IH] => //=. destruct (Nat.ltb 0 (f k)) eqn:E => /=; rewrite IH //. apply Nat.ltb_ge in E. lia. Qed.

Theorem dx_function_ok x nx bt : x <> [] -> ~ constant x -> (0 < nx)%nat ->
  exists lo hi l fit, dx_function None x nx bt = Ok (l, fit) /\ adjacent lo hi /\ spans x lo hi /\ (length lo <= nx)%nat /\
    filled_bins x lo hi l /\ natsum (map w_n l) = length x /\ fits_power_law (map w_x l) (map w_d l) fit /\
    ((3 <= length l)%nat -> all_positive x -> ~ constant (map w_x l) -> fit <> None).
Proof.
  move=> Nx Nc Hx.
  have [b [E [Ad [Sp [D Lb]]]]] := @own_bins_ok x nx bt Linear Nx Hx ltac:(by []) ltac:(by []).
  have [_ [_ [_ Wd]]] := own_bins_wide Nx Hx Nc E. have Tot := describes_total Ad Sp D. have [Lh [_ DD]] := D.
  rewrite /dx_function /x_hist E. cbn [bind].
  set row := fun k => mkRow (nth k (b_mid b) 0) (nth k (b_hist b) 0%nat) (nratio (INR (nth k (b_hist b) 0%nat)) (nth k (b_hi b) 0 - nth k (b_lo b) 0)).
  have El : dx_rows (b_lo b) (b_mid b) (b_hi b) (b_hist b) = map row (seq 0 (length (b_lo b))) by [].
  rewrite El filter_map.
  have Er : forall k, (k < length (b_lo b))%nat -> w_d (row k) = Some (INR (nth k (b_hist b) 0%nat) / (nth k (b_hi b) 0 - nth k (b_lo b) 0)).
  { move=> k Hk. cbn. rewrite /nratio. have [_ W] := Wd k Hk. have -> : Reqb (nth k (b_hi b) 0 - nth k (b_lo b) 0) 0 = false; [|by []].
    apply Bool.not_true_is_false => /Reqb_spec. lra. }
  have Ep : filter (fun k => positive_row (row k)) (seq 0 (length (b_lo b))) = filter (fun k => Nat.ltb 0 (nth k (b_hist b) 0%nat)) (seq 0 (length (b_lo b))).
  { apply filter_ext_in' => k /in_seq [_ Hk]. rewrite /positive_row Er; [lia|]. have [_ W] := Wd k ltac:(lia).
    destruct (nth k (b_hist b) 0%nat) as [|h]; [|change (Nat.ltb 0 (S h)) with true].
    - apply Rltb_false. rewrite /= /Rdiv Rmult_0_l. lra.
    - apply Rltb_spec. apply Rdiv_lt_0_compat; [|lra]. apply lt_0_INR. lia. }
  rewrite Ep. set ks := filter (fun k => Nat.ltb 0 (nth k (b_hist b) 0%nat)) (seq 0 (length (b_lo b))).
  have Ik : forall k, In k ks <-> (k < length (b_lo b))%nat /\ (0 < nth k (b_hist b) 0)%nat.
  { move=> k. rewrite /ks filter_In in_seq Nat.ltb_lt. lia. }
  have F := @fitted (map w_x (map row ks)) (map w_d (map row ks)) ltac:(by rewrite !map_length). cbn zeta in F. destruct F as [F1 F2].
  do 4 eexists. split; [reflexivity|]. split; [exact Ad|]. split; [exact Sp|]. split; [exact Lb|]. split; [|split; [|split]].
  - exists ks. split; [apply NoDup_filter, seq_NoDup|]. split; [|split; [by rewrite map_length|]].
    + move=> k. rewrite Ik. split.
      * move=> [Hk H0]. have [C _] := DD k Hk. by apply (counts_pos C).
      * move=> [v [I B]]. have Hk : (k < length (b_lo b))%nat by destruct B. split=> //. have [C _] := DD k Hk. apply (counts_pos C). by exists v.
    + move=> j Hj. cbn zeta. have Ij : In (nth j ks 0%nat) ks by apply nth_In. apply Ik in Ij. destruct Ij as [Hk H0].
      rewrite (@nth_map' _ _ row ks j _ 0%nat) //. cbn [w_x w_n]. have [W1 W2] := Wd _ Hk. split=> //. split=> //. split; [|by rewrite Er].
      by have [C _] := DD _ Hk.
  - rewrite map_map. cbn [row w_n]. rewrite -Tot /ks natsum_filter. f_equal.
    apply (nth_ext _ _ 0%nat 0%nat); [by rewrite map_length seq_length|]. move=> k. rewrite map_length seq_length => Hk. by rewrite nth_map_seq.
  - rewrite -(map_map w_x (fun a => nlog10 (Some a))) -(map_map w_d nlog10). exact F1.
  - move=> H3 Pos NC. rewrite -(map_map w_x (fun a => nlog10 (Some a))) -(map_map w_d nlog10).
    apply (F2 (map (fun k => INR (nth k (b_hist b) 0%nat) / (nth k (b_hi b) 0 - nth k (b_lo b) 0)) ks)) => //.
    + rewrite !map_map. apply map_ext_in => k /Ik [Hk _]. exact: Er.
    + move=> v /in_map_iff [k [<- /Ik [Hk H0]]]. have [_ W] := Wd k Hk. apply Rdiv_lt_0_compat; [exact: lt_0_INR|lra].
    + move=> v. rewrite map_map => /in_map_iff [k [<- /Ik [Hk H0]]]. cbn [row w_x]. have [W1 W2] := Wd k Hk.
      have P0 : 0 < nth 0 (b_lo b) 0 by apply Pos; exact (proj1 (proj1 Sp)).
      have M : nth 0 (b_lo b) 0 <= nth k (b_lo b) 0.
      { have [_ [_ [Al An]]] := Ad. clear -Hk Al An. induction k as [|k IH]; [lra|]. have := IH ltac:(lia). rewrite An //.
        have := Al k ltac:(lia). lra. }
      lra.
    + by rewrite map_length.
Qed.

(* bins given by the caller *)
Lemma given_counts x lo hi : adjacent lo hi -> (forall v, In v x -> nth 0 lo 0 <= v <= nth (length hi - 1) hi 0) ->
  exists h, bincount (bin_index x lo hi) (length lo) = Some h /\ length h = length lo /\ natsum h = length x /\
    forall k, (k < length lo)%nat -> counts (in_bin lo hi k) x (nth k h 0%nat).
Proof.
  move=> Ad In_.
  have IB : forall v, In v x -> exists k, bin_index1 hi v = Z.of_nat k /\ in_bin lo hi k v by move=> v /In_; apply bin_index_correct.
  have E : bincount (bin_index x lo hi) (length lo) =
    Some (map (fun b => length (filter (fun v => Z.eqb (bin_index1 hi v) (Z.of_nat b)) x)) (seq 0 (length lo))).
  { rewrite /bincount /bin_index. have -> : existsb (fun i => Z.ltb i 0) (map (bin_index1 hi) x) = false.
    { apply not_true_is_false => /existsb_exists [i [/in_map_iff [v [<- I]] /Z.ltb_lt]]. have [k [-> _]] := IB v I. lia. }
    f_equal. apply map_ext => b. by rewrite filter_map_swap map_length. }
  eexists. split; [exact E|]. split; [by rewrite map_length seq_length|]. split.
  - rewrite -[RHS](@natsum_class _ (fun v => Z.to_nat (bin_index1 hi v)) x (length lo)); last first.
    + f_equal. apply map_ext => b. f_equal. apply filter_ext_in' => v I.
      have [k [-> _]] := IB v I. rewrite Nat2Z.id. destruct (Nat.eqb_spec k b); [subst; apply Z.eqb_refl|apply Z.eqb_neq; lia].
    + move=> v I. have [k [-> [H _]]] := IB v I. by rewrite Nat2Z.id.
  - move=> k Hk. rewrite nth_map_seq //. change (0 + k)%nat with k. apply counts_filter => v I. have [j [-> B]] := IB v I. rewrite Z.eqb_eq. split.
    + by move=> /Nat2Z.inj <-.
    + move=> B'. by rewrite (in_bin_unique Ad B B').
Qed.
Theorem dx_function_given x lo mid hi nx bt : adjacent lo hi -> (forall k, (k < length lo)%nat -> nth k lo 0 < nth k hi 0) ->
  length mid = length lo -> (forall v, In v x -> nth 0 lo 0 <= v <= nth (length hi - 1) hi 0) ->
  exists l fit, dx_function (Some (lo, mid, hi)) x nx bt = Ok (l, fit) /\ users_bins x lo mid hi l /\
    natsum (map w_n l) = length x /\ fits_power_law (map w_x l) (map w_d l) fit.
Proof.
  move=> Ad Wd Lm In_. have [h [E [Lh [Tot DD]]]] := given_counts Ad In_.
  rewrite /dx_function /x_hist E. cbn [bind].
  set row := fun k => mkRow (nth k mid 0) (nth k h 0%nat) (nratio (INR (nth k h 0%nat)) (nth k hi 0 - nth k lo 0)).
  have El : dx_rows lo mid hi h = map row (seq 0 (length lo)) by [].
  rewrite El filter_map.
  have Er : forall k, (k < length lo)%nat -> w_d (row k) = Some (INR (nth k h 0%nat) / (nth k hi 0 - nth k lo 0)).
  { move=> k Hk. cbn. rewrite /nratio. have W := Wd k Hk. have -> : Reqb (nth k hi 0 - nth k lo 0) 0 = false; [|by []].
    apply Bool.not_true_is_false => /Reqb_spec. lra. }
  have Ep : filter (fun k => positive_row (row k)) (seq 0 (length lo)) = filter (fun k => Nat.ltb 0 (nth k h 0%nat)) (seq 0 (length lo)).
  { apply filter_ext_in' => k /in_seq [_ Hk]. rewrite /positive_row Er; [lia|]. have W := Wd k ltac:(lia).
    destruct (nth k h 0%nat) as [|h']; [|change (Nat.ltb 0 (S h')) with true].
    - apply Rltb_false. rewrite /= /Rdiv Rmult_0_l. lra.
    - apply Rltb_spec. apply Rdiv_lt_0_compat; [|lra]. apply lt_0_INR. lia. }
  rewrite Ep. set ks := filter (fun k => Nat.ltb 0 (nth k h 0%nat)) (seq 0 (length lo)).
  have Ik : forall k, In k ks <-> (k < length lo)%nat /\ (0 < nth k h 0)%nat.
  { move=> k. rewrite /ks filter_In in_seq Nat.ltb_lt. lia. }
  have F := @fitted (map w_x (map row ks)) (map w_d (map row ks)) ltac:(by rewrite !map_length). cbn zeta in F. destruct F as [F1 F2].
  do 2 eexists. split; [reflexivity|]. split; [|split].
  - exists ks. split; [apply NoDup_filter, seq_NoDup|]. split; [|split; [by rewrite map_length|]].
    + move=> k. rewrite Ik. split.
      * move=> [Hk H0]. by apply (counts_pos (DD k Hk)).
      * move=> [v [I B]]. have Hk : (k < length lo)%nat by destruct B. split=> //. apply (counts_pos (DD k Hk)). by exists v.
    + move=> j Hj. cbn zeta. have Ij : In (nth j ks 0%nat) ks by apply nth_In. apply Ik in Ij. destruct Ij as [Hk H0].
      rewrite (@nth_map' _ _ row ks j _ 0%nat) //. split=> //. split; [exact (DD _ Hk)|by rewrite Er].
  - rewrite map_map. cbn [row w_n]. rewrite -Tot /ks natsum_filter. f_equal.
    apply (nth_ext _ _ 0%nat 0%nat); [by rewrite map_length seq_length|]. move=> k. rewrite map_length seq_length => Hk. by rewrite nth_map_seq.
  - rewrite -(map_map w_x (fun a => nlog10 (Some a))) -(map_map w_d nlog10). exact F1.
Qed.
(* every value is counted, also those outside all the bins *)
Lemma cap_count (hi : list R) (v : R) : hi <> [] -> exists k, bin_index1 hi v = Z.of_nat k /\ (k < length hi)%nat.
Proof.
  move=> N. have L : (0 < length hi)%nat by destruct hi => //=; lia. rewrite /bin_index1.
  exists (Nat.min (searchsorted_right hi v) (length hi - 1)). lia.
Qed.
Theorem dx_function_outside x lo mid hi nx bt : adjacent lo hi -> (forall k, (k < length lo)%nat -> nth k lo 0 < nth k hi 0) ->
  exists l fit, dx_function (Some (lo, mid, hi)) x nx bt = Ok (l, fit) /\ natsum (map w_n l) = length x.
Proof.
  move=> Ad Wd. have [L [N _]] := Ad. have Nh : hi <> [] by move=> E; rewrite E in L; destruct lo.
  have IB := fun v => cap_count v Nh.
  have E : bincount (bin_index x lo hi) (length lo) =
    Some (map (fun b => length (filter (fun v => Z.eqb (bin_index1 hi v) (Z.of_nat b)) x)) (seq 0 (length lo))).
  { rewrite /bincount /bin_index. have -> : existsb (fun i => Z.ltb i 0) (map (bin_index1 hi) x) = false.
    { apply not_true_is_false => /existsb_exists [i [/in_map_iff [v [<- I]] /Z.ltb_lt]]. have [k [-> _]] := IB v. lia. }
    f_equal. apply map_ext => b. by rewrite filter_map_swap map_length. }
  rewrite /dx_function /x_hist E. cbn [bind]. set h := map _ (seq 0 (length lo)).
  have Lh : length h = length lo by rewrite map_length seq_length.
  have Tot : natsum h = length x.
  { rewrite -[RHS](@natsum_class _ (fun v => Z.to_nat (bin_index1 hi v)) x (length lo)); last first.
    - f_equal. apply map_ext => b. f_equal. apply filter_ext_in' => v I.
      have [k [-> _]] := IB v. rewrite Nat2Z.id. destruct (Nat.eqb_spec k b); [subst; apply Z.eqb_refl|apply Z.eqb_neq; lia].
    - move=> v I. have [k [-> H]] := IB v. by rewrite Nat2Z.id L. }
  do 2 eexists. split; [reflexivity|].
  have -> : map w_n (filter positive_row (dx_rows lo mid hi h)) = map (fun k => nth k h 0%nat) (filter (fun k => Nat.ltb 0 (nth k h 0%nat)) (seq 0 (length lo))).
  { rewrite /dx_rows filter_map map_map. cbn [w_n]. f_equal. apply filter_ext_in' => k /in_seq [_ Hk]. rewrite /positive_row. cbn [w_d w_n].
    have W := Wd k ltac:(lia). rewrite /nratio. have -> : Reqb (nth k hi 0 - nth k lo 0) 0 = false.
    { apply Bool.not_true_is_false => /Reqb_spec. lra. }
    destruct (nth k h 0%nat) as [|h']; [|change (Nat.ltb 0 (S h')) with true].
    - apply Rltb_false. rewrite /= /Rdiv Rmult_0_l. lra.
    - apply Rltb_spec. apply Rdiv_lt_0_compat; [|lra]. apply lt_0_INR. lia. }
  rewrite natsum_filter -Tot. f_equal. apply (nth_ext _ _ 0%nat 0%nat); [by rewrite map_length seq_length|].
  move=> k. rewrite map_length seq_length => Hk. by rewrite nth_map_seq.
Qed.

(* ---------------------------------------------------------------- characteristic mass *)
Lemma half_power a : 0 < a -> Rpower a (-(1/2)) = exp (-(1/2) * ln a). Proof. by []. Qed.
Lemma deriv_local f g x l d : 0 < d -> (forall y, Rabs (y - x) < d -> f y = g y) -> derivable_pt_lim g x l -> derivable_pt_lim f x l.
Proof.
  move=> Hd E D eps He. have [dl H] := D eps He. have Hm : 0 < Rmin d dl by apply Rmin_glb_lt => //; apply dl.
  exists (mkposreal _ Hm) => h Hh Hl. cbn in Hl. rewrite !E.
  - have -> : x + h - x = h by ring. have := Rmin_l d dl. lra.
  - rewrite Rminus_diag_eq // Rabs_R0. lra.
  - apply H => //. have := Rmin_r d dl. lra.
Qed.
Lemma deriv_glue f a b x l : (forall y, y <= x -> f y = a y) -> (forall y, x < y -> f y = b y) -> a x = b x ->
  derivable_pt_lim a x l -> derivable_pt_lim b x l -> derivable_pt_lim f x l.
Proof.
  move=> Ea Eb Ex Da Db eps He. have [d1 H1] := Da eps He. have [d2 H2] := Db eps He.
  have Hm : 0 < Rmin d1 d2 by apply Rmin_glb_lt; [apply d1|apply d2].
  exists (mkposreal _ Hm) => h Hh Hl. cbn in Hl. have := Rmin_l d1 d2. have := Rmin_r d1 d2 => R2 R1. rewrite (Ea x); [lra|].
  destruct (Rle_lt_dec (x + h) x) as [L|L].
  - rewrite Ea //. apply H1 => //. lra.
  - rewrite Eb // Ex. apply H2 => //. lra.
Qed.

Section Meq.
Variables (meq sigma0 : R).
Hypotheses (Hm : 0 < meq) (Hs : 0 < sigma0).
Let low m := sigma0 * exp (-(1/2) * m / meq).
Let high m := sigma0 * exp (-(1/2)) * Rpower (m / meq) (-(1/2)).
Lemma meq_low m : m <= meq -> meq_func m meq sigma0 = low m.
Proof. move=> H. rewrite /meq_func. by have -> : Rleb m meq = true by apply Rleb_spec. Qed.
Lemma meq_high m : meq < m -> meq_func m meq sigma0 = high m.
Proof.
  move=> H. rewrite /meq_func. have -> : Rleb m meq = false by apply Bool.not_true_is_false => /Rleb_spec; lra.
  by rewrite rpow_pos //; apply Rdiv_lt_0_compat; lra.
Qed.
Lemma meq_meet : low meq = high meq.
Proof. rewrite /low /high /Rpower. have -> : meq / meq = 1 by field; lra. rewrite ln_1 Rmult_0_r exp_0. have -> : -(1/2) * meq / meq = -(1/2) by field; lra. ring. Qed.
Lemma low_pos m : 0 < low m. Proof. apply Rmult_lt_0_compat => //. apply exp_pos. Qed.
Lemma high_pos m : 0 < high m. Proof. apply Rmult_lt_0_compat; [apply Rmult_lt_0_compat => //|]; apply exp_pos. Qed.
Lemma low_decr a b : a < b -> low b < low a.
Proof.
  move=> H. apply Rmult_lt_compat_l => //. apply exp_increasing. rewrite /Rdiv.
  have I : 0 < / meq by apply Rinv_0_lt_compat. nra.
Qed.
Lemma high_decr a b : 0 < a -> a < b -> high b < high a.
Proof.
  move=> Ha H. apply Rmult_lt_compat_l; [apply Rmult_lt_0_compat => //; apply exp_pos|]. apply exp_increasing.
  have L : ln (a / meq) < ln (b / meq); [|lra]. apply ln_increasing; [by apply Rdiv_lt_0_compat|]. apply Rmult_lt_compat_r => //. by apply Rinv_0_lt_compat.
Qed.
Theorem meq_positive m : 0 < meq_func m meq sigma0.
Proof. destruct (Rle_lt_dec m meq) as [H|H]; [rewrite meq_low //; apply low_pos|rewrite meq_high //; apply high_pos]. Qed.
Theorem meq_decreasing a b : a < b -> meq_func b meq sigma0 < meq_func a meq sigma0.
Proof.
  move=> H. destruct (Rle_lt_dec b meq) as [Hb|Hb].
  - rewrite !meq_low; try lra. exact: low_decr.
  - rewrite (meq_high Hb). destruct (Rle_lt_dec a meq) as [Ha|Ha].
    + rewrite (meq_low Ha). have H1 : high b < high meq by apply high_decr. rewrite -meq_meet in H1.
      destruct (Req_dec a meq) as [->|D] => //. have := @low_decr a meq ltac:(lra). lra.
    + rewrite (meq_high Ha). apply high_decr; lra.
Qed.
Lemma low_deriv m : derivable_pt_lim low m (- low m / (2 * meq)).
Proof.
  have -> : - low m / (2 * meq) = sigma0 * (exp (-(1/2) * m / meq) * (-(1/2) / meq)) by rewrite /low; field; lra.
  apply derivable_pt_lim_scal. apply (derivable_pt_lim_comp (fun x => -(1/2) * x / meq) exp).
  - have E : forall y, -(1/2) * y / meq = (-(1/2) / meq) * y by move=> y; field; lra.
    apply (@deriv_local _ (mult_real_fct (-(1/2) / meq) id) m _ 1); [lra|by move=> y _; rewrite E|].
    have -> : -(1/2) / meq = -(1/2) / meq * 1 by ring. rewrite Rmult_1_r. have := derivable_pt_lim_scal id (-(1/2) / meq) m 1 (derivable_pt_lim_id m). by rewrite Rmult_1_r.
  - apply derivable_pt_lim_exp.
Qed.
Lemma high_deriv m : 0 < m -> derivable_pt_lim high m (- high m / (2 * m)).
Proof.
  move=> H. have Hq : 0 < m / meq by apply Rdiv_lt_0_compat.
  have -> : - high m / (2 * m) = sigma0 * exp (-(1/2)) * (exp (-(1/2) * ln (m / meq)) * (-(1/2) * (/ (m / meq) * (/ meq)))).
  { rewrite /high /Rpower. field. lra. }
  apply derivable_pt_lim_scal. apply (derivable_pt_lim_comp (fun x => -(1/2) * ln (x / meq)) exp); [|apply derivable_pt_lim_exp].
  apply derivable_pt_lim_scal. apply (derivable_pt_lim_comp (fun x => x / meq) ln); [|by apply derivable_pt_lim_ln].
  apply (@deriv_local _ (mult_real_fct (/ meq) id) m _ 1); [lra|by move=> y _; rewrite /mult_real_fct /id; field; lra|].
  have := derivable_pt_lim_scal id (/ meq) m 1 (derivable_pt_lim_id m). by rewrite Rmult_1_r.
Qed.
Theorem meq_derivative m : 0 < m ->
  derivable_pt_lim (fun x => meq_func x meq sigma0) m (- meq_func m meq sigma0 / (2 * Rmax m meq)).
Proof.
  move=> H. destruct (Rtotal_order m meq) as [L|[E|L]].
  - rewrite Rmax_right; [lra|]. rewrite meq_low; [lra|]. apply (@deriv_local _ low m _ (meq - m)); [lra| |exact: low_deriv].
    move=> y /Rabs_def2 [Y1 Y2]. apply meq_low. lra.
  - subst m. rewrite Rmax_left; [lra|]. rewrite meq_low; [lra|]. apply (deriv_glue (a := low) (b := high)).
    + by move=> y; apply meq_low.
    + by move=> y; apply meq_high.
    + exact meq_meet.
    + exact: low_deriv.
    + rewrite meq_meet. exact: high_deriv.
  - rewrite Rmax_left; [lra|]. rewrite meq_high //. apply (@deriv_local _ high m _ (m - meq)); [lra| |exact: high_deriv].
    move=> y /Rabs_def2 [Y1 Y2]. apply meq_high. lra.
Qed.
End Meq.

Lemma assign_map {A} (p : A -> bool) (f g : A -> R) m :
  assign (map p m) (map g m) (map f (select (map p m) m)) = map (fun a => if p a then f a else g a) m.
Proof. induction m as [|a m IH] => //=. destruct (p a) => /=; by rewrite IH. Qed.
Theorem meq_array m meq sigma0 : meq_func_array m meq sigma0 = map (fun a => meq_func a meq sigma0) m.
Proof.
  rewrite /meq_func_array. cbn zeta. rewrite (assign_map (fun a => Rleb a meq) (fun a => sigma0 * exp (-(1/2) * a / meq)) (fun _ => 0) m).
  rewrite (assign_map (fun a => Rltb meq a) (fun a => sigma0 * exp (-(1/2)) * rpow (a / meq) (-(1/2)))).
  apply map_ext => a. rewrite /meq_func. destruct (Rle_lt_dec a meq) as [H|H].
  - have -> : Rltb meq a = false by apply Rltb_false. have -> : Rleb a meq = true by apply Rleb_spec. done.
  - have -> : Rltb meq a = true by apply Rltb_spec. by have -> : Rleb a meq = false by apply Bool.not_true_is_false => /Rleb_spec; lra.
Qed.
