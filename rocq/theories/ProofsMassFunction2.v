(* Proofs: the mass function of a selection. *)
From Coq Require Import Sorted.
From Verif Require Import Base ModelCluster ModelOps ModelConv ModelEnergy ModelRecipes ModelStars ModelSubset ModelCoords ModelLagrange ModelProfiles ModelMassFunction.
From Verif Require Import SpecUnits SpecFrame SpecOrder SpecRecipes SpecEnergy SpecStars SpecSubset SpecLagrange SpecProfiles SpecMassFunction.
From Verif Require Import ProofsUnits ProofsFrame ProofsSort ProofsSees ProofsEnergy ProofsPot ProofsCentre ProofsRecipes ProofsRecipes2 ProofsRecipes4 ProofsLagrange ProofsSubset ProofsSubset2 ProofsSubset4 ProofsProfiles ProofsProfiles2 ProofsProfiles3 ProofsMassFunction.
Set Implicit Arguments. Unset Strict Implicit.

Lemma sum_lt l h : (forall v, In v l -> v < h) -> l <> [] -> sumR l < INR (length l) * h.
Proof.
  induction l as [|a l IH] => // H _. cbn [length]. rewrite S_INR /=. have Ha := H a (or_introl eq_refl).
  destruct l as [|b l]; [cbn; lra|]. have := IH ltac:(by move=> v Hv; apply H; right) ltac:(by []). lra.
Qed.
(* counts and totals of one condition speak of the same elements *)
Definition inb (lo hi : list R) (k : nat) (v : R) : bool :=
  Nat.ltb k (length lo) && Rleb (nth k lo 0) v && (Rltb v (nth k hi 0) || Nat.eqb (S k) (length lo) && Reqb v (nth k hi 0)).
Lemma inb_spec lo hi k v : inb lo hi k v = true <-> in_bin lo hi k v.
Proof.
  rewrite /inb /in_bin !andb_true_iff orb_true_iff andb_true_iff Nat.ltb_lt Rleb_spec Rltb_spec Nat.eqb_eq Reqb_spec. tauto.
Qed.
Lemma part_filter (P : R -> Prop) b x s t : (forall v, b v = true <-> P v) -> Permutation x (s ++ t) -> Forall P s -> Forall (fun v => ~ P v) t ->
  Permutation (filter b x) s.
Proof.
  move=> H PE F1 F2. rewrite (filter_perm b PE) filter_app. rewrite (filter_all (l := s)).
  - move=> v Hv. apply H. by apply (proj1 (Forall_forall _ _) F1).
  - rewrite (filter_none (l := t)); [|by rewrite app_nil_r].
    move=> v Hv. destruct (b v) eqn:E => //. exfalso. apply (proj1 (Forall_forall _ _) F2 v Hv). by apply H.
Qed.
Lemma bin_sample lo hi k x h s : counts (in_bin lo hi k) x h -> totals (in_bin lo hi k) x s ->
  exists g, length g = h /\ sumR g = s /\ forall v, In v g <-> In v x /\ in_bin lo hi k v.
Proof.
  move=> [s1 [t1 [P1 [F1 [G1 L1]]]]] [s2 [t2 [P2 [F2 [G2 L2]]]]].
  have Q1 := part_filter (inb_spec lo hi k) P1 F1 G1. have Q2 := part_filter (inb_spec lo hi k) P2 F2 G2.
  exists (filter (inb lo hi k) x). split; [by rewrite (Permutation_length Q1)|]. split; [by rewrite (sumR_perm Q2)|].
  move=> v. rewrite filter_In inb_spec //.
Qed.
(* all but the last bin have their mean value strictly below the upper edge *)
Lemma own_bins_mid_lt x nbin bt b : x <> [] -> (0 < nbin)%nat -> ~ constant x -> own_bins x nbin bt Linear = Ok b ->
  (forall k, (S k < length (b_lo b))%nat -> nth k (b_mid b) 0 < nth k (b_hi b) 0) /\
  (bt = Num -> forall k, (k < length (b_lo b))%nat -> exists v, In v x /\ in_bin (b_lo b) (b_hi b) k v).
Proof.
  move=> Nx Hb Nc E. have [_ [_ [_ Wd]]] := own_bins_wide Nx Hb Nc E. destruct bt; cbn [own_bins] in E.
  - have [b' [E' [Ad [Sp [Le [[_ [_ D]] [_ [H _]]]]]]]] := nbinmaker_partition Nx Nc Hb. have Eb : b = b' by congruence. subst b'.
    split; [|move=> _]; move=> k Hk; have [H1 [H2 [Hm _]]] := H k ltac:(lia);
      have [C T] := D k ltac:(lia); have [g [Lg [Sg Ig]]] := bin_sample C T.
    + rewrite Hm -Sg -Lg. have N0 : 0 < INR (length g) by rewrite Lg; apply lt_0_INR.
      have : sumR g < INR (length g) * nth k (b_hi b) 0.
      { apply sum_lt; [|by move=> E0; rewrite E0 in Lg; cbn in Lg; lia]. move=> v /Ig [_ [_ [_ [V|[V _]]]]] //. lia. }
      move=> S1. apply (Rmult_lt_reg_r (INR (length g))) => //. rewrite /Rdiv Rmult_assoc Rinv_l; lra.
    + destruct g as [|v g]; [cbn in Lg; lia|]. exists v. apply Ig. by left.
  - have [b' [E' [Le [Ad [Sp [_ [_ [Mi _]]]]]]]] := @binmaker_partition x nbin Linear Nx Hb ltac:(by []).
    have Eb : b = b' by congruence. subst b'. split => // k Hk. have [_ W] := Wd k ltac:(lia). rewrite Mi; [lia|]. lra.
Qed.

Lemma mask_rows msk n (P : nat -> Prop) r nb bt caller : length msk = n -> length r = n ->
  (forall i, (i < n)%nat -> nth i msk false = true <-> P i) -> (0 < nb)%nat -> mass_spread P (fun i => nth i r 0) n ->
  exists w, rows_of msk caller nb bt r = Ok w /\ w_msk w = msk /\ w_idx w = bin_index r (w_lo w) (w_hi w) /\
    adjacent (w_lo w) (w_hi w) /\ members n P (chosen msk) /\ spans (map (fun i => nth i r 0) (chosen msk)) (w_lo w) (w_hi w) /\
    length (w_mid w) = length (w_lo w) /\ (length (w_lo w) <= nb)%nat /\
    (forall k, (k < length (w_lo w))%nat -> nth k (w_lo w) 0 <= nth k (w_mid w) 0 <= nth k (w_hi w) 0 /\ nth k (w_lo w) 0 < nth k (w_hi w) 0) /\
    (forall k, members n (fun i => P i /\ in_bin (w_lo w) (w_hi w) k (nth i r 0)) (chosen (in_row false w k))) /\
    (forall i, (i < n)%nat -> P i -> exists k, in_bin (w_lo w) (w_hi w) k (nth i r 0)) /\
    (bt = Num -> forall k, (k < length (w_lo w))%nat -> exists i, (i < n)%nat /\ P i /\ in_bin (w_lo w) (w_hi w) k (nth i r 0)) /\
    (forall k, (S k < length (w_lo w))%nat -> nth k (w_mid w) 0 < nth k (w_hi w) 0).
Proof.
  move=> L Lr W Hb PR. have ME : members n P (chosen msk) by apply chosen_members.
  have Ex : select msk r = map (fun i => nth i r 0) (chosen msk) by rewrite (@select_chosen _ 0 msk r) ?L ?Lr.
  have [Nx Nc] : select msk r <> [] /\ ~ constant (select msk r).
  { destruct PR as [i [j [Hi [Hj [Ai [Aj D]]]]]].
    have Ii : In (nth i r 0) (select msk r) by rewrite Ex; apply (in_map (fun i => nth i r 0)); apply ME.
    have Ij : In (nth j r 0) (select msk r) by rewrite Ex; apply (in_map (fun i => nth i r 0)); apply ME.
    split; [by move=> E0; rewrite E0 in Ii|]. move=> C. by apply D, C. }
  have [b [Eb [Ad [Sp _]]]] := @own_bins_ok (select msk r) nb bt Linear Nx Hb ltac:(by []) ltac:(by []).
  have [_ [_ [Le Wd]]] := own_bins_wide Nx Hb Nc Eb.
  rewrite /rows_of Eb. cbn [bind]. eexists. split; [reflexivity|]. cbn [w_lo w_mid w_hi w_msk w_idx].
  have [Ml Ne] := own_bins_mid_lt Nx Hb Nc Eb.
  do 3 (split => //). split => //. rewrite -Ex. split => //.
  split; [apply (own_bins_mid Eb); by destruct Ad|]. do 2 (split=> //). split; [|split; [|split => //]].
  - move=> k. rewrite /in_row. cbn [w_msk w_idx].
    apply (members_ext (P := fun i => nth i msk false = true /\ in_bin (b_lo b) (b_hi b) k (nth i r 0))).
    + move=> i Hi. rewrite W //.
    + exact (row_members false k L Lr Ad Sp).
  - move=> i Hi Ai. have [k [_ B]] := in_bin_of Ad Sp (v := nth i r 0) ltac:(rewrite Ex; apply (in_map (fun i => nth i r 0)); by apply ME). by exists k.
  - move=> Ebt k Hk. have [v [Iv Bv]] := Ne Ebt k Hk. rewrite Ex in Iv. apply in_map_iff in Iv. destruct Iv as [i [Ei Ii]].
    exists i. apply ME in Ii. rewrite Ei. tauto.
Qed.

(* ---------------------------------------------------------------- the fit *)
Lemma all_some_inv (l : list num) k : all_some l = Some k -> l = map (@Some R) k.
Proof.
  move: k. induction l as [|[a|] l IH]; move=> k; cbn [all_some]; [by move=> [<-]| |by []].
  destruct (all_some l) as [k'|]; [|by []]. cbn [option_map]. move=> [<-]. cbn [map]. by rewrite -(IH k').
Qed.
Lemma all_some_Some (k : list R) : all_some (map (@Some R) k) = Some k.
Proof. induction k as [|a k IH] => //=. by rewrite IH. Qed.
Lemma nlog_inv (l : list num) k : map nlog10 l = map (@Some R) k -> exists d, l = map (@Some R) d /\ all_positive d /\ k = map log10 d.
Proof.
  move: k. induction l as [|a l IH]; move=> [|b k] //=; [move=> _; exists []; do 2 (split => //)|]. move=> [E1 E2].
  have [d [Ed [Pd Kd]]] := IH k E2. destruct a as [a|] => //. cbn in E1. destruct (Rltb 0 a) eqn:Ea => //.
  exists (a :: d). split; [by rewrite Ed|]. split; [|by injection E1 => <-; rewrite Kd].
  move=> v [<-|H]; [by apply Rltb_spec|by apply Pd].
Qed.
Lemma nlog_pos d : all_positive d -> map nlog10 (map (@Some R) d) = map (@Some R) (map log10 d).
Proof.
  move=> H. rewrite !map_map. apply map_ext_in => a Ha /=. have -> : Rltb 0 a = true by apply Rltb_spec; exact: H. done.
Qed.
Lemma log10_mul a b : 0 < a -> 0 < b -> log10 (a * b) = log10 a + log10 b.
Proof. move=> Ha Hb. rewrite /log10 ln_mult // /Rdiv. ring. Qed.
Lemma log10_power x a : log10 (Rpower x a) = a * log10 x.
Proof. rewrite /log10 /Rpower ln_exp /Rdiv. ring. Qed.
Lemma log10_inj a b : 0 < a -> 0 < b -> log10 a = log10 b -> a = b.
Proof. move=> Ha Hb E. by rewrite -(pow10_log10 Ha) -(pow10_log10 Hb) E. Qed.
Lemma constant_log x : all_positive x -> constant (map log10 x) -> constant x.
Proof. move=> P C v w Hv Hw. apply log10_inj; [exact: P|exact: P|]. apply C; exact: in_map. Qed.

Lemma fitted mean dens : length dens = length mean ->
  let fit := polyfit_of (map (fun x => nlog10 (Some x)) mean) (map nlog10 dens) in
  fits_power_law mean dens fit /\
  (forall d, dens = map (@Some R) d -> all_positive d -> all_positive mean -> (3 <= length mean)%nat -> ~ constant mean -> fit <> None).
Proof.
  move=> L. cbn zeta. have Em : map (fun x => nlog10 (Some x)) mean = map nlog10 (map (@Some R) mean) by rewrite map_map.
  rewrite Em. split; [split|].
  - move=> f. rewrite /polyfit_of. destruct (all_some (map nlog10 (map (@Some R) mean))) as [a|] eqn:Ea => //.
    destruct (all_some (map nlog10 dens)) as [b|] eqn:Eb => // Ef.
    have [dm [Hm [Pm Ka]]] := nlog_inv (all_some_inv Ea).
    have [d [Hd [Pd Kb]]] := nlog_inv (all_some_inv Eb). subst a b. exists d.
    have Edm : dm = mean. { have := f_equal all_some Hm. rewrite !all_some_Some. congruence. } subst dm.
    have B := polyfit_errors Ef. split; [exact Hd|]. split; [exact Pm|]. split; [exact Pd|exact B].
  - move=> C alpha d Ed HC Pm [Ld On] H3 NC.
    have Pd : all_positive d.
    { move=> v Hv. have [k [Hk <-]] := In_nth _ _ 0 Hv. rewrite On ?Ld //. apply Rmult_lt_0_compat => //. apply exp_pos. }
    rewrite Ed (nlog_pos Pm) (nlog_pos Pd) /polyfit_of !all_some_Some. apply polyfit_exact.
    + by rewrite !map_length.
    + by rewrite map_length.
    + by move=> /(constant_log Pm).
    + move=> k. rewrite map_length => Hk. rewrite (@nth_map' _ _ _ d k 0 0) -?Ld // (@nth_map' _ _ _ mean k 0 0) // On //.
      have Pk : 0 < nth k mean 0 by apply Pm, nth_In. rewrite log10_mul //; [exact: exp_pos|]. rewrite log10_power. ring.
  - move=> d Ed Pd Pm H3 NC. rewrite Ed (nlog_pos Pm) (nlog_pos Pd) /polyfit_of !all_some_Some.
    have Ld : length d = length mean by rewrite -L Ed map_length.
    have [f [Ef _]] := @polyfit_best (map log10 mean) (map log10 d) ltac:(by rewrite !map_length) ltac:(by rewrite map_length) ltac:(by move=> /(constant_log Pm)).
    by rewrite Ef.
Qed.

(* ---------------------------------------------------------------- the table *)
Lemma corrected_ok corr msk n : length msk = n -> length corr = n -> (forall i, (i < n)%nat -> nth i corr 0 <> 0) ->
  corrected corr msk = Some (sumR (map (fun i => 1 / nth i corr 0) (chosen msk))).
Proof.
  move=> L Lc NZ. rewrite /corrected (@select_chosen _ 0 msk corr) ?L ?Lc //.
  have -> : existsb (fun a => Reqb a 0) (map (fun i => nth i corr 0) (chosen msk)) = false.
  { apply not_true_is_false => /existsb_exists [a [/in_map_iff [i [<- I]] E]]. apply Reqb_spec in E.
    apply chosen_In in I. rewrite L in I. by apply (NZ i); [apply I|]. }
  by rewrite map_map.
Qed.

Lemma mass_rows_ok msk n (P : nat -> Prop) m nmass bt caller corr ret : length msk = n -> length m = n -> length corr = n ->
  (forall i, (i < n)%nat -> nth i msk false = true <-> P i) -> (0 < nmass)%nat -> mass_spread P (fun i => nth i m 0) n ->
  (forall i, (i < n)%nat -> nth i corr 0 <> 0) ->
  exists w, rows_of msk caller nmass bt m = Ok w /\ let t := mass_rows w corr ret in
    histogram_of (fun i => nth i m 0) (fun i => nth i corr 0) (chosen msk) nmass (mt_mean t) (mt_hist t) (mt_dm t) /\
    natsum (mt_hist t) = length (chosen msk) /\ fits_power_law (mt_mean t) (mt_dm t) (mt_fit t) /\
    (bt = Num -> (3 <= length (mt_mean t))%nat -> (forall i, (i < n)%nat -> P i -> 0 < nth i m 0 /\ 0 < nth i corr 0) -> mt_fit t <> None).
Proof.
  move=> L Lm Lc W Hn SP NZ. have [w [Ew [Wm [Wi [Ad [ME [Spn [Lmid [Le [Wd [Row [Cov [Ne Mlt]]]]]]]]]]]]] := @mask_rows msk n P m nmass bt caller L Lm W Hn SP.
  exists w. split=> //. cbn zeta. rewrite /mass_rows. cbn [mt_mean mt_hist mt_dm mt_fit].
  have Lr : forall k, length (in_row false w k) = n by move=> k; rewrite /in_row Wm Wi row_mask_length ?L // /bin_index map_length Lm.
  have [Llh [_ [_ Adj]]] := Ad.
  set ch := map (fun i => corrected corr (in_row false w i)) (row_count w).
  set dm := zip_with nover ch _.
  have Lch : length ch = length (w_lo w) by rewrite /ch map_length /row_count seq_length.
  have Lw : length (zip_with (fun a b => a - b) (w_hi w) (w_lo w)) = length (w_lo w) by rewrite zip_with_length -Llh Nat.min_id.
  have Ldm : length dm = length (w_lo w) by rewrite /dm zip_with_length Lch Lw Nat.min_id.
  have Edm : forall k, (k < length (w_lo w))%nat -> nth k dm None =
    Some (sumR (map (fun i => 1 / nth i corr 0) (chosen (in_row false w k))) / (nth k (w_hi w) 0 - nth k (w_lo w) 0)).
  { move=> k Hk. rewrite /dm (@nth_zip_with _ _ _ nover ch _ k None 0 None) ?Lch ?Lw //.
    rewrite (@nth_zip_with _ _ _ (fun a b => a - b) (w_hi w) (w_lo w) k 0 0 0) -?Llh //.
    rewrite /ch /row_count Lmid nth_map_seq // (@corrected_ok corr _ n) //=.
    have [_ Wk] := Wd k Hk. rewrite /nratio. have -> : Reqb (nth k (w_hi w) 0 - nth k (w_lo w) 0) 0 = false by apply Reqb_false; lra. done. }
  have Lh : length (map (fun i => count (in_row false w i)) (row_count w)) = length (w_lo w) by rewrite map_length /row_count seq_length.
  split; [|split; [|split]].
  - exists (w_lo w), (w_hi w). do 6 (split => //). move=> k Hk. have [W1 W2] := Wd k Hk. do 2 (split => //).
    exists (chosen (in_row false w k)). have [N1 I1] := Row k. split=> //. split; [|split; [|exact (Edm k Hk)]].
    + move=> i. rewrite I1. destruct ME as [_ I2]. rewrite I2. tauto.
    + by rewrite /row_count Lmid nth_map_seq // chosen_count.
  - have -> : map (fun i => count (in_row false w i)) (row_count w) = map (fun k => length (chosen (in_row false w k))) (seq 0 (length (w_lo w))).
    { rewrite /row_count Lmid. apply map_ext => k. by rewrite chosen_count. }
    rewrite natsum_flat. apply Permutation_length.
    apply (@members_partition n P (length (w_lo w)) (fun k i => P i /\ in_bin (w_lo w) (w_hi w) k (nth i m 0))) => //.
    + move=> i Hi. split; [|by move=> [k [_ [A _]]]]. move=> A. have [k B] := Cov i Hi A. exists k. split; [by destruct B|]. by split.
    + move=> i k k' _ [_ B] [_ B']. exact (in_bin_unique Ad B B').
  - by apply fitted; rewrite Ldm.
  - move=> Ebt H3 PP. have [_ F] := @fitted (w_mid w) dm ltac:(by rewrite Ldm). cbn zeta in F.
    pose d := map (fun k => sumR (map (fun i => 1 / nth i corr 0) (chosen (in_row false w k))) / (nth k (w_hi w) 0 - nth k (w_lo w) 0)) (seq 0 (length (w_lo w))).
    have Pl : forall k, (k < length (w_lo w))%nat -> 0 < nth k (w_lo w) 0.
    { have P0 : 0 < nth 0 (w_lo w) 0.
      { destruct Spn as [[I0 _] _]. apply in_map_iff in I0. destruct I0 as [i [<- Ii]]. apply ME in Ii. destruct Ii. by apply PP. }
      induction k as [|k IH] => Hk //. rewrite Adj //. have := IH ltac:(lia). have [_ X] := Wd k ltac:(lia). lra. }
    apply (F d).
    + apply (nth_ext _ _ None None); [by rewrite Ldm !map_length seq_length|]. rewrite Ldm => k Hk. rewrite Edm //.
      rewrite (@nth_map' _ _ (@Some R) d k None 0) /d ?map_length ?seq_length // nth_map_seq //.
    + move=> v /in_map_iff [k [<- /in_seq Hk]]. have [_ Wk] := Wd k ltac:(lia). apply Rdiv_lt_0_compat; [|lra].
      have [i [Hi [Pi Bi]]] := Ne Ebt k ltac:(lia). have Ii : In i (chosen (in_row false w k)) by apply Row.
      have Pos : forall j, In j (chosen (in_row false w k)) -> 0 < 1 / nth j corr 0.
      { move=> j /(proj2 (Row k)) [Hj [Pj _]]. have [_ Q] := PP j Hj Pj. apply Rdiv_lt_0_compat; lra. }
      move: Ii Pos. clear. induction (chosen (in_row false w k)) as [|j l IH] => // H Pos. cbn [map].
      change (0 < 1 / nth j corr 0 + sumR (map (fun i => 1 / nth i corr 0) l)). have := Pos j (or_introl eq_refl).
      have : 0 <= sumR (map (fun i => 1 / nth i corr 0) l); [|lra].
      have Pos' : forall i, In i l -> 0 < 1 / nth i corr 0 by move=> i' Hi'; apply Pos; right. move: Pos'. clear.
      induction l as [|a l IH] => H; [cbn; lra|]. change (0 <= 1 / nth a corr 0 + sumR (map (fun i => 1 / nth i corr 0) l)).
      have := H a (or_introl eq_refl). have := IH ltac:(by move=> i Hi; apply H; right). lra.
    + move=> v Hv. have [k [Hk <-]] := In_nth _ _ 0 Hv. rewrite Lmid in Hk. have [[X _] _] := Wd k Hk. have := Pl k Hk. lra.
    + exact H3.
    + move=> C. rewrite Lmid in H3. have := C (nth 0 (w_mid w) 0) (nth 1 (w_mid w) 0) ltac:(apply nth_In; lia) ltac:(apply nth_In; lia).
      have := Mlt 0%nat ltac:(lia). have [[X _] _] := Wd 1%nat ltac:(lia). rewrite Adj in X; [lia|]. lra.
Qed.
