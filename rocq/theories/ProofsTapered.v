(* Proofs about tapered mass functions. *)
From Verif Require Import Base ModelCluster ModelOps ModelConv ModelEnergy ModelRecipes ModelStars ModelSubset ModelLagrange ModelProfiles ModelMassFunction ModelTapered.
From Verif Require Import SpecUnits SpecFrame SpecOrder SpecRecipes SpecEnergy SpecStars SpecSubset SpecLagrange SpecProfiles SpecMassFunction SpecRadii SpecTapered.
From Verif Require Import ProofsUnits ProofsFrame ProofsEnergy2 ProofsStars ProofsSubset ProofsSubset2 ProofsSubset3 ProofsSubset4 ProofsLagrange ProofsLagrange2 ProofsProfiles ProofsProfiles2 ProofsProfiles3 ProofsProfiles4 ProofsProfiles5 ProofsProfiles6 ProofsProfiles7.
From Verif Require Import ProofsRecipes ProofsRecipes2 ProofsRecipes3 ProofsMassFunction ProofsMassFunction2 ProofsMassFunction3 ProofsMassFunction6.
Set Implicit Arguments. Unset Strict Implicit.

Lemma tpl_law : is_tapered_law tpl_func.
Proof.
  move=> m A alpha mc beta Hm Hc. rewrite /tpl_func /tapered_law !rpow_pos //; [exact: Rdiv_lt_0_compat|]. do 3 f_equal. ring.
Qed.
Lemma pow_log_all (d : list R) : (forall v, In v d -> 0 <= v) -> all_some (map pow_log (map (@Some R) d)) = Some d.
Proof.
  move=> H. have -> : map pow_log (map (@Some R) d) = map (@Some R) d; [|exact: all_some_Some].
  rewrite map_map. apply map_ext_in => v Iv. rewrite /pow_log. have -> : Rleb 0 v = true; [|by []]. apply Rleb_spec. exact: H.
Qed.
Lemma pow_log_mean (x : list R) : all_positive x -> all_some (map (fun a => pow_log (Some a)) x) = Some x.
Proof. move=> H. rewrite -(map_map (@Some R) pow_log). apply pow_log_all => v Iv. have := H v Iv. lra. Qed.
Lemma fit_tapered_ok fit all mean d lower upper : all <> [] -> all_positive mean -> (forall v, In v d -> 0 <= v) ->
  exists lo hi, bounds_of all lower upper lo hi /\ fit_tapered fit all mean (map (@Some R) d) lower upper = fit tpl_func mean d lo hi.
Proof.
  move=> N Pm Pd. rewrite /fit_tapered pow_log_mean // pow_log_all //.
  destruct (amin all) as [a|] eqn:Ea; last by destruct all. destruct (amax all) as [b|] eqn:Eb; last by destruct all.
  rewrite /lower_default /upper_default Ea Eb. cbn [option_map]. do 2 eexists. split; [|reflexivity]. exists a, b.
  split; [exact (amin_least Ea)|]. split; [exact (amax_greatest Eb)|]. by split; [destruct lower|destruct upper].
Qed.

(* bins start at the smallest value *)
Lemma first_lowest lo hi k : adjacent lo hi -> (k < length lo)%nat -> nth 0 lo 0 <= nth k lo 0.
Proof.
  move=> [_ [_ [Al An]]] Hk. induction k as [|k IH]; [lra|]. have := IH ltac:(lia). rewrite An //. have := Al k ltac:(lia). lra.
Qed.
Lemma histogram_positive val corr l nb mean hist dens : histogram_of val corr l nb mean hist dens ->
  (forall i, In i l -> 0 < val i /\ 0 < corr i) -> all_positive mean /\ exists d, dens = map (@Some R) d /\ forall v, In v d -> 0 <= v.
Proof.
  move=> [lo [hi [Ad [Sp [_ [L1 [_ [L3 H]]]]]]]] P. split.
  - move=> v /(In_nth _ _ 0) [k [Hk <-]]. rewrite L1 in Hk. have [_ [W _]] := H k Hk. have F := first_lowest Ad Hk.
    have [[I0 _] _] := Sp. apply in_map_iff in I0. destruct I0 as [i [Ei Ii]]. have := proj1 (P i Ii). lra.
  - exists (map (fun a => match a with Some x => x | None => 0 end) dens). split.
    + rewrite map_map. rewrite -[LHS]map_id. apply map_ext_in => a /(In_nth _ _ None) [k [Hk <-]]. rewrite L3 in Hk.
      by have [_ [_ [lk [_ [_ [_ ->]]]]]] := H k Hk.
    + move=> v /in_map_iff [a [<- /(In_nth _ _ None) [k [Hk <-]]]]. rewrite L3 in Hk. have [W [_ [lk [_ [Ik [_ ->]]]]]] := H k Hk.
      apply Rmult_le_pos; [|apply Rlt_le, Rinv_0_lt_compat; lra].
      have X : forall i, In i lk -> 0 < corr i by move=> i /Ik [Ii _]; exact (proj2 (P i Ii)).
      clear -X. induction lk as [|i lk IH]; cbn [map sumR]; [lra|]. have A1 := X i (or_introl eq_refl).
      have A2 : 0 < 1 / corr i by apply Rdiv_lt_0_compat; lra. have := IH (fun j Ij => X j (or_intror Ij)). lra.
Qed.

Section WithGalpy.
Variable G : galpy.
Variables (q : selection) (indx : option (list bool)) (s : system) (n nmass : nat).
Let c := g_c (y_k s). Let c1 := mass_frame G c.
Hypotheses (E1 : c_ph c1 = c_ph c) (E2 : c_id c1 = c_id c) (NO : norms c1) (HM : measured s n) (EK : energies_known q s n)
  (MF : mask_fits indx n) (Hn : (0 < n)%nat).

Lemma after_mask caller msk : length msk = n -> (forall i, (i < n)%nat -> nth i msk false = true <-> picked q indx s i) ->
  caller = match indx with None => None | Some _ => Some msk end -> mask_after q indx s n caller.
Proof. move=> L W ->. rewrite /mask_after. destruct indx => //. by exists msk. Qed.

Lemma tapered_gen fit mcorr lower upper l : members n (picked q indx s) l -> (0 < nmass)%nat -> (nmass <= length l)%nat ->
  mass_spread (picked q indx s) (mass c) n -> corrections_fit mcorr n ->
  exists mean hist dens caller, tapered_mass_function fit G q indx nmass mcorr lower upper s =
      bind (fit_tapered fit (p_m (c_ph c)) mean dens lower upper) (fun f => Ok (Eleven mean hist dens f, sys_with s (return_cluster G (save_cluster c) c1), caller)) /\
    histogram_of (mass c) (correction mcorr) l nmass mean hist dens /\ natsum hist = length l /\ mask_after q indx s n caller.
Proof.
  move=> ML Hm Hl SP CF. have [msk [Q [L W]]] := the_mask E1 E2 NO HM EK MF Hn.
  have PE := members_perm (chosen_members L W) ML.
  have LE : Nat.leb nmass (count msk) = true by apply Nat.leb_le; rewrite -chosen_count (Permutation_length PE).
  have [t [cl [E [HI [NS _]]]]] := mass_function_gen E1 E2 NO HM EK MF Hn Num ML Hm Hl SP CF.
  move: E. rewrite /mass_function /tapered_mass_function. cbv zeta. rewrite -/c -/c1 Q. cbn [bind fst snd]. rewrite LE.
  destruct (Nat.eqb _ _); [|by []]. destruct (rows_of msk _ nmass Num (p_m (c_ph c1))) as [w|]; [|by []]. cbn [bind].
  intros X. have Et := f_equal (fun z => match z with Ok (a, _, _) => a | Raise => t end) X. have Ec := f_equal (fun z => match z with Ok (_, _, a) => a | Raise => None end) X.
  cbv beta iota in Et, Ec. clear X. exists (mt_mean t), (mt_hist t), (mt_dm t), cl. split; last first.
  { split; [exact HI|]. split; [exact NS|]. exact (after_mask L W (eq_sym Ec)). }
  rewrite -Et -Ec -E1. reflexivity.
Qed.
Lemma tapered_few fit mcorr lower upper l : members n (picked q indx s) l -> (length l < nmass)%nat ->
  exists caller, tapered_mass_function fit G q indx nmass mcorr lower upper s =
    Ok (Seven (repeat 0 nmass) (repeat 0%nat nmass) (repeat (Some 0) nmass) no_fit, sys_with s (return_cluster G (save_cluster c) c1), caller) /\
    mask_after q indx s n caller.
Proof.
  move=> ML Hl. have [msk [Q [L W]]] := the_mask E1 E2 NO HM EK MF Hn. have PE := members_perm (chosen_members L W) ML.
  rewrite /tapered_mass_function. cbv zeta. rewrite -/c -/c1 Q. cbn [bind fst snd].
  have -> : Nat.leb nmass (count msk) = false by apply Nat.leb_gt; rewrite -chosen_count (Permutation_length PE).
  eexists. split; [reflexivity|]. exact (after_mask L W eq_refl).
Qed.
End WithGalpy.

(* the rows of tapered_dx_function are those of dx_function *)
Lemma tapered_dx_rows fit user x nx bt : tapered_dx_function fit user x nx bt =
  bind (dx_function user x nx bt) (fun y => bind (fit_tapered fit x (map w_x (fst y)) (map w_d (fst y)) None None) (fun f => Ok (fst y, f))).
Proof.
  rewrite /tapered_dx_function /dx_function. by destruct (x_hist user x nx bt) as [[[[lo mid] hi] h]|].
Qed.
Lemma filled_positive x lo hi l : adjacent lo hi -> spans x lo hi -> all_positive x -> filled_bins x lo hi l ->
  all_positive (map w_x l) /\ exists d, map w_d l = map (@Some R) d /\ length d = length l /\ forall v, In v d -> 0 < v.
Proof.
  move=> Ad Sp P [ks [Nk [Ik [Ll H]]]].
  have K : forall j, (j < length l)%nat -> (nth j ks 0 < length lo)%nat /\ (0 < w_n (nth j l (mkRow 0 0 None)))%nat.
  { move=> j Hj. rewrite Ll in Hj. have Ij : In (nth j ks 0%nat) ks by apply nth_In. apply Ik in Ij. split; [by destruct Ij as [v [_ [B _]]]|].
    have [_ [_ [C _]]] := H j Hj. by apply (counts_pos C). }
  split.
  - move=> v /in_map_iff [w [<- /(In_nth _ _ (mkRow 0 0 None)) [j [Hj <-]]]]. have [Kj _] := K j Hj. rewrite Ll in Hj. have [W _] := H j Hj.
    have F := first_lowest Ad Kj. have := P _ (proj1 (proj1 Sp)). lra.
  - exists (map (fun w => match w_d w with Some a => a | None => 0 end) l). split; [|split; [by rewrite map_length|]].
    + rewrite map_map. apply map_ext_in => w /(In_nth _ _ (mkRow 0 0 None)) [j [Hj <-]]. rewrite Ll in Hj. by have [_ [_ [_ ->]]] := H j Hj.
    + move=> v /in_map_iff [w [<- /(In_nth _ _ (mkRow 0 0 None)) [j [Hj <-]]]]. have [_ K0] := K j Hj. rewrite Ll in Hj. have [_ [W [_ ->]]] := H j Hj.
      apply Rdiv_lt_0_compat; [exact: lt_0_INR|lra].
Qed.

(* sums of squares *)
Lemma apart_ext (F F' : R -> R -> R -> R -> R -> R) x y p : (forall a, In a x -> F a (tp_A p) (tp_alpha p) (tp_mc p) (tp_beta p) = F' a (tp_A p) (tp_alpha p) (tp_mc p) (tp_beta p)) ->
  apart F x y p = apart F' x y p.
Proof. move=> H. rewrite /apart. f_equal. apply map_ext_in. intros [a b] Ia. apply in_combine_l in Ia. cbn [fst snd]. by rewrite H. Qed.
Lemma apart_nonneg F x y p : 0 <= apart F x y p.
Proof.
  rewrite /apart. elim: (combine x y) => [|ab k IH]; cbn [map sumR]; [lra|]. have := pow2_ge_0 (snd ab - F (fst ab) (tp_A p) (tp_alpha p) (tp_mc p) (tp_beta p)). lra.
Qed.
Lemma apart_zero F x y p : length x = length y -> apart F x y p = 0 -> forall k, (k < length x)%nat -> nth k y 0 = F (nth k x 0) (tp_A p) (tp_alpha p) (tp_mc p) (tp_beta p).
Proof.
  revert y. induction x as [|a x IH]; move=> [|b y] // L Z k Hk; [cbn in Hk; lia|].
  have S0 := apart_nonneg F x y p. have S1 := pow2_ge_0 (b - F a (tp_A p) (tp_alpha p) (tp_mc p) (tp_beta p)).
  have Z' : (b - F a (tp_A p) (tp_alpha p) (tp_mc p) (tp_beta p)) ^ 2 + apart F x y p = 0 by exact Z.
  destruct k as [|k]; cbn [nth].
  - have D : (b - F a (tp_A p) (tp_alpha p) (tp_mc p) (tp_beta p)) ^ 2 = 0 by lra. apply Rsqr_0_uniq in D || (rewrite -Rsqr_pow2 in D; apply Rsqr_0_uniq in D). lra.
  - apply IH; [by injection L|lra|cbn in Hk; lia].
Qed.
Lemma on_law_zero F x y p : length x = length y -> (forall k, (k < length x)%nat -> nth k y 0 = F (nth k x 0) (tp_A p) (tp_alpha p) (tp_mc p) (tp_beta p)) -> apart F x y p = 0.
Proof.
  rewrite /apart. revert y. induction x as [|a x IH]; move=> [|b y] // L H. cbn [combine map sumR fst snd]. rewrite IH.
  - by injection L.
  - move=> k Hk. exact (H (S k) ltac:(cbn; lia)).
  - have := H 0%nat ltac:(cbn; lia). cbn [nth]. move=> ->. ring.
Qed.
