(* Proofs: equal-number bins under a change of units; where a profile falls to a value. *)
From Verif Require Import Base ModelCluster ModelOps ModelConv ModelEnergy ModelRecipes ModelStars ModelSubset ModelCoords ModelLagrange ModelProfiles ModelMassFunction ModelDynamics ModelRadii.
From Verif Require Import SpecUnits SpecFrame SpecConv SpecOrder SpecRecipes SpecEnergy SpecStars SpecSubset SpecLagrange SpecProfiles SpecDynamics SpecRadii.
From Verif Require Import ProofsRecipes ProofsRecipes2 ProofsLagrange ProofsProfiles ProofsProfiles2 ProofsProfiles3.
Set Implicit Arguments. Unset Strict Implicit.

(* ------------------------------------------------------------ change of units *)
Section Scaling.
Variable f : R.
Hypothesis Hf : 0 < f.
Let g (a : R) := a * f.

Lemma Rleb_scale a b : Rleb (g a) (g b) = Rleb a b.
Proof.
  rewrite /g. destruct (Rleb a b) eqn:E.
  - move/Rleb_spec: E => E. apply Rleb_spec. nra.
  - apply Rleb_false in E. apply Rleb_false. nra.
Qed.
Lemma Rltb_scale a b : Rltb (g a) (g b) = Rltb a b.
Proof.
  rewrite /g. destruct (Rltb a b) eqn:E.
  - move/Rltb_spec: E => E. apply Rltb_spec. nra.
  - apply Rltb_false in E. apply Rltb_false. nra.
Qed.
Lemma Reqb_scale a b : Reqb (g a) (g b) = Reqb a b.
Proof.
  rewrite /g. destruct (Reqb a b) eqn:E.
  - move/Reqb_spec: E => ->. by apply Reqb_spec.
  - apply Bool.not_true_iff_false => /Reqb_spec X. apply Bool.not_true_iff_false in E. apply E. apply Reqb_spec. nra.
Qed.
Lemma nth_scale l i : nth i (map g l) 0 = g (nth i l 0).
Proof. have E : 0 = g 0 by rewrite /g; ring. by rewrite {1}E map_nth. Qed.
Lemma insert_scale (k k' : nat -> R) i l : (forall j, k' j = g (k j)) -> insert_by k' i l = insert_by k i l.
Proof. move=> H. induction l as [|j t IH] => //=. by rewrite !H Rleb_scale IH. Qed.
Lemma argsort_scale l : argsort (map g l) = argsort l.
Proof.
  rewrite /argsort map_length /sort_by. induction (seq 0 (length l)) as [|i t IH] => //=.
  rewrite IH. apply insert_scale => j. exact: nth_scale.
Qed.
Lemma amax_scale l : amax (map g l) = option_map g (amax l).
Proof.
  destruct l as [|a t] => //=. f_equal. revert a. induction t as [|b t IH] => a //=. rewrite -IH. f_equal.
  rewrite /g /Rmax. destruct (Rle_dec (a * f) (b * f)), (Rle_dec a b) => //; nra.
Qed.
Lemma take_scale l o : take 0 (map g l) o = map g (take 0 l o).
Proof. rewrite /take map_map. apply map_ext => i. exact: nth_scale. Qed.
Lemma zip_eq_scale (h : R -> R -> bool) : (forall a b, h (g a) (g b) = h a b) ->
  forall l k, zip_with h (map g l) (map g k) = zip_with h l k.
Proof. move=> H. induction l as [|a l IH] => -[|b k] //=. by rewrite H IH. Qed.
Lemma select_map {A B} (h : A -> B) msk l : select msk (map h l) = map h (select msk l).
Proof. revert l. induction msk as [|b msk IH] => -[|a l] //=. by destruct b => //=; rewrite IH. Qed.
Lemma bin_index_scale x hi lo lo' : bin_index (map g x) lo' (map g hi) = bin_index x lo hi.
Proof.
  rewrite /bin_index map_map. apply map_ext => v. rewrite /bin_index1 map_length /searchsorted_right. do 2 f_equal.
  induction hi as [|a hi IH] => //=. rewrite Rleb_scale. by destruct (Rleb a v) => //=; rewrite IH.
Qed.
Lemma sumR_scale l : sumR (map g l) = g (sumR l).
Proof. rewrite /g. induction l as [|a l IH] => /=; [ring|]. rewrite IH. ring. Qed.
Lemma wbincount_scale idx x k : wbincount idx (map g x) k = map g (wbincount idx x k).
Proof.
  rewrite /wbincount map_map. apply map_ext => b. rewrite -sumR_scale. f_equal.
  revert x. induction idx as [|i idx IH] => -[|a x] //=. by destruct (Z.eqb i (Z.of_nat b)) => //=; rewrite IH.
Qed.
Definition scale_bins (b : bins) : bins := mkBins (map g (b_lo b)) (map g (b_mid b)) (map g (b_hi b)) (b_hist b) (map g (b_sum b)).
Lemma nbinmaker_scale x n : nbinmaker (map g x) n = match nbinmaker x n with Ok b => Ok (scale_bins b) | Raise => Raise end.
Proof.
  rewrite /nbinmaker map_length argsort_scale take_scale amax_scale. destruct (amax x) as [M|] => //. cbn [option_map].
  move: (take 0 x _) => lo0. cbn zeta.
  have E : tl (map g lo0) ++ [g M] = map g (tl lo0 ++ [M]) by rewrite map_app; f_equal; by destruct lo0.
  rewrite E /nondegenerate (zip_eq_scale (h := fun a b => negb (Reqb a b))); [by move=> a b; rewrite Reqb_scale|].
  rewrite !select_map map_length. set lo := select _ lo0. set hi := select _ (_ ++ _).
  rewrite (bin_index_scale x hi lo). destruct (bincount _ _) as [h|] => //. rewrite wbincount_scale.
  rewrite /scale_bins. cbn [b_lo b_mid b_hi b_hist b_sum]. f_equal. f_equal.
  set sm := wbincount _ _ _. clearbody sm. revert h. induction sm as [|a sm IH] => -[|k h] //=. rewrite IH. f_equal. rewrite /g /Rdiv. ring.
Qed.
End Scaling.

(* the mean radius of a bin other than the last is below its upper edge *)
Lemma sum_strict (hi : R) l : Forall (fun v => v < hi) l -> l <> [] -> sumR l < INR (length l) * hi.
Proof.
  induction l as [|a l IH] => // F _. apply Forall_cons_iff in F. destruct F as [Fa Fl]. cbn [sumR fold_right]. rewrite -/(sumR l).
  change (length (a :: l)) with (S (length l)). rewrite S_INR.
  destruct l as [|b l]; [cbn; lra|]. have := IH Fl ltac:(discriminate). lra.
Qed.
Lemma mid_below x nbin b k : x <> [] -> ~ constant x -> (0 < nbin)%nat -> nbinmaker x nbin = Ok b -> (S k < length (b_lo b))%nat ->
  nth k (b_mid b) 0 < nth k (b_hi b) 0.
Proof.
  move=> Nx Nc Hb E Hk. have [b' [E' [Ad [Sp [Le [Ds [_ [H _]]]]]]]] := nbinmaker_partition Nx Nc Hb.
  have Eb : b' = b by congruence. subst b'.
  have [_ [D3 D4]] := Ds. have [C [s1 [r1 [P1 [F1 [F2 F3]]]]]] := D4 k ltac:(lia).
  have [_ [HP [-> _]]] := H k ltac:(lia).
  have [s2 [r2 [Q1 [G1 [G2 G3]]]]] := C.
  have PS : Permutation s1 s2.
  { have Hd : forall (P : R -> Prop) s r s' r', Permutation (s ++ r) (s' ++ r') -> Forall P s -> Forall (fun v => ~ P v) r ->
      Forall P s' -> Forall (fun v => ~ P v) r' -> Permutation s s'.
    { clear. move=> P s r s' r' PM A B A' B'.
      have [d Hd] : exists d : R -> bool, forall v, d v = true <-> In v (s ++ r) /\ In v s.
      { exists (fun v => if in_dec Req_EM_T v s then true else false). move=> v. destruct (in_dec Req_EM_T v s); split => //.
        - move=> _. split => //. apply in_or_app. by left.
        - by move=> []. }
      have FS : forall l, Forall P l -> (forall v, In v l -> In v (s ++ r)) -> filter d l = l.
      { induction l as [|a l IH] => // FA IN. apply Forall_cons_iff in FA. destruct FA as [FA FB]. cbn.
        have -> : d a = true.
        { apply Hd. have I := IN a ltac:(by left). split=> //. apply in_app_or in I. destruct I as [I|I] => //.
          by rewrite Forall_forall in B; case: (B a I). }
        f_equal. apply IH => // v Iv. apply IN. by right. }
      have FN : forall l, Forall (fun v => ~ P v) l -> filter d l = [].
      { induction l as [|a l IH] => // FA. apply Forall_cons_iff in FA. destruct FA as [FA FB]. cbn.
        have -> : d a = false.
        { apply Bool.not_true_iff_false => /Hd [_ I]. rewrite Forall_forall in A. by apply FA, A. }
        exact: IH. }
      have X : Permutation (filter d (s ++ r)) (filter d (s' ++ r')).
      { clear - PM. induction PM; cbn; [constructor|destruct (d x); [by constructor|done]|destruct (d x), (d y); try constructor; done|by etransitivity; eassumption]. }
      rewrite !filter_app in X. rewrite (FS s) // in X; [by move=> v Iv; apply in_or_app; left|].
      rewrite (FN r) // app_nil_r (FN r') // app_nil_r in X. rewrite (FS s') // in X.
      move=> v Iv. apply (Permutation_in v (Permutation_sym PM)). apply in_or_app. by left. }
    apply (Hd _ _ _ _ _ (Permutation_trans (Permutation_sym P1) Q1) F1 F2 G1 G2). }
  have Ls : length s1 = nth k (b_hist b) 0%nat by rewrite (Permutation_length PS).
  have Ne : s1 <> [] by move=> X; rewrite X in Ls; cbn in Ls; lia.
  have FF : Forall (fun v => v < nth k (b_hi b) 0) s1.
  { apply (Forall_impl _ (P := in_bin (b_lo b) (b_hi b) k)) => // v [_ [_ [A|[A _]]]] //. lia. }
  have SS := sum_strict FF Ne. rewrite F3 Ls in SS.
  have HI : 0 < INR (nth k (b_hist b) 0%nat) by apply lt_0_INR.
  apply Rmult_lt_reg_r with (1 := HI). rewrite /Rdiv Rmult_assoc Rinv_l; [lra|]. lra.
Qed.

(* ------------------------------------------------------------ where a profile falls to a value *)
Lemma first_below_spec rho l : match first_below rho l with
  | Some k => (k < length l)%nat /\ nth k l 0 < rho /\ forall j, (j < k)%nat -> rho <= nth j l 0
  | None => forall j, (j < length l)%nat -> rho <= nth j l 0 end.
Proof.
  induction l as [|a t IH] => /=; [by move=> j Hj; lia|].
  destruct (Rltb a rho) eqn:E.
  - move/Rltb_spec: E => E. split; [lia|]. split=> //. move=> j Hj; lia.
  - apply Rltb_false in E. destruct (first_below rho t) as [k|] => /=.
    + destruct IH as [A [B C]]. split; [lia|]. split=> //. move=> [|j] Hj //. apply C. lia.
    + move=> [|j] Hj //. apply IH. lia.
Qed.
Lemma last_nth (l : list R) : last l 0 = nth (length l - 1) l 0.
Proof.
  induction l as [|a l IH] => //. destruct l as [|b l] => //. cbn [last] in *. rewrite IH. cbn [length].
  have -> : (S (S (length l)) - 1 = S (S (length l) - 1))%nat by lia. done.
Qed.
Lemma hd_nth (l : list R) : hd 0 l = nth 0 l 0. Proof. by destruct l. Qed.
Lemma chord_ok r1 p1 r2 p2 d : r1 < r2 -> p2 < d <= p1 -> on_chord r1 p1 r2 p2 d (interpolate (r1, p1) (r2, p2) None (Some d)).
Proof.
  move=> H1 H2. rewrite /interpolate. set m := (p2 - p1) / (r2 - r1). have Em : m * (r2 - r1) = p2 - p1 by rewrite /m; field; lra.
  have Hm : m < 0 by nra. set x := (d - (p1 - m * r1)) / m. have Ex : (x - r1) * m = d - p1 by rewrite /x; field; lra.
  have E : (x - r1) * (p1 - p2) = (p1 - d) * (r2 - r1).
  { have -> : p1 - p2 = - (m * (r2 - r1)) by lra. have -> : p1 - d = - ((x - r1) * m) by lra. ring. }
  split=> //. rewrite Rmin_left; [lra|]. rewrite Rmax_right; [lra|]. nra.
Qed.
Lemma limit_radius_ok d mid rho : length mid = length rho -> rho <> [] ->
  (forall k, (S k < length rho)%nat -> nth k mid 0 < nth (S k) mid 0) ->
  match limit_radius d mid rho with
  | Ok x => falls_to mid rho d x
  | Raise => last rho 0 = d /\ forall k, (k < length rho)%nat -> d <= nth k rho 0
  end.
Proof.
  move=> L Ne Inc. have L0 : (0 < length rho)%nat by destruct rho => //=; lia.
  rewrite /limit_radius hd_nth. destruct (Rltb d (last rho 0)) eqn:E1.
  - move/Rltb_spec: E1 => E1. rewrite /falls_to. split; [done|]. split; move=> *; lra.
  - apply Rltb_false in E1. destruct (Rltb (nth 0 rho 0) d) eqn:E2.
    + move/Rltb_spec: E2 => E2. rewrite /falls_to. split; [move=> *; lra|]. split => // *. lra.
    + apply Rltb_false in E2. have FB := first_below_spec d rho. destruct (first_below d rho) as [k|].
      * destruct FB as [A [B C]]. destruct k as [|k]; [lra|]. rewrite /falls_to. split; [move=> *; lra|]. split; [move=> *; lra|].
        move=> _ _. exists k. have -> : (S k - 1 = k)%nat by lia. split=> //. split; [by move=> j Hj; apply C; lia|]. split=> //.
        apply chord_ok; [exact: Inc|]. split=> //. apply C; lia.
      * split=> //. have := FB (length rho - 1)%nat ltac:(lia). rewrite -last_nth. lra.
Qed.
Lemma last_scale f l : last (map (fun a => a * f) l) 0 = last l 0 * f.
Proof. by rewrite !last_nth map_length nth_scale. Qed.
(* the same profile in other units *)
Lemma chord_scale K kappa r1 p1 r2 p2 d x : 0 < K -> 0 < kappa -> on_chord r1 p1 r2 p2 d x ->
  on_chord (r1 * K) (p1 * kappa) (r2 * K) (p2 * kappa) (d * kappa) (x * K).
Proof.
  move=> HK Hk [A B]. split.
  - transitivity ((x - r1) * (p1 - p2) * (K * kappa)); [ring|]. rewrite A. ring.
  - move: B. rewrite /Rmin /Rmax. destruct (Rle_dec (r1 * K) (r2 * K)), (Rle_dec r1 r2); nra.
Qed.
Lemma falls_scale K kappa mid rho d x : 0 < K -> 0 < kappa -> falls_to mid rho d x ->
  falls_to (map (fun a => a * K) mid) (map (fun a => a * kappa) rho) (d * kappa) (x * K).
Proof.
  move=> HK Hk. rewrite /falls_to !last_scale !map_length. rewrite !nth_scale. move=> [A [B C]]. split; [|split].
  - move=> H. by rewrite A; [nra|].
  - move=> H1 H2. rewrite B; [nra|nra|ring].
  - move=> H1 H2. have [k [K1 [K2 [K3 K4]]]] := C ltac:(nra) ltac:(nra). exists k. split=> //. rewrite !nth_scale.
    split; [by move=> j Hj; have := K2 j Hj; rewrite nth_scale; nra|]. split; [nra|]. exact: chord_scale.
Qed.
