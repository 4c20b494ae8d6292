(* Proofs: the bins of tail paths. *)
From Verif Require Import Base ModelCluster ModelOps ModelConv ModelEnergy ModelRecipes ModelCoords ModelLagrange ModelProfiles ModelStars ModelSubset ModelLoad ModelTail ModelOrbit.
From Verif Require Import SpecUnits SpecFrame SpecConv SpecOrder SpecRecipes SpecEnergy SpecLagrange SpecSubset SpecProfiles SpecDynamics SpecTail SpecOrbit.
From Verif Require Import ProofsUnits ProofsFrame ProofsConv ProofsCoords ProofsSees ProofsEnergy ProofsEnergy2 ProofsRecipes ProofsRecipes2 ProofsSubset2 ProofsCentre5 ProofsDynamics ProofsDynamics2 ProofsDynamics6 ProofsTail ProofsTail2 ProofsTail3 ProofsTail4 ProofsTail5 ProofsOrbit ProofsOrbit2 ProofsOrbit3 ProofsOrbit4.
Set Implicit Arguments. Unset Strict Implicit.

Lemma zip_len {A B C} (f : A -> B -> C) l k : length (zip_with f l k) = Nat.min (length l) (length k).
Proof. elim: l k => [|a l IH] [|b k] //=. by rewrite IH. Qed.
Lemma binmaker_mid x n st bn : binmaker x n st = Ok bn -> length (b_mid bn) = length (b_hi bn).
Proof.
  rewrite /binmaker. destruct (amin x); [|by []]. destruct (amax x); [|by []]. set l := match st with Linear => _ | Log => _ end. case=> <-. cbn [b_mid b_hi]. rewrite zip_len.
  destruct l as [|a l]; [by []|]. have : length (removelast (a :: l)) = length (tl (a :: l)).
  { cbn [tl]. elim: l a => [|b l IH] a //. cbn [removelast length]. f_equal. apply IH. }
  cbn [tl]. lia.
Qed.
Lemma bincount_len idx k h : bincount idx k = Some h -> length h = k.
Proof. rewrite /bincount. destruct (existsb _ _); [by []|]. case=> <-. by rewrite map_length seq_length. Qed.
Lemma select_len2 {A B} m (l : list A) (k : list B) : length l = length k -> length (select m l) = length (select m k).
Proof. elim: m l k => [|b m IH] [|x l] [|y k] //= [H]; try by destruct b. destruct b; cbn; [f_equal|]; by apply IH. Qed.
Lemma nbinmaker_mid x n bn : x <> [] -> (0 < n)%nat -> nbinmaker x n = Ok bn -> length (b_mid bn) = length (b_hi bn).
Proof.
  move=> NX HN. rewrite /nbinmaker. set lo0 := take 0 x _. have L0 : length lo0 = n by rewrite /lo0 /take !map_length /cut_idx seq_length.
  destruct (amax x) as [M|]; [|by []]. set hi0 := tl lo0 ++ [M]. have L1 : length hi0 = length lo0 by rewrite /hi0 app_length; destruct lo0; cbn in L0 |- *; lia.
  set msk := nondegenerate lo0 hi0. have LL := select_len2 msk L1. destruct (bincount _ _) as [h|] eqn:EB; [|by []]. apply bincount_len in EB.
  case=> <-. cbn [b_mid b_hi]. rewrite zip_len EB /wbincount map_length seq_length LL. lia.
Qed.
Lemma tail_points_ext n (m m' : nat -> nat -> Prop) mid pos z vel out : (forall j i, (i < n)%nat -> m j i <-> m' j i) ->
  tail_points n m mid pos z vel out -> tail_points n m' mid pos z vel out.
Proof.
  move=> H [js [J1 [J2 [J3 J4]]]]. exists js. split; [exact J1|]. split; [|split; [exact J3|]].
  - move=> j. rewrite J2. split; move=> [H1 [i [H2 H3]]]; (split; [exact H1|]); exists i; (split; [exact H2|]); by apply H.
  - move=> k Hk. have [sel [rest [K1 [K2 [K3 K4]]]]] := J4 k Hk. exists sel, rest. split; [exact K1|].
    have IN : forall i, In i (sel ++ rest) -> (i < n)%nat by move=> i I; apply (Permutation_in _ (Permutation_sym K1)) in I; apply in_seq in I; lia.
    split; [|split; [|exact K4]].
    + apply Forall_forall => i I. apply H; [apply IN, in_or_app; by left|]. move: i I. by apply Forall_forall.
    + apply Forall_forall => i I I'. have : ~ m (nth k js 0%nat) i by move: i I {I'}; by apply Forall_forall. apply. apply H => //. apply IN, in_or_app. by right.
Qed.
(* the times of an own path *)
Section WithGalpy.
Variable G : galpy.
Lemma own_times ev c fc T nt pth : own_path G ev c fc T nt pth -> length (map fst pth) = nt /\ forall j, (j < nt)%nat -> nth j (map fst pth) 0 = spaced (- T) T nt j.
Proof.
  move=> [L H]. split; [by rewrite map_length|]. move=> j Hj. rewrite (@nth_map' _ _ fst pth j 0 (0, zero6)); [by rewrite L|]. by rewrite H.
Qed.
Lemma spaced_range T nt j : (2 <= nt)%nat -> (j < nt)%nat -> Rmin (- T) T <= spaced (- T) T nt j <= Rmax (- T) T.
Proof.
  move=> N Hj. rewrite /spaced. have P : 0 < INR (nt - 1) by apply lt_0_INR; lia. have Q : 0 <= INR j <= INR (nt - 1) by split; [apply pos_INR|apply le_INR; lia].
  set k := INR j / INR (nt - 1). have K : 0 <= k <= 1.
  { rewrite /k. split; [apply Rmult_le_pos; [lra|left; by apply Rinv_0_lt_compat]|]. apply (Rmult_le_reg_r (INR (nt - 1))) => //. rewrite /Rdiv Rmult_assoc Rinv_l; lra. }
  have -> : - T + INR j * ((T - - T) / INR (nt - 1)) = - T + k * (T + T) by rewrite /k; field; lra.
  rewrite /Rmin /Rmax. destruct (Rle_dec (- T) T); nra.
Qed.
Lemma own_ends ev c fc T nt pth : (2 <= nt)%nat -> own_path G ev c fc T nt pth -> least (map fst pth) (Rmin (- T) T) /\ greatest (map fst pth) (Rmax (- T) T).
Proof.
  move=> N O. have [L H] := own_times O.
  have I0 : In (- T) (map fst pth).
  { have -> : - T = nth 0 (map fst pth) 0 by rewrite H; [lia|]; rewrite /spaced; cbn; ring. apply nth_In. lia. }
  have I1 : In T (map fst pth).
  { have -> : T = nth (nt - 1) (map fst pth) 0.
    { rewrite H; [lia|]. rewrite /spaced. have P : 0 < INR (nt - 1) by apply lt_0_INR; lia. field. lra. }
    apply nth_In. lia. }
  have RG : forall v, In v (map fst pth) -> Rmin (- T) T <= v <= Rmax (- T) T.
  { move=> v /(In_nth _ _ 0) [j [Hj <-]]. rewrite L in Hj. rewrite H //. by apply spaced_range. }
  split; split; try (by move=> v /RG []); rewrite /Rmin /Rmax; by destruct (Rle_dec (- T) T).
Qed.
Lemma own_const ev c fc T nt pth : (2 <= nt)%nat -> T <> 0 -> own_path G ev c fc T nt pth -> ~ constant (map fst pth).
Proof.
  move=> N NT O CO. have [[I0 _] [I1 _]] := own_ends N O. have := CO _ _ I0 I1. rewrite /Rmin /Rmax. destruct (Rle_dec (- T) T); lra.
Qed.
(* overlapping bins of equal width *)
Lemma roaming_edges x nb nt m M : least x m -> greatest x M -> (0 < nb)%nat -> (nb < nt)%nat -> m < M ->
  exists bn, roaming_binmaker x nb nt Linear = Ok bn /\ length (b_lo bn) = nt /\ length (b_hi bn) = nt /\ length (b_mid bn) = nt /\ rising (b_hi bn) /\
    (forall j, (S j < nt)%nat -> nth j (b_lo bn) 0 <= nth (S j) (b_lo bn) 0 < nth j (b_hi bn) 0) /\
    (forall j, (j < nt)%nat -> nth j (b_mid bn) 0 = (nth j (b_lo bn) 0 + nth j (b_hi bn) 0) / 2).
Proof.
  move=> LE GR NB NT MM. have NX : x <> [] by case: LE => I _ E; rewrite E in I.
  rewrite /roaming_binmaker. have EA : amin x = Some m by destruct x => //; rewrite /amin; f_equal; apply (least_unique (fold_min r x) LE).
  have EB : amax x = Some M by destruct x => //; rewrite /amax; f_equal; apply (greatest_unique (fold_max r x) GR).
  rewrite EA EB. rewrite (Rabs_pos_eq (M - m)); [lra|]. set dx := (M - m) / INR nb. set lo := linspace m (M - dx) nt. set hi := map (fun a => a + dx) lo.
  have LL : length lo = nt by apply linspace_length. have LH : length hi = nt by rewrite /hi map_length.
  have P : 0 < INR nb by apply lt_0_INR. have P1 : 1 <= INR nb by apply (le_INR 1). have Q : INR nb < INR nt by apply lt_INR.
  have EN : INR (nt - 1) = INR nt - 1 by rewrite minus_INR; [lia|]; cbn; ring.
  have DX : dx * INR nb = M - m by rewrite /dx; field; lra. have DP : 0 < dx by nra.
  set w := (M - dx - m) / INR (nt - 1). have W : w * INR (nt - 1) = M - dx - m by rewrite /w; field; rewrite EN; lra.
  have EL : forall j, (j < nt)%nat -> nth j lo 0 = m + INR j * w by move=> j Hj; rewrite /lo linspace_nth.
  have EH : forall j, (j < nt)%nat -> nth j hi 0 = m + INR j * w + dx by move=> j Hj; rewrite /hi (@nth_map' _ _ _ lo j 0 0); [by rewrite LL|]; rewrite EL.
  have W0 : 0 <= w by nra. have W1 : w < dx by nra.
  eexists. split; [reflexivity|]. cbn [b_lo b_hi b_mid]. split; [exact LL|]. split; [exact LH|]. split; [by rewrite zip_len LL LH Nat.min_id|].
  split; [|split].
  - move=> i j Hij Hj. rewrite LH in Hj. rewrite !EH; [lia|lia|]. have := le_INR _ _ Hij. nra.
  - move=> j Hj. rewrite !EL ?EH; [lia|lia|lia|]. rewrite S_INR. nra.
  - move=> j Hj. rewrite (@nth_zip_with _ _ _ (fun b a => (b + a) / 2) hi lo j 0 0); [by rewrite LH|by rewrite LL|]. lra.
Qed.
End WithGalpy.
