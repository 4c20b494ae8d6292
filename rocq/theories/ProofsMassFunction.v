(* Proofs: least squares lines and the histogram of a selection. *)
From Coq Require Import Sorted.
From Verif Require Import Base ModelCluster ModelOps ModelConv ModelEnergy ModelRecipes ModelStars ModelSubset ModelCoords ModelLagrange ModelProfiles ModelMassFunction.
From Verif Require Import SpecUnits SpecFrame SpecOrder SpecRecipes SpecEnergy SpecStars SpecSubset SpecLagrange SpecProfiles SpecMassFunction.
From Verif Require Import ProofsUnits ProofsFrame ProofsSort ProofsSees ProofsEnergy ProofsRecipes ProofsRecipes2 ProofsRecipes4 ProofsLagrange ProofsSubset ProofsSubset2 ProofsSubset4 ProofsProfiles ProofsProfiles2.
Set Implicit Arguments. Unset Strict Implicit.

(* ---------------------------------------------------------------- sums over pairs *)
Definition psum (f : R * R -> R) (l : list (R * R)) : R := sumR (map f l).
Lemma psum_add f g l : psum (fun p => f p + g p) l = psum f l + psum g l.
Proof. rewrite /psum. induction l as [|p l IH] => /=; [ring|rewrite IH; ring]. Qed.
Lemma psum_scale k f l : psum (fun p => k * f p) l = k * psum f l.
Proof. rewrite /psum. induction l as [|p l IH] => /=; [ring|rewrite IH; ring]. Qed.
Lemma psum_ext f g l : (forall p, In p l -> f p = g p) -> psum f l = psum g l.
Proof. move=> H. rewrite /psum. f_equal. by apply map_ext_in. Qed.
Lemma psum_nonneg f l : (forall p, In p l -> 0 <= f p) -> 0 <= psum f l.
Proof.
  rewrite /psum. induction l as [|p l IH] => H /=; [lra|]. have := H p (or_introl eq_refl).
  have : 0 <= sumR (map f l) by apply IH => q Hq; apply H; right. lra.
Qed.
Lemma psum_const k l : psum (fun _ => k) l = INR (length l) * k.
Proof. rewrite /psum. induction l as [|p l IH]; [cbn; ring|]. cbn [length map]. rewrite S_INR /= IH. ring. Qed.
Lemma psum_fst x y : length x = length y -> psum fst (combine x y) = sumR x.
Proof. rewrite /psum. move: y. induction x as [|a x IH]; move=> [|b y] //= [E]. by rewrite IH. Qed.
Lemma psum_snd x y : length x = length y -> psum snd (combine x y) = sumR y.
Proof. rewrite /psum. move: y. induction x as [|a x IH]; move=> [|b y] //= [E]. by rewrite IH. Qed.
Lemma psum_zip (f : R -> R -> R) x y : sumR (zip_with f x y) = psum (fun p => f (fst p) (snd p)) (combine x y).
Proof. rewrite /psum. move: y. induction x as [|a x IH]; move=> [|b y] //=. by rewrite IH. Qed.
Lemma psum_map1 (f : R -> R) x y : length x = length y -> sumR (map f x) = psum (fun p => f (fst p)) (combine x y).
Proof. rewrite /psum. move: y. induction x as [|a x IH]; move=> [|b y] //= [E]. by rewrite -IH. Qed.
Lemma sum_sq_zero x m : sumR (map (fun a => (a - m) ^ 2) x) = 0 -> forall a, In a x -> a = m.
Proof.
  induction x as [|b x IH] => //. cbn [map In].
  have P : 0 <= sumR (map (fun a => (a - m) ^ 2) x).
  { clear. induction x as [|b x IH]; [cbn; lra|]. change (0 <= (b - m) ^ 2 + sumR (map (fun a => (a - m) ^ 2) x)). have := pow2_ge_0 (b - m). lra. }
  change (sumR ((b - m) ^ 2 :: map (fun a => (a - m) ^ 2) x)) with ((b - m) ^ 2 + sumR (map (fun a => (a - m) ^ 2) x)).
  move=> E a. have Q := pow2_ge_0 (b - m). move=> [<-|H]; [|apply IH => //; lra].
  have Z2 : (b - m) ^ 2 = 0 by lra. nra.
Qed.

(* ---------------------------------------------------------------- least squares *)
Section Fit.
Variables x y : list R.
Hypothesis L : length x = length y.
Hypothesis N0 : (0 < length x)%nat.
Let n := INR (length x). Let mx := sumR x / n. Let my := sumR y / n.
Let sxx := sumR (map (fun a => (a - mx) ^ 2) x).
Let sxy := sumR (zip_with (fun a b => (a - mx) * (b - my)) x y).
Hypothesis V : sxx <> 0.
Let P := combine x y.
Lemma n_pos : 0 < n. Proof. rewrite /n. by apply lt_0_INR. Qed.
Lemma lP : length P = length x. Proof. rewrite /P combine_length -L Nat.min_id //. Qed.
Lemma centred_x : psum (fun p => fst p - mx) P = 0.
Proof.
  rewrite (psum_ext (g := fun p => fst p + - mx)); [by move=> *; ring|]. rewrite psum_add psum_const psum_fst // lP -/n /mx.
  have := n_pos. move=> H. field. lra.
Qed.
Lemma centred_y : psum (fun p => snd p - my) P = 0.
Proof.
  rewrite (psum_ext (g := fun p => snd p + - my)); [by move=> *; ring|]. rewrite psum_add psum_const psum_snd // lP -/n /my.
  have := n_pos. move=> H. field. lra.
Qed.
Lemma sxx_p : sxx = psum (fun p => (fst p - mx) ^ 2) P. Proof. exact: psum_map1. Qed.
Lemma sxy_p : sxy = psum (fun p => (fst p - mx) * (snd p - my)) P. Proof. exact: psum_zip. Qed.
Lemma sxx_pos : 0 < sxx.
Proof. have : 0 <= sxx by rewrite sxx_p; apply psum_nonneg => *; exact: pow2_ge_0. lra. Qed.
(* every line, split into its misfit at the best one and the excess *)
Lemma misfit_split a' b' : let a := sxy / sxx in let b := my - a * mx in
  misfit x y a' b' = misfit x y a b + ((a' - a) ^ 2 * sxx + n * ((b' - b) + (a' - a) * mx) ^ 2).
Proof.
  cbn zeta. set a := sxy / sxx. set b := my - a * mx. rewrite /misfit -/P -!/(psum _ P).
  set d := a' - a. set e := (b' - b) + d * mx.
  rewrite (psum_ext (f := fun p => (snd p - (a' * fst p + b')) ^ 2)
     (g := fun p => (snd p - (a * fst p + b)) ^ 2 + ((- 2 * d) * ((fst p - mx) * (snd p - my)) + ((2 * d * a + d ^ 2) * (fst p - mx) ^ 2
        + ((- 2 * e) * (snd p - my) + ((2 * e * a + 2 * d * e) * (fst p - mx) + e ^ 2))))));
    [move=> p _; rewrite /e /d /b; ring|].
  rewrite !psum_add !psum_scale psum_const centred_x centred_y -sxx_p -sxy_p lP -/n.
  have E : sxy = a * sxx by rewrite /a; field. rewrite E. ring.
Qed.
Lemma best_fit : best_line x y (sxy / sxx) (my - sxy / sxx * mx).
Proof.
  move=> a' b'. rewrite (misfit_split a' b'). have := sxx_pos. have := n_pos. move=> H1 H2.
  have := pow2_ge_0 (a' - sxy / sxx). have := pow2_ge_0 (b' - (my - sxy / sxx * mx) + (a' - sxy / sxx) * mx). nra.
Qed.
Lemma best_unique a' b' : best_line x y a' b' -> a' = sxy / sxx /\ b' = my - sxy / sxx * mx.
Proof.
  move=> B. have := B (sxy / sxx) (my - sxy / sxx * mx). rewrite (misfit_split a' b').
  set a := sxy / sxx. set b := my - a * mx. set q := misfit x y a b. move=> H.
  have H1 := sxx_pos. have H2 := n_pos. have Q1 := pow2_ge_0 (a' - a). have Q2 := pow2_ge_0 (b' - b + (a' - a) * mx).
  have E1 : (a' - a) ^ 2 = 0 by nra. have E1' : a' - a = 0 by nra.
  have E2 : (b' - b + (a' - a) * mx) ^ 2 = 0 by nra. have E2' : b' - b + (a' - a) * mx = 0 by nra.
  rewrite E1' in E2'. split; lra.
Qed.
End Fit.

Lemma constant_sxx x : sumR (map (fun a => (a - sumR x / INR (length x)) ^ 2) x) = 0 -> constant x.
Proof. move=> H v w Hv Hw. by rewrite (sum_sq_zero H Hv) (sum_sq_zero H Hw). Qed.

Lemma spread_sxx x : (0 < length x)%nat ->
  INR (length x) * sumR (map (fun a => (a - sumR x / INR (length x)) ^ 2) x) = INR (length x) * sumR (map (fun a => a ^ 2) x) - sumR x ^ 2.
Proof.
  move=> H. have NZ : INR (length x) <> 0 by apply not_0_INR; lia.
  have E : forall m l, sumR (map (fun a => (a - m) ^ 2) l) = sumR (map (fun a => a ^ 2) l) - 2 * m * sumR l + INR (length l) * m ^ 2.
  { move=> m l. induction l as [|a l IH]; [cbn; ring|]. cbn [length]. rewrite S_INR. cbn [map sumR fold_right]. rewrite -/(sumR _) -/(sumR l) IH. ring. }
  rewrite E. field. exact NZ.
Qed.
Theorem polyfit_errors x y f : polyfit1 x y = Some f -> least_squares x y f.
Proof.
  move=> Ef. have [L [H NC]] : length x = length y /\ (3 <= length x)%nat /\ sumR (map (fun a => (a - sumR x / INR (length x)) ^ 2) x) <> 0.
  { move: Ef. rewrite /polyfit1. destruct (Nat.ltb (length x) 3) eqn:E1 => //. destruct (Nat.eqb (length x) (length y)) eqn:E2 => //.
    cbn [negb orb]. destruct (Reqb _ 0) eqn:E3 => // _. apply Nat.ltb_ge in E1. apply Nat.eqb_eq in E2. by apply Reqb_false in E3. }
  have Hp : (0 < length x)%nat by lia.
  have B := best_fit L Hp NC. have Sp := spread_sxx Hp. have P1 := sxx_pos L NC.
  have N3 : 3 <= INR (length x) by have := le_INR _ _ H; cbn; lra.
  move: Ef. rewrite /polyfit1. have -> : Nat.ltb (length x) 3 = false by apply Nat.ltb_ge.
  have -> : Nat.eqb (length x) (length y) = true by apply Nat.eqb_eq. cbn [negb orb].
  have -> : Reqb (sumR (map (fun a => (a - sumR x / INR (length x)) ^ 2) x)) 0 = false by apply Reqb_false.
  set sxx := sumR (map (fun a => (a - sumR x / INR (length x)) ^ 2) x) in B Sp P1 NC *. set n := INR (length x) in B Sp P1 NC N3 *.
  set sxy := sumR (zip_with _ x y) in B *. set my := sumR y / n in B *. set mx := sumR x / n in B *.
  set a := sxy / sxx in B *. set b := my - a * mx in B *.
  have -> : sumR (zip_with (fun u v => (v - (a * u + b)) ^ 2) x y) = misfit x y a b by rewrite psum_zip.
  have Q : 0 <= misfit x y a b by rewrite /misfit -/(psum _ _); apply psum_nonneg => p _; exact: pow2_ge_0.
  set q := misfit x y a b in Q *. move=> Ef. have Ef2 := f_equal (fun o => match o with Some g => g | None => no_fit end) Ef.
  cbv beta iota in Ef2. rewrite -Ef2 /least_squares. cbn zeta. cbn [t_slope t_icpt t_eslope t_eicpt]. rewrite -/n -Sp -/q.
  have S2 : sumR (map (fun a => a ^ 2) x) = sxx + n * mx ^ 2.
  { have Ex : sumR x = n * mx by rewrite /mx; field; lra. rewrite Ex in Sp. nra. }
  split; [exact B|]. split; [apply sqrt_pos|]. split; [apply sqrt_pos|].
  have D1 : 0 <= q / (n - 2) by apply Rle_mult_inv_pos; lra.
  split.
  - rewrite pow2_sqrt; [by apply Rle_mult_inv_pos|]. field. lra.
  - rewrite pow2_sqrt; [|rewrite S2; field; lra]. apply Rmult_le_pos => //. apply Rplus_le_le_0_compat; [apply Rle_mult_inv_pos; lra|].
    apply Rle_mult_inv_pos => //. apply pow2_ge_0.
Qed.
Theorem polyfit_best x y : length x = length y -> (3 <= length x)%nat -> ~ constant x ->
  exists f, polyfit1 x y = Some f /\ best_line x y (t_slope f) (t_icpt f) /\
    (forall a b, best_line x y a b -> a = t_slope f /\ b = t_icpt f).
Proof.
  move=> L H NC. have V : sumR (map (fun a => (a - sumR x / INR (length x)) ^ 2) x) <> 0 by move=> /constant_sxx.
  rewrite /polyfit1. have -> : Nat.ltb (length x) 3 = false by apply Nat.ltb_ge.
  have -> : Nat.eqb (length x) (length y) = true by apply Nat.eqb_eq. cbn [negb orb].
  have -> : Reqb (sumR (map (fun a => (a - sumR x / INR (length x)) ^ 2) x)) 0 = false by apply Reqb_false.
  eexists. split; [reflexivity|]. cbn [t_slope t_icpt]. split; [apply best_fit => //; lia|].
  move=> a b B. apply best_unique => //. lia.
Qed.
Theorem polyfit_some x y f : polyfit1 x y = Some f -> length x = length y /\ (3 <= length x)%nat /\ ~ constant x.
Proof.
  rewrite /polyfit1. destruct (Nat.ltb (length x) 3) eqn:E1 => //. destruct (Nat.eqb (length x) (length y)) eqn:E2 => //.
  cbn [negb orb]. destruct (Reqb _ 0) eqn:E3 => // _. apply Nat.ltb_ge in E1. apply Nat.eqb_eq in E2. apply Reqb_false in E3.
  split=> //. split=> //. move=> C. apply E3. destruct x as [|v t] eqn:Ex; [by cbn in E1; lia|]. rewrite -Ex in C E1 E3 |- *.
  have C' : forall w, In w x -> w = v by move=> w Hw; apply C => //; rewrite Ex; left.
  have S1 : sumR x = INR (length x) * v.
  { move: C'. clear. induction x as [|a x IH] => H; [cbn; ring|]. cbn [length]. rewrite S_INR /= IH; [by move=> w Hw; apply H; right|].
    rewrite (H a (or_introl eq_refl)). ring. }
  have NZ : INR (length x) <> 0 by apply not_0_INR; lia.
  have -> : sumR x / INR (length x) = v by rewrite S1; field.
  move: C'. clear. induction x as [|a x IH] => H //=. rewrite IH; [by move=> w Hw; apply H; right|]. rewrite (H a (or_introl eq_refl)). ring.
Qed.
(* points on a line *)
Theorem polyfit_exact x y a b : length x = length y -> (3 <= length x)%nat -> ~ constant x ->
  (forall k, (k < length x)%nat -> nth k y 0 = a * nth k x 0 + b) ->
  polyfit1 x y = Some (mkFit a b 0 0).
Proof.
  move=> L H NC E. have [f [Ef [B U]]] := polyfit_best L H NC.
  have Z0 : misfit x y a b = 0.
  { rewrite /misfit. have -> : map (fun p => (snd p - (a * fst p + b)) ^ 2) (combine x y) = repeat 0 (length x).
    { apply (nth_ext _ _ 0 0); [by rewrite map_length combine_length repeat_length -L Nat.min_id|].
      move=> k. rewrite map_length combine_length -L Nat.min_id => Hk.
      rewrite (@nth_map' _ _ _ (combine x y) k 0 (0, 0)) ?combine_length -?L ?Nat.min_id // combine_nth // nth_repeat. cbn [fst snd].
      rewrite E //. ring. }
    clear. induction (length x) as [|k IH] => //=. rewrite IH. ring. }
  have B0 : best_line x y a b.
  { move=> a' b'. rewrite Z0 /misfit -/(psum _ _). apply psum_nonneg => p _. exact: pow2_ge_0. }
  have [Ea Eb] := U a b B0. move: Ef. rewrite /polyfit1.
  destruct (Nat.ltb (length x) 3 || negb (Nat.eqb (length x) (length y)) || Reqb _ 0) => // Ef.
  have R0 : sumR (zip_with (fun u v => (v - (t_slope f * u + t_icpt f)) ^ 2) x y) = 0.
  { rewrite psum_zip -Ea -Eb. by rewrite -Z0. }
  have Ef2 := f_equal (fun o => match o with Some g => g | None => no_fit end) Ef. cbv beta iota in Ef2.
  move: R0 Ea Eb. rewrite -Ef2. cbn [t_slope t_icpt]. move=> R0 Ea Eb. rewrite R0 -Eb -Ea. f_equal. f_equal.
  - rewrite /Rdiv !Rmult_0_l sqrt_0 //.
  - rewrite /Rdiv !Rmult_0_l sqrt_0 //.
Qed.
