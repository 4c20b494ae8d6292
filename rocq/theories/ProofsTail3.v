(* Proofs: nearest point of a path, progress along it, distance to its tangent. *)
From Coq Require Import Nsatz.
From Verif Require Import Base ModelCluster ModelOps ModelConv ModelEnergy ModelRecipes ModelCoords ModelLagrange ModelProfiles ModelTail.
From Verif Require Import SpecUnits SpecFrame SpecConv SpecOrder SpecRecipes SpecEnergy SpecLagrange SpecSubset SpecProfiles SpecDynamics SpecTail.
From Verif Require Import ProofsUnits ProofsFrame ProofsSees ProofsEnergy ProofsRecipes ProofsDynamics ProofsDynamics2 ProofsDynamics6 ProofsTail.
Set Implicit Arguments. Unset Strict Implicit.

Lemma index_first a l : In a l -> (index_of a l < length l)%nat /\ nth (index_of a l) l 0 = a /\ forall j, (j < index_of a l)%nat -> nth j l 0 <> a.
Proof.
  elim: l => [[]|b l IH] I. cbn [index_of length]. destruct (Reqb b a) eqn:E.
  - move/Reqb_spec: E => ->. split; [lia|]. split; [by []|]. lia.
  - move/Reqb_false: E => E. destruct I as [->|I]; [by case: E|]. have [H1 [H2 H3]] := IH I.
    split; [lia|]. split; [exact H2|]. move=> [|j] Hj; [exact E|]. apply H3. lia.
Qed.
Lemma argmin_ok l : l <> [] -> (argmin l < length l)%nat /\ (forall j, (j < length l)%nat -> nth (argmin l) l 0 <= nth j l 0) /\
  (forall j, (j < argmin l)%nat -> nth (argmin l) l 0 < nth j l 0).
Proof.
  move=> N. rewrite /argmin. destruct (amin l) as [m|] eqn:E; [|destruct l; by [case: N|]].
  have [I L] := amin_least E. have [H1 [H2 H3]] := index_first I. rewrite H2. split; [exact H1|].
  have B : forall j, (j < length l)%nat -> m <= nth j l 0 by move=> j Hj; apply L, nth_In.
  split; [exact B|]. move=> j Hj. have Hj' : (j < length l)%nat by lia. have := B j Hj'. have := H3 j Hj. lra.
Qed.

Lemma sep_gap b p s : sep b p s = gap b p s.
Proof. rewrite /sep /gap. destruct b; cbn zeta; f_equal; ring. Qed.
Lemma argmin_nearest b pts s : pts <> [] -> let dr := map (fun p => sep b p s) pts in
  nearest b pts s (argmin dr) /\ nth (argmin dr) dr 0 = gap b (nth (argmin dr) pts zero6) s.
Proof.
  move=> N. cbn zeta. set dr := map _ pts. have LD : length dr = length pts by rewrite map_length.
  have ND : dr <> [] by destruct pts.
  have V : forall j, (j < length pts)%nat -> nth j dr 0 = gap b (nth j pts zero6) s.
  { move=> j Hj. by rewrite (@nth_map' _ _ (fun p => sep b p s) pts j 0 zero6) // sep_gap. }
  have [H1 [H2 H3]] := argmin_ok ND. rewrite LD in H1 H2. split; [|by apply V].
  split; [exact H1|]. split.
  - move=> j Hj. rewrite -!V //. by apply H2.
  - move=> j Hj. rewrite -!V; [by []|lia|]. by apply H3.
Qed.
Lemma argmin_now ts : ts <> [] -> now ts (argmin (map Rabs ts)).
Proof.
  move=> N. have ND : map Rabs ts <> [] by destruct ts. have [H1 [H2 H3]] := argmin_ok ND. rewrite map_length in H1 H2.
  have V : forall j, (j < length ts)%nat -> nth j (map Rabs ts) 0 = Rabs (nth j ts 0) by move=> j Hj; rewrite (@nth_map' _ _ Rabs ts j 0 0).
  split; [exact H1|]. split.
  - move=> j Hj. rewrite -!V //. by apply H2.
  - move=> j Hj. rewrite -!V //; [lia|]. by apply H3.
Qed.
(* the nearest point is unique *)
Lemma nearest_unique b pts s k k' : nearest b pts s k -> nearest b pts s k' -> k = k'.
Proof.
  move=> [A1 [A2 A3]] [B1 [B2 B3]]. destruct (Nat.lt_total k k') as [L|[L|L]] => //.
  - have := B3 k L. have := A2 k' B1. lra.
  - have := A3 k' L. have := B2 k A1. lra.
Qed.

(* ------------------------------------------------------------ progress *)
Lemma cumsum_len s l : length (cumsum_from s l) = length l.
Proof. elim: l s => [|a l IH] s //. cbn. by rewrite IH. Qed.
Lemma cumsum_step l : forall s k, (k < length l)%nat -> nth (S k) (s :: cumsum_from s l) 0 = nth k (s :: cumsum_from s l) 0 + nth k l 0.
Proof.
  elim: l => [|a l IH] s k H; [cbn in H; lia|]. cbn [length] in H. destruct k as [|k]; [reflexivity|].
  have H1 : (k < length l)%nat by lia. have := IH (s + a) k H1. by cbn [cumsum_from nth].
Qed.
Lemma diffs_len l : length (diffs l) = (length l - 1)%nat.
Proof. rewrite /diffs zip_with_length. destruct l; cbn [tl length]; lia. Qed.
Lemma diffs_nth l k : (S k < length l)%nat -> nth k (diffs l) 0 = nth (S k) l 0 - nth k l 0.
Proof.
  move=> H. rewrite /diffs (@nth_zip_with _ _ _ _ l (tl l) k 0 0); [lia|destruct l; cbn [tl length] in *; lia|]. destruct l as [|a l]; [cbn in H; lia|reflexivity].
Qed.
Lemma progress_len l : l <> [] -> length (progress l) = length l.
Proof. move=> N. rewrite /progress. cbn [length]. rewrite cumsum_len map_length diffs_len. destruct l; [by case: N|]. cbn [length]; lia. Qed.
Lemma progress_step l k : (S k < length l)%nat -> nth (S k) (progress l) 0 = nth k (progress l) 0 + Rabs (nth (S k) l 0 - nth k l 0).
Proof.
  move=> H. rewrite /progress cumsum_step; [rewrite map_length diffs_len; lia|].
  rewrite (@nth_map' _ _ Rabs (diffs l) k 0 0); [rewrite diffs_len; lia|]. by rewrite diffs_nth.
Qed.
Lemma progress_nn l k : (k < length l)%nat -> 0 <= nth k (progress l) 0.
Proof.
  elim: k => [|k IH] H; [cbn; lra|]. rewrite progress_step //. have := IH ltac:(lia). have := Rabs_pos (nth (S k) l 0 - nth k l 0). lra.
Qed.

Definition along (b : bool) (pts : list (six R)) (k : nat) : R :=
  let f (g : six R -> R) := nth k (progress (map g pts)) 0 in
  sqrt (f (@sx R) ^ 2 + f (@sy R) ^ 2 + if b then 0 else f (@sz R) ^ 2).
Lemma dprogr_nth b pts k : (k < length pts)%nat -> nth k (dprogr b pts) 0 = along b pts k.
Proof.
  move=> H. have N : pts <> [] by destruct pts; [cbn in H; lia|].
  have L : forall f : six R -> R, length (progress (map f pts)) = length pts by move=> f; rewrite progress_len ?map_length //; destruct pts.
  rewrite /dprogr /along. cbn zeta. destruct b.
  - rewrite norm2_nth ?L //. f_equal. ring.
  - by rewrite norm3_nth ?L.
Qed.

(* Minkowski *)
Lemma cauchy a b c x y z : (a * x + b * y + c * z) ^ 2 <= (a ^ 2 + b ^ 2 + c ^ 2) * (x ^ 2 + y ^ 2 + z ^ 2).
Proof.
  have := pow2_ge_0 (a * y - b * x). have := pow2_ge_0 (a * z - c * x). have := pow2_ge_0 (b * z - c * y). nra.
Qed.
Lemma sq3 x y z : 0 <= x ^ 2 + y ^ 2 + z ^ 2.
Proof. have := pow2_ge_0 x. have := pow2_ge_0 y. have := pow2_ge_0 z. lra. Qed.
Lemma minkowski a b c x y z : sqrt ((a + x) ^ 2 + (b + y) ^ 2 + (c + z) ^ 2) <= sqrt (a ^ 2 + b ^ 2 + c ^ 2) + sqrt (x ^ 2 + y ^ 2 + z ^ 2).
Proof.
  set p := a ^ 2 + b ^ 2 + c ^ 2. set q := x ^ 2 + y ^ 2 + z ^ 2.
  have P : 0 <= p by exact: sq3. have Q : 0 <= q by exact: sq3.
  have S : 0 <= sqrt p + sqrt q by have := sqrt_pos p; have := sqrt_pos q; lra.
  rewrite -(sqrt_square _ S). apply sqrt_le_1_alt.
  have E : (sqrt p + sqrt q) * (sqrt p + sqrt q) = p + q + 2 * sqrt (p * q).
  { rewrite sqrt_mult //. have := sqrt_sqrt p P. have := sqrt_sqrt q Q. nra. }
  rewrite E. have D : a * x + b * y + c * z <= sqrt (p * q).
  { have C := cauchy a b c x y z. rewrite -/p -/q in C. destruct (Rle_lt_dec (a * x + b * y + c * z) 0) as [H|H]; [have := sqrt_pos (p * q); lra|].
    rewrite -(sqrt_square (a * x + b * y + c * z)); [lra|]. apply sqrt_le_1_alt. move: C. move: (a * x + b * y + c * z) => d C. have -> : d * d = d ^ 2 by ring. exact C. }
  have -> : (a + x) ^ 2 + (b + y) ^ 2 + (c + z) ^ 2 = p + q + 2 * (a * x + b * y + c * z) by rewrite /p /q; ring. lra.
Qed.
Lemma pow2_abs' x : Rabs x ^ 2 = x ^ 2. Proof. by rewrite RPow_abs Rabs_pos_eq //; exact: pow2_ge_0. Qed.

Lemma along_step b pts k : (S k < length pts)%nat ->
  0 <= along b pts (S k) - along b pts k <= gap b (nth k pts zero6) (nth (S k) pts zero6).
Proof.
  move=> H. rewrite /along /gap. cbn zeta.
  have ST : forall f : six R -> R, nth (S k) (progress (map f pts)) 0 = nth k (progress (map f pts)) 0 + Rabs (f (nth (S k) pts zero6) - f (nth k pts zero6)).
  { move=> f. rewrite progress_step ?map_length //. rewrite !(@nth_map' _ _ f pts _ 0 zero6) //. lia. }
  have NN : forall f : six R -> R, 0 <= nth k (progress (map f pts)) 0 by move=> f; apply progress_nn; rewrite map_length; lia.
  rewrite !ST. have NX := NN (@sx R). have NY := NN (@sy R). have NZ := NN (@sz R).
  move: (nth k (progress (map (@sx R) pts)) 0) (nth k (progress (map (@sy R) pts)) 0) (nth k (progress (map (@sz R) pts)) 0) NX NY NZ => x y z NX NY NZ.
  set p := nth k pts zero6. set q := nth (S k) pts zero6.
  have AX := Rabs_pos (sx q - sx p). have AY := Rabs_pos (sy q - sy p). have AZ := Rabs_pos (sz q - sz p). split.
  - suff : sqrt (x ^ 2 + y ^ 2 + (if b then 0 else z ^ 2)) <= sqrt ((x + Rabs (sx q - sx p)) ^ 2 + (y + Rabs (sy q - sy p)) ^ 2 + (if b then 0 else (z + Rabs (sz q - sz p)) ^ 2)) by lra.
    apply sqrt_le_1_alt. have := pow2_ge_0 x. destruct b; nra.
  - have M := minkowski x y (if b then 0 else z) (Rabs (sx q - sx p)) (Rabs (sy q - sy p)) (if b then 0 else Rabs (sz q - sz p)).
    have E1 : (if b then 0 else z) ^ 2 = (if b then 0 else z ^ 2) by destruct b; [ring|].
    have E2 : (if b then 0 else Rabs (sz q - sz p)) ^ 2 = (if b then 0 else (sz p - sz q) ^ 2) by destruct b; [ring|rewrite pow2_abs'; ring].
    have E3 : ((if b then 0 else z) + (if b then 0 else Rabs (sz q - sz p))) ^ 2 = (if b then 0 else (z + Rabs (sz q - sz p)) ^ 2) by destruct b; [ring|].
    rewrite E1 E2 E3 !pow2_abs' in M.
    have -> : (sx p - sx q) ^ 2 + (sy p - sy q) ^ 2 = (sx q - sx p) ^ 2 + (sy q - sy p) ^ 2 by ring. lra.
Qed.
Lemma arc_step b pts j k : (j <= k)%nat -> arc b pts j (S k) = arc b pts j k + gap b (nth k pts zero6) (nth (S k) pts zero6).
Proof.
  move=> H. rewrite /arc. have -> : (S k - j = S (k - j))%nat by lia. rewrite seq_S map_app sumR_app. cbn [map sumR].
  have -> : (j + (k - j) = k)%nat by lia. lra.
Qed.
Lemma along_arc b pts j k : (j <= k)%nat -> (k < length pts)%nat -> 0 <= along b pts k - along b pts j <= arc b pts j k.
Proof.
  move=> H. elim: k / H => [|k H IH] L.
  - rewrite /arc Nat.sub_diag. cbn. lra.
  - rewrite arc_step //. have := IH ltac:(lia). have := along_step b L. lra.
Qed.

(* straight paths *)
Lemma along_straight b pts (base u : six R) (s : nat -> R) :
  (forall j k, (j <= k)%nat -> (k < length pts)%nat -> s j <= s k) ->
  (forall k, (k < length pts)%nat -> place (nth k pts zero6) = place (mk6 (sx base + s k * sx u) (sy base + s k * sy u) (sz base + s k * sz u) 0 0 0)) ->
  forall k, (k < length pts)%nat -> along b pts k = (s k - s 0%nat) * sqrt (sx u ^ 2 + sy u ^ 2 + if b then 0 else sz u ^ 2).
Proof.
  move=> SM SP.
  have X : forall (f : six R -> R), (f = @sx R \/ f = @sy R \/ f = @sz R) -> forall k, (k < length pts)%nat -> nth k (progress (map f pts)) 0 = (s k - s 0%nat) * Rabs (f u).
  { move=> f Hf. have V : forall k, (k < length pts)%nat -> f (nth k pts zero6) = f base + s k * f u.
    { move=> k Hk. have E := SP k Hk. rewrite /place in E. cbn [sx sy sz] in E. case: Hf => [->|[->| ->]]; congruence. }
    elim=> [|k IH] Hk; [cbn; ring|]. rewrite progress_step ?map_length //. rewrite IH; [lia|]. rewrite !(@nth_map' _ _ f pts _ 0 zero6); try lia.
    rewrite !V; try lia. have -> : f base + s (S k) * f u - (f base + s k * f u) = (s (S k) - s k) * f u by ring.
    rewrite Rabs_mult (Rabs_pos_eq (s (S k) - s k)); [have := SM k (S k); lia || (have := SM k (S k) ltac:(lia) Hk; lra)|]. ring. }
  move=> k Hk. rewrite /along. cbn zeta. rewrite !X; auto.
  have P : 0 <= s k - s 0%nat by have := SM 0%nat k ltac:(lia) Hk; lra.
  rewrite -{4}(sqrt_square _ P) -sqrt_mult; [nra|have := pow2_ge_0 (sx u); have := pow2_ge_0 (sy u); have := pow2_ge_0 (sz u); destruct b; lra|].
  f_equal. rewrite !Rpow_mult_distr !pow2_abs'. destruct b; ring.
Qed.
