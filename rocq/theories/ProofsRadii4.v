(* Proofs: the core radius from local densities. *)
From Coq Require Import Sorted.
From Verif Require Import Base ModelCluster ModelOps ModelConv ModelEnergy ModelRecipes ModelStars ModelSubset ModelCoords ModelLagrange ModelProfiles ModelMassFunction ModelDynamics.
From Verif Require Import ModelTail ModelCentre ModelRadii.
From Verif Require Import SpecUnits SpecFrame SpecConv SpecOrder SpecRecipes SpecEnergy SpecLagrange SpecProfiles SpecDynamics SpecCentre SpecRadii.
From Verif Require Import ProofsUnits ProofsFrame ProofsConv ProofsSort ProofsSees ProofsEnergy ProofsEnergyUnits ProofsVR ProofsRecipes ProofsRecipes2 ProofsLagrange ProofsProfiles ProofsDynamics ProofsDynamics2 ProofsCentre ProofsCentre2 ProofsCentre3.
Set Implicit Arguments. Unset Strict Implicit.

(* ---- rows *)
Definition as_seen (p : bool) (r : R * six R) : R * six R := if p then depthless r else r.
Definition part_seen (p : bool) (b : particle) : particle := row_part (as_seen p (part_row b)).
Definition grown (M : R) (z : usize) (r : R * six R) : R * six R := (fst r * M, view6 z (snd r)).

Lemma seen_mass p b : y_m (part_seen p b) = y_m b. Proof. by destruct p, b. Qed.
Lemma seen_default p : part_seen p (mkPart 0 zero6) = mkPart 0 zero6. Proof. by destruct p. Qed.
Lemma seen_nth p l i : nth i (map (part_seen p) l) (mkPart 0 zero6) = part_seen p (nth i l (mkPart 0 zero6)).
Proof. rewrite -{1}(seen_default p). by rewrite map_nth. Qed.
Lemma seen_row p b : part_row (part_seen p b) = as_seen p (part_row b).
Proof. rewrite /part_seen. by destruct (as_seen p (part_row b)). Qed.
Lemma seen_distance p a b : core_distance p (y_p a) (y_p b) = pos_distance (y_p (part_seen p a)) (y_p (part_seen p b)).
Proof. destruct p => //. rewrite /core_distance /pos_distance. cbn. f_equal. ring. Qed.

(* the model's density of star i *)
Lemma core_density_eq p k l i : core_density p k l i =
  let t := map (part_seen p) l in let arg := neighbours k t i in let lst := nth (k - 1) arg O in
  let d := pos_distance (y_p (nth i t (mkPart 0 zero6))) (y_p (nth lst t (mkPart 0 zero6))) in
  let vol := if p then d ^ 2 else d ^ 3 in
  if Reqb vol 0 then None else Some ((sumR (map (fun j => y_m (nth j t (mkPart 0 zero6))) arg) - y_m (nth lst t (mkPart 0 zero6))) / vol).
Proof.
  rewrite /core_density /neighbours. cbn zeta. rewrite !seen_nth.
  have -> : map (fun b => core_distance p (y_p (nth i l (mkPart 0 zero6))) (y_p b)) l =
    map (fun b => pos_distance (y_p (part_seen p (nth i l (mkPart 0 zero6)))) (y_p b)) (map (part_seen p) l).
  { rewrite map_map. apply map_ext => b. exact: seen_distance. }
  set ar := firstn k _. rewrite !seen_distance seen_mass.
  have -> : map (fun j => y_m (nth j (map (part_seen p) l) (mkPart 0 zero6))) ar = map (fun j => y_m (nth j l (mkPart 0 zero6))) ar by apply map_ext => j; rewrite seen_nth seen_mass.
  done.
Qed.

Lemma pow_zero (p : bool) d : 0 <= d -> (if p then d ^ 2 else d ^ 3) = 0 -> d = 0.
Proof. move=> D H. destruct (Rle_lt_or_eq_dec _ _ D) as [P|] => //. have : 0 < (if p then d ^ 2 else d ^ 3) by destruct p; exact: pow_lt. lra. Qed.

Lemma core_density_ok p k l i : (1 < k)%nat -> (k <= length l)%nat ->
  let t := map (as_seen p) (map part_row l) in
  match core_density p k l i with
  | Some rho => crowding p t k i rho
  | None => exists N j, nearest_stars t k i N j /\ row_distance (row_at t i) (row_at t j) = 0
  end.
Proof.
  move=> H1 Hk. cbn zeta. rewrite core_density_eq. cbn zeta. set t := map (part_seen p) l.
  have Et : map (as_seen p) (map part_row l) = map part_row t by rewrite /t !map_map; apply map_ext => b; rewrite seen_row.
  rewrite Et. have Lt : length t = length l by exact: map_length.
  have NN := @neighbours_nearest k t i H1 ltac:(lia).
  set N := neighbours k t i in NN *. set j := nth (k - 1) N 0%nat in NN *.
  have D : row_distance (row_at (map part_row t) i) (row_at (map part_row t) j) = pos_distance (y_p (nth i t (mkPart 0 zero6))) (y_p (nth j t (mkPart 0 zero6))).
  { by rewrite !row_part_at row_distance_part. }
  set d := pos_distance _ _ in D *. have D0 : 0 <= d := pos_nonneg _ _.
  destruct (Reqb _ 0) eqn:E.
  - move/Reqb_spec: E => E. exists N, j. split=> //. rewrite D. exact (pow_zero D0 E).
  - move/Reqb_false: E => E. exists N, j. split=> //. cbn zeta. rewrite D.
    split. { destruct D0 as [|Z0] => //. exfalso. apply E. rewrite -Z0. destruct p; ring. }
    rewrite row_part_at. cbn [part_row fst].
    have -> : map (fun a => fst (row_at (map part_row t) a)) N = map (fun j => y_m (nth j t (mkPart 0 zero6))) N by apply map_ext => a; rewrite row_part_at.
    field. exact E.
Qed.

(* ---- scaling *)
Lemma row_grown M z t i : row_at (map (grown M z) t) i = grown M z (row_at t i).
Proof.
  rewrite /row_at. have E : grown M z (0, mk6 0 0 0 0 0 0) = (0, mk6 0 0 0 0 0 0) by rewrite /grown /view6; cbn; f_equal; [ring|f_equal; ring].
  rewrite -{1}E. by rewrite map_nth.
Qed.
Lemma distance_grown M z a b : 0 <= in_pc z -> row_distance (grown M z a) (grown M z b) = row_distance a b * in_pc z.
Proof.
  move=> H. rewrite /row_distance /grown /view6. cbn [snd sx sy sz]. rewrite sqrt_scale3 //. f_equal. ring.
Qed.
Lemma nearest_grown M z t k i N j : 0 <= in_pc z -> nearest_stars t k i N j -> nearest_stars (map (grown M z) t) k i N j.
Proof.
  move=> Hz [A [B [C [D [E F]]]]]. split=> //. split=> //. split; [by move=> a Ha; rewrite map_length; exact: C|].
  split=> //. split; move=> a; [move=> Ha; have X := E a Ha|rewrite map_length => Ha Hn; have X := F a Ha Hn]; rewrite !row_grown !distance_grown //; nra.
Qed.
Definition dens_unit (p : bool) (M K : R) : R := M / (if p then K ^ 2 else K ^ 3).
Lemma crowding_grown p M z t k i rho : 0 < in_pc z -> crowding p t k i rho -> crowding p (map (grown M z) t) k i (rho * dens_unit p M (in_pc z)).
Proof.
  move=> Hz [N [j [A B]]]. cbn zeta in B. exists N, j. split; [exact (nearest_grown M (Rlt_le _ _ Hz) A)|]. cbn zeta.
  destruct B as [B1 B2]. rewrite !row_grown distance_grown; [lra|].
  have -> : map (fun a => fst (row_at (map (grown M z) t) a)) N = map (fun x => fst (row_at t x) * M) N by apply map_ext => a; rewrite row_grown.
  rewrite -(map_map (fun a => fst (row_at t a)) (fun x => x * M)) sumR_map_mul. split; [nra|].
  cbn [grown fst]. rewrite -Rmult_minus_distr_r -B2 /dens_unit.
  have P : in_pc z <> 0 by lra. destruct p; field; exact P.
Qed.
Lemma seen_grown p M z r : as_seen p (grown M z r) = grown M z (as_seen p r).
Proof. destruct p => //. rewrite /as_seen /depthless /grown /view6. cbn [fst snd sx sy sz svx svy svz]. by rewrite Rmult_0_l. Qed.

(* ---- the weighted mean *)
Lemma sq_sum_nonneg l : 0 <= sumR (map (fun a => a ^ 2) l).
Proof. induction l as [|a l IH]; cbn [map sumR]; [lra|]. have := pow2_ge_0 a. lra. Qed.
Lemma zip_combine {A B C} (f : A -> B -> C) l k : zip_with f l k = map (fun z => f (fst z) (snd z)) (combine l k).
Proof. revert k; induction l as [|a l IH]; move=> [|b k] //=. by rewrite IH. Qed.
Lemma sq_zip_nonneg l k : 0 <= sumR (zip_with (fun rho a => rho ^ 2 * a ^ 2) l k).
Proof. revert k; induction l as [|a l IH]; move=> [|b k]; cbn [zip_with sumR]; try lra. have := IH k. have := Rmult_le_pos _ _ (pow2_ge_0 a) (pow2_ge_0 b). lra. Qed.
Lemma rms_ok w d : sumR (map (fun a => a ^ 2) w) <> 0 ->
  rms_distance w d (sqrt (sumR (zip_with (fun rho a => rho ^ 2 * a ^ 2) w d) / sumR (map (fun a => a ^ 2) w))).
Proof.
  move=> H. have P := sq_sum_nonneg w. split; [lra|]. split; [exact: sqrt_pos|].
  have Q := sq_zip_nonneg w d. rewrite pow2_sqrt; [apply Rmult_le_pos => //; apply Rlt_le, Rinv_0_lt_compat; lra|].
  rewrite zip_combine. field. exact H.
Qed.
Lemma rms_scale f K w d x : 0 < f -> 0 < K -> rms_distance w d x -> rms_distance (map (fun a => a * f) w) (map (fun a => a * K) d) (x * K).
Proof.
  move=> F HK [A [B C]].
  have E1 : sumR (map (fun a => a ^ 2) (map (fun a => a * f) w)) = sumR (map (fun a => a ^ 2) w) * f ^ 2.
  { rewrite map_map. clear. induction w as [|a w IH]; cbn [map sumR]; [ring|]. rewrite IH. ring. }
  have E2 : sumR (map (fun z => fst z ^ 2 * snd z ^ 2) (combine (map (fun a => a * f) w) (map (fun a => a * K) d))) =
    sumR (map (fun z => fst z ^ 2 * snd z ^ 2) (combine w d)) * (f ^ 2 * K ^ 2).
  { clear. revert d; induction w as [|a w IH]; move=> [|b d]; cbn [map combine sumR fst snd]; try ring. rewrite IH. ring. }
  rewrite /rms_distance E1 E2 -C. split; [have := pow_lt f 2 F; nra|]. split; [nra|ring].
Qed.
(* it lies between the least and the greatest distance *)
Lemma rms_between w d x lo hi : length d = length w -> 0 <= lo -> (forall i, (i < length d)%nat -> lo <= nth i d 0 <= hi) ->
  rms_distance w d x -> lo <= x <= hi.
Proof.
  move=> L Lo B [A [X C]].
  have : lo ^ 2 * sumR (map (fun a => a ^ 2) w) <= sumR (map (fun z => fst z ^ 2 * snd z ^ 2) (combine w d)) <= hi ^ 2 * sumR (map (fun a => a ^ 2) w).
  { clear A C. revert d L B; induction w as [|a w IH]; move=> [|b d] L B; try discriminate; cbn [map combine sumR fst snd]; [lra|].
    have B0 := B 0%nat ltac:(cbn; lia). cbn in B0. have := IH d ltac:(by injection L) (fun i Hi => B (S i) ltac:(cbn; lia)).
    have := pow2_ge_0 a. have Q1 : lo ^ 2 <= b ^ 2 by apply pow_incr; lra. have Q2 : b ^ 2 <= hi ^ 2 by apply pow_incr; lra. nra. }
  have Hh : 0 <= hi. { destruct w as [|a w]; [cbn in A; lra|]. destruct d as [|b d] => //. have := B 0%nat ltac:(cbn; lia). cbn. lra. }
  rewrite -C => [[C1 C2]].
  split; apply Rsqr_incr_0_var; rewrite ?/Rsqr => //; nra.
Qed.
