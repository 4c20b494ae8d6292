From Coq Require Import Sorted.
From Verif Require Import Base ModelCluster ModelOps ModelConv ModelEnergy ModelRecipes ModelCoords ModelCentre SpecOrder SpecUnits SpecFrame SpecCentre
  ProofsUnits ProofsFrame ProofsOrder ProofsRecipes ProofsSubset2 ProofsCentre.
Set Implicit Arguments. Unset Strict Implicit.

Lemma zip_seq {A B C} (f : A -> B -> C) l k a b : length l = length k ->
  zip_with f l k = map (fun i => f (nth i l a) (nth i k b)) (seq 0 (length l)).
Proof.
  revert k; induction l as [|x l IH]; move=> [|y k] //= [H]. f_equal. by rewrite -seq_shift map_map (IH _ H).
Qed.
Lemma nth_map_seq' {A} (f : nat -> A) n i d : (i < n)%nat -> nth i (map f (seq 0 n)) d = f i.
Proof. move=> H. rewrite (nth_indep _ d (f O)); [by rewrite map_length seq_length|]. by rewrite map_nth seq_nth. Qed.
Lemma map_seq_ext {A} (f g : nat -> A) n : (forall i, (i < n)%nat -> f i = g i) -> map f (seq 0 n) = map g (seq 0 n).
Proof. move=> H. apply map_ext_in => i /in_seq [_ Hi]. by apply H. Qed.

(* ---- tables *)
Lemma particles_seq c : aligned c ->
  particles c = map (fun i => mkPart (nth i (p_m (c_ph c)) 0) (map6 (fun l => nth i l 0) (p_s (c_ph c)))) (seq 0 (length (p_m (c_ph c)))).
Proof.
  move=> [L _]. rewrite /particles /rows6 L (@zip_seq _ _ _ _ _ _ 0 zero6); [by rewrite map_length seq_length|].
  apply map_seq_ext => i Hi. f_equal. by rewrite nth_map_seq'.
Qed.
Lemma particles_table c : aligned c -> map part_row (particles c) = star_table c.
Proof. move=> H. by rewrite particles_seq // map_map. Qed.
Lemma table_length c : length (star_table c) = length (p_m (c_ph c)).
Proof. by rewrite /star_table map_length seq_length. Qed.
Lemma part_row_inj l k : map part_row l = map part_row k -> l = k.
Proof. apply map_inj. move=> [a p] [b q] [-> ->] //. Qed.

Lemma nth_map_in {A B} (f : A -> B) l i a b : (i < length l)%nat -> nth i (map f l) b = f (nth i l a).
Proof. move=> H. rewrite (nth_indep _ b (f a)); [by rewrite map_length|]. by rewrite map_nth. Qed.
Lemma moved_aligned d c c' : aligned c -> moved d c c' -> aligned c'.
Proof.
  rewrite /aligned; cbn zeta. move=> [L1 [L2 [L3 [L4 [L5 L6]]]]] [Em Es]. rewrite Em Es; cbn.
  by rewrite !map_length.
Qed.
Lemma moved_particles d c c' : aligned c -> moved d c c' -> map (shift_part d) (particles c') = particles c.
Proof.
  move=> H M. have H' := moved_aligned H M. rewrite (particles_seq H) (particles_seq H') map_map.
  have [Em Es] := M. rewrite Em. apply map_seq_ext => i Hi. rewrite /shift_part; cbn [y_m y_p]. f_equal. rewrite Es.
  move: H; rewrite /aligned; cbn zeta. move=> [L1 [L2 [L3 [L4 [L5 L6]]]]].
  apply six_ext; cbn [map6 less6 sx sy sz svx svy svz]; rewrite (@nth_map_in _ _ _ _ i 0 0) ?L1 ?L2 ?L3 ?L4 ?L5 ?L6 //; lra.
Qed.
Lemma move_plus d p : move d p = plus6 p d. Proof. by []. Qed.
Lemma moved_table d c c' : aligned c -> moved d c c' -> star_table c' = map (fun r => (fst r, move d (snd r))) (star_table c).
Proof.
  move=> H M. have H' := moved_aligned H M. rewrite -(particles_table H) -(moved_particles H M) -(particles_table H') !map_map.
  apply map_ext => b. rewrite /part_row /shift_part /move; cbn [y_m y_p fst snd]. f_equal. apply six_ext; cbn; lra.
Qed.

(* ---- centre of mass *)
Lemma column_sum (g : six R -> R) (h : forall A, six A -> A) c : (forall i, g (map6 (fun l => nth i l 0) (p_s (c_ph c))) = nth i (h _ (p_s (c_ph c))) 0) ->
  length (h _ (p_s (c_ph c))) = length (p_m (c_ph c)) ->
  sumR (zip_with Rmult (p_m (c_ph c)) (h _ (p_s (c_ph c)))) = sumR (map (fun r => fst r * g (snd r)) (star_table c)).
Proof.
  move=> E L. rewrite (@zip_seq _ _ _ _ _ _ 0 0) // /star_table map_map. f_equal. apply map_ext => i. cbn [fst snd]. by rewrite E.
Qed.
Lemma mass_sum c : sumR (p_m (c_ph c)) = table_mass (star_table c).
Proof.
  rewrite /table_mass /star_table map_map; cbn [fst]. f_equal. apply (nth_ext _ _ 0 0).
  { by rewrite map_length seq_length. }
  move=> i Hi. by rewrite nth_map_seq'.
Qed.
Lemma com_mean c p : aligned c -> (find_centre_of_mass c = Some p <-> mass_weighted_mean (star_table c) p).
Proof.
  move=> H. have M : table_mass (star_table c) = total_mass (particles c).
  { by rewrite -particles_table // /table_mass map_map. }
  have E : sumR (p_m (c_ph c)) <> 0 -> find_centre_of_mass c = Some (mass_mean (particles c)).
  { move=> N. rewrite /find_centre_of_mass. have -> : Reqb (sumR (p_m (c_ph c))) 0 = false by apply Reqb_false.
    f_equal. rewrite mass_sum M /mass_mean.
    have T : forall g, sumR (map (fun r => fst r * g (snd r)) (star_table c)) = sumR (map (fun b => y_m b * g (y_p b)) (particles c)).
    { move=> g. by rewrite -(particles_table H) map_map. }
    move: (H); rewrite /aligned; cbn zeta. move=> [L1 [L2 [L3 [L4 [L5 L6]]]]].
    apply six_ext; cbn [map6 sx sy sz svx svy svz]; f_equal.
    - by rewrite (@column_sum (@sx R) sx).
    - by rewrite (@column_sum (@sy R) sy).
    - by rewrite (@column_sum (@sz R) sz).
    - by rewrite (@column_sum (@svx R) svx).
    - by rewrite (@column_sum (@svy R) svy).
    - by rewrite (@column_sum (@svz R) svz). }
  have C : sumR (p_m (c_ph c)) <> 0 -> mass_weighted_mean (star_table c) (mass_mean (particles c)).
  { move=> N. rewrite -(particles_table H). apply mean_is_mean. by rewrite -M -mass_sum. }
  split.
  - move=> F. have N : sumR (p_m (c_ph c)) <> 0.
    { move=> Z0. move: F. rewrite /find_centre_of_mass Z0. have -> // : Reqb 0 0 = true by apply Reqb_spec. }
    move: F. rewrite E // => [[<-]]. by apply C.
  - move=> F. have N : sumR (p_m (c_ph c)) <> 0. { rewrite mass_sum. by case: F. }
    rewrite E //. f_equal. apply (mwm_unique (C N) F).
Qed.
Lemma com_nan c : find_centre_of_mass c = None <-> table_mass (star_table c) = 0.
Proof.
  rewrite /find_centre_of_mass mass_sum. destruct (Reqb _ 0) eqn:E; [apply Reqb_spec in E | apply Reqb_false in E]; split => //; congruence.
Qed.
Lemma moment_moved g d t p : (forall q, g (move d q) = g q + g d) ->
  moment g (map (fun r => (fst r, move d (snd r))) t) (move d p) = moment g t p.
Proof. move=> H. rewrite /moment map_map. f_equal. apply map_ext => r. cbn [fst snd]. rewrite !H. lra. Qed.
Lemma mwm_moved d t p : mass_weighted_mean t p -> mass_weighted_mean (map (fun r => (fst r, move d (snd r))) t) (move d p).
Proof.
  move=> [H [a [b [e [a' [b' e']]]]]]. split. { by rewrite /table_mass map_map. }
  do 5 (split; [rewrite moment_moved //|]). by rewrite moment_moved.
Qed.
Lemma com_moved d c c' : aligned c -> moved d c c' -> find_centre_of_mass c' = option_map (move d) (find_centre_of_mass c).
Proof.
  move=> H M. have T := moved_table H M. destruct (find_centre_of_mass c) as [p|] eqn:E.
  - apply (com_mean _ (moved_aligned H M)). rewrite T. apply mwm_moved. by apply com_mean.
  - cbn. apply com_nan. apply com_nan in E. by rewrite T /table_mass map_map.
Qed.

(* ---- moving to a found centre *)
Lemma six_eqb_spec a b : six_eqb a b = true <-> a = b.
Proof.
  rewrite /six_eqb !andb_true_iff !Reqb_spec. split.
  - move=> [[[[[? ?] ?] ?] ?] ?]. by apply six_ext.
  - move=> ->. do 5 (split => //).
Qed.
Lemma six_eqb_false a b : six_eqb a b = false <-> a <> b.
Proof. rewrite -six_eqb_spec. by destruct (six_eqb a b). Qed.

Definition less_all (s : six (list R)) (p : six R) : six (list R) := sub6 s p.
Lemma ph_of_centre sort reset p c u o : c_units c = Some u -> linear u -> c_origin c = Some o -> flat o ->
  p_s (c_ph (to_centre sort (set_centre reset p c))) = reorigin (c_ph (set_centre reset p c)) o Ocentre /\
  p_m (c_ph (to_centre sort (set_centre reset p c))) = p_m (c_ph c) /\
  c_origin (to_centre sort (set_centre reset p c)) = Some Ocentre.
Proof.
  move=> Hu Hl Ho Hf.
  have F : c_units (set_centre reset p c) = Some u /\ c_origin (set_centre reset p c) = Some o /\ p_m (c_ph (set_centre reset p c)) = p_m (c_ph c).
  { rewrite /set_centre Ho. destruct o => //; repeat (match goal with |- context [if ?b then _ else _] => destruct b end => //). }
  destruct F as [Fu [Fo Fm]].
  have E := to_centre_flat sort Fu Hl Fo Hf. have P := skel_ph E. rewrite P; cbn. split => //. split => //.
  have [_ [Eo _]] := skel_eq_fields E. by rewrite Eo.
Qed.
Lemma centre_moves sort reset p c u o : c_units c = Some u -> linear u -> c_origin c = Some o ->
  o = Ocluster \/ (o = Ogalaxy /\ (p_g (c_ph c) <> p \/ p_g (c_ph c) = zero6 \/ reset = true \/ p_c (c_ph c) = zero6)) ->
  p_s (c_ph (to_centre sort (set_centre reset p c))) = sub6 (p_s (c_ph c)) p.
Proof.
  move=> Hu Hl Ho Hc. have Hf : flat o by move: Hc => [->|[-> _]].
  have [E _] := ph_of_centre sort reset p Hu Hl Ho Hf. rewrite E sub6_add6 /reorigin.
  have S : p_s (c_ph (set_centre reset p c)) = p_s (c_ph c).
  { rewrite /set_centre Ho. destruct o => //; repeat (match goal with |- context [if ?b then _ else _] => destruct b end => //). }
  rewrite S. apply add6_ext. move: Hc => [->|[-> Hg]] in Ho *.
  - rewrite /set_centre Ho; cbn [shift_of c_ph p_g p_c set_centres set_ph]. apply six_ext; cbn; lra.
  - rewrite /set_centre Ho. destruct (six_eqb (p_g (c_ph c)) zero6 || reset) eqn:B.
    + cbn [shift_of c_ph p_g p_c set_centres set_ph]. apply six_ext; cbn; lra.
    + apply orb_false_iff in B. destruct B as [B1 B2]. apply six_eqb_false in B1.
      destruct (six_eqb (p_g (c_ph c)) p) eqn:B3.
      * apply six_eqb_spec in B3. have C0 : p_c (c_ph c) = zero6.
        { move: Hg => [|[|[|]]] //. by rewrite B2. }
        cbn [shift_of]. rewrite C0 B3. apply six_ext; cbn; lra.
      * cbn [shift_of c_ph p_g p_c set_centres set_ph]. apply six_ext; cbn; lra.
Qed.
(* the case left out: galaxy origin, orbit equal to the found centre, non-zero stored offset *)
Lemma centre_stale sort p c u : c_units c = Some u -> linear u -> c_origin c = Some Ogalaxy ->
  p_g (c_ph c) = p -> p <> zero6 ->
  p_s (c_ph (to_centre sort (set_centre false p c))) = sub6 (p_s (c_ph c)) (plus6 p (p_c (c_ph c))).
Proof.
  move=> Hu Hl Ho Hg Hz. have Hf : flat Ogalaxy by [].
  have [E _] := ph_of_centre sort false p Hu Hl Ho Hf. rewrite E sub6_add6 /reorigin.
  have -> : set_centre false p c = c.
  { rewrite /set_centre Ho. have -> : six_eqb (p_g (c_ph c)) zero6 = false by apply six_eqb_false; rewrite Hg.
    cbn [orb]. by have -> : six_eqb (p_g (c_ph c)) p = true by apply six_eqb_spec. }
  apply add6_ext. cbn [shift_of]. rewrite Hg. apply six_ext; cbn; lra.
Qed.

(* ---- find_centre_of_density on a cluster *)
Section WithGalpy.
Variable G : galpy.
Definition working (c : cluster) : cluster := match c_units c with Some Uamuse => to_pckms G c | _ => c end.
Lemma working_ph c : c_ph (working c) = c_ph c.
Proof.
  rewrite /working. destruct (c_units c) as [u|] eqn:E => //. destruct u => //.
  rewrite /to_pckms /analyze_if_units E c_ph_analyze /to_pckms0 E /from_amuse E /pckms_step; cbn. done.
Qed.
Lemma particles_ph c d : c_ph c = c_ph d -> particles c = particles d.
Proof. by rewrite /particles => ->. Qed.
Definition answer {A} (r : result (A * cluster)) : result A := match r with Ok (p, _) => Ok p | Raise => Raise end.
Definition raw_density (a : centre_args) (c : cluster) : result (option (six R)) :=
  match ca_method a with
  | Mharfst => match pick_rows (ca_indx a) (length (p_m (c_ph c))) (particles c) with
    | None => Raise
    | Some l => match harfst (ca_start a) (ca_nsphere a) (ca_rmin a) (ca_rmax a) (ca_nmax a) l with None => Raise | Some p => Ok (Some p) end
    end
  | Mcasertano => casertano (ca_nneighbour a) (particles c)
  | Mother => Raise
  end.
Lemma density_answer a c : find_centre_of_density G a c =
  match raw_density a c with Ok p => Ok (p, return_cluster G (save_cluster c) (working c)) | Raise => Raise end.
Proof.
  rewrite /find_centre_of_density /raw_density -/(working c) (particles_ph (working_ph c)) working_ph.
  destruct (ca_method a) => //.
  destruct (pick_rows _ _ _) => //. by destruct (harfst _ _ _ _ _ _).
Qed.
Lemma density_answer' a c : answer (find_centre_of_density G a c) = raw_density a c.
Proof. rewrite density_answer. by destruct (raw_density a c). Qed.
End WithGalpy.

Lemma pick_map {A B} (f : A -> B) indx n l : pick_rows indx n (map f l) = option_map (map f) (pick_rows indx n l).
Proof. rewrite /pick_rows. destruct indx => //=. destruct (Nat.eqb _ _) => //=. by rewrite select_map. Qed.

(* ---- casertano under a shift *)
Lemma pos_shift d a b : pos_distance (less6 a d) (less6 b d) = pos_distance a b.
Proof. rewrite /pos_distance; cbn [less6 sx sy sz]. f_equal. lra. Qed.
Lemma neighbours_shift d k l i : (i < length l)%nat -> neighbours k (map (shift_part d) l) i = neighbours k l i.
Proof.
  move=> H. rewrite /neighbours map_map (nth_map_in (shift_part d) (mkPart 0 zero6) _ H). do 2 f_equal.
  apply map_ext => b. cbn [y_p shift_part]. by rewrite pos_shift.
Qed.
Lemma neighbours_In k l i j : In j (neighbours k l i) -> (j < length l)%nat.
Proof.
  rewrite /neighbours => H. have [P _] := argsort_sorted (map (fun b => pos_distance (y_p (nth i l (mkPart 0 zero6))) (y_p b)) l).
  have : In j (argsort (map (fun b => pos_distance (y_p (nth i l (mkPart 0 zero6))) (y_p b)) l)).
  { rewrite -(firstn_skipn k (argsort _)). apply in_or_app. by left. }
  move/(Permutation_in _ P). rewrite map_length => /in_seq. lia.
Qed.
Lemma neighbours_length k l i : (k <= length l)%nat -> length (neighbours k l i) = k.
Proof. move=> H. rewrite /neighbours firstn_length argsort_length map_length. lia. Qed.
Lemma density_shift d k l i : (i < length l)%nat -> (1 < k)%nat -> (k <= length l)%nat ->
  local_density k (map (shift_part d) l) i = local_density k l i.
Proof.
  move=> Hi H1 Hk. rewrite /local_density neighbours_shift //.
  have HL : (nth (k - 1) (neighbours k l i) O < length l)%nat.
  { apply (@neighbours_In k l i), nth_In. rewrite neighbours_length //. lia. }
  rewrite (nth_map_in (shift_part d) (mkPart 0 zero6) _ HL) (nth_map_in (shift_part d) (mkPart 0 zero6) _ Hi). cbn [shift_part y_m y_p].
  rewrite pos_shift. destruct (Reqb _ 0) => //. do 4 f_equal. apply map_ext_in => j Hj.
  by rewrite (nth_map_in (shift_part d) (mkPart 0 zero6) _ (neighbours_In Hj)).
Qed.
Lemma all_finite_length l r : all_finite l = Some r -> length r = length l.
Proof.
  revert r; induction l as [|[a|] l IH] => r //=; [by move=> [<-]|]. destruct (all_finite l) as [t|] => //= [[<-]] /=. by rewrite (IH t).
Qed.
Lemma wsum_shift (g : six R -> R) d l tot : (forall p, g (less6 p d) = g p - g d) -> tot <> 0 -> forall rhos, length rhos = length l ->
  sumR (zip_with (fun rho b => rho * g (y_p b) / tot) rhos (map (shift_part d) l)) =
  sumR (zip_with (fun rho b => rho * g (y_p b) / tot) rhos l) - sumR rhos / tot * g d.
Proof.
  move=> H Ht. induction l as [|b l IH]; move=> [|r rhos] L; cbn in L |- *; try discriminate; [field; exact Ht|].
  rewrite IH; [lia|]. rewrite H. field; exact Ht.
Qed.
Lemma casertano_shift d k l :
  casertano k (map (shift_part d) l) = match casertano k l with Ok p => Ok (option_map (fun q => less6 q d) p) | Raise => Raise end.
Proof.
  rewrite /casertano map_length. destruct (Nat.leb k 1) eqn:E1 => //=. destruct (Nat.ltb (length l) k) eqn:E2 => //=.
  apply Nat.leb_gt in E1. apply Nat.ltb_ge in E2.
  have -> : map (local_density k (map (shift_part d) l)) (seq 0 (length l)) = map (local_density k l) (seq 0 (length l)).
  { apply map_seq_ext => i Hi. by apply density_shift. }
  destruct (all_finite _) as [rhos|] eqn:F => //. have L := all_finite_length F. rewrite map_length seq_length in L.
  destruct (Reqb (sumR rhos) 0) eqn:E3 => //. apply Reqb_false in E3. cbn [option_map]. do 2 f_equal.
  apply six_ext; cbn [less6 sx sy sz svx svy svz]; rewrite (wsum_shift (d := d)) //; field; exact E3.
Qed.

Definition at_start (p : six R) (a : centre_args) : centre_args :=
  mkCA p (ca_indx a) (ca_nsphere a) (ca_rmin a) (ca_rmax a) (ca_nmax a) (ca_method a) (ca_nneighbour a).
Lemma raw_moved d a c c' : aligned c -> moved d c c' ->
  raw_density (at_start (move d (ca_start a)) a) c' =
  match raw_density a c with Ok p => Ok (option_map (move d) p) | Raise => Raise end.
Proof.
  move=> H M. rewrite /raw_density; cbn [at_start ca_method ca_indx ca_start ca_nsphere ca_rmin ca_rmax ca_nmax ca_nneighbour].
  rewrite -(moved_particles H M). have -> : p_m (c_ph c') = p_m (c_ph c) by case: M. destruct (ca_method a) => //.
  - rewrite pick_map. destruct (pick_rows _ _ _) as [l|] => //; cbn [option_map]. rewrite move_plus harfst_shift.
    by destruct (harfst _ _ _ _ _ _).
  - rewrite casertano_shift. destruct (casertano _ _) as [[p|]|] => //. cbn [option_map]. do 2 f_equal. rewrite move_plus. by rewrite plus_less'.
Qed.
