From Verif Require Import Base ModelCluster ModelOps ModelConv ModelEnergy ModelRecipes ModelCoords ModelCentre SpecUnits SpecFrame SpecCentre
  ProofsUnits ProofsFrame ProofsRecipes ProofsSubset2 ProofsCentre ProofsCentre2 ProofsCentre3 ProofsCentre4.
Set Implicit Arguments. Unset Strict Implicit.
Section WithGalpy.
Variable G : galpy.

Lemma raw_ph a c d : c_ph c = c_ph d -> raw_density a c = raw_density a d.
Proof. move=> E. by rewrite /raw_density (particles_ph E) E. Qed.

(* the cluster handed back *)
Lemma working_run c u o : ready G c u o -> exists ops, Forall flat_op ops /\ working G c = SpecFrame.run G ops c.
Proof.
  move=> [_ [Hu [Hl _]]]. rewrite /working Hu. destruct u; try (by exists []; split; [constructor|]).
  exists [OpUnits Upckms]. split; [repeat constructor; by []|]. cbn. by rewrite /to_units Hu.
Qed.
Definition handed_back (c c' : cluster) : Prop :=
  c_ph c' = c_ph c /\ c_units c' = c_units c /\ c_origin c' = c_origin c /\ c_der c' = c_der c /\ c_sc c' = c_sc c /\ c_id c' = c_id c.
Lemma back_ok c u o : ready G c u o -> analyze true true c = c -> handed_back c (return_cluster G (save_cluster c) (working G c)).
Proof.
  move=> R A. have [ops [F E]] := working_run R. rewrite E.
  have [B1 [B2 [B3 [B4 [B5 [B6 _]]]]]] := bracket_restores R F A. by do 5 (split => //).
Qed.
Lemma working_units c : c_units (working G c) = Some Uamuse -> False.
Proof.
  rewrite /working. destruct (c_units c) as [u|] eqn:E; [|by rewrite E]. destruct u; try by rewrite E.
  rewrite /to_pckms /analyze_if_units E. have [H _] := skel_eq_fields (skel_analyze true true (to_pckms0 G c)). rewrite H.
  by rewrite /to_pckms0 E /from_amuse E /pckms_step.
Qed.
Lemma working_idem c : working G (working G c) = working G c.
Proof.
  rewrite {1}/working. destruct (c_units (working G c)) as [u|] eqn:E => //. destruct u => //. by case: (working_units E).
Qed.
Lemma working_analyzed c : analyze true true c = c -> analyze true true (working G c) = working G c.
Proof.
  move=> A. rewrite /working. destruct (c_units c) as [u|] eqn:E => //. destruct u => //.
  by rewrite /to_pckms /analyze_if_units E analyze_idem.
Qed.
Lemma find_centre_density fuel nsigma a c : (match ca_indx a with Some mk => count mk <> O | None => True end) -> analyze true true c = c ->
  find_centre G fuel nsigma true a c = Done (find_centre_of_density G a c).
Proof.
  move=> H A. have E : match find_centre_of_density G a (working G c) with
      | Raise => Raise | Ok (p, c2) => Ok (p, return_cluster G (save_cluster c) c2) end = find_centre_of_density G a c.
  { rewrite !density_answer working_idem (raw_ph a (working_ph G c)). destruct (raw_density a c) => //.
    by rewrite return_same working_analyzed. }
  rewrite /find_centre -/(working G c). destruct (ca_indx a) as [mk|]; [|by rewrite E].
  have -> : Nat.eqb (count mk) 0 = false by apply Nat.eqb_neq. by rewrite E.
Qed.

(* ---- sigma clipping *)
Definition clip_input (a : centre_args) (l : list (Z * particle)) : list (Z * (R * R * R)) :=
  map (fun '(i, b) => let q := less6 (y_p b) (ca_start a) in (i, (sx q, sy q, sz q)))
    (match ca_indx a with None => l | Some mk => select mk l end).
Lemma select_le {A} mk (l : list A) : (length (select mk l) <= length l)%nat.
Proof. revert l; induction mk as [|b mk IH]; move=> [|a l] /=; try lia. destruct b => /=; have := IH l; lia. Qed.
Lemma clip_input_length a l : (length (clip_input a l) <= length l)%nat.
Proof. rewrite /clip_input map_length. destruct (ca_indx a) => //. apply select_le. Qed.
Lemma clipped_ends nsigma a l : nsigma <= 2 -> exists kept, incl kept (map fst (clip_input a l)) /\
  ((ca_nsphere a < length (clip_input a l))%nat -> (ca_nsphere a < length kept)%nat) /\
  ((length (clip_input a l) <= ca_nsphere a)%nat -> kept = map fst (clip_input a l)) /\
  (NoDup (map fst (clip_input a l)) -> NoDup kept) /\
  forall fuel, (length l < fuel)%nat -> clipped_centre fuel nsigma a l =
    let inn := map snd (filter (fun p => existsb (Z.eqb (fst p)) kept) l) in
    Some (if Reqb (total_mass inn) 0 then None else Some (mass_mean inn)).
Proof.
  move=> Hs. have [lf [E [I1 [I2 [I3 I4]]]]] := clip_ends (ca_nsphere a) Hs (Nat.lt_succ_diag_r (length (clip_input a l))).
  exists (map fst lf). split; [exact I1|]. split; [rewrite map_length; exact I3|]. split; [by move=> H; rewrite I4|]. split; [exact I2|].
  move=> fuel Hf. rewrite /clipped_centre -/(clip_input a l) E //. have := clip_input_length a l. lia.
Qed.

Definition ids_table (c : cluster) : list (Z * (R * six R)) := combine (c_id c) (star_table c).
Lemma combine_map_r {A B C} (f : B -> C) (l : list A) k : combine l (map f k) = map (fun p => (fst p, f (snd p))) (combine l k).
Proof. revert k; induction l as [|a l IH]; move=> [|b k] //=. by rewrite IH. Qed.
Lemma select_combine {A B} mk (l : list A) (k : list B) : select mk (combine l k) = combine (select mk l) (select mk k).
Proof. revert l k; induction mk as [|b mk IH]; move=> [|x l] [|y k] //=; try (destruct b => //=); try (by rewrite IH); by destruct (select mk l). Qed.
Lemma clip_input_ids a c : aligned c -> length (c_id c) = length (p_m (c_ph c)) -> mask_fits (ca_indx a) c ->
  map fst (clip_input a (combine (c_id c) (particles c))) = masked_rows (ca_indx a) (c_id c).
Proof.
  move=> H L F. rewrite /clip_input map_map. set l := combine _ _.
  have -> : map (fun x => fst (let '(i, b) := x in let q := less6 (y_p b) (ca_start a) in (i, (sx q, sy q, sz q))))
     (match ca_indx a with None => l | Some mk => select mk l end) = map fst (match ca_indx a with None => l | Some mk => select mk l end).
  { apply map_ext => [[i b]] //. }
  have Lp : length (particles c) = length (p_m (c_ph c)) by rewrite particles_seq // map_length seq_length.
  have El : map fst l = c_id c.
  { rewrite /l. have : length (c_id c) = length (particles c) by rewrite L Lp. move: (c_id c) (particles c) => x y.
    clear. revert y; induction x as [|i x IH]; move=> [|b y] //= [E]. by rewrite IH. }
  destruct (ca_indx a) as [mk|] => //. rewrite -select_map El. apply select_masked.
Qed.

Lemma clip_result c kept : aligned c ->
  map part_row (map snd (filter (fun p => existsb (Z.eqb (fst p)) kept) (combine (c_id c) (particles c)))) =
  map snd (filter (fun p => existsb (Z.eqb (fst p)) kept) (ids_table c)).
Proof.
  move=> H. rewrite /ids_table -(particles_table H) combine_map_r filter_map !map_map. by [].
Qed.
Lemma find_centre_clip fuel nsigma a c : (match ca_indx a with Some mk => count mk <> O | None => True end) -> mask_fits (ca_indx a) c ->
  find_centre G fuel nsigma false a c =
  match clipped_centre fuel nsigma a (combine (c_id (working G c)) (particles c)) with
  | None => Running _
  | Some p => Done (Ok (p, return_cluster G (save_cluster c) (working G c)))
  end.
Proof.
  move=> H F. rewrite /find_centre -/(working G c) (particles_ph (working_ph G c)). destruct (ca_indx a) as [mk|] => //.
  have -> : Nat.eqb (count mk) 0 = false by apply Nat.eqb_neq. rewrite working_ph F Nat.eqb_refl. by [].
Qed.
Lemma working_id c : c_id (working G c) = c_id c.
Proof.
  rewrite /working. destruct (c_units c) as [u|] eqn:E => //. destruct u => //.
  rewrite /to_pckms /analyze_if_units E. have H := skel_eq_fields (skel_analyze true true (to_pckms0 G c)).
  have -> : c_id (analyze true true (to_pckms0 G c)) = c_id (to_pckms0 G c) by tauto.
  by rewrite /to_pckms0 E /from_amuse E /pckms_step.
Qed.

Lemma find_centre_clipped nsigma a c : aligned c -> length (c_id c) = length (p_m (c_ph c)) -> mask_fits (ca_indx a) c ->
  (match ca_indx a with Some mk => count mk <> O | None => True end) -> nsigma <= 2 ->
  let ids := masked_rows (ca_indx a) (c_id c) in
  exists kept, incl kept ids /\ (NoDup ids -> NoDup kept) /\ ((ca_nsphere a < length ids)%nat -> (ca_nsphere a < length kept)%nat) /\
    ((length ids <= ca_nsphere a)%nat -> kept = ids) /\
    let rows := map snd (filter (fun p => existsb (Z.eqb (fst p)) kept) (ids_table c)) in
    exists p c', (forall fuel, (length (p_m (c_ph c)) < fuel)%nat -> find_centre G fuel nsigma false a c = Done (Ok (p, c'))) /\
      match p with Some q => mass_weighted_mean rows q | None => table_mass rows = 0 end.
Proof.
  move=> H L F N Hs. cbn zeta. set l := combine (c_id c) (particles c).
  have [kept [K1 [K2 [K3 [K4 K5]]]]] := clipped_ends a l Hs.
  have Ei := clip_input_ids H L F. fold l in Ei. rewrite -(map_length fst) Ei in K2 K3. rewrite Ei in K1 K3 K4.
  have Ll : length l = length (p_m (c_ph c)).
  { rewrite /l combine_length L particles_seq // map_length seq_length. lia. }
  exists kept. do 4 (split => //). set rows := map snd _. set inn := map snd (filter (fun p => existsb (Z.eqb (fst p)) kept) l) in K5.
  have Er : map part_row inn = rows by apply clip_result.
  have Em : table_mass rows = total_mass inn by rewrite -Er /table_mass map_map.
  exists (if Reqb (total_mass inn) 0 then None else Some (mass_mean inn)), (return_cluster G (save_cluster c) (working G c)). split.
  - move=> fuel Hf. rewrite find_centre_clip // working_id -/l K5 //. by rewrite Ll.
  - destruct (Reqb (total_mass inn) 0) eqn:E.
    + rewrite Em. by apply Reqb_spec.
    + rewrite -Er. apply mean_is_mean. by apply Reqb_false.
Qed.

(* ---- the endless case *)
Definition stuck_cluster (j : nat) : cluster :=
  let n := (4 * j)%nat in
  mkC (Some Upckms) (Some Ocluster) None 0
    (mkP 0 (repeat 1 n) (mk6 (stuck_x j) (repeat 0 n) (repeat 0 n) (repeat 0 n) (repeat 0 n) (repeat 0 n)) zero6 zero6)
    (mkSc 1 1 1 1 1 1 1 8 220) (mkB [] [] [] []) (mkSk nil6 zero6 zero6 None None None) empty_derived (map Z.of_nat (seq 0 n)).
Lemma stuck_aligned j : aligned (stuck_cluster j).
Proof. rewrite /aligned; cbn. rewrite !repeat_length stuck_length. do 5 (split => //). Qed.
Lemma nth_repeat' {A} (a d : A) n i : (i < n)%nat -> nth i (repeat a n) d = a.
Proof. revert i; induction n as [|n IH]; move=> [|i] H; cbn; try lia; [done|]. apply IH. lia. Qed.
Lemma stuck_running nsigma a fuel : 2 < nsigma -> ca_start a = zero6 -> ca_indx a = None ->
  find_centre G fuel nsigma false a (stuck_cluster (S (ca_nsphere a))) = Running _.
Proof.
  move=> Hs H0 Hi. set j := S (ca_nsphere a). set c := stuck_cluster j.
  rewrite find_centre_clip; [by rewrite Hi|by rewrite Hi|]. rewrite working_id /clipped_centre Hi.
  have E : map (fun '(i, b) => let q := less6 (y_p b) (ca_start a) in (i, (sx q, sy q, sz q))) (combine (c_id c) (particles c))
    = combine (c_id c) (map on_axis (stuck_x j)).
  { set g := fun b => let q := less6 (y_p b) (ca_start a) in (sx q, sy q, sz q).
    transitivity (map (fun p => (fst p, g (snd p))) (combine (c_id c) (particles c))). { apply map_ext => [[i b]] //. }
    rewrite -(combine_map_r g). f_equal. rewrite (particles_seq (stuck_aligned j)) map_map /g H0.
    apply (nth_ext _ _ (on_axis 0) (on_axis 0)).
    { rewrite !map_length seq_length stuck_length. cbn [c c_ph stuck_cluster p_m]. by rewrite repeat_length. }
    move=> i. rewrite map_length seq_length. cbn [c c_ph stuck_cluster p_m p_s]. rewrite repeat_length => Hi'.
    rewrite nth_map_seq' // (nth_map_in on_axis 0); [by rewrite stuck_length|]. cbn [y_p map6 sx sy sz less6 zero6].
    rewrite (nth_repeat' 0 0 Hi'). rewrite /on_axis. by rewrite !Rminus_0_r. }
  rewrite E (@clip_fixed nsigma (ca_nsphere a)) //. apply stuck_step => //.
  by rewrite stuck_length /c; cbn [c_id stuck_cluster]; rewrite map_length seq_length.
Qed.
End WithGalpy.
