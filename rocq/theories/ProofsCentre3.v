From Coq Require Import Sorted.
From Verif Require Import Base ModelCluster ModelOps ModelConv ModelEnergy ModelRecipes ModelCoords ModelCentre SpecOrder SpecUnits SpecFrame SpecCentre
  ProofsUnits ProofsFrame ProofsOrder ProofsRecipes ProofsSubset2 ProofsCentre ProofsCentre2.
Set Implicit Arguments. Unset Strict Implicit.

(* ---- order *)
Lemma select_masked {A} mk (t : list A) : select mk t = map snd (filter fst (combine mk t)).
Proof. revert t; induction mk as [|b mk IH]; move=> [|a t] //=. destruct b => /=; by rewrite IH. Qed.
Lemma pick_masked c i : aligned c -> mask_fits i c ->
  exists l, pick_rows i (length (p_m (c_ph c))) (particles c) = Some l /\ map part_row l = masked_rows i (star_table c).
Proof.
  move=> H F. rewrite /pick_rows. destruct i as [mk|].
  - rewrite F Nat.eqb_refl. eexists. split; [reflexivity|]. rewrite -select_map (particles_table H). apply select_masked.
  - eexists. split; [reflexivity|]. by rewrite particles_table.
Qed.
Lemma rows_perm l k : Permutation (map part_row l) (map part_row k) -> Permutation l k.
Proof.
  move=> H. have E : forall l, map row_part (map part_row l) = l.
  { move=> x. rewrite map_map. apply map_id_ext => [[a p]] //. }
  rewrite -(E l) -(E k). by apply Permutation_map.
Qed.
Definition with_indx (i : option (list bool)) (a : centre_args) : centre_args :=
  mkCA (ca_start a) i (ca_nsphere a) (ca_rmin a) (ca_rmax a) (ca_nmax a) (ca_method a) (ca_nneighbour a).
Lemma raw_order a i i' c c' : aligned c -> aligned c' -> mask_fits i c -> mask_fits i' c' -> same_selection c c' i i' ->
  ca_method a = Mharfst -> raw_density (with_indx i a) c = raw_density (with_indx i' a) c'.
Proof.
  move=> H H' F F' S M. rewrite /raw_density; cbn [with_indx ca_method ca_indx ca_start ca_nsphere ca_rmin ca_rmax ca_nmax]. rewrite M.
  have [l [E1 E2]] := pick_masked H F. have [k [E3 E4]] := pick_masked H' F'. rewrite E1 E3.
  have P : Permutation l k. { apply rows_perm. rewrite E2 E4. exact S. }
  by rewrite (harfst_perm _ _ _ _ _ P).
Qed.
Lemma raw_found a c p : aligned c -> mask_fits (ca_indx a) c -> ca_method a = Mharfst -> raw_density a c = Ok (Some p) ->
  found_from (masked_rows (ca_indx a) (star_table c)) (ca_start a) p (ca_nsphere a) (ca_rmin a).
Proof.
  move=> H F M. rewrite /raw_density M. have [l [-> <-]] := pick_masked H F. destruct (harfst _ _ _ _ _ _) eqn:E => // [[<-]].
  by apply (harfst_found E).
Qed.
Lemma raw_refined a c p : aligned c -> mask_fits (ca_indx a) c -> ca_method a = Mharfst -> raw_density a c = Ok (Some p) ->
  let t := masked_rows (ca_indx a) (star_table c) in
  exists rho, first_radius t (ca_start a) (ca_rmax a) rho /\ refined t (ca_nsphere a) (ca_rmin a) (ca_nmax a) rho (ca_start a) p.
Proof.
  move=> H F M. rewrite /raw_density M. have [l [-> <-]] := pick_masked H F. destruct (harfst _ _ _ _ _ _) eqn:E => // [[<-]].
  by apply (harfst_refined E).
Qed.
Lemma raw_defined a c : aligned c -> mask_fits (ca_indx a) c -> ca_method a = Mharfst ->
  (exists p, raw_density a c = Ok (Some p)) <-> (ca_rmax a <> None \/ masked_rows (ca_indx a) (star_table c) <> []).
Proof.
  move=> H F M. rewrite /raw_density M. have [l [-> <-]] := pick_masked H F. rewrite /harfst.
  destruct (ca_rmax a) as [r|]. { split => _; [by left|]. by eexists. }
  destruct l as [|b l]; cbn.
  - split; [by case|]. by case.
  - split => _; [by right|]. by eexists.
Qed.
Lemma raw_settles a c : ca_method a = Mharfst -> 0 < ca_rmin a -> exists N, forall n, (N <= n)%nat ->
  raw_density (mkCA (ca_start a) (ca_indx a) (ca_nsphere a) (ca_rmin a) (ca_rmax a) n (ca_method a) (ca_nneighbour a)) c =
  raw_density (mkCA (ca_start a) (ca_indx a) (ca_nsphere a) (ca_rmin a) (ca_rmax a) N (ca_method a) (ca_nneighbour a)) c.
Proof.
  move=> M H. rewrite /raw_density; cbn [ca_method ca_indx ca_start ca_nsphere ca_rmin ca_rmax ca_nmax]. rewrite M.
  destruct (pick_rows _ _ _) as [l|]; [|by exists O]. have [N HN] := harfst_settles (ca_start a) (ca_nsphere a) (ca_rmax a) l H.
  exists N => n Hn. by rewrite (HN n Hn).
Qed.

(* ---- casertano *)
Lemma ss_firstn {A} (P : A -> A -> Prop) l : StronglySorted P l -> forall k, StronglySorted P (firstn k l) /\
  forall a b, In a (firstn k l) -> In b (skipn k l) -> P a b.
Proof.
  induction 1 as [|x l Hs IH Hf]; move=> [|k] /=; try (split; [by constructor|]; by move=> a b []).
  have [S1 S2] := IH k. split.
  - constructor => //. apply Forall_forall => y Hy. move/Forall_forall in Hf. apply Hf. rewrite -(firstn_skipn k l). apply in_or_app. by left.
  - move=> a b [<-|Ha] Hb; [|by apply S2]. move/Forall_forall in Hf. apply Hf. rewrite -(firstn_skipn k l). apply in_or_app. by right.
Qed.
Lemma ss_last {A} (P : A -> A -> Prop) (l : list A) d : (forall a, P a a) -> StronglySorted P l -> forall a, In a l -> P a (nth (length l - 1) l d).
Proof.
  move=> R H. induction H as [|x l Hs IH Hf] => a Ha; [by destruct Ha|].
  have E : nth (length (x :: l) - 1) (x :: l) d = match l with [] => x | _ => nth (length l - 1) l d end.
  { destruct l as [|y l] => //. change (length (x :: y :: l)) with (S (length (y :: l))).
    replace (S (length (y :: l)) - 1)%nat with (S (length (y :: l) - 1)) by (cbn [length]; lia). reflexivity. }
  rewrite E. clear E. destruct Ha as [<-|Ha].
  - destruct l as [|y l]; [by apply R|]. move/Forall_forall in Hf. apply Hf. apply nth_In. cbn [length]; lia.
  - have := IH a Ha. by destruct l.
Qed.
Lemma row_part_at l i : row_at (map part_row l) i = part_row (nth i l (mkPart 0 zero6)).
Proof. rewrite /row_at. change (0, mk6 0 0 0 0 0 0) with (part_row (mkPart 0 zero6)). by rewrite map_nth. Qed.
Lemma row_distance_part a b : row_distance (part_row a) (part_row b) = pos_distance (y_p a) (y_p b).
Proof. by []. Qed.
Lemma neighbours_nearest k l i : (1 < k)%nat -> (k <= length l)%nat ->
  nearest_stars (map part_row l) k i (neighbours k l i) (nth (k - 1) (neighbours k l i) O).
Proof.
  move=> H1 Hk. set p := y_p (nth i l (mkPart 0 zero6)). set ds := map (fun b => pos_distance p (y_p b)) l.
  have [P S] := argsort_sorted ds. have Ld : length ds = length l by rewrite /ds map_length. rewrite Ld in P.
  have N := @neighbours_length k l i Hk.
  have D : forall a, (a < length l)%nat -> row_distance (row_at (map part_row l) i) (row_at (map part_row l) a) = nth a ds 0.
  { move=> a Ha. rewrite !row_part_at row_distance_part /ds. by rewrite (nth_map_in _ (mkPart 0 zero6) _ Ha). }
  have [S1 S2] := ss_firstn S k.
  have J : In (nth (k - 1) (neighbours k l i) O) (neighbours k l i) by apply nth_In; lia.
  split. { have ND : NoDup (argsort ds) by eapply Permutation_NoDup; [symmetry; exact P | apply seq_NoDup].
    rewrite /neighbours -/p -/ds. rewrite -(firstn_skipn k (argsort ds)) in ND.
    clear -ND. induction (firstn k (argsort ds)) as [|x t IH]; [by constructor|]. inversion ND; subst. constructor; [|by apply IH].
    move=> Hx. apply H1. apply in_or_app. by left. }
  split => //. split. { move=> a Ha. rewrite map_length. exact (neighbours_In Ha). }
  split => //. split.
  - move=> a Ha. rewrite (D _ (neighbours_In J)) (D _ (neighbours_In Ha)).
    have := @ss_last _ _ (neighbours k l i) O (fun a => Rle_refl (nth a ds 0)) S1 a Ha. by rewrite N.
  - move=> a. rewrite map_length => Ha Hn. rewrite (D _ (neighbours_In J)) (D _ Ha).
    apply S2 => //. have : In a (argsort ds) by eapply Permutation_in; [symmetry; exact P | apply in_seq; lia].
    rewrite -{1}(firstn_skipn k (argsort ds)) => HA. destruct (in_app_or _ _ _ HA) as [HB|HB] => //.
Qed.
Lemma pos_nonneg a b : 0 <= pos_distance a b. Proof. apply sqrt_pos. Qed.
Lemma local_density_ok k l i rho : (1 < k)%nat -> (k <= length l)%nat -> local_density k l i = Some rho ->
  neighbour_density (map part_row l) k i rho.
Proof.
  move=> H1 Hk. rewrite /local_density. destruct (Reqb _ 0) eqn:E => // [[<-]]. apply Reqb_false in E.
  exists (neighbours k l i), (nth (k - 1) (neighbours k l i) O). split; [by apply neighbours_nearest|]. cbn zeta.
  rewrite !row_part_at row_distance_part. set d := pos_distance _ _ in E |- *.
  have D0 : 0 < d. { have := pos_nonneg (y_p (nth i l (mkPart 0 zero6))) (y_p (nth (nth (k - 1) (neighbours k l i) O) l (mkPart 0 zero6))). fold d.
    move=> [] // D. exfalso. apply E. rewrite -D. ring. }
  split => //. cbn [part_row fst]. have -> : map (fun a => fst (row_at (map part_row l) a)) (neighbours k l i) =
    map (fun j => y_m (nth j l (mkPart 0 zero6))) (neighbours k l i).
  { apply map_ext => a. by rewrite row_part_at. }
  field. lra.
Qed.
Lemma all_finite_nth l r i : all_finite l = Some r -> (i < length l)%nat -> nth i l None = Some (nth i r 0).
Proof.
  revert r i; induction l as [|[a|] l IH] => r i //=; [lia|]. destruct (all_finite l) as [t|] => //= [[<-]]. destruct i as [|i] => //= H.
  apply IH => //. lia.
Qed.
Lemma moment_reweighted (g : six R -> R) w l p : length w = length l -> sumR w <> 0 ->
  g p = sumR (zip_with (fun rho b => rho * g (y_p b) / sumR w) w l) -> moment g (reweighted w (map part_row l)) p = 0.
Proof.
  move=> L H E. have A : sumR (zip_with (fun rho b => rho * g (y_p b)) w l) = sumR w * g p.
  { rewrite E. clear E. move: (sumR w) H => t H. revert l L; induction w as [|a w IH]; move=> [|b l] L; cbn in L |- *; try discriminate; [lra|].
    rewrite IH; [lia|]. field; exact H. }
  rewrite /moment /reweighted map_map map_length.
  have -> : map (fun x => fst (nth x w 0, snd (row_at (map part_row l) x)) * (g (snd (nth x w 0, snd (row_at (map part_row l) x))) - g p)) (seq 0 (length l))
    = zip_with (fun rho b => rho * (g (y_p b) - g p)) w l.
  { rewrite (@zip_seq _ _ _ _ w l 0 (mkPart 0 zero6)) // L. apply map_ext => i. cbn [fst snd]. by rewrite row_part_at. }
  have B : sumR (zip_with (fun rho b => rho * (g (y_p b) - g p)) w l) = sumR (zip_with (fun rho b => rho * g (y_p b)) w l) - sumR w * g p.
  { clear -L. revert l L; induction w as [|a w IH]; move=> [|b l] L; cbn in L |- *; try discriminate; [lra|]. rewrite IH; [lia|]. lra. }
  rewrite B A. lra.
Qed.
Lemma casertano_ok k l p : casertano k l = Ok (Some p) -> exists w, length w = length l /\
  (forall i, (i < length l)%nat -> neighbour_density (map part_row l) k i (nth i w 0)) /\
  mass_weighted_mean (reweighted w (map part_row l)) p.
Proof.
  rewrite /casertano. destruct (Nat.leb k 1) eqn:E1 => //=. destruct (Nat.ltb (length l) k) eqn:E2 => //=.
  apply Nat.leb_gt in E1. apply Nat.ltb_ge in E2. destruct (all_finite _) as [w|] eqn:F => //.
  have L := all_finite_length F. rewrite map_length seq_length in L.
  destruct (Reqb (sumR w) 0) eqn:E3 => // [[<-]]. apply Reqb_false in E3. exists w. split => //. split.
  - move=> i Hi. apply local_density_ok => //. have := all_finite_nth (i := i) F. rewrite map_length seq_length => /(_ Hi).
    by rewrite nth_map_seq'.
  - split. { rewrite /table_mass /reweighted map_map map_length. cbn [fst]. rewrite -L.
      have -> // : map (fun x => nth x w 0) (seq 0 (length w)) = w.
      apply (nth_ext _ _ 0 0); [by rewrite map_length seq_length|]. move=> i. rewrite map_length seq_length => Hi. by rewrite nth_map_seq'. }
    do 5 (split; [by apply moment_reweighted|]). by apply moment_reweighted.
Qed.
