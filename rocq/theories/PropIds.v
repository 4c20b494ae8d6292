(* C82: energies of some of the stars. *)
From Verif Require Import Base ModelCluster ModelOps ModelConv ModelEnergy ModelStars ModelIds.
From Verif Require Import SpecUnits SpecFrame SpecConv SpecEnergy SpecIds.
From Verif Require Import ProofsUnits ProofsFrame ProofsPot ProofsSees ProofsEnergy ProofsVirial ProofsRadii9 ProofsIds.
From Verif Require Import PropUnits PropTail.

(* conditions on the cluster: physical data of one length, analysed, no two stars at one place, no massless stars, an id for every star *)
Definition measurable (G : galpy) (c : cluster) (u : usys) (o : osys) : Prop :=
  ready G c u o /\ SpecFrame.aligned c /\ analyze true true c = c /\ separated (bodies c) /\ Forall (fun m => m <> 0) (p_m (c_ph c)) /\ length (c_id c) = nstars c.

(* energies(ids=...): the values of the stars asked for, in the order of the cluster; the cluster as before; recorded: these values, and zero for all other stars;
   the totals and the virial ratio recorded are those of the stars asked for *)
Theorem C82_energies_of_some :
  forall (G : galpy) (specific projected : bool) (soft : R) (a : ids_arg) (c : cluster) (u : usys) (o : osys), measurable G c u o -> understood a c ->
    exists ks e c', energies_ids_method G specific projected soft a c = Ok ((map (star_kinetic specific c) ks, map (star_potential specific soft c) ks), e, c') /\
      restored c c' /\ in_order a c ks /\ length (e_kin e) = nstars c /\ length (e_pot e) = nstars c /\ length (e_etot e) = nstars c /\
      (forall k, (k < nstars c)%nat -> asked a c k -> nth k (e_kin e) 0 = star_kinetic specific c k /\ nth k (e_pot e) None = Some (star_potential specific soft c k) /\
                 nth k (e_etot e) None = Some (star_kinetic specific c k + star_potential specific soft c k)) /\
      (forall k, (k < nstars c)%nat -> ~ asked a c k -> nth k (e_kin e) 0 = 0 /\ nth k (e_pot e) None = Some 0 /\ nth k (e_etot e) None = Some 0) /\
      e_ektot e = sumR (map (star_kinetic specific c) ks) /\ e_ptot e = sumR (map (star_potential specific soft c) ks) / 2 /\ e_qvir e = e_ektot e / e_ptot e.
Proof.
  intros G sp pr soft a c u o [R1 [HA [HN [HS [Hm LI]]]]] UN. destruct (@ids_method G sp pr soft a c u o R1 HA HN HS Hm LI UN) as [m [e [c' H]]]. cbv zeta in H. destruct H as [E [RS [IO [LM [MS EE]]]]].
  exists (places 0 m), e, c'. split; [exact E|]. split; [exact RS|]. split; [exact IO|]. rewrite EE. unfold add_energies. cbn [e_kin e_pot e_etot e_ektot e_ptot e_qvir].
  set (ks := map (star_kinetic sp c) (places 0 m)). set (ps := map (star_potential sp soft c) (places 0 m)).
  assert (L1 : length (scatter m ks) = nstars c) by now rewrite scatter_length. assert (L2 : length (map Some (scatter m ps)) = nstars c) by now rewrite map_length scatter_length.
  split; [exact L1|]. split; [exact L2|]. split; [rewrite zip_with_length L1 L2; apply Nat.min_id|].
  assert (NP : forall k, (k < nstars c)%nat -> nth k (map Some (scatter m ps)) None = Some (if nth k m false then star_potential sp soft c k else 0)).
  { intros k Hk. rewrite (nth_indep _ None (Some 0)); [now rewrite L2|]. rewrite map_nth. unfold ps. now rewrite scatter_places. }
  assert (NT : forall k, (k < nstars c)%nat -> nth k (zip_with (fun x y => nadd (Some x) y) (scatter m ks) (map Some (scatter m ps))) None =
     Some ((if nth k m false then star_kinetic sp c k else 0) + if nth k m false then star_potential sp soft c k else 0)).
  { intros k Hk. rewrite (@nth_zip_with _ _ _ _ _ _ k 0 None); [rewrite L1; exact Hk|rewrite L2; exact Hk|]. rewrite (NP k Hk). unfold ks. rewrite scatter_places. reflexivity. }
  split; [|split; [|split; [|split]]].
  - intros k Hk A. apply (MS k Hk) in A. rewrite (NP k Hk) (NT k Hk) A. unfold ks. rewrite scatter_places A. now repeat split.
  - intros k Hk A. assert (M : nth k m false = false) by (destruct (nth k m false) eqn:M; [case A; now apply MS|reflexivity]). rewrite (NP k Hk) (NT k Hk) M. unfold ks. rewrite scatter_places M.
    split; [reflexivity|]. split; [reflexivity|]. f_equal. ring.
  - unfold ks. exact (sum_scatter _ LM).
  - rewrite map_map. cbn [nan_to_num]. rewrite map_id. unfold ps. now rewrite (sum_scatter _ LM).
  - reflexivity.
Qed.
Print Assumptions C82_energies_of_some.

(* ------------------------------------------------------------------ findings *)
(* the answer does not follow the order, nor the repetitions, of the ids asked for *)
Theorem C82_order_ignored_refuted :
  forall (G : galpy) (specific projected : bool) (soft : R) (l l' : list Z) (c : cluster), l <> [] -> l' <> [] -> (forall z, In z l <-> In z l') ->
    energies_ids_method G specific projected soft (Id_list l) c = energies_ids_method G specific projected soft (Id_list l') c.
Proof.
  intros G sp pr soft l l' c N N' H.
  assert (E : forall id, chosen (Id_list l) id = chosen (Id_list l') id).
  { intros id. destruct l as [|x l]; [easy|]. destruct l' as [|x' l']; [easy|]. unfold chosen. f_equal. apply map_ext. intros i. apply Bool.eq_iff_eq_true. rewrite !existsb_exists.
    split; intros [y [Hy Ey]]; exists y; (split; [now apply H|exact Ey]). }
  unfold energies_ids_method. cbv zeta. rewrite E. destruct (chosen (Id_list l') (c_id (energy_frame G c))) as [m|]; [|reflexivity]. unfold bind at 1 3.
  destruct (energies_ids G sp soft m (energy_frame G c)) as [[k p] c2]. now rewrite E.
Qed.
Print Assumptions C82_order_ignored_refuted.
(* an empty list of ids raises instead of giving nothing *)
Theorem C82_no_ids_refuted :
  forall (G : galpy) (specific projected : bool) (soft : R) (c : cluster), energies_ids_method G specific projected soft (Id_list []) c = Raise.
Proof. reflexivity. Qed.
Print Assumptions C82_no_ids_refuted.
(* a Python list of booleans is taken for ids 0 and 1, so a mask written as a list selects other stars than the same mask as an array *)
Theorem C82_list_of_booleans_refuted :
  forall (G : galpy) (specific projected : bool) (soft : R) (l : list bool) (c : cluster), l <> [] ->
    energies_ids_method G specific projected soft (Bool_list l) c = energies_ids_method G specific projected soft (Id_list (map as_number l)) c.
Proof.
  intros G sp pr soft l c N.
  assert (E : forall id, chosen (Bool_list l) id = chosen (Id_list (map as_number l)) id).
  { intros id. destruct l as [|x l]; [easy|]. unfold chosen. change (map as_number (x :: l)) with (as_number x :: map as_number l). cbv iota. f_equal. apply map_ext. intros i. cbn [existsb]. f_equal.
    clear N. induction l as [|y l IH]; [reflexivity|]. cbn [map existsb]. f_equal. exact IH. }
  unfold energies_ids_method. cbv zeta. rewrite E. destruct (chosen (Id_list (map as_number l)) (c_id (energy_frame G c))) as [m|]; [|reflexivity]. unfold bind at 1 3.
  destruct (energies_ids G sp soft m (energy_frame G c)) as [[k p] c2]. now rewrite E.
Qed.
Print Assumptions C82_list_of_booleans_refuted.
(* the ratio recorded is that of the stars asked for; virialize, which uses a recorded ratio, then misses its target by the ratio of the two ratios *)
Theorem C82_virialize_after_refuted :
  forall (G : galpy) (projected projected' : bool) (soft soft' Q : R) (a : ids_arg) (c : cluster) (u : usys) (o : osys), measurable G c u o -> understood a c -> still_centre c ->
    separated (bodies_seen projected' c) ->
    exists r e c', energies_ids_method G true projected soft a c = Ok (r, e, c') /\ (e_qvir e <> 0 ->
      let c'' := snd (virialize G Q soft' projected' (Some (e_qvir e)) c') in
      virial_ratio true projected' soft' c'' = Rabs Q / Rabs (e_qvir e) * virial_ratio true projected' soft' c).
Proof.
  intros G pr pr' soft soft' Q a c u o M UN SC SB. pose proof M as [R1 [HA [HN [HS [Hm LI]]]]].
  destruct (C82_energies_of_some G true pr soft a c u o M UN) as [ks [e [c' [E [RS _]]]]]. eexists. exists e, c'. split; [exact E|]. intros Q0. cbv zeta.
  pose proof (restored_ready RS R1) as R2. pose proof (restored_aligned RS HA) as A2. pose proof (restored_settled RS HN) as N2.
  assert (B2 : bodies c' = bodies c) by (unfold bodies, body; destruct RS as [-> _]; reflexivity).
  assert (S2 : separated (bodies_seen pr' c')) by (unfold bodies_seen; rewrite B2; exact SB).
  assert (C2 : still_centre c') by (unfold still_centre; destruct RS as [-> [_ [-> _]]]; exact SC).
  pose proof (@virialize_spec G Q soft' pr' (Some (e_qvir e)) c' u o R2 A2 N2 S2 C2) as V. cbv zeta in V. revert V. generalize (virialize G Q soft' pr' (Some (e_qvir e)) c'). intros [cache c''] [_ B]. cbn [snd].
  pose proof (boosted_restored RS B) as B'. rewrite (boosted_ratio true pr' soft' B'). rewrite <- (Rabs_right (sqrt (Rabs (Q / e_qvir e)))); [|apply Rle_ge, sqrt_pos].
  rewrite (Rabs_right (sqrt _)); [apply Rle_ge, sqrt_pos|]. rewrite pow2_sqrt; [apply Rabs_pos|]. unfold Rdiv at 1. rewrite Rabs_mult Rabs_inv. reflexivity.
Qed.
Print Assumptions C82_virialize_after_refuted.

(* ------------------------------------------------------------------ the hypotheses are met: three of five stars *)
Example C82_hypotheses_met : forall o, flat o -> let c := ride o (mk6 8000 0 100 3 4 0) in
  (separated (bodies c)) /\ Forall (fun m => m <> 0) (p_m (c_ph c)) /\ length (c_id c) = nstars c /\ ready demo_galpy c Upckms o /\ SpecFrame.aligned c /\ analyze true true c = c /\
  understood (Id_list [4; 2; 9; 5]%Z) c /\ in_order (Id_list [4; 2; 9; 5]%Z) c [1; 3; 4]%nat.
Proof.
  intros o F c. assert (PH : c_ph c = c_ph (ride_raw o (mk6 8000 0 100 3 4 0))) by apply ride_ph.
  assert (ID : c_id c = [1; 2; 3; 4; 5]%Z) by (destruct (skel_eq_fields (skel_analyze true true (ride_raw o (mk6 8000 0 100 3 4 0)))) as [_ [_ [_ [_ [_ [_ [_ [_ E]]]]]]]]; exact E).
  assert (NS : nstars c = 5%nat) by apply ride_n.
  split.
  { intros i j. unfold bodies. rewrite map_length seq_length PH. cbn [ride_raw c_ph p_m length]. intros Hi Hj N.
    rewrite !(@nth_map_in _ _ _ _ _ 0%nat); try (rewrite seq_length; assumption). rewrite !seq_nth; try assumption. unfold body, dist2. rewrite PH. cbn [ride_raw c_ph p_m p_s fx fy fz sx sy sz].
    do 5 (destruct i as [|i]; [do 5 (destruct j as [|j]; [cbn [nth plus]; try (now case N); lra|]); lia|]); lia. }
  split; [rewrite PH; cbn; repeat constructor; lra|]. split; [now rewrite ID NS|]. split; [now apply ride_ready|]. split; [apply ride_aligned|]. split; [apply analyze_idem|].
  split; [discriminate|]. split.
  - intros k. rewrite NS. unfold asked. rewrite ID. split.
    + cbn [In]. intros [<-|[<-|[<-|[]]]]; (split; [lia|]); cbn [nth In]; tauto.
    + intros [Hk A]. do 5 (destruct k as [|k]; [cbn [nth In] in A |- *; try tauto; (destruct A as [A|[A|[A|[A|[]]]]]; discriminate)|]). lia.
  - cbn [length]. intros i j Hij. do 3 (destruct i as [|i]; [do 3 (destruct j as [|j]; [cbn [nth]; lia|]); lia|]); lia.
Qed.
