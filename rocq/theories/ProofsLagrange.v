From Coq Require Import Sorted.
From Verif Require Import Base ModelCluster ModelOps ModelRecipes ModelLagrange SpecUnits SpecFrame SpecOrder SpecRecipes
  SpecEnergy SpecLagrange ProofsUnits ProofsFrame ProofsOrder ProofsSort ProofsSees ProofsEnergy ProofsRecipes ProofsRecipes2.
Set Implicit Arguments. Unset Strict Implicit.

Section S.
Variable G : galpy.

Lemma settled_vord p c o : c_origin c = Some o -> well_sorted p c -> vord c.
Proof.
  move=> Ho [HA [[ro [H1 H2]] _]] r Hr. rewrite H1 in Hr. case: Hr => <-.
  have [ro' [rp [K1 [K2 [K3 _]]]]] := analyze_sorted c. rewrite HA in K3.
  exists o, o. split => //. split; [by rewrite K3|]. rewrite /frad reorigin_id -/(rlist c) -distances_eq //.
Qed.
Lemma vord_settled c o : c_origin c = Some o -> analyze true true c = c -> vord c ->
  exists ro rp, c_der c = der_of c ro rp /\ sorted_order ro (distances c).
Proof.
  move=> Ho HA HV. have [ro [rp [K1 [K2 [K3 [K4 K5]]]]]] := analyze_sorted c. rewrite HA in K1 K2 K3 K4 K5.
  exists ro, rp. split; [by rewrite -{1}HA (analyze_settled K1 K2 K3 K4 K5)|].
  have [oo [o1 [H1 [H2 H3]]]] := HV _ K1. rewrite H1 in Ho. rewrite K3 H1 in H2. case: H2 => H2. subst oo.
  by rewrite /frad reorigin_id -/(rlist c) -distances_eq in H3.
Qed.
Lemma sortstars_settled c : analyze true true c = c -> sortstars true c = c.
Proof.
  move=> HA. have [ro [rp [K1 [K2 [K3 [K4 K5]]]]]] := analyze_sorted c. rewrite HA in K1 K2 K3 K4 K5.
  have E : c_der c = der_of c ro rp by rewrite -{1}HA (analyze_settled K1 K2 K3 K4 K5).
  rewrite /sortstars K1 K3 oosys_eqb_refl. have F : d_r (c_der c) = rlist c by rewrite E.
  have F2 : d_rpro (c_der c) = rprolist c by rewrite E.
  rewrite /order_ok in K2. rewrite /proorder_ok in K5.
  rewrite F K2 Nat.eqb_refl. cbn [andb]. rewrite K4 oosys_eqb_refl F2 K5 Nat.eqb_refl. cbn [andb].
  rewrite -F -F2. clear E F F2. destruct c as [a b d e f g h i [] k]. rewrite /set_der. cbn in K1, K3, K4 |- *. congruence.
Qed.

Lemma distances_list c : aligned c -> distances c = map (fun k => let s := p_s (c_ph c) in
   sqrt (nth k (sx s) 0 ^ 2 + nth k (sy s) 0 ^ 2 + nth k (sz s) 0 ^ 2)) (seq 0 (nstars c)).
Proof.
  move=> [L1 [L2 [L3 _]]]. rewrite distances_eq /rlist.
  apply (nth_ext _ _ 0 0); [rewrite map_length seq_length norm3_length ?L2 ?L3 //|].
  move=> k. rewrite norm3_length; [lia|lia|]. move=> Hk. rewrite norm3_nth //; try lia.
  rewrite nth_map_seq //. rewrite /nstars; lia.
Qed.
Lemma distances_2d_eq c : distances_2d c = rprolist c.
Proof.
  rewrite /distances_2d /rprolist /norm2. destruct (p_s (c_ph c)) as [x y z ? ? ?] => /=.
  revert y; induction x as [|a x IH]; destruct y as [|b y] => //=.
  rewrite IH /=; do 2 f_equal; ring.
Qed.
Lemma distances_2d_list c : aligned c -> distances_2d c = map (fun k => let s := p_s (c_ph c) in
   sqrt (nth k (sx s) 0 ^ 2 + nth k (sy s) 0 ^ 2)) (seq 0 (nstars c)).
Proof.
  move=> [L1 [L2 [L3 _]]]. rewrite distances_2d_eq /rprolist.
  have L : length (norm2 (sx (p_s (c_ph c))) (sy (p_s (c_ph c)))) = nstars c by rewrite /norm2 zip_with_length /nstars; lia.
  apply (nth_ext _ _ 0 0); [by rewrite map_length seq_length|].
  move=> k. rewrite L => Hk. rewrite norm2_nth //; [lia|rewrite L1; exact Hk|].
  rewrite nth_map_seq //.
Qed.

Lemma vadd_nth l k i : (i < length l)%nat -> nth i (vadd l k) 0 = nth i l 0 + k.
Proof. move=> Hn. rewrite /vadd (nth_indep _ 0 (0 + k)) ?map_length //. by rewrite (map_nth (fun a => a + k)). Qed.

Record framed (c c1 : cluster) : Prop := {
  fr_settled : analyze true true c1 = c1;
  fr_sees : sees G c c1;
  fr_m : p_m (c_ph c1) = p_m (c_ph c);
  fr_vord : vord c1;
  fr_dist : distances c1 = own_distances false c;
  fr_dist2 : distances_2d c1 = own_distances true c;
  fr_same : c_origin c <> Some Ogalaxy -> c_ph c1 = c_ph c }.

Lemma amuse_frame p c u o : ready G c u o -> positive_scales G (c_sc c) -> well_sorted p c ->
  let c0 := match c_units c with Some Uamuse => to_pckms G c | _ => c end in
  analyze true true c0 = c0 /\ sees G c c0 /\ c_ph c0 = c_ph c /\ c_origin c0 = c_origin c /\ vord c0.
Proof.
  move=> HR HP HW. have [HS [Hu [Hl [Ho Hf]]]] := HR. have [HA _] := HW. cbn zeta.
  have V := settled_vord Ho HW. have S := sees_refl HR.
  rewrite Hu. destruct u; try (by do 4 (split => //)).
  have E : to_units G (Ureq Upckms) c = to_pckms G c by rewrite /to_units Hu.
  have L : linear Upckms by [].
  have F := skel_eq_fields (to_units_lin HS Hu Hl L). rewrite E in F. destruct F as [F1 [F2 [F3 [F4 [F5 _]]]]].
  split; [by rewrite /to_pckms /analyze_if_units Hu analyze_idem|]. split; [by apply sees_pckms|].
  split; [rewrite F5; cbn; rewrite rescale_id //; exact (unit_size_nz Upckms HS)|].
  split; [exact F2|]. rewrite -E. exact (vord_units HP HR L V).
Qed.

Lemma frame_ok p c u o : ready G c u o -> positive_scales G (c_sc c) -> aligned c -> well_sorted p c ->
  framed c (lagrange_frame G c).
Proof.
  move=> HR HP HL HW. have [HA0 [HS0 [Hp0 [Ho0 HV0]]]] := amuse_frame HR HP HW.
  have [HS [Hu [Hl [Ho Hf]]]] := HR.
  rewrite /lagrange_frame.
  move: (match c_units c with Some Uamuse => to_pckms G c | _ => c end) HA0 HS0 Hp0 Ho0 HV0 => c0 HA0 HS0 Hp0 Ho0 HV0.
  have same : forall o', c_origin c = Some o' -> o' = Ocluster \/ o' = Ocentre -> framed c c0.
  { move=> o' E D. constructor => //.
    - by rewrite Hp0.
    - rewrite distances_list /aligned Hp0 // /own_distances /own_distance /own_centre /nstars ?Hp0.
      apply map_ext => k. rewrite E. destruct D as [-> | ->]; cbn; do 3 f_equal; ring.
    - rewrite distances_2d_list /aligned Hp0 // /own_distances /own_distance /own_centre /nstars ?Hp0.
      apply map_ext => k. rewrite E. destruct D as [-> | ->]; cbn; f_equal; ring. }
  rewrite Ho. destruct o; [| | | by case: Hf].
  - rewrite sortstars_settled //. exact (same _ Ho (or_intror eq_refl)).
  - rewrite sortstars_settled //. exact (same _ Ho (or_introl eq_refl)).
  - have [u0 [o0 R0]] := sees_ready HS0. have [T1 [T2 [T3 [T4 T5]]]] := R0.
    have Eo : o0 = Ogalaxy by congruence. subst o0.
    have FC : flat Ocentre by [].
    have E : to_origin G (Oreq Ocentre) true c0 = to_centre true c0.
    { rewrite /to_origin T4. rewrite /to_centre T4. destruct (c_units c0) as [[]|]; by rewrite ?analyze_idem. }
    have [V1 [V2 [V3 [V4 [V5 [V6 [V7 [V8 [V9 [V10 V11]]]]]]]]]] := @to_origin_view G true c0 u0 Ogalaxy Ocentre R0 FC.
    rewrite -E. have S1 := sees_origin true HS0 FC.
    constructor.
    + rewrite E /to_centre T4. destruct (c_units c0) as [[]|] eqn:Eu; try (by rewrite analyze_idem).
    + exact S1.
    + by rewrite V8 Hp0.
    + exact (vord_origin T2 T3 T4 T5 FC HV0).
    + rewrite distances_list.
      { rewrite /aligned V11 V8 Hp0 /reorigin /add6 /=. rewrite !vadd_length. exact HL. }
      rewrite /own_distances /own_distance /own_centre /nstars V8 V11 Hp0 Ho. apply map_ext_in => k /in_seq Hk.
      destruct HL as [L1 [L2 [L3 _]]]. cbn. rewrite !vadd_nth; try lia. do 3 f_equal; ring.
    + rewrite distances_2d_list.
      { rewrite /aligned V11 V8 Hp0 /reorigin /add6 /=. rewrite !vadd_length. exact HL. }
      rewrite /own_distances /own_distance /own_centre /nstars V8 V11 Hp0 Ho. apply map_ext_in => k /in_seq Hk.
      destruct HL as [L1 [L2 [L3 _]]]. cbn. rewrite !vadd_nth; try lia. f_equal; ring.
    + by case.
Qed.

(* ---------------------------------------------------------------- the table *)
Lemma all_some_spec {A} (l : list (option A)) (d : A) : (forall a, In a l -> a <> None) ->
  exists k, all_some l = Some k /\ length k = length l /\ forall i, (i < length l)%nat -> nth i l None = Some (nth i k d).
Proof.
  induction l as [|a l IH] => H; [exists []; do 2 (split => //); move=> i; cbn; lia|].
  destruct a as [a|]; [|by case: (H None (or_introl eq_refl))].
  have [k [K1 [K2 K3]]] := IH (fun x Hx => H x (or_intror Hx)).
  exists (a :: k). cbn. rewrite K1. split => //. split; [by rewrite K2|].
  move=> [|i] Hi; [by []|]. apply K3. cbn in Hi. lia.
Qed.

Lemma within_mono r m a b : length r = length m -> nonneg m -> a <= b -> weight_within r m a <= weight_within r m b.
Proof.
  rewrite /weight_within. revert m; induction r as [|x r IH]; move=> [|w m] L Hn Hab; cbn in L |- *; try discriminate; [lra|].
  have {}L : length r = length m by lia.
  have W : 0 <= w by apply Hn; left.
  have I := IH m L (fun y Hy => Hn y (or_intror Hy)) Hab.
  destruct (Rleb x a) eqn:E1; destruct (Rleb x b) eqn:E2 => /=; try lra.
  apply Rleb_spec in E1. apply Rleb_false in E2. lra.
Qed.
Lemma within_inside r m a b : length r = length m -> nonneg m -> a < b -> weight_within r m a <= weight_inside r m b.
Proof.
  rewrite /weight_within /weight_inside. revert m; induction r as [|x r IH]; move=> [|w m] L Hn Hab; cbn in L |- *; try discriminate; [lra|].
  have {}L : length r = length m by lia.
  have W : 0 <= w by apply Hn; left.
  have I := IH m L (fun y Hy => Hn y (or_intror Hy)) Hab.
  destruct (Rleb x a) eqn:E1; destruct (Rltb x b) eqn:E2 => /=; try lra.
  apply Rleb_spec in E1. apply Rltb_false in E2. lra.
Qed.
Lemma fraction_mono r m f g a b : length r = length m -> nonneg m -> 0 <= sumR m -> f <= g ->
  is_fraction_radius f r m a -> is_fraction_radius g r m b -> a <= b.
Proof.
  move=> L Hn Hs Hfg [A1 [A2 A3]] [B1 [B2 B3]]. apply Rnot_lt_le => H.
  have := within_inside L Hn H. nra.
Qed.
Lemma fraction_unique r m f a b : length r = length m -> nonneg m -> 0 <= sumR m ->
  is_fraction_radius f r m a -> is_fraction_radius f r m b -> a = b.
Proof. move=> L Hn Hs A B. apply Rle_antisym; [exact (fraction_mono L Hn Hs (Rle_refl f) A B)|exact (fraction_mono L Hn Hs (Rle_refl f) B A)]. Qed.

Lemma lagrange_list_ok n m r o : (1 <= n)%nat -> length r = length m -> nonneg m -> 0 < sumR m -> sorted_order o r ->
  exists rn, lagrange_list n m r o = Some rn /\ lagrange_table n r m rn.
Proof.
  move=> Hn L Hm Hs HO.
  have Hne : m <> [] by move=> E; subst; cbn in Hs; lra.
  have Hn0 : 0 < INR n by apply lt_0_INR; lia.
  have F : forall i, (1 <= i < n)%nat -> exists d, frac_radius (INR i / INR n) m r (sumR m) o = Some d /\ is_fraction_radius (INR i / INR n) r m d.
  { move=> i Hi. apply frac_radius_correct => //. split.
    - apply Rdiv_lt_0_compat => //. apply lt_0_INR; lia.
    - apply (Rmult_le_reg_r (INR n)) => //. have -> : INR i / INR n * INR n = INR i by field; lra.
      rewrite Rmult_1_l. apply le_INR; lia. }
  rewrite /lagrange_list.
  have [|k [K1 [K2 K3]]] := @all_some_spec R (map (fun i => frac_radius (INR i / INR n) m r (sumR m) o) (seq 1 (n - 1))) 0.
  { move=> a /in_map_iff [i [<- /in_seq Hi]]. have [|d [-> _]] := F i => //. lia. }
  rewrite K1. rewrite map_length seq_length in K2 K3.
  have -> : Nat.eqb n (length k) = false by apply Nat.eqb_neq; lia.
  have [mx [Em Gm]] : exists mx, amax r = Some mx /\ greatest r mx.
  { destruct r as [|a r]; [by destruct m|]. eexists; split; [reflexivity|]. by apply amax_greatest. }
  rewrite Em. have -> : (n - length k = 1)%nat by lia. cbn [option_map repeat]. exists (k ++ [mx]). split => //.
  have T : forall i, (i + 1 < n)%nat -> is_fraction_radius (INR (i + 1) / INR n) r m (nth i (k ++ [mx]) 0).
  { move=> i Hi. rewrite app_nth1; [lia|]. have [|d [D1 D2]] := F (i + 1)%nat; [lia|].
    have K := K3 i ltac:(lia). rewrite (nth_indep _ None (frac_radius (INR 0 / INR n) m r (sumR m) o)) ?map_length ?seq_length in K; [lia|].
    rewrite (map_nth (fun i => frac_radius (INR i / INR n) m r (sumR m) o) (seq 1 (n - 1)) 0%nat) seq_nth in K; [lia|]. rewrite (Nat.add_comm 1 i) D1 in K. case: K => <-. exact D2. }
  have M : nth (n - 1) (k ++ [mx]) 0 = mx by rewrite app_nth2 ?K2 ?Nat.sub_diag //; lia.
  split; [rewrite app_length K2 /=; lia|]. split; [exact T|]. split; [by rewrite M|].
  move=> i j Hij. destruct (Nat.eq_dec j (n - 1)) as [->|J].
  - rewrite M. destruct (Nat.eq_dec i (n - 1)) as [->|I]; [rewrite M; lra|].
    have [T1 _] := T i ltac:(lia). by apply Gm.
  - apply (@fraction_mono r m (INR (i + 1) / INR n) (INR (j + 1) / INR n)) => //; [lra| |apply T; lia|apply T; lia].
    apply Rmult_le_compat_r; [left; by apply Rinv_0_lt_compat|apply le_INR; lia].
Qed.

Lemma table_unique n r m a b : length r = length m -> nonneg m -> 0 <= sumR m ->
  lagrange_table n r m a -> lagrange_table n r m b -> a = b.
Proof.
  move=> L Hm Hs [A1 [A2 [A3 _]]] [B1 [B2 [B3 _]]].
  apply (nth_ext _ _ 0 0); [congruence|]. move=> i Hi. rewrite A1 in Hi.
  destruct (Nat.eq_dec i (n - 1)) as [->|I]; [exact (greatest_unique A3 B3)|].
  apply (@fraction_unique r m (INR (i + 1) / INR n)) => //; [apply A2|apply B2]; lia.
Qed.

Lemma frame_order c c1 p : framed c c1 -> (exists o, c_origin c1 = Some o) -> well_sorted p c -> (p = true -> c_origin c <> Some Ogalaxy) ->
  exists order, lagrange_order p c1 = Some order /\ lagrange_radii p c1 = own_distances p c /\
    sorted_order order (own_distances p c) /\ d_mtot (c_der c1) = sumR (p_m (c_ph c)).
Proof.
  move=> F [o Ho] HW Hp. have [ro [rp [E HO]]] := vord_settled Ho (fr_settled F) (fr_vord F).
  have M : d_mtot (c_der c1) = sumR (p_m (c_ph c)) by rewrite E /= (fr_m F).
  destruct p.
  - have [HA [_ HW2]] := HW. have [rp' [R1 R2]] := HW2 eq_refl. exists rp'. rewrite /lagrange_order /lagrange_radii.
    have [_ [_ [_ [_ [_ [_ K]]]]]] := fr_sees F.
    have [|K1 K2] := K _ R1.
    { rewrite /proorder_ok -distances_2d_eq. destruct R2 as [R2 _]. by rewrite (Permutation_length R2) seq_length. }
    split; [exact K1|]. split; [by rewrite E /= -distances_2d_eq (fr_dist2 F)|]. split => //.
    rewrite -(fr_dist2 F). have P := fr_same F (Hp eq_refl). by rewrite /distances_2d P.
  - exists ro. rewrite /lagrange_order /lagrange_radii E /=. split => //. rewrite -distances_eq (fr_dist F).
    split => //. split; [by rewrite -(fr_dist F)|by rewrite (fr_m F)].
Qed.

Lemma own_distances_length p c : length (own_distances p c) = length (p_m (c_ph c)).
Proof. by rewrite /own_distances map_length seq_length. Qed.

Theorem rlagrange_correct n p c u o : ready G c u o -> positive_scales G (c_sc c) -> aligned c -> well_sorted p c ->
  (p = true -> c_origin c <> Some Ogalaxy) -> (1 <= n)%nat -> nonneg (p_m (c_ph c)) -> 0 < sumR (p_m (c_ph c)) ->
  exists rn c', rlagrange G n p c = Ok (rn, c') /\ lagrange_table n (own_distances p c) (p_m (c_ph c)) rn /\ restored c c'.
Proof.
  move=> HR HP HL HW Hp Hn Hm Hs. have F := frame_ok HR HP HL HW. rewrite /rlagrange.
  move: (lagrange_frame G c) F => c1 F.
  have [u1 [o1 [R1 [R2 [R3 [R4 R5]]]]]] := sees_ready (fr_sees F).
  have [order [O1 [O2 [O3 O4]]]] := frame_order F (ex_intro _ o1 R4) HW Hp.
  rewrite O1 O2 (fr_m F).
  have [rn [N1 N2]] := lagrange_list_ok Hn (own_distances_length p c) Hm Hs O3.
  rewrite N1. exists rn. eexists. split; [reflexivity|]. split => //. destruct HW as [HA _].
  exact (bracket_sees HR (fr_sees F) HA).
Qed.

Lemma frac_radius_none f r m o : length r = length m -> nonneg m -> 0 < sumR m -> 1 < f -> sorted_order o r ->
  frac_radius f m r (sumR m) o = None.
Proof.
  move=> L Hm Hs Hf [P _]. rewrite L in P. have T := take_perm_sum P. rewrite /frac_radius /cumsum.
  have A : forall o s, s + sumR (take 0 m o) < f * sumR m -> first_reaching o (cumsum_from s (take 0 m o)) (f * sumR m) = None.
  { induction o0 as [|i o0 IH] => s Hlt //=. cbn in Hlt.
    have I : 0 <= sumR (take 0 m o0) by apply sumR_nonneg => a /in_map_iff [j [<- _]]; apply nth_nonneg.
    have -> : Rleb (f * sumR m) (s + nth i m 0) = false by apply Rleb_false; rewrite /take in I; lra.
    apply IH. rewrite /take. lra. }
  rewrite A //. rewrite T. nra.
Qed.

Theorem rlagrange_frac_correct f p c u o : ready G c u o -> positive_scales G (c_sc c) -> aligned c -> well_sorted p c ->
  (p = true -> c_origin c <> Some Ogalaxy) -> 0 < f -> nonneg (p_m (c_ph c)) -> 0 < sumR (p_m (c_ph c)) ->
  if Rle_dec f 1 then exists r c', rlagrange_frac G f p c = Ok (r, c') /\ is_fraction_radius f (own_distances p c) (p_m (c_ph c)) r /\ restored c c'
  else rlagrange_frac G f p c = Raise.
Proof.
  move=> HR HP HL HW Hp Hn Hm Hs. have F := frame_ok HR HP HL HW. rewrite /rlagrange_frac.
  move: (lagrange_frame G c) F => c1 F.
  have [u1 [o1 [R1 [R2 [R3 [R4 R5]]]]]] := sees_ready (fr_sees F).
  have [order [O1 [O2 [O3 O4]]]] := frame_order F (ex_intro _ o1 R4) HW Hp.
  rewrite O1 O2 O4 (fr_m F).
  have Hne : p_m (c_ph c) <> [] by move=> E; rewrite E in Hs; cbn in Hs; lra.
  destruct (Rle_dec f 1) as [H|H].
  - have [d [D1 D2]] := frac_radius_correct (own_distances_length p c) Hne Hm Hs (conj Hn H) O3.
    rewrite D1. exists d. eexists. split; [reflexivity|]. split => //. destruct HW as [HA _].
    exact (bracket_sees HR (fr_sees F) HA).
  - rewrite (frac_radius_none (own_distances_length p c) Hm Hs _ O3) //. lra.
Qed.


(* ---------------------------------------------------------------- independence of the frame and units *)
Lemma to_origin_settled s c u o o' : ready G c u o -> flat o' -> analyze true true c = c ->
  s = true -> analyze true true (to_origin G (Oreq o') s c) = to_origin G (Oreq o') s c.
Proof.
  move=> [HS [Hu [Hl [Ho Hf]]]] Hf' HA ->. rewrite /to_origin Ho. by rewrite analyze_idem.
Qed.

Lemma vord_well c o : c_origin c = Some o -> analyze true true c = c -> vord c -> well_sorted false c.
Proof.
  move=> Ho HA HV. have [ro [rp [E1 E2]]] := vord_settled Ho HA HV. split => //. split; [|by []].
  exists ro. by rewrite E1.
Qed.

Theorem rlagrange_origin n c u : ready G c u Ogalaxy -> positive_scales G (c_sc c) -> aligned c -> well_sorted false c ->
  (1 <= n)%nat -> nonneg (p_m (c_ph c)) -> 0 < sumR (p_m (c_ph c)) ->
  exists rn c1 c2, rlagrange G n false c = Ok (rn, c1) /\ rlagrange G n false (to_origin G (Oreq Ocentre) true c) = Ok (rn, c2).
Proof.
  move=> HR HP HL HW Hn Hm Hs. have [HS [Hu [Hl [Ho Hf]]]] := HR. have [HA _] := HW.
  have FC : flat Ocentre by [].
  have [|rn [c1 [A1 [A2 A3]]]] := @rlagrange_correct n false c u Ogalaxy HR HP HL HW _ Hn Hm Hs; [by []|].
  have [V1 [V2 [V3 [V4 [V5 [V6 [V7 [V8 [V9 [V10 V11]]]]]]]]]] := @to_origin_view G true c u Ogalaxy Ocentre HR FC.
  have SA := to_origin_settled HR FC HA (eq_refl true).
  have VO := vord_origin (G := G) (s := true) Hu Hl Ho Hf FC (settled_vord Ho HW).
  move: (to_origin G (Oreq Ocentre) true c) V1 V2 V3 V4 V5 V6 V7 V8 V9 V10 V11 SA VO => d V1 V2 V3 V4 V5 V6 V7 V8 V9 V10 V11 SA VO.
  have [_ [_ [_ [Od _]]]] := V2.
  have Ld : aligned d by rewrite /aligned V8 V11 /reorigin /add6 /= !vadd_length; exact HL.
  have [| | | |rn2 [c2 [B1 [B2 B3]]]] := @rlagrange_correct n false d u Ocentre V2 _ Ld (vord_well Od SA VO) _ Hn.
  { by rewrite V3. } { by []. } { by rewrite V8. } { by rewrite V8. }
  exists rn, c1, c2. split => //. rewrite B1. do 2 f_equal.
  have E : own_distances false d = own_distances false c.
  { rewrite /own_distances /nstars V8. apply map_ext_in => k /in_seq Hk. rewrite /own_distance /own_centre Od Ho V11 /nstars in Hk |- *.
    destruct HL as [L1 [L2 [L3 _]]]. cbn. rewrite !vadd_nth; try lia. do 3 f_equal; ring. }
  rewrite E V8 in B2. apply (@table_unique n (own_distances false c) (p_m (c_ph c))) => //; [apply own_distances_length|lra].
Qed.

Lemma weight_scale (t : R -> R -> bool) r m d k k' : 0 < k -> (forall a b, t (a * k) (b * k) = t a b) ->
  sumR (map snd (filter (fun p => t (fst p) (d * k)) (combine (map (fun a => a * k) r) (map (fun a => a * k') m)))) =
  sumR (map snd (filter (fun p => t (fst p) d) (combine r m))) * k'.
Proof.
  move=> Hk T. revert m; induction r as [|a r IH]; move=> [|b m] //=; try lra.
  rewrite T. have I := IH m. destruct (t a d) => /=; rewrite I; lra.
Qed.
Lemma fraction_scale f r m d k k' : 0 < k -> 0 < k' -> is_fraction_radius f r m d ->
  is_fraction_radius f (map (fun a => a * k) r) (map (fun a => a * k') m) (d * k).
Proof.
  move=> Hk Hk' [H1 [H2 H3]]. split; [by apply (in_map (fun a => a * k))|]. rewrite sumR_map_mul /weight_within /weight_inside.
  rewrite (@weight_scale Rleb) //.
  { move=> a b. apply Bool.eq_iff_eq_true. rewrite !Rleb_spec. split; nra. }
  rewrite (@weight_scale Rltb) //.
  { move=> a b. apply Bool.eq_iff_eq_true. rewrite !Rltb_spec. split; nra. }
  rewrite /weight_within /weight_inside in H2 H3. split; nra.
Qed.
Lemma table_scale n r m rn k k' : (1 <= n)%nat -> 0 < k -> 0 < k' -> lagrange_table n r m rn ->
  lagrange_table n (map (fun a => a * k) r) (map (fun a => a * k') m) (map (fun a => a * k) rn).
Proof.
  move=> Hn Hk Hk' [H1 [H2 [[H3 H4] H5]]].
  have N : forall i, nth i (map (fun a => a * k) rn) 0 = nth i rn 0 * k.
  { move=> i. rewrite -{1}(Rmult_0_l k). apply (map_nth (fun a => a * k)). }
  split; [by rewrite map_length|]. split; [move=> i Hi; rewrite N; apply fraction_scale => //; exact (H2 i Hi)|].
  split; [rewrite N; split; [by apply (in_map (fun a => a * k))|]|].
  - move=> v /in_map_iff [w [<- Hw]]. have := H4 _ Hw. nra.
  - move=> i j Hij. rewrite !N. have := H5 _ _ Hij. nra.
Qed.
Lemma positive_mass s u : positive_scales G s -> 0 < in_Msun (unit_size G s u).
Proof. move=> [? [? [? [? [? [? [? [? ?]]]]]]]]; destruct u; rewrite /unit_size /wd_mass_in_msun /=; lra. Qed.

Lemma own_rescale p c d sa sb : 0 < in_pc sa -> 0 < in_pc sb -> aligned c -> c_ph d = rescale sa sb (c_ph c) -> c_origin d = c_origin c ->
  own_distances p d = map (fun a => a * (in_pc sa / in_pc sb)) (own_distances p c).
Proof.
  move=> Ha Hb HL Ep Eo. rewrite /own_distances /nstars Ep. cbn [rescale p_m]. rewrite map_length map_map.
  apply map_ext => k. rewrite /own_distance /own_centre Ep Eo /rescale. cbn.
  have K : 0 < in_pc sa / in_pc sb by apply Rdiv_lt_0_compat.
  have N : forall l, nth k (map (rsc (in_pc sa) (in_pc sb)) l) 0 = nth k l 0 * (in_pc sa / in_pc sb).
  { move=> l. rewrite -{1}(Rmult_0_l (in_pc sa / in_pc sb)). apply (map_nth (fun a => a * (in_pc sa / in_pc sb))). }
  rewrite !N /rsc. move: (in_pc sa / in_pc sb) K {N} => q K.
  have Q : forall x, 0 <= x -> sqrt x * q = sqrt (x * (q * q)).
  { move=> x Hx. rewrite sqrt_mult //; [nra|]. rewrite sqrt_square //. lra. }
  have P : forall x, 0 <= x * (x * 1) by move=> x; nra.
  destruct (c_origin c) as [[]|], p; rewrite Q;
    try (repeat (apply Rplus_le_le_0_compat); try apply P; lra); f_equal; ring.
Qed.

Lemma distances_2d_own p c : aligned c -> c_origin c <> Some Ogalaxy -> p = true -> distances_2d c = own_distances p c.
Proof.
  move=> HL Ho ->. rewrite distances_2d_list // /own_distances /own_distance /own_centre. apply map_ext => k.
  destruct (c_origin c) as [[]|]; try (by case: Ho); cbn; f_equal; ring.
Qed.

Theorem rlagrange_units n p c u u' o : ready G c u o -> linear u' -> positive_scales G (c_sc c) -> aligned c -> well_sorted p c ->
  (p = true -> c_origin c <> Some Ogalaxy) -> (1 <= n)%nat -> nonneg (p_m (c_ph c)) -> 0 < sumR (p_m (c_ph c)) ->
  exists rn rn' c1 c2, rlagrange G n p c = Ok (rn, c1) /\ rlagrange G n p (to_units G (Ureq u') c) = Ok (rn', c2) /\
    map (fun a => a * in_pc (unit_size G (c_sc c) u')) rn' = map (fun a => a * in_pc (unit_size G (c_sc c) u)) rn.
Proof.
  move=> HR Hl' HP HL HW Hp Hn Hm Hs. have [HS [Hu [Hl [Ho Hf]]]] := HR. have [HA [_ HW2]] := HW.
  have [rn [c1 [A1 [A2 A3]]]] := rlagrange_correct HR HP HL HW Hp Hn Hm Hs.
  have [V1 [V2 [V3 [V4 [V5 V6]]]]] := to_units_view HR Hl'.
  have F := skel_eq_fields (to_units_lin HS Hu Hl Hl').
  have VU := vord_units HP HR Hl' (settled_vord Ho HW).
  have K := kp_units HS Hu Hl Hl'.
  have SA : analyze true true (to_units G (Ureq u') c) = to_units G (Ureq u') c.
  { destruct (to_units_full_eq HS Hu Hl Hl') as [-> | ->] => //. by rewrite analyze_idem. }
  move: (to_units G (Ureq u') c) V1 V2 V3 V4 V5 V6 F VU K SA => d V1 V2 V3 V4 V5 V6 F VU K SA.
  destruct F as [_ [F2 [_ [_ [F5 _]]]]]. have {F2} Od : c_origin d = Some o by have [_ [_ [_ [? _]]]] := V2.
  set za := unit_size G (c_sc c) u in F5 *. set zb := unit_size G (c_sc c) u' in F5 *.
  cbn in F5.
  have Pa : 0 < in_pc za by apply positive_size. have Pb : 0 < in_pc zb by apply positive_size.
  have Ma : 0 < in_Msun za by apply positive_mass. have Mb : 0 < in_Msun zb by apply positive_mass.
  have Kp : 0 < in_pc za / in_pc zb by apply Rdiv_lt_0_compat.
  have Km : 0 < in_Msun za / in_Msun zb by apply Rdiv_lt_0_compat.
  have E : own_distances p d = map (fun a => a * (in_pc za / in_pc zb)) (own_distances p c).
  { apply own_rescale => //. by rewrite Od Ho. }
  have Em : p_m (c_ph d) = map (fun a => a * (in_Msun za / in_Msun zb)) (p_m (c_ph c)) by rewrite F5.
  have Ld : aligned d by rewrite /aligned F5 /= !map_length.
  have Wd : well_sorted p d.
  { have [W1 [W3 _]] := vord_well Od SA VU. split => //. split => // Hpt. have [rp [P1 P2]] := HW2 Hpt.
    have [|K1 K2] := K _ P1.
    { rewrite /proorder_ok -distances_2d_eq. destruct P2 as [P2 _]. by rewrite (Permutation_length P2) seq_length. }
    exists rp. split => //. rewrite (distances_2d_own Ld _ Hpt) ?Od -?Ho; [by apply Hp|]. rewrite E. apply sorted_order_scale => //.
    rewrite -(distances_2d_own HL _ Hpt) //. by apply Hp. }
  have [| | | |rn2 [c2 [B1 [B2 B3]]]] := @rlagrange_correct n p d u' o V2 _ Ld Wd _ Hn.
  { by rewrite V3. } { by rewrite Od -Ho. } { rewrite Em => a /in_map_iff [b [<- Hb]]. have := Hm b Hb. nra. }
  { rewrite Em sumR_map_mul. nra. }
  exists rn, rn2, c1, c2. split => //. split => //.
  have T := table_scale Hn Kp Km A2. rewrite -E -Em in T.
  have -> : rn2 = map (fun a => a * (in_pc za / in_pc zb)) rn.
  { apply (@table_unique n (own_distances p d) (p_m (c_ph d))) => //; [apply own_distances_length| |].
    - rewrite Em => a /in_map_iff [b [<- Hb]]. have := Hm b Hb. nra.
    - rewrite Em sumR_map_mul. nra. }
  rewrite map_map. apply map_ext => a. field. lra.
Qed.
End S.
