(* Proofs: what a cluster read from an NBODY6++ HDF5 snapshot shows. *)
From Coq Require Import String Ascii.
From Verif Require Import Base ModelCluster ModelOps ModelRecipes ModelEnergy ModelStars ModelLoad ModelDynamics ModelNbody6 ModelNbody6pp ModelHdf5.
From Verif Require Import SpecUnits SpecStars SpecRecipes SpecHdf5 ProofsUnits ProofsRecipes ProofsRecipes2 ProofsStars ProofsHdf5.
Set Implicit Arguments. Unset Strict Implicit.
Open Scope list_scope. Open Scope R_scope.

Lemma nth_parts {A B C} (f : A -> C) (g : B -> C) l r i d :
  nth i (map f l ++ map g r) d =
  match nth_error l i with Some b => f b | None => match nth_error r (i - length l) with Some a => g a | None => d end end.
Proof.
  case: (lt_dec i (length l)) => H.
  - rewrite app_nth1; [by rewrite map_length|]. case E : (nth_error l i) => [b|]; [|by apply nth_error_None in E; lia].
    apply nth_error_nth. by rewrite nth_error_map E.
  - rewrite app_nth2; [rewrite map_length; lia|]. rewrite map_length. have -> : nth_error l i = None by apply nth_error_None; lia.
    case E : (nth_error r (i - length l)) => [a|]; [apply nth_error_nth; by rewrite nth_error_map E|].
    apply nth_overflow. rewrite map_length. by apply nth_error_None.
Qed.
Lemma nth_error_parts {A B C} (f : A -> C) (g : B -> C) l r i :
  nth_error (map f l ++ map g r) i =
  match nth_error l i with Some b => Some (f b) | None => match nth_error r (i - length l) with Some a => Some (g a) | None => None end end.
Proof.
  case: (lt_dec i (length l)) => H.
  - rewrite nth_error_app1; [by rewrite map_length|]. rewrite nth_error_map. case E : (nth_error l i) => [b|]; [done|by apply nth_error_None in E; lia].
  - rewrite nth_error_app2; [rewrite map_length; lia|]. rewrite map_length nth_error_map. have -> : nth_error l i = None by apply nth_error_None; lia.
    by case: (nth_error r _).
Qed.
Lemma nth_vdiv l k i : k <> 0 -> nth i (vdiv l k) 0 * k = nth i l 0.
Proof.
  move=> H. rewrite /vdiv. have Z0 : 0 / k = 0 by field. rewrite -{1}Z0 map_nth. by field.
Qed.
Lemma map_mul_vdiv k l : k <> 0 -> map (Rmult k) (vdiv l k) = l.
Proof. move=> H. rewrite /vdiv map_map -{2}(map_id l). apply map_ext => a. by field. Qed.
Lemma places_maps {C} (f : six R -> C) s :
  map f (places_in s) = map (fun b => f (hb_com b)) (the_pairs s) ++ map (fun a => f (hs_p a)) (n_alone s).
Proof. by rewrite /places_in map_app !map_map. Qed.

(* a cluster in pc and km/s with the content of a group *)
Definition holds_group (s : hstep) (nb : nat) (t : R) (cen : six R) (sc : scales) (c : cluster) : Prop :=
  c_units c = Some Upckms /\ c_origin c = Some Ocluster /\
  c_bunits c = (match n_pairs s with Some _ => Some Baudays | None => Some (Bu Upckms) end) /\ c_nb c = twice_nb nb s /\
  c_ph c = mkP t (masses_in s) (six_lists (places_in s)) cen zero6 /\ c_sc c = sc /\ c_bin c = bin_in s /\ c_id c = ids_in s.
Definition given_scales (sc : scales) : Prop := zmbar sc <> 0 /\ rbar sc <> 0 /\ vbar sc <> 0 /\ tbar sc <> 0.
Definition pots_in (s : hstep) : list R := map hb_pot (the_pairs s) ++ map hs_pot (n_alone s).
Definition finish_h5 (s : hstep) (o : h5_opts) (k : catalog) (c5 : cluster) : catalog :=
  let c6 := pckms_cluster_to_nbody c5 in
  let c7 := match n_pairs s with Some _ => set_nb (length (the_pairs s)) c6 | None => c6 end in
  set_cluster k (if y_analyze o && Nat.ltb 0 (g_ntot k) then analyze (y_sort o) false c7 else c7).
Lemma finish_fields s o k c5 : exists c7, c7 = (match n_pairs s with Some _ => set_nb (length (the_pairs s)) (pckms_cluster_to_nbody c5) | None => pckms_cluster_to_nbody c5 end) /\
  skel (g_c (finish_h5 s o k c5)) = skel c7 /\ g_sse (finish_h5 s o k c5) = g_sse k /\ g_bse (finish_h5 s o k c5) = g_bse k /\
  g_ntot (finish_h5 s o k c5) = g_ntot k /\ g_b (finish_h5 s o k c5) = g_b k /\ g_ns (finish_h5 s o k c5) = g_ns k.
Proof.
  eexists. split; [reflexivity|]. unfold finish_h5. cbn [g_c set_cluster g_sse g_bse g_ntot g_b g_ns].
  split; [|by repeat split]. destruct (_ && _); [by rewrite skel_analyze|done].
Qed.
Lemma bin_to_nbody_ph c : c_ph (bin_to_nbody c) = c_ph c /\ c_units (bin_to_nbody c) = c_units c /\ c_origin (bin_to_nbody c) = c_origin c /\
  c_sc (bin_to_nbody c) = c_sc c /\ c_nb (bin_to_nbody c) = c_nb c /\ c_id (bin_to_nbody c) = c_id c /\ c_sky (bin_to_nbody c) = c_sky c.
Proof. rewrite /bin_to_nbody. by destruct (c_bunits c) as [[]|] => //; destruct (Nat.ltb 0 (c_nb c)). Qed.
Lemma finished s o nb t cen sc c5 k bse v :
  holds_group s nb t cen sc c5 -> given_scales sc -> (n_pairs s = None -> nb = 0%nat) -> luminous s -> t = n_time s * tbar sc ->
  g_sse k = mkSse (kws_in s) (logl_in s) (rs_in s) (map pow10 (logl_in s)) (repeat 0 (length (kws_in s))) (repeat 0 (length (kws_in s))) (sumR (map pow10 (logl_in s))) ->
  g_ntot k = length (places_in s) -> g_bse k = bse -> f_ecc bse = map hb_ecc (the_pairs s) -> f_id1 bse = map hb_id1 (the_pairs s) -> f_id2 bse = map hb_id2 (the_pairs s) ->
  h5_cat v = finish_h5 s o k c5 -> h5_pots v = pots_in s ->
  shows s v /\ c_sc (g_c (h5_cat v)) = sc /\
  p_c (c_ph (g_c (h5_cat v))) = mk6 (sx cen / rbar sc) (sy cen / rbar sc) (sz cen / rbar sc) (svx cen / vbar sc) (svy cen / vbar sc) (svz cen / vbar sc) /\
  g_b (h5_cat v) = g_b k /\ g_ns (h5_cat v) = g_ns k /\
  (the_pairs s <> [] -> rbar_au sc <> 0 -> tbar_days sc <> 0 -> shows_pairs s v (rbar_au sc) (tbar_days sc)).
Proof.
  move=> [H1 [H2 [H3 [H4 [H5 [H6 [H7 H8]]]]]]] [Z1 [Z2 [Z3 Z4]]] NB [LU1 LU2] Et ES EN EB B1 B2 B3 EV EP.
  have [c7 [D7 [SK [S1 [S2 [S3 [S4 S5]]]]]]] := @finish_fields s o k c5.
  rewrite -EV in SK S1 S2 S3 S4 S5. apply skel_eq_fields in SK. destruct SK as [K1 [K2 [K3 [K4 [K5 [K6 [K7 [K8 K9]]]]]]]].
  have Q : c_units c7 = Some Unbody /\ c_origin c7 = Some Ocluster /\ c_ph c7 = pckms_to_nbody sc (c_ph c5) /\ c_sc c7 = sc /\ c_id c7 = ids_in s /\
           c_nb c7 = length (the_pairs s).
  { rewrite D7 /pckms_cluster_to_nbody H6. set c6 := set_ph _ _ _. have [P1 [P2 [P3 [P4 [P5 [P6 P7]]]]]] := bin_to_nbody_ph c6.
    rewrite /set_nb /the_pairs. destruct (n_pairs s) eqn:EQ; cbn [c_units c_origin c_ph c_sc c_id c_nb];
      rewrite ?P1 ?P2 ?P3 ?P4 ?P5 ?P6 /c6; cbn [set_ph c_units c_origin c_ph c_sc c_id c_nb]; rewrite ?H4 ?H8; try done.
    rewrite /twice_nb EQ NB //. }
  destruct Q as [Q1 [Q2 [Q3 [Q4 [Q5 Q6]]]]].
  have PH : c_ph (g_c (h5_cat v)) = pckms_to_nbody sc (mkP t (masses_in s) (six_lists (places_in s)) cen zero6) by rewrite K5 Q3 H5.
  have LP : length (places_in s) = length (entries s) by rewrite /places_in /entries !app_length !map_length.
  split; [|split; [by rewrite K6|split; [by rewrite PH|split; [done|split; [done|]]]]].
  - unfold shows. cbn zeta. rewrite K1 K2 K4 Q1 Q2 Q6 S3 EN K9 Q5 PH EP LP.
    split; [done|]. split; [done|]. split; [done|]. split; [done|].
    split; [cbn; rewrite Et; by field|].
    split; [by rewrite -LP /ids_in /places_in !app_length !map_length|].
    split; [by rewrite -LP /pckms_to_nbody /vdiv /masses_in /places_in; cbn [p_m]; rewrite map_length !app_length !map_length|].
    split; [by rewrite -LP /pckms_to_nbody /vdiv /six_lists /map6; cbn [p_s sx sy sz svx svy svz]; rewrite !map_length|].
    split; [by rewrite -LP /pots_in /places_in !app_length !map_length|].
    move=> i Hi. rewrite /shown. cbn zeta. rewrite K6 Q4 K9 Q5 PH S1 ES EP /pckms_to_nbody /six_lists.
    cbn [p_m p_s sx sy sz svx svy svz e_kw e_lum e_logr]. rewrite !nth_vdiv //.
    rewrite !places_maps /ids_in /masses_in /kws_in /logl_in /rs_in /pots_in map_app !map_map !nth_parts /entries nth_error_parts.
    case E : (nth_error (the_pairs s) i) => [b|].
    + do 2 f_equal; [by destruct (hb_com b)|]. have [L1 L2] := LU2 b (nth_error_In _ _ E).
      rewrite (pow10_log10 L1) (pow10_log10 L2) pow10_log10; lra.
    + case E' : (nth_error (n_alone s) _) => [a|].
      * do 2 f_equal; [by destruct (hs_p a)|]. by rewrite pow10_log10 //; apply LU1, (nth_error_In _ _ E').
      * apply nth_error_None in E, E'. rewrite /entries app_length !map_length in Hi. lia.
  - move=> NE Za Zd. unfold shows_pairs. cbn zeta. rewrite S2 EB K3 K6 K7 Q4.
    have NP : exists l, n_pairs s = Some l /\ the_pairs s = l by move: NE; rewrite /the_pairs; destruct (n_pairs s) as [l|] => // NE; exists l.
    destruct NP as [l [NP1 NP2]].
    have BB : c_bunits c7 = Some (Bu Unbody) /\ c_bin c7 = mkB (vdiv (map hb_a l) (rbar_au sc)) (vdiv (map hb_P l) (tbar_days sc)) (vdiv (map hb_m1 l) (zmbar sc)) (vdiv (map hb_m2 l) (zmbar sc)).
    { rewrite D7 NP1 /pckms_cluster_to_nbody /bin_to_nbody. cbn [set_nb set_ph c_bunits c_nb c_bin c_sc]. rewrite H3 NP1 H4 /twice_nb NP1 H6 H7 /bin_in NP2.
      destruct l as [|b l]; [congruence|]. have -> : Nat.ltb 0 (length (b :: l) + length (b :: l)) = true by apply Nat.ltb_lt; cbn; lia.
      split; reflexivity. }
    destruct BB as [-> ->]. cbn [b_semi b_pb b_m1 b_m2]. rewrite NP2 !map_mul_vdiv // B1 B2 B3 NP2. by repeat split.
Qed.
