(* Proofs: the cluster built by sub_cluster, continued. *)
From Coq Require Import Sorted.
From Verif Require Import Base ModelCluster ModelOps ModelConv ModelEnergy ModelRecipes ModelStars ModelSubset.
From Verif Require Import SpecStars SpecSubset SpecRecipes SpecOrder ProofsUnits ProofsFrame ProofsEnergy ProofsRecipes ProofsRecipes2 ProofsStars ProofsStars2 ProofsStars3 ProofsStars5 ProofsSubset ProofsSubset2.
Set Implicit Arguments. Unset Strict Implicit.

Lemma add_sky_bin s c : c_bunits (add_sky_rows s c) = c_bunits c /\ c_bin (add_sky_rows s c) = c_bin c.
Proof. rewrite /add_sky_rows. destruct (c_units c) as [[]|], (c_origin c) as [[]|]; by split. Qed.
Lemma analyze_bin sort p c : c_bunits (analyze sort p c) = c_bunits c /\ c_bin (analyze sort p c) = c_bin c.
Proof.
  rewrite /analyze /analyze_fracs /sortstars. destruct sort.
  - destruct (d_rorder (c_der (analyze_radii c))) as [o|]; [|by destruct (if p then _ else _)].
    destruct (_ && _); cbn; by destruct (if p then _ else _).
  - by destruct (d_rorder (c_der (analyze_radii c))); destruct (d_rproorder (c_der (analyze_radii c))).
Qed.


(* build_sub after add_stars *)
Definition build_rest (msk : list bool) (s : system) (k1 : catalog) : result system :=
  let k := y_k s in let c := g_c k in let sc := c_sc c in let g := p_g (c_ph c) in let xc := p_c (c_ph c) in
  bind (if Nat.eqb (length (sx (k_s (c_sky c)))) (length (sx (p_s (c_ph c))))
        then bind (masked6 msk (k_s (c_sky c))) (fun r => Ok (with_stars_sky k1 r)) else Ok k1) (fun k2 =>
  let k3 := add_nbody6 (rbar sc) (sx xc) (sy xc) (sz xc) (zmbar sc) (vbar sc) (tbar sc) (Z.to_nat (g_ns k)) (c_nb c) k2 in
  bind (copy_sse msk k k3) (fun k4 =>
  bind (copy_bse msk k k4) (fun k5 =>
  bind (if Nat.ltb 0 (length (y_etot s))
        then bind (masked msk (y_kin s)) (fun kin => bind (masked msk (y_pot s)) (fun pot =>
             let e := add_energies kin pot in Ok (e_kin e, e_pot e, e_etot e)))
        else Ok ([], [], [])) (fun r => let '(kin, pot, etot) := r in
  let k6 := set_cluster k5 (copy_centre c (store_orbit g (g_c k5))) in
  Ok (mkSys k6 kin pot etot))))).
Lemma build_sub_eq sort msk s : build_sub sort msk s =
  bind (selected_args msk (y_k s)) (fun a => let c := g_c (y_k s) in
  bind (add_stars 0 a sort true true (init_catalog (init_cluster (p_t (c_ph c)) (c_units c) (c_origin c) (ro (c_sc c)) (vo (c_sc c))))) (build_rest msk s)).
Proof. reflexivity. Qed.

Lemma build_rest_ok sort msk s n k1 c1 : complete s n -> length msk = n -> (1 <= count msk)%nat ->
  (let k := y_k s in let c := g_c k in
   g_c k1 = analyze sort true c1 /\ c_bunits (g_c k1) = option_map Bu (c_units c) /\ c_bin (g_c k1) = mkB [] [] [] [] /\
   c_der c1 = empty_derived /\ p_s (c_ph c1) = map6 (select msk) (p_s (c_ph c)) /\ p_m (c_ph c1) = select msk (p_m (c_ph c)) /\
   c_origin c1 = c_origin c /\ p_s (c_ph (g_c k1)) = map6 (select msk) (p_s (c_ph c)) /\
   p_m (c_ph (g_c k1)) = select msk (p_m (c_ph c)) /\ c_id (g_c k1) = select msk (c_id c) /\
   c_units (g_c k1) = c_units c /\ c_origin (g_c k1) = c_origin c /\ p_t (c_ph (g_c k1)) = p_t (c_ph c) /\
   (ro (c_sc (g_c k1)) = ro (c_sc c) /\ vo (c_sc (g_c k1)) = vo (c_sc c)) /\
   g_m0 k1 = select msk (g_m0 k) /\ g_npop k1 = select msk (g_npop k) /\ g_sse k1 = init_sse /\ g_bse k1 = init_bse /\
   g_ntot k1 = count msk) ->
  exists sub, build_rest msk s k1 = Ok sub /\ let k := y_k s in let k' := y_k sub in
    columns_of k' = mkCol (select msk (c_id (g_c k))) (select msk (p_m (c_ph (g_c k)))) (map6 (select msk) (p_s (c_ph (g_c k))))
                          (select msk (g_m0 k)) (select msk (g_npop k)) /\
    g_ntot k' = count msk /\ parent_data s (g_c k') /\ c_bunits (g_c k') = option_map Bu (c_units (g_c k)) /\
    g_ns k' = Z.of_nat (Z.to_nat (g_ns k)) /\
    (f_id2 (g_bse k) = [] -> c_nb (g_c k') = c_nb (g_c k)) /\
    (f_id2 (g_bse k) <> [] -> let B := bin_mask msk k in let p := c_bin (g_c k) in let q' := c_bin (g_c k') in
       b_semi q' = select B (b_semi p) /\ b_pb q' = select B (b_pb p) /\
       b_m1 q' = select B (b_m1 p) /\ b_m2 q' = select B (b_m2 p) /\ f_id1 (g_bse k') = select B (f_id1 (g_bse k)) /\
       f_id2 (g_bse k') = select B (f_id2 (g_bse k))) /\
    (let e := g_sse k in let e' := g_sse k' in
     (e_kw e <> [] -> e_kw e' = select msk (e_kw e)) /\ (e_kw e = [] -> e_kw e' = [] ) /\
     (e_logl e <> [] -> e_logl e' = select msk (e_logl e) /\ e_logr e' = select msk (e_logr e) /\
                        e_lum e' = map pow10 (select msk (e_logl e)))) /\
    (y_etot s <> [] -> y_kin sub = select msk (y_kin s) /\ y_pot sub = select msk (y_pot s) /\
       y_etot sub = zip_with (fun a p => nadd (Some a) p) (select msk (y_kin s)) (select msk (y_pot s))) /\
    (y_etot s = [] -> y_etot sub = []) /\
    exists c1, (c_der c1 = empty_derived /\ p_s (c_ph c1) = map6 (select msk) (p_s (c_ph (g_c k))) /\
                p_m (c_ph c1) = select msk (p_m (c_ph (g_c k))) /\ c_origin c1 = c_origin (g_c k)) /\
      c_der (g_c k') = c_der (analyze sort true c1).
Proof.
  move=> [M [SS [ES [[b BS] SK]]]] L CM. have [AL [NT [_ [_ [_ [_ [_ [KW _]]]]]]]] := M.
  have [S6 [Lm [Li [L0 Lp]]]] := AL.
  rewrite /build_rest. set k := y_k s. set c := g_c k.
  move=> [EC1 [BU [BI [SKD [C1s [C1m [C1o [A1 [A2 [A3 [A4 [A5 [A6 [A7 [N1 [N2 [N3 [N4 N5]]]]]]]]]]]]]]]]]].
  (* sky arrays *)
  have [sk2 E2] : exists k2sky, (if Nat.eqb (length (sx (k_s (c_sky c)))) (length (sx (p_s (c_ph c))))
        then bind (masked6 msk (k_s (c_sky c))) (fun r => Ok (with_stars_sky k1 r)) else Ok k1) = Ok (with_stars_sky k1 k2sky).
  { have Lx : length (sx (p_s (c_ph c))) = n by case: S6.
    rewrite Lx. destruct SK as [SK|SK].
    - have -> : Nat.eqb (length (sx (k_s (c_sky c)))) n = false by apply Nat.eqb_neq.
      exists (k_s (c_sky (g_c k1))). by destruct k1 as [[? ? ? ? ? ? ? [] ? ?]].
    - have -> : Nat.eqb (length (sx (k_s (c_sky c)))) n = true by apply Nat.eqb_eq; case: SK.
      rewrite (masked6_ok L SK). cbn [bind]. by eexists. }
  rewrite E2. cbn [bind]. set k3 := add_nbody6 _ _ _ _ _ _ _ _ _ _.
  have [e' [E4 HE]] := @copy_sse_ok msk s n k3 L SS KW N3. rewrite E4. cbn [bind]. set k4 := mkCat _ _ _ _ _ _ _ _.
  have [nb' [q' [eb [E5 [HB1 HB2]]]]] := @copy_bse_ok msk s n b k4 L Li BS N4 BI. rewrite E5. cbn [bind].
  have [kin [pot [et [E6 [H6 H7]]]]] : exists kin pot et, (if Nat.ltb 0 (length (y_etot s))
        then bind (masked msk (y_kin s)) (fun kin => bind (masked msk (y_pot s)) (fun pot =>
             let e := add_energies kin pot in Ok (e_kin e, e_pot e, e_etot e)))
        else Ok ([], [], [])) = Ok (kin, pot, et) /\
      (y_etot s <> [] -> kin = select msk (y_kin s) /\ pot = select msk (y_pot s) /\
        et = zip_with (fun a p => nadd (Some a) p) (select msk (y_kin s)) (select msk (y_pot s))) /\ (y_etot s = [] -> et = []).
  { destruct ES as [ES|[ES1 ES2]].
    - rewrite ES. by exists [], [], [].
    - destruct (y_etot s) as [|z t] eqn:EE; [by exists [], [], []|].
      rewrite !masked_ok ?L //. cbn. by eexists _, _, _. }
  rewrite E6. cbn [bind]. eexists. split; [reflexivity|]. cbn zeta. cbn [y_k y_kin y_pot y_etot].
  set k5 := with_bin k4 nb' q' eb.
  have [F1 [F2 [F3 [F4 [F5 [F6 [F7 [F8 F9]]]]]]]] := store_orbit_fields (p_g (c_ph c)) (g_c k5).
  set so := store_orbit (p_g (c_ph c)) (g_c k5) in F1 F2 F3 F4 F5 F6 F7 F8 F9 |- *.
  split.
  { rewrite /columns_of /set_cluster /copy_centre; cbn [g_c set_sky set_ph c_id c_ph p_m p_s g_m0 g_npop]. rewrite F5 F9.
    cbn [p_m p_s]. have -> : c_id (g_c k5) = c_id (g_c k1) by []. have -> : p_m (c_ph (g_c k5)) = p_m (c_ph (g_c k1)) by [].
    have -> : p_s (c_ph (g_c k5)) = p_s (c_ph (g_c k1)) by []. rewrite A1 A2 A3.
    have -> : g_m0 k5 = g_m0 k1 by []. have -> : g_npop k5 = g_npop k1 by []. by rewrite N1 N2. }
  split; [exact: N5|]. split.
  { rewrite /parent_data /set_cluster /copy_centre; cbn [g_c set_sky set_ph c_units c_origin c_ph p_t p_c p_g c_sc].
    rewrite F1 F2 F5 F6. cbn [p_t p_g]. case: A7 => SC1 SC2.
    split; [exact: A4|]. split; [exact: A5|]. split; [exact: A6|]. do 6 (split; [done|]). split; [exact: SC1|exact: SC2]. }
  split; [rewrite /set_cluster /copy_centre; cbn [g_c set_sky set_ph c_bunits]; rewrite F3; exact: BU|].
  split; [done|].
  split; [move=> Q; rewrite /set_cluster /copy_centre; cbn [g_c set_sky set_ph c_nb]; rewrite F4; exact: (HB1 Q)|].
  split; [move=> Q; rewrite /set_cluster /copy_centre; cbn [g_c set_sky set_ph c_bin g_bse]; rewrite F7; by case: (HB2 Q) => _ [_ R]|].
  split; [exact: HE|]. split; [exact: H6|]. split; [exact: H7|].
  exists c1. split; [done|]. rewrite /set_cluster /copy_centre; cbn [g_c set_sky set_ph c_der]. rewrite F8. exact: (f_equal c_der EC1).
Qed.

Theorem build_ok sort msk s n : complete s n -> length msk = n -> (1 <= count msk)%nat ->
  exists sub, build_sub sort msk s = Ok sub /\ let k := y_k s in let k' := y_k sub in
    columns_of k' = mkCol (select msk (c_id (g_c k))) (select msk (p_m (c_ph (g_c k)))) (map6 (select msk) (p_s (c_ph (g_c k))))
                          (select msk (g_m0 k)) (select msk (g_npop k)) /\
    g_ntot k' = count msk /\ parent_data s (g_c k') /\ c_bunits (g_c k') = option_map Bu (c_units (g_c k)) /\
    g_ns k' = Z.of_nat (Z.to_nat (g_ns k)) /\
    (f_id2 (g_bse k) = [] -> c_nb (g_c k') = c_nb (g_c k)) /\
    (f_id2 (g_bse k) <> [] -> let B := bin_mask msk k in let p := c_bin (g_c k) in let q' := c_bin (g_c k') in
       b_semi q' = select B (b_semi p) /\ b_pb q' = select B (b_pb p) /\
       b_m1 q' = select B (b_m1 p) /\ b_m2 q' = select B (b_m2 p) /\ f_id1 (g_bse k') = select B (f_id1 (g_bse k)) /\
       f_id2 (g_bse k') = select B (f_id2 (g_bse k))) /\
    (let e := g_sse k in let e' := g_sse k' in
     (e_kw e <> [] -> e_kw e' = select msk (e_kw e)) /\ (e_kw e = [] -> e_kw e' = [] ) /\
     (e_logl e <> [] -> e_logl e' = select msk (e_logl e) /\ e_logr e' = select msk (e_logr e) /\
                        e_lum e' = map pow10 (select msk (e_logl e)))) /\
    (y_etot s <> [] -> y_kin sub = select msk (y_kin s) /\ y_pot sub = select msk (y_pot s) /\
       y_etot sub = zip_with (fun a p => nadd (Some a) p) (select msk (y_kin s)) (select msk (y_pot s))) /\
    (y_etot s = [] -> y_etot sub = []) /\
    exists c1, (c_der c1 = empty_derived /\ p_s (c_ph c1) = map6 (select msk) (p_s (c_ph (g_c k))) /\
                p_m (c_ph c1) = select msk (p_m (c_ph (g_c k))) /\ c_origin c1 = c_origin (g_c k)) /\
      c_der (g_c k') = c_der (analyze sort true c1).
Proof.
  move=> CO L CM. have [M _] := CO. have [AL _] := M.
  have [S6 [Lm [Li [L0 Lp]]]] := AL.
  rewrite build_sub_eq /selected_args. set k := y_k s. set c := g_c k.
  rewrite (masked6_ok L S6). cbn [bind]. rewrite (@masked_ok _ msk (p_m (c_ph c))) ?L //. cbn [bind].
  rewrite (@masked_ok _ msk (c_id c)) ?L //. cbn [bind]. rewrite (@masked_ok _ msk (g_m0 k)) ?L //. cbn [bind].
  rewrite (@masked_ok _ msk (g_npop k)) ?L //. cbn [bind].
  set s6 := map6 (select msk) (p_s (c_ph c)).
  have LS : six_length s6 (count msk) by apply (select6_length L S6).
  cbn zeta. rewrite (@add_new _ _ _ _ _ s6 _ _ _ _ sort (count msk)) ?select_length ?L //. cbn [bind].
  set c0 := init_cluster _ _ _ _ _. set k1 := new_catalog _ _ _ _ _ _ _ _.
  set c1 := add_sky_rows s6 (put_cluster c0 (mkCol (select msk (c_id c)) (select msk (p_m (c_ph c))) s6 (select msk (g_m0 k)) (select msk (g_npop k))) 0).
  have EC1 : g_c k1 = analyze sort true c1 by [].
  have [P1 [P2 [P3 [P4 [P5 P6]]]]] := sky_ph s6 (put_cluster c0 (mkCol (select msk (c_id c)) (select msk (p_m (c_ph c))) s6 (select msk (g_m0 k)) (select msk (g_npop k))) 0).
  have [Q1 [Q2 [Q3 [Q4 [Q5 [Q6 Q7]]]]]] := analyze_ph sort true c1.
  have BU : c_bunits (g_c k1) = option_map Bu (c_units c).
  { rewrite EC1. case: (analyze_bin sort true c1) => -> _. by case: (add_sky_bin s6 (put_cluster c0 (mkCol (select msk (c_id c)) (select msk (p_m (c_ph c))) s6 (select msk (g_m0 k)) (select msk (g_npop k))) 0)) => ->. }
  have BI : c_bin (g_c k1) = mkB [] [] [] [].
  { rewrite EC1. case: (analyze_bin sort true c1) => _ ->. by case: (add_sky_bin s6 (put_cluster c0 (mkCol (select msk (c_id c)) (select msk (p_m (c_ph c))) s6 (select msk (g_m0 k)) (select msk (g_npop k))) 0)) => _ ->. }
  have SKD : c_der c1 = empty_derived by rewrite /c1 sky_der.
  have C1s : p_s (c_ph c1) = s6 by rewrite /c1 P1.
  have C1m : p_m (c_ph c1) = select msk (p_m (c_ph c)) by rewrite /c1 P1.
  have C1o : c_origin c1 = c_origin c by rewrite /c1 P5.
  have A1 : p_s (c_ph (g_c k1)) = s6 by rewrite EC1 Q1 P1.
  have A2 : p_m (c_ph (g_c k1)) = select msk (p_m (c_ph c)) by rewrite EC1 Q1 P1.
  have A3 : c_id (g_c k1) = select msk (c_id c) by rewrite EC1 Q2 P2.
  have A4 : c_units (g_c k1) = c_units c by rewrite EC1 Q4 P4.
  have A5 : c_origin (g_c k1) = c_origin c by rewrite EC1 Q5 P5.
  have A6 : p_t (c_ph (g_c k1)) = p_t (c_ph c) by rewrite EC1 Q1 P1.
  have A7 : ro (c_sc (g_c k1)) = ro (c_sc c) /\ vo (c_sc (g_c k1)) = vo (c_sc c) by rewrite EC1 Q6 P6.
  have [N1 [N2 [N3 [N4 N5]]]] : g_m0 k1 = select msk (g_m0 k) /\ g_npop k1 = select msk (g_npop k) /\ g_sse k1 = init_sse /\ g_bse k1 = init_bse /\ g_ntot k1 = count msk by rewrite /k1 /new_catalog; cbn [g_m0 g_npop g_sse g_bse g_ntot].
  apply (@build_rest_ok sort msk s n k1 c1 CO L CM). cbn zeta. do 18 (split; [assumption|]). exact N5.
Qed.
