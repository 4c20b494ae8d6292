(* Proofs: sub_cluster with a new centre. *)
From Coq Require Import Sorted.
From Verif Require Import Base ModelCluster ModelOps ModelConv ModelEnergy ModelRecipes ModelCoords ModelStars ModelSubset ModelCentre ModelDynamics ModelReset.
From Verif Require Import SpecUnits SpecFrame SpecStars SpecSubset SpecRecipes SpecOrder ProofsUnits ProofsFrame ProofsSees ProofsStars ProofsRecipes ProofsSubset ProofsSubset2 ProofsSubset3 ProofsSubset4
  ProofsCentre ProofsCentre2 ProofsCentre5 ProofsOrder ProofsSort.
Set Implicit Arguments. Unset Strict Implicit.

Lemma bind_bind {A B C} (x : result A) (f : A -> result B) (g : B -> result C) : bind (bind x f) g = bind x (fun a => bind (f a) g).
Proof. by destruct x. Qed.
Lemma bind_ext {A B} (x : result A) (f g : A -> result B) : (forall a, f a = g a) -> bind x f = bind x g.
Proof. move=> E. destruct x => //=. Qed.

(* an order of the stars, if there is one, sorts them by distance from the origin in use *)
Definition own_order (c : cluster) : Prop := forall r, d_rorder (c_der c) = Some r ->
  d_rorder_origin (c_der c) = c_origin c /\ sorted_order r (norm3 (sx (p_s (c_ph c))) (sy (p_s (c_ph c))) (sz (p_s (c_ph c)))).
Lemma own_order_vord c o : c_origin c = Some o -> own_order c -> vord c.
Proof. move=> Ho H r E. have [H1 H2] := H r E. exists o, o. rewrite H1. by rewrite /frad reorigin_id. Qed.
Lemma own_order_same c c' : own_order c -> c_der c' = c_der c -> c_origin c' = c_origin c -> p_s (c_ph c') = p_s (c_ph c) -> own_order c'.
Proof. move=> H E1 E2 E3 r. rewrite E1 E2 E3. exact: H. Qed.
Lemma own_order_analyze s c : own_order c -> own_order (analyze s true c).
Proof.
  move=> Hv. rewrite /own_order. have [_ [Eo [_ [_ [Ep _]]]]] := skel_eq_fields (skel_analyze s true c). rewrite Eo Ep.
  destruct s.
  - rewrite /analyze /analyze_fracs /sortstars /=. set rl := norm3 _ _ _.
    destruct (d_rorder (c_der c)) as [r0|] eqn:E.
    + destruct (oosys_eqb (d_rorder_origin (c_der c)) (c_origin c)) eqn:E1;
      destruct (Nat.eqb (length rl) (length r0)) eqn:E2 => /=.
      all: set D := (X in match X with Some _ => _ | None => _ end).
      all: destruct D as [rp|] => /= r [<-].
      all: try (by split; [|apply argsort_sorted]).
      all: by apply Hv.
    + rewrite oosys_eqb_refl /=. set D := (X in match X with Some _ => _ | None => _ end).
      destruct D as [rp|] => /= r [<-]; by split; [|apply argsort_sorted].
  - rewrite /analyze /analyze_fracs /=.
    destruct (d_rorder (c_der c)) eqn:E; destruct (d_rproorder (c_der c)) => /= r H; apply Hv; rewrite -H ?E //.
Qed.

Definition put_centre (s b : system) (c : cluster) : system := mkSys (set_cluster (y_k b) c) (y_kin b) (y_pot b) (y_etot b).
Lemma build_sub_stars sort msk s : build_sub sort msk s = bind (build_stars sort msk s) (fun b => let c := g_c (y_k s) in
  Ok (put_centre s b (copy_centre c (store_orbit (p_g (c_ph c)) (g_c (y_k b)))))).
Proof.
  rewrite /build_sub /build_stars. cbn zeta. do 6 (rewrite bind_bind; apply bind_ext => ?).
  match goal with |- context [let '(_, _) := ?r in _] => by destruct r as [[kin pot] etot] end.
Qed.

(* the cluster before its centre and orbit are set *)
Lemma stars_built sort msk s n : complete s n -> length msk = n -> (1 <= count msk)%nat ->
  exists b, build_stars sort msk s = Ok b /\ let c := g_c (y_k s) in let cb := g_c (y_k b) in
    build_sub sort msk s = Ok (put_centre s b (copy_centre c (store_orbit (p_g (c_ph c)) cb))) /\
    columns_of (y_k b) = masked_columns msk (y_k s) /\ g_ntot (y_k b) = count msk /\
    c_units cb = c_units c /\ c_origin cb = c_origin c /\ p_t (c_ph cb) = p_t (c_ph c) /\
    zmbar (c_sc cb) = zmbar (c_sc c) /\ rbar (c_sc cb) = rbar (c_sc c) /\ vbar (c_sc cb) = vbar (c_sc c) /\ tbar (c_sc cb) = tbar (c_sc c) /\
    ro (c_sc cb) = ro (c_sc c) /\ vo (c_sc cb) = vo (c_sc c) /\ own_order cb.
Proof.
  move=> CO L CM. have [sub [E [C1 [C2 [C3 [_ [_ [_ [_ [_ [_ [_ [c1 [[D1 [D2 [D3 D4]]] D5]]]]]]]]]]]]]] := @build_ok sort msk s n CO L CM.
  have OW0 : own_order (analyze sort true c1) by apply own_order_analyze => r; rewrite D1.
  have OW : own_order (g_c (y_k sub)).
  { apply (own_order_same OW0) => //; have [Q1 [Q2 [Q3 [Q4 [Q5 _]]]]] := analyze_ph sort true c1.
    - rewrite Q5 D4. exact (proj1 (proj2 C3)).
    - rewrite Q1 D2. exact (f_equal t_s C1). }
  have EB := E. rewrite build_sub_stars in EB. destruct (build_stars sort msk s) as [b|]; [|by []]. exists b. split=> //. cbn zeta.
  cbn [bind] in EB. have {}EB : put_centre s b (copy_centre (g_c (y_k s)) (store_orbit (p_g (c_ph (g_c (y_k s)))) (g_c (y_k b)))) = sub by congruence.
  subst sub. split=> //.
  have OB : own_order (g_c (y_k b)).
  { have [F1 [F2 [F3 [F4 [F5 [F6 [F7 [F8 F9]]]]]]]] := store_orbit_fields (p_g (c_ph (g_c (y_k s)))) (g_c (y_k b)).
    apply (own_order_same OW); rewrite /put_centre /copy_centre; cbn [y_k g_c set_cluster set_sky set_ph c_der c_origin c_ph p_s]; by rewrite ?F8 ?F2 ?F5. }
  have [F1 [F2 [F3 [F4 [F5 [F6 [F7 [F8 F9]]]]]]]] := store_orbit_fields (p_g (c_ph (g_c (y_k s)))) (g_c (y_k b)).
  move: C1 C2 C3 E. rewrite /columns_of /put_centre /copy_centre /parent_data /set_cluster.
  cbn [y_k g_c set_sky set_ph c_id c_ph c_units c_origin c_sc p_m p_s p_t p_c p_g g_m0 g_npop g_ntot]. rewrite F1 F2 F5 F6 F9. cbn [p_m p_s p_t].
  rewrite /masked_columns. move=> -> -> [-> [-> [-> [_ [_ [-> [-> [-> [-> [-> ->]]]]]]]]]] _. by do 11 (split=> //).
Qed.
(* add_nbody6 is given xc, yc, zc only (4077-4079) and nothing sets the velocity of the centre *)
Definition place_only (p : six R) : six R := mk6 (sx p) (sy p) (sz p) 0 0 0.
Lemma stars_centre sort msk s n b : complete s n -> length msk = n -> (1 <= count msk)%nat -> build_stars sort msk s = Ok b ->
  p_c (c_ph (g_c (y_k b))) = place_only (p_c (c_ph (g_c (y_k s)))).
Proof.
  move=> CO L CM. have [M [SS [ES [[b0 BS] SK]]]] := CO. have [AL [NT [_ [_ [_ [_ [_ [KW _]]]]]]]] := M.
  have [S6 [Lm [Li [L0 Lp]]]] := AL.
  rewrite /build_stars /selected_args. set k := y_k s. set c := g_c k. cbn zeta.
  rewrite (masked6_ok L S6). cbn [bind]. rewrite (@masked_ok _ msk (p_m (c_ph c))) ?L //. cbn [bind].
  rewrite (@masked_ok _ msk (c_id c)) ?L //. cbn [bind]. rewrite (@masked_ok _ msk (g_m0 k)) ?L //. cbn [bind].
  rewrite (@masked_ok _ msk (g_npop k)) ?L //. cbn [bind].
  set s6 := map6 (select msk) (p_s (c_ph c)).
  have LS : six_length s6 (count msk) by apply (select6_length L S6).
  rewrite (@add_new _ _ _ _ _ s6 _ _ _ _ sort (count msk)) ?select_length ?L //. cbn [bind].
  set c0 := init_cluster _ _ _ _ _. set k1 := new_catalog _ _ _ _ _ _ _ _.
  set col := mkCol (select msk (c_id c)) (select msk (p_m (c_ph c))) s6 (select msk (g_m0 k)) (select msk (g_npop k)).
  set c1 := add_sky_rows s6 (put_cluster c0 col 0).
  have EC1 : g_c k1 = analyze sort true c1 by [].
  have [P1 _] := sky_ph s6 (put_cluster c0 col 0).
  have [Q1 _] := analyze_ph sort true c1.
  have PC : p_c (c_ph (g_c k1)) = zero6 by rewrite EC1 Q1 /c1 P1.
  have BI : c_bin (g_c k1) = mkB [] [] [] [].
  { rewrite EC1. case: (analyze_bin sort true c1) => _ ->. by case: (add_sky_bin s6 (put_cluster c0 col 0)) => _ ->. }
  have [sk2 E2] : exists k2sky, (if Nat.eqb (length (sx (k_s (c_sky c)))) (length (sx (p_s (c_ph c))))
        then bind (masked6 msk (k_s (c_sky c))) (fun r => Ok (with_stars_sky k1 r)) else Ok k1) = Ok (with_stars_sky k1 k2sky).
  { have Lx : length (sx (p_s (c_ph c))) = n by case: S6.
    rewrite Lx. destruct SK as [SK|SK].
    - have -> : Nat.eqb (length (sx (k_s (c_sky c)))) n = false by apply Nat.eqb_neq.
      exists (k_s (c_sky (g_c k1))). by destruct k1 as [[? ? ? ? ? ? ? [] ? ?]].
    - have -> : Nat.eqb (length (sx (k_s (c_sky c)))) n = true by apply Nat.eqb_eq; case: SK.
      rewrite (masked6_ok L SK). cbn [bind]. by eexists. }
  rewrite E2. cbn [bind]. set k3 := add_nbody6 _ _ _ _ _ _ _ _ _ _.
  have N3 : g_sse k3 = init_sse by []. have N4 : g_bse k1 = init_bse by [].
  have [e' [E4 HE]] := @copy_sse_ok msk s n k3 L SS KW N3. rewrite -/k in E4. rewrite E4. cbn [bind]. set k4 := mkCat _ _ _ _ _ _ _ _.
  have [nb' [q' [eb [E5 _]]]] := @copy_bse_ok msk s n b0 k4 L Li BS N4 BI. rewrite -/k in E5. rewrite E5. cbn [bind].
  destruct (if Nat.ltb 0 _ then _ else _) as [[[kin pot] et]|]; [|by []]. cbn [bind]. move=> E.
  have {E} <- : mkSys (with_bin k4 nb' q' eb) kin pot et = b by congruence. cbn [y_k].
  have -> : p_c (c_ph (g_c (with_bin k4 nb' q' eb))) = mk6 (sx (p_c (c_ph c))) (sy (p_c (c_ph c))) (sz (p_c (c_ph c)))
     (svx (p_c (c_ph (g_c k1)))) (svy (p_c (c_ph (g_c k1)))) (svz (p_c (c_ph (g_c k1)))) by [].
  by rewrite PC.
Qed.

Section WithGalpy.
Variable G : galpy.

(* ---- the default find_centre *)
Lemma return_keeps c0 c1 u o : ready G c0 u o -> sees G c0 c1 -> let c' := return_cluster G (save_cluster c0) c1 in
  ready G c' u o /\ c_ph c' = c_ph c0 /\ c_sc c' = c_sc c0 /\ c_id c' = c_id c0 /\ c_nb c' = c_nb c0 /\ c_sky c' = c_sky c0 /\
  (own_order c0 -> own_order c').
Proof.
  move=> HR S. have [HS [Hu [Hl [Ho Hf]]]] := HR. have [u1 [o1 R1]] := sees_ready S. cbn zeta.
  have [ops [F [L [M E]]]] := return_is_run R1 Hl Hf (sv := save_cluster c0) Hu Ho. rewrite E.
  have [V2 [S1 [S2 [S3 [S4 S5]]]]] := run_view R1 F. rewrite L M in S1.
  move: (run G ops c1) V2 S1 S2 S3 S4 S5 {E} => c2 V2 S1 S2 S3 S4 S5.
  have [V1 [_ [T1 [T2 [T3 [T4 _]]]]]] := S.
  have Eph : c_ph c2 = c_ph c0 by apply (view_inj S1 HR); [congruence|congruence].
  set d := set_rorder c2 _ _. have [E1 [E2 [E3 [E4 [E5 [E6 [E7 [E8 E9]]]]]]]] := skel_eq_fields (skel_analyze true true d).
  rewrite /ready E1 E2 E4 E5 E6 E8 E9. change (c_ph d) with (c_ph c2). change (c_sc d) with (c_sc c2). change (c_id d) with (c_id c2).
  change (c_nb d) with (c_nb c2). change (c_sky d) with (c_sky c2). change (c_units d) with (c_units c2). change (c_origin d) with (c_origin c2).
  split; [exact S1|]. split; [exact Eph|]. split; [congruence|]. split; [congruence|]. split; [congruence|].
  split; [congruence|]. move=> OO. apply own_order_analyze. move=> r. have [_ [_ [_ [Ho2 _]]]] := S1.
  rewrite /d /set_rorder /set_der; cbn [c_der d_rorder d_rorder_origin c_origin c_ph save_cluster sv_rorder sv_rorder_origin].
  rewrite Ho2 Eph. rewrite -Ho. exact: OO.
Qed.

Definition kept (c c' : cluster) : Prop :=
  c_ph c' = c_ph c /\ c_sc c' = c_sc c /\ c_id c' = c_id c /\ c_nb c' = c_nb c /\ c_sky c' = c_sky c /\ c_units c' = c_units c /\ c_origin c' = c_origin c.
Lemma find_default c u o : ready G c u o -> particles c <> [] ->
  exists p c', raw_density first_guess c = Ok (Some p) /\
    (forall fuel nsigma, find_centre G fuel nsigma true first_guess c = Done (Ok (Some p, c'))) /\ kept c c' /\
    (own_order c -> own_order c') /\ (u <> Uamuse -> skel c' = skel c).
Proof.
  move=> HR NE. have [ops [F EW]] := working_run HR.
  have SW : sees G c (working G c) by rewrite EW; exact (sees_run (sees_refl HR) F).
  have [p P] : exists p, raw_density first_guess c = Ok (Some p).
  { rewrite /raw_density /first_guess /harfst. cbn [ca_method ca_indx pick_rows ca_start ca_nsphere ca_rmin ca_rmax ca_nmax].
    destruct (particles c) as [|b l] => //. cbn [map amax]. eexists. reflexivity. }
  set c' := return_cluster G (save_cluster c) (analyze true true (working G c)).
  have K := return_keeps HR (sees_analyze true SW). cbn zeta in K. rewrite -/c' in K.
  have D : find_centre_of_density G first_guess (working G c) = Ok (Some p, analyze true true (working G c)).
  { rewrite density_answer (raw_ph first_guess (working_ph G c)) P working_idem return_same. reflexivity. }
  have [[KS [Ku [Kl [Ko Kf]]]] K'] := K. have [_ [Hu [_ [Ho _]]]] := HR.
  exists p, c'. split; [exact P|]. split.
  - move=> fuel nsigma. rewrite /find_centre -/(working G c) /first_guess. cbn [ca_indx]. rewrite -/first_guess. by rewrite D.
  - split; [|]. { rewrite /kept Ku Ko Hu Ho. tauto. } split; [tauto|].
    move=> NA. have W : working G c = c by rewrite /working Hu; destruct u.
    rewrite /c' W. rewrite /return_cluster /save_cluster. cbn [sv_units sv_origin sv_rorder sv_rorder_origin].
    have [E1 [E2 _]] := skel_eq_fields (skel_analyze true true c).
    rewrite E1. destruct (ousys_eq_dec (c_units c) (c_units c)) => //. rewrite E2. destruct (oosys_eq_dec (c_origin c) (c_origin c)) => //.
    rewrite skel_analyze. have -> : forall d a b, skel (set_rorder d a b) = skel d by []. by rewrite skel_analyze.
Qed.

(* ---- reset_centre *)
Definition new_centre : reset := mkReset true false false false false false false.
(* what sub_cluster(reset_centre=True) leaves of a centre, for a found centre p *)
Definition centre_left (o : osys) (p : six R) (from : phys) : six R * six R :=
  match o with
  | Ocluster => (p, p_g from)
  | Ogalaxy => (zero6, p)
  | _ => (place_only (p_c from), p_g from)
  end.

Lemma same_units_back sort from c : c_units c = c_units from -> c_origin c = c_origin from -> back_to_units G sort from c = analyze sort true c.
Proof.
  move=> E1 E2. rewrite /back_to_units. destruct (ousys_eq_dec _ _) => //. by destruct (oosys_eq_dec _ _).
Qed.
Lemma particles_nonempty c : p_m (c_ph c) <> [] -> length (sx (p_s (c_ph c))) = length (p_m (c_ph c)) -> particles c <> [].
Proof. rewrite /particles /rows6 => A B. destruct (p_m (c_ph c)), (sx (p_s (c_ph c))) => //. Qed.
Lemma set_centre_skel p c : let c' := set_centre true p c in c_units c' = c_units c /\ c_origin c' = c_origin c /\ c_sc c' = c_sc c /\
  c_id c' = c_id c /\ c_nb c' = c_nb c /\ c_bin c' = c_bin c /\ c_bunits c' = c_bunits c /\ p_s (c_ph c') = p_s (c_ph c) /\ p_m (c_ph c') = p_m (c_ph c) /\ p_t (c_ph c') = p_t (c_ph c).
Proof.
  rewrite /set_centre /set_centres. destruct (c_origin c) as [[]|] eqn:E; try rewrite orb_true_r; cbn; rewrite ?E; by repeat split.
Qed.
Lemma set_centre_left p c o : c_origin c = Some o -> flat o -> (o = Ocentre -> p_c (c_ph c) = place_only (p_c (c_ph c))) ->
  let f := c_ph (set_centre true p c) in (p_c f, p_g f) = centre_left o p (c_ph c).
Proof.
  move=> Ho Hf H. rewrite /set_centre Ho /set_centres. destruct o; cbn.
  - by rewrite -H.
  - by [].
  - by rewrite orb_true_r.
  - by case: Hf.
Qed.

Theorem reset_centre_stars sort msk s n u o : ready G (g_c (y_k s)) u o -> complete s n -> length msk = n -> (1 <= count msk)%nat ->
  exists b sub p c1, build_stars sort msk s = Ok b /\ build_sub sort msk s = Ok sub /\
    let c := g_c (y_k s) in let c0 := g_c (y_k sub) in
    place_centre G true c (g_c (y_k b)) = Ok c1 /\
    raw_density first_guess c0 = Ok (Some p) /\
    (p_c (c_ph c1), p_g (c_ph c1)) = centre_left o p (c_ph c) /\
    p_s (c_ph c1) = p_s (c_ph c0) /\ p_m (c_ph c1) = p_m (c_ph c0) /\ p_t (c_ph c1) = p_t (c_ph c0) /\
    c_units c1 = c_units c0 /\ c_origin c1 = c_origin c0 /\ c_sc c1 = c_sc c0 /\ c_id c1 = c_id c0 /\
    (u <> Uamuse -> c_bin c1 = c_bin c0 /\ c_bunits c1 = c_bunits c0) /\ c_nb c1 = c_nb c0 /\
    y_k sub = set_cluster (y_k b) c0 /\ y_kin sub = y_kin b /\ y_pot sub = y_pot b /\ y_etot sub = y_etot b /\
    ready G c0 u o /\ ready G c1 u o /\ g_ntot (y_k b) = count msk /\ columns_of (y_k sub) = masked_columns msk (y_k s) /\ own_order c0 /\ own_order c1.
Proof.
  move=> HR CO L CM. have [HS [Hu [Hl [Ho Hf]]]] := HR. have [M _] := CO. have [AL _] := M.
  have [b [EB [ES [C1 [C2 [B1 [B2 [B3 [B4 [B5 [B6 [B7 [B8 [B9 OW]]]]]]]]]]]]]] := stars_built sort CO L CM. cbn zeta in ES.
  have PC := stars_centre CO L CM EB.
  set c := g_c (y_k s) in HR HS Hu Ho ES B1 B2 B3 B4 B5 B6 B7 B8 B9 PC |- *. set cb := g_c (y_k b) in ES B1 B2 B3 B4 B5 B6 B7 B8 B9 PC |- *.
  have [F1 [F2 [F3 [F4 [F5 [F6 [F7 [F8 F9]]]]]]]] := store_orbit_fields (p_g (c_ph c)) cb.
  exists b. rewrite ES. eexists. 
  have RS : ready G (store_orbit (p_g (c_ph c)) cb) u o.
  { rewrite /ready F1 F2 F6 B1 B2. split; [|by []]. move: HS. rewrite /good_scales B4 B5 B6 B7 B8 B9. done. }
  have CM1 : p_m (c_ph cb) = select msk (p_m (c_ph c)) by exact (f_equal t_m C1).
  have CS1 : p_s (c_ph cb) = map6 (select msk) (p_s (c_ph c)) by exact (f_equal t_s C1).
  have NE : particles (store_orbit (p_g (c_ph c)) cb) <> [].
  { have [[X _] [Lm _]] := AL. rewrite -/c in X Lm.
    apply particles_nonempty; rewrite F5; cbn [p_m p_s]; rewrite CM1 ?CS1.
    - move=> E. apply (f_equal (@length _)) in E. rewrite select_length ?L // in E. cbn in E. lia.
    - cbn [map6 sx]. by rewrite !select_length ?L. }
  have [p [c' [P1 [P2 [[K1 [K2 [K3 [K4 [K5 [K6 K7]]]]]] [OO P4]]]]]] := find_default RS NE.
  exists p, (set_centre true p c').
  have [Z1 [Z2 [Z3 [Z4 [Z5 [Z6 [Z7 [Z8 [Z9 Z10]]]]]]]]] := set_centre_skel p c'.
  split; [exact EB|]. split; [reflexivity|]. cbn zeta. cbn [put_centre y_k y_kin y_pot y_etot set_cluster g_c].
  split. { rewrite /place_centre /method_find_centre P2. reflexivity. }
  split. { rewrite -P1. rewrite /raw_density /first_guess. cbn [ca_method ca_indx pick_rows]. by rewrite /particles /copy_centre; cbn [set_sky set_ph c_ph p_m p_s]. }
  split.
  { rewrite (@set_centre_left p c' o); [by rewrite K7 F2 B2|by []| |].
    - move=> _. rewrite K1 F5; cbn [p_c]. by rewrite PC.
    - rewrite K1 F5 /centre_left; cbn [p_c p_g]. destruct o => //. by rewrite PC. }
  rewrite Z1 Z2 Z3 Z4 Z5 Z8 Z9 Z10 K1 K2 K3 K4 K6 K7 /copy_centre. cbn [set_sky set_ph c_ph p_m p_s p_t c_units c_origin c_sc c_id c_nb c_bin c_bunits].
  do 7 (split; [by []|]).
  split. { move=> NA. have [_ [_ [W1 [_ [_ [_ [W2 _]]]]]]] := skel_eq_fields (P4 NA). by rewrite Z6 Z7 W1 W2. }
  split; [by []|]. split; [by []|]. do 3 (split; [by []|]).
  split. { move: RS. rewrite /ready; cbn [set_sky set_ph c_units c_origin c_sc]. done. }
  split. { move: RS. rewrite /ready Z1 Z2 Z3 K2 K6 K7. done. }
  split; [exact C2|].
  have OB : own_order (store_orbit (p_g (c_ph c)) cb).
  { move=> r. rewrite F2 F5 F8. exact: (OW r). }
  split; [|split; [exact: OB|]].
  2: { apply (own_order_same (OO OB)) => //. rewrite /set_centre. by destruct (c_origin c') as [[]|]; try destruct (_ || _); try destruct (six_eqb _ _). }
  rewrite -C1 /columns_of; cbn [set_cluster g_c set_sky set_ph c_ph c_id p_m p_s g_m0 g_npop]. by rewrite F5 F9.
Qed.
End WithGalpy.
