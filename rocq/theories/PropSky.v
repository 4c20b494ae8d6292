(* C11: sky coordinates. *)
From Verif Require Import Base ModelCluster ModelOps ModelConv ModelEnergy ModelRecipes ModelCoords ModelProfiles ModelStars ModelLoad ModelTail ModelOrbit ModelSky.
From Verif Require Import SpecUnits SpecFrame SpecConv SpecEnergy SpecProfiles SpecDynamics SpecRecipes SpecTail SpecOrbit SpecSky.
From Verif Require Import ProofsUnits ProofsFrame ProofsRecipes2 ProofsEnergy ProofsConv ProofsSees ProofsRecipes ProofsCoords ProofsDynamics ProofsDynamics6 ProofsTail4 ProofsTail5 ProofsOrbit ProofsOrbit2 ProofsOrbit3 ProofsSky ProofsSky2.
From Verif Require Import PropUnits PropTail PropOrbit.
Set Implicit Arguments.
Unset Strict Implicit.

(* what to_radec stores: every star, the cluster and its centre where the astrometry puts them; stars relative to the cluster (centre) on the sky if that
   was the origin *)
Theorem C11_sky_view :
  forall (G : galpy) (sort : bool) (c : cluster) (u : usys) (o : osys), ready G c u o -> SpecFrame.aligned c -> no_orbits c ->
    let c' := to_radec G sort c in let g := to_radec6 G (orbit_kpc G c false) in let m := to_radec6 G (orbit_kpc G c true) in
    c_units c' = Some Uradec /\ c_origin c' = Some (sky_origin o) /\ c_id c' = c_id c /\ p_g (c_ph c') = g /\ p_c (c_ph c') = m /\
    1000 * p_t (c_ph c') = p_t (galactic_view G c) /\ p_m (c_ph c') = p_m (galactic_view G c) /\
    forall i, (i < nstars c)%nat -> row (p_s (c_ph c')) i = on_sky o (to_radec6 G (star_kpc G c i)) g m.
Proof.
  intros G sort c u o HR HL [F1 F2] c' g m. destruct (radec_form sort HR) as [U [O [SC [ID [SK PH]]]]]. cbn zeta in *. fold c' in U, O, SC, ID, SK, PH.
  destruct (kframe_ok HR) as [[V _] [[_ [U1 _]] _]]. destruct (fresh_star HR HL F2) as [L N].
  rewrite PH. cbn [p_t p_m p_s p_c p_g]. rewrite (fresh_orbit HR F1). rewrite (proj2 (kframe_orbit HR)). fold g m.
  split; [exact U|]. split; [exact O|]. split; [exact ID|]. split; [reflexivity|]. split; [reflexivity|].
  split; [rewrite <- V; unfold galactic_view; rewrite U1; cbn [p_t]; unfold unit_size; cbn [in_Myr]; ring|].
  split; [rewrite <- V; unfold galactic_view; rewrite U1; cbn [p_m]; unfold unit_size; cbn [in_Msun]; symmetry; etransitivity; [apply map_ext; intros; apply Rmult_1_r|apply map_id]|].
  intros i Hi. rewrite row_pos; [now rewrite L|destruct HR as [_ [_ [_ [_ Hf]]]]; exact Hf|]. rewrite (N i Hi) (fresh_orbit HR F1) (proj2 (kframe_orbit HR)). reflexivity.
Qed.
Print Assumptions C11_sky_view.

(* C11: on the sky the origin can be changed any number of times: the last origin decides, nothing accumulates, and the origin of the cluster before it went
   to the sky does not matter.  A request for the sky itself gives the absolute coordinates back. *)
Definition sky_request (G : galpy) (r : osys * bool) (c : cluster) : cluster :=
  match fst r with Ocluster => to_cluster (snd r) c | Ocentre => to_centre (snd r) c | _ => to_sky G (snd r) c end.
Definition on_the_sky (G : galpy) (c c' : cluster) (o : osys) : Prop :=
  c_units c' = Some Uradec /\ c_origin c' = Some (sky_origin o) /\ c_id c' = c_id c /\ c_sc c' = c_sc c /\ c_sky c' = kept G c /\ o <> Osky /\
  c_ph c' = mkP (p_t (c_ph (kframe G c))) (p_m (c_ph (kframe G c))) (sky_pos G o c) (to_radec6 G (the_centre G c)) (to_radec6 G (the_orbit G c)).
Definition seen_as (o : osys) : osys := match o with Osky => Ogalaxy | o => o end.
Lemma on_sky_step (G : galpy) (c c' : cluster) (o : osys) (r : osys * bool) : on_the_sky G c c' o -> on_the_sky G c (sky_request G r c') (seen_as (fst r)).
Proof.
  intros [U [O [ID [SC [SK [NO PH]]]]]]. destruct r as [q st]. unfold sky_request, on_the_sky. cbn [fst snd].
  assert (AB : forall x, to_sky_radec c' = x -> c_origin c' <> Some Osky -> x = analyze true true (set_stars c' (sky_stars G c) (Some Osky))).
  { intros x <- N. unfold to_sky_radec. rewrite O U SK. cbn [kept k_s]. destruct o; cbn [sky_origin] in O |- *; try reflexivity; now rewrite O in N. }
  destruct q; cbn [seen_as].
  - unfold to_centre. rewrite O. destruct o; cbn [sky_origin]; rewrite ?U.
    + rewrite ?U ?O ?SC ?ID ?SK ?PH. repeat split; discriminate.
    + rewrite (AB _ eq_refl); [rewrite O; discriminate|]. rewrite !an. cbn [set_stars c_units c_origin c_sc c_id c_sky c_ph p_s p_c p_g p_t p_m]. rewrite !an.
      cbn [set_stars c_units c_origin c_sc c_id c_sky c_ph p_s p_c p_g p_t p_m]. rewrite ?U ?SC ?ID ?SK ?PH. repeat split; discriminate.
    + rewrite !an. cbn [set_stars c_units c_origin c_sc c_id c_sky c_ph p_s p_c p_g p_t p_m]. rewrite ?U ?SC ?ID ?SK ?PH. repeat split; discriminate.
    + now destruct NO.
  - unfold to_cluster. rewrite O. destruct o; cbn [sky_origin]; rewrite ?U.
    + rewrite (AB _ eq_refl); [rewrite O; discriminate|]. rewrite !an. cbn [set_stars c_units c_origin c_sc c_id c_sky c_ph p_s p_c p_g p_t p_m]. rewrite !an.
      cbn [set_stars c_units c_origin c_sc c_id c_sky c_ph p_s p_c p_g p_t p_m]. rewrite ?U ?SC ?ID ?SK ?PH. repeat split; discriminate.
    + rewrite ?U ?O ?SC ?ID ?SK ?PH. repeat split; discriminate.
    + rewrite !an. cbn [set_stars c_units c_origin c_sc c_id c_sky c_ph p_s p_c p_g p_t p_m]. rewrite ?U ?SC ?ID ?SK ?PH. repeat split; discriminate.
    + now destruct NO.
  - unfold to_sky. rewrite O U. destruct o; cbn [sky_origin]; rewrite ?an; cbn [set_stars c_units c_origin c_sc c_id c_sky c_ph p_s p_c p_g p_t p_m]; rewrite ?O ?U ?SC ?ID ?SK ?PH;
      repeat split; try discriminate; now destruct NO.
  - unfold to_sky. rewrite O U. destruct o; cbn [sky_origin]; rewrite ?an; cbn [set_stars c_units c_origin c_sc c_id c_sky c_ph p_s p_c p_g p_t p_m]; rewrite ?O ?U ?SC ?ID ?SK ?PH;
      repeat split; try discriminate; now destruct NO.
Qed.
Theorem C11_origins_on_the_sky :
  forall (G : galpy) (sort : bool) (c : cluster) (u : usys) (o : osys) (rs : list (osys * bool)), ready G c u o -> SpecFrame.aligned c -> no_orbits c ->
    let c' := fold_left (fun d r => sky_request G r d) rs (to_radec G sort c) in let last := seen_as (last (map fst rs) o) in
    let g := to_radec6 G (orbit_kpc G c false) in let m := to_radec6 G (orbit_kpc G c true) in
    c_units c' = Some Uradec /\ c_origin c' = Some (sky_origin last) /\ c_id c' = c_id c /\ p_g (c_ph c') = g /\ p_c (c_ph c') = m /\
    1000 * p_t (c_ph c') = p_t (galactic_view G c) /\ p_m (c_ph c') = p_m (galactic_view G c) /\
    forall i, (i < nstars c)%nat -> row (p_s (c_ph c')) i = on_sky last (to_radec6 G (star_kpc G c i)) g m.
Proof.
  intros G sort c u o rs HR HL NO. cbv zeta. pose proof HR as [_ [_ [_ [_ Hf]]]].
  assert (I0 : on_the_sky G c (to_radec G sort c) (seen_as o)).
  { destruct (radec_form sort HR) as [U [O [SC [ID [SK PH]]]]]. cbv zeta in *. unfold on_the_sky. rewrite U O SC ID SK PH.
    destruct o; cbn [seen_as sky_origin sky_pos]; repeat split; try discriminate; now destruct Hf. }
  assert (LD : forall (a d : osys) l, List.last (a :: l) d = List.last l a).
  { intros a d l. revert a d. induction l as [|b l IH]; intros a d; [reflexivity|]. change (List.last (a :: b :: l) d) with (List.last (b :: l) d). now rewrite !IH. }
  assert (IN : on_the_sky G c (fold_left (fun d r => sky_request G r d) rs (to_radec G sort c)) (seen_as (last (map fst rs) o))).
  { revert I0. generalize (to_radec G sort c). clear Hf HR. revert o. induction rs as [|r rs IH]; intros o d I0; [exact I0|]. cbn [fold_left map].
    pose proof (on_sky_step r I0) as I1. specialize (IH (fst r) _ I1). rewrite LD. exact IH. }
  revert IN. generalize (fold_left (fun d r => sky_request G r d) rs (to_radec G sort c)). generalize (seen_as (last (map fst rs) o)).
  intros l c' [U [O [ID [SC [SK [NS PH]]]]]]. destruct NO as [F1 F2].
  destruct (kframe_ok HR) as [[V _] [[_ [U1 _]] _]]. destruct (fresh_star HR HL F2) as [L N].
  rewrite PH. cbn [p_t p_m p_s p_c p_g]. rewrite (fresh_orbit HR F1). rewrite (proj2 (kframe_orbit HR)).
  split; [exact U|]. split; [exact O|]. split; [exact ID|]. split; [reflexivity|]. split; [reflexivity|].
  split; [rewrite <- V; unfold galactic_view; rewrite U1; cbn [p_t]; unfold unit_size; cbn [in_Myr]; ring|].
  split; [rewrite <- V; unfold galactic_view; rewrite U1; cbn [p_m]; unfold unit_size; cbn [in_Msun]; symmetry; etransitivity; [apply map_ext; intros; apply Rmult_1_r|apply map_id]|].
  intros i Hi. rewrite row_pos; [now rewrite L|exact NS|]. rewrite (N i Hi) (fresh_orbit HR F1) (proj2 (kframe_orbit HR)). reflexivity.
Qed.
Print Assumptions C11_origins_on_the_sky.

(* C11: there and back, whatever the stored units and origin: the stars, the orbit, masses and time are as they were.  The astrometry need not even be invertible: the
   orbits kept by to_radec are used on the way back. *)
Theorem C11_round_trip :
  forall (G : galpy) (sort : bool) (c : cluster) (u : usys) (o : osys), ready G c u o -> SpecFrame.aligned c -> no_orbits c ->
    galactic_copy G c (to_kpckms G (to_radec G sort c)).
Proof. intros G sort c u o HR HL F. exact (proj1 (round_trip sort HR HL F)). Qed.
Print Assumptions C11_round_trip.
(* back to the units and origin the cluster had, except for origin centre, which is refuted below *)
Theorem C11_restored :
  forall (G : galpy) (sort sort' : bool) (c : cluster) (u : usys) (o : osys), ready G c u o -> o <> Ocentre -> SpecFrame.aligned c -> no_orbits c ->
    let c' := to_origin G (Oreq o) sort' (to_units G (Ureq u) (to_radec G sort c)) in
    c_units c' = c_units c /\ c_origin c' = c_origin c /\ c_id c' = c_id c /\ p_t (c_ph c') = p_t (c_ph c) /\ p_m (c_ph c') = p_m (c_ph c) /\ p_s (c_ph c') = p_s (c_ph c) /\
    p_g (c_ph c') = p_g (c_ph c).
Proof.
  intros G sort sort' c u o HR HO HL F c'. pose proof HR as [HS [Hu [Hl [Ho Hf]]]].
  destruct (round_trip sort HR HL F) as [[R1 [A1 [N1 [I1 [S1 [V1 [V2 [V3 V4]]]]]]]] _].
  destruct (radec_form sort HR) as [U0 _]. destruct (back_form sort HR) as [U _]. cbn zeta in *.
  set (b := from_radec G (to_radec G sort c)) in *. set (k := to_kpckms G (to_radec G sort c)) in *.
  assert (EK : k = analyze true true b) by (exact (kpckms_back U0 U)).
  assert (SB : skel b = skel k) by (rewrite EK; symmetry; apply skel_analyze).
  assert (RB : ready G b Ukpckms Ogalaxy). { destruct (skel_eq_fields SB) as [B1 [B2 [_ [_ [_ [B6 _]]]]]]. unfold ready. rewrite B1 B2 B6. exact R1. }
  assert (E1 : skel (to_units G (Ureq u) (to_radec G sort c)) = skel (to_units G (Ureq u) b)) by exact (units_back U0 U Hl).
  set (w := to_units G (Ureq u) (to_radec G sort c)) in *. destruct (skel_eq_fields E1) as [W1 [W2 [_ [_ [W5 [W6 [_ [_ W9]]]]]]]].
  destruct (to_units_view RB Hl) as [X1 [X2 [X3 [X4 _]]]]. cbn zeta in *.
  assert (RW : ready G w u Ogalaxy) by (unfold ready in *; rewrite W1 W2 W6; exact X2).
  assert (VW : galactic_view G w = galactic_view G k) by (rewrite (@view_skel G _ _ E1) X1; apply view_skel; exact SB).
  destruct (@to_origin_view G sort' w u Ogalaxy o RW Hf) as [Y1 [Y2 [Y3 [Y4 _]]]]. fold c' in Y1, Y2, Y3, Y4.
  destruct (skel_eq_fields SB) as [_ [_ [_ [_ [_ [B6 [_ [_ B9]]]]]]]].
  assert (SCW : c_sc c' = c_sc c) by (rewrite Y3 W6 X3 B6; exact S1).
  assert (IDW : c_id c' = c_id c) by (rewrite Y4 W9 X4 B9; exact I1).
  pose proof Y2 as [Z1 [Z2 [_ [Z4 _]]]].
  set (p := c_ph c'). set (d := set_ph c' (mkP (p_t p) (p_m p) (p_s p) (p_c (c_ph c)) (p_g p)) (c_units c')).
  assert (VD : galactic_view G d = galactic_view G c).
  { assert (Q : galactic_view G d = mkP (p_t (galactic_view G c')) (p_m (galactic_view G c')) (p_s (galactic_view G c')) (p_c (galactic_view G c)) (p_g (galactic_view G c'))).
    { unfold galactic_view, origin_shift, d. cbn [set_ph c_units c_origin c_sc c_ph]. rewrite Z2 Z4 SCW Hu Ho. destruct o; [now case HO|reflexivity|reflexivity|reflexivity]. }
    rewrite Q Y1 VW V1 V2 V3 V4. destruct (galactic_view G c); reflexivity. }
  assert (RD : ready G d u o) by (unfold ready, d; cbn [set_ph c_units c_origin c_sc]; exact Y2).
  assert (PD : c_ph d = c_ph c) by (apply (@view_inj G d c u o RD HR); [exact SCW|exact VD]).
  unfold d in PD. cbn [set_ph c_ph] in PD. fold p. rewrite Z2 Z4 Hu Ho. rewrite <- PD. cbn [p_t p_m p_s p_g]. now repeat split.
Qed.
Print Assumptions C11_restored.
(* the centre does not survive: unless the N-body code recorded one, its offset from the cluster becomes its distance from the galactic centre *)
Theorem C11_centre_refuted :
  forall (G : galpy) (sort : bool) (c : cluster) (u : usys) (o : osys), ready G c u o -> SpecFrame.aligned c -> no_orbits c ->
    k_xcn (c_sky c) = None -> of_radec6 G (to_radec6 G (orbit_kpc G c true)) = orbit_kpc G c true ->
    let c' := to_kpckms G (to_radec G sort c) in
    p_c (c_ph c') = orbit_kpc G c true /\
    forall i, (i < nstars c)%nat -> sx (row (p_s (c_ph (to_centre sort c'))) i) = sx (star_kpc G c i) - sx (orbit_kpc G c true) - sx (orbit_kpc G c false).
Proof.
  intros G sort c u o HR HL F X A c'. destruct (round_trip sort HR HL F) as [[R1 [A1 [N1 [I1 [S1 [V1 [V2 [V3 V4]]]]]]]] [PC _]]. cbn zeta in *. fold c' in R1, A1, N1, I1, S1, V1, V2, V3, V4, PC.
  assert (EC : p_c (c_ph c') = orbit_kpc G c true) by (rewrite PC; unfold back_centre; rewrite X (proj2 (kframe_orbit HR)); exact A).
  split; [exact EC|]. intros i Hi. pose proof R1 as [HS [Hu [Hl [Ho Hf]]]].
  rewrite (skel_ph (@to_centre_flat sort c' Ukpckms Ogalaxy Hu Hl Ho Hf)). cbn [set_stars c_ph p_s]. unfold reorigin, shift_of, row, map6, add6, minus6. cbn [sx].
  assert (LI : (i < length (sx (p_s (c_ph c'))))%nat) by (destruct A1 as [A1 _]; cbn zeta in A1; rewrite A1; unfold nstars in N1; rewrite N1; exact Hi).
  unfold vadd. rewrite (@nth_map' _ _ _ _ i 0 0 LI).
  assert (G1 : sx (p_g (c_ph c')) = sx (orbit_kpc G c false)).
  { unfold orbit_kpc. rewrite <- V4. unfold galactic_view. rewrite Hu. cbn [p_g view6 sx]. unfold unit_size. cbn [in_pc]. field. }
  assert (G2 : nth i (sx (p_s (c_ph c'))) 0 = sx (star_kpc G c i)).
  { unfold star_kpc. rewrite <- V3. unfold galactic_view, origin_shift. rewrite Hu Ho. unfold row, map6. cbn [p_s sx]. rewrite (@nth_map' _ _ _ _ i 0 0 LI). unfold unit_size. cbn [in_pc]. field. }
  rewrite G2. cbn [zero6 sx plus6]. rewrite G1 EC. ring.
Qed.
Print Assumptions C11_centre_refuted.
(* with the centre recorded by the N-body code: its offset there, in N-body lengths, and no motion *)
Theorem C11_nbody_centre :
  forall (G : galpy) (sort : bool) (c : cluster) (u : usys) (o : osys) (a b d : R), ready G c u o -> SpecFrame.aligned c -> no_orbits c ->
    k_xcn (c_sky c) = Some (a, b, d) ->
    let k := rbar (c_sc c) / 1000 in p_c (c_ph (to_kpckms G (to_radec G sort c))) = mk6 (a * k) (b * k) (d * k) 0 0 0.
Proof. intros G sort c u o a b d HR HL F X k. destruct (round_trip sort HR HL F) as [_ [PC _]]. rewrite PC. unfold back_centre. rewrite X. reflexivity. Qed.
Print Assumptions C11_nbody_centre.

(* a catalogue read in sky coordinates: to the galaxy and back on the sky *)
Theorem C11_catalogue :
  forall (G : galpy) (sort : bool) (c : cluster), good_scales G (c_sc c) -> c_units c = Some Uradec -> c_origin c = Some Osky -> SpecFrame.aligned c -> no_orbits c ->
    k_s (c_sky c) = p_s (c_ph c) -> k_gc (c_sky c) = p_g (c_ph c) ->
    (forall i, (i < nstars c)%nat -> let s := row (p_s (c_ph c)) i in to_radec6 G (of_radec6 G s) = s) ->
    to_radec6 G (of_radec6 G (p_g (c_ph c))) = p_g (c_ph c) ->
    let k := to_kpckms G c in let c' := to_radec G sort k in
    ready G k Ukpckms Ogalaxy /\ p_g (c_ph k) = of_radec6 G (p_g (c_ph c)) /\ (forall i, (i < nstars c)%nat -> row (p_s (c_ph k)) i = of_radec6 G (row (p_s (c_ph c)) i)) /\
    c_units c' = c_units c /\ c_origin c' = c_origin c /\ c_id c' = c_id c /\ p_m (c_ph c') = p_m (c_ph c) /\ p_t (c_ph c') = p_t (c_ph c) /\
    p_s (c_ph c') = p_s (c_ph c) /\ p_g (c_ph c') = p_g (c_ph c).
Proof.
  intros G sort c HS Hu Ho HL [F1 F2] KS KG IN IG k c'.
  assert (EV : even6 (p_s (c_ph c)) (nstars c)) by exact HL.
  set (os := map (of_radec6 G) (stack6 (p_s (c_ph c)))). set (og := of_radec6 G (p_g (c_ph c))).
  assert (OS : os = map (of_radec6 G) (rows6 (p_s (c_ph c)))) by (unfold os; now rewrite (stack_rows EV)).
  assert (LO : length os = nstars c) by (rewrite OS map_length rows_length; exact (proj1 HL)).
  assert (EK : exists cc k', k = analyze true true (set_sky (set_stars (set_ph c (mkP (p_t (c_ph c)) (p_m (c_ph c)) (unstack6 os) cc og) (Some Ukpckms)) (unstack6 os) (Some Ogalaxy)) k') /\
     k_orbit k' = Some og /\ k_orbits k' = Some os).
  { unfold k, to_kpckms, analyze_if_units, to_kpckms0. rewrite Hu. unfold from_radec. rewrite Hu Ho. rewrite Hu Ho. rewrite F1 F2 KS KG. fold os og. eexists. eexists. split; [reflexivity|]. split; reflexivity. }
  destruct EK as [cc [k' [EK [K1 K2]]]].
  assert (RK : ready G k Ukpckms Ogalaxy) by (rewrite EK; unfold ready; rewrite !an; cbn [set_sky set_stars set_ph c_units c_origin c_sc]; split; [exact HS|]; split; [reflexivity|split; [discriminate|split; [reflexivity|discriminate]]]).
  split; [exact RK|]. split; [rewrite EK !an; reflexivity|].
  assert (RI : forall i, (i < nstars c)%nat -> nth i os zero6 = of_radec6 G (row (p_s (c_ph c)) i)).
  { intros i Hi. rewrite OS. rewrite (@nth_map' _ _ _ _ i zero6 zero6); [rewrite rows_length; destruct HL as [A _]; cbn zeta in A; rewrite A; exact Hi|]. rewrite (@rows_nth _ i (nstars c)); [exact (proj1 HL)|exact Hi|]. reflexivity. }
  split.
  { intros i Hi. rewrite EK !an. cbn [set_sky set_stars set_ph c_ph p_s]. rewrite row_unstack; [now rewrite LO|]. exact (RI i Hi). }
  destruct (radec_form sort RK) as [U [O [SC [ID [SK PH]]]]]. cbn zeta in *. fold c' in U, O, SC, ID, SK, PH.
  assert (CK : c_sky k = k') by (rewrite EK !an; reflexivity).
  assert (TO : the_orbit G k = og) by (unfold the_orbit; now rewrite CK K1). assert (TS : the_orbits G k = os) by (unfold the_orbits; now rewrite CK K2).
  rewrite Hu Ho. split; [exact U|]. split; [exact O|]. split; [rewrite ID EK !an; reflexivity|]. rewrite PH. cbn [p_m p_t p_s p_g sky_pos]. rewrite TO.
  destruct (kframe_ok RK) as [[V _] [[_ [U1 _]] _]]. pose proof RK as [_ [Uk _]].
  assert (VT := f_equal p_t V). assert (VM := f_equal p_m V). unfold galactic_view in VT, VM. rewrite U1 Uk in VT, VM. cbn [p_t p_m] in VT, VM. unfold unit_size in VT, VM. cbn [in_Myr in_Msun] in VT, VM.
  split; [|split; [|split; [|exact IG]]].
  - assert (I1 : forall l : list R, map (fun a => a * 1) l = l) by (intros l; etransitivity; [apply map_ext; intros; apply Rmult_1_r|apply map_id]). rewrite !I1 in VM. rewrite VM EK !an. reflexivity.
  - apply (Rmult_eq_reg_r 1000) in VT; [|lra]. rewrite VT EK !an. reflexivity.
  - unfold sky_stars. rewrite TS. replace (map (to_radec6 G) os) with (rows6 (p_s (c_ph c))); [exact (unstack_rows EV)|]. symmetry.
    assert (LR : length (rows6 (p_s (c_ph c))) = nstars c) by (rewrite rows_length; exact (proj1 HL)).
    apply (nth_ext _ _ zero6 zero6); [rewrite map_length LO LR; reflexivity|]. intros i Hi. rewrite map_length LO in Hi. rewrite (@nth_map' _ _ _ _ i zero6 zero6); [now rewrite LO|].
    rewrite (RI i Hi) (@rows_nth _ i (nstars c)); [exact (proj1 HL)|exact Hi|]. exact (IN i Hi).
Qed.
Print Assumptions C11_catalogue.

(* ------------------------------------------------------------------ finding: kept orbits are never renewed *)
(* any cluster c2 that has been through the sky as c and then changed in any way that leaves the kept orbits alone: to_radec reports, and coming back restores, the
   stars and the orbit of c *)
Theorem C11_stale_refuted :
  forall (G : galpy) (sort sort' : bool) (c c2 : cluster) (u u2 : usys) (o o2 : osys), ready G c u o -> SpecFrame.aligned c -> no_orbits c ->
    ready G c2 u2 o2 -> c_sky c2 = c_sky (to_kpckms G (to_radec G sort c)) ->
    let k := to_kpckms G (to_radec G sort' c2) in
    ready G k Ukpckms Ogalaxy /\ p_g (c_ph k) = orbit_kpc G c false /\ length (sx (p_s (c_ph k))) = nstars c /\ length (p_m (c_ph k)) = nstars c2 /\
    forall i, (i < nstars c)%nat -> row (p_s (c_ph k)) i = star_kpc G c i.
Proof.
  intros G sort sort' c c2 u u2 o o2 HR HL F R2 SK k. destruct (round_trip sort HR HL F) as [_ [_ K]]. cbn zeta in K. rewrite K in SK.
  destruct (round_trip_kept sort' R2) as [E1 [E2 [E3 [E4 _]]]]. cbn zeta in *. fold k in E1, E2, E3, E4. destruct F as [F1 F2]. destruct (fresh_star HR HL F2) as [L N].
  assert (TS : the_orbits G c2 = the_orbits G c) by (unfold the_orbits at 1; rewrite SK; reflexivity).
  assert (TO : the_orbit G c2 = the_orbit G c) by (unfold the_orbit at 1; rewrite SK; reflexivity).
  split; [exact E1|]. split; [rewrite E3 TO; exact (fresh_orbit HR F1)|]. rewrite E2 TS. split; [cbn [unstack6 sx]; rewrite map_length; exact L|]. split; [exact E4|].
  intros i Hi. rewrite row_unstack; [now rewrite L|]. exact (N i Hi).
Qed.
Print Assumptions C11_stale_refuted.
Lemma method_cluster G ev tfinal nt (a c3 : cluster) s : interpolate_orbits G ev tfinal nt None None a = Ok (s, c3) -> c_origin c3 = Some Ocluster ->
  interpolate_orbits_method G ev tfinal nt None None a = Ok (set_stars c3 s (Some Ocluster)).
Proof. intros I O. unfold interpolate_orbits_method. rewrite I. unfold bind at 1. cbn [fst snd]. rewrite O. reflexivity. Qed.
Lemma set_stars_ready G (c3 : cluster) s : ready G c3 Ukpckms Ocluster -> ready G (set_stars c3 s (Some Ocluster)) Ukpckms Ocluster.
Proof. intros [Q2 [Q3 [Q4 [_ Q6]]]]. unfold ready. cbn [set_stars c_units c_origin c_sc]. split; [exact Q2|]. split; [exact Q3|]. split; [exact Q4|]. split; [reflexivity|exact Q6]. Qed.
Lemma moved_keeps G ev tfinal nt (a : cluster) : lawful ev -> ready G a Ukpckms Ocluster -> SpecFrame.aligned a -> (2 <= nt)%nat ->
  exists b, interpolate_orbits_method G ev tfinal nt None None a = Ok b /\ ready G b Ukpckms Ocluster /\ c_sky b = c_sky a.
Proof.
  intros HE RA AA NT.
  destruct (@interpolate_stars_ok G ev tfinal nt a Ukpckms Ocluster HE RA AA NT ltac:(discriminate)) as [s [c2 [I1 [I2 _]]]].
  destruct (returned RA I2) as [S2 [R2 _]]. revert I1 S2 R2. generalize (return_cluster G (save_cluster a) c2). intros c3 I1 S2 R2.
  exists (set_stars c3 s (Some Ocluster)). split; [apply method_cluster; [exact I1|apply R2]|split; [exact (set_stars_ready s R2)|]].
  destruct S2 as [_ [_ [_ [_ [SK3 _]]]]]. exact SK3.
Qed.
Lemma cluster_keeps G (c1 : cluster) : ready G c1 Ukpckms Ogalaxy -> SpecFrame.aligned c1 ->
  ready G (to_cluster true c1) Ukpckms Ocluster /\ SpecFrame.aligned (to_cluster true c1) /\ c_sky (to_cluster true c1) = c_sky c1.
Proof.
  intros R1 A1. pose proof R1 as [S1 [U1 [L1 [O1 Q1]]]].
  pose proof (sees_cluster true (sees_refl R1)) as SA.
  pose proof (skel_eq_fields (@to_cluster_flat true c1 Ukpckms Ogalaxy U1 L1 O1 Q1)) as [E1 [E2 [_ [_ [_ [E6 _]]]]]].
  pose proof SA as [VA [_ [_ [_ [SK _]]]]]. destruct (view_aligned VA A1) as [AA NA].
  split; [|split; [exact AA|exact SK]].
  unfold ready. rewrite E1 E2 E6. split; [exact S1|]; split; [exact U1|]; split; [discriminate|]; split; [reflexivity|discriminate].
Qed.
(* so the stars moved by interpolate_orbits are put back, whatever the potential and the time *)
Theorem C11_moved_back_refuted :
  forall (G : galpy) (ev : evolution) (tfinal : option R) (nt : nat) (sort sort' : bool) (c : cluster) (u : usys) (o : osys),
    lawful ev -> ready G c u o -> SpecFrame.aligned c -> no_orbits c -> (2 <= nt)%nat ->
    let a := to_cluster true (to_kpckms G (to_radec G sort c)) in
    exists b, interpolate_orbits_method G ev tfinal nt None None a = Ok b /\
      forall i, (i < nstars c)%nat -> row (p_s (c_ph (to_kpckms G (to_radec G sort' b)))) i = star_kpc G c i.
Proof.
  intros G ev tfinal nt sort sort' c u o HE HR HL F NT. cbv zeta.
  destruct (round_trip sort HR HL F) as [[R1 [A1 _]] _].
  destruct (cluster_keeps R1 A1) as [RA [AA SK]].
  destruct (moved_keeps tfinal HE RA AA NT) as [b [I1 [RB SB]]].
  exists b. split; [exact I1|].
  exact (proj2 (proj2 (proj2 (proj2 (@C11_stale_refuted G sort sort' c b u Ukpckms o Ocluster HR HL F RB (eq_trans SB SK)))))).
Qed.
Print Assumptions C11_moved_back_refuted.
(* stars added later have no sky coordinates: the arrays differ in length *)
Theorem C11_added_refuted :
  forall (G : galpy) (sort sort' : bool) (c c2 : cluster) (u u2 : usys) (o o2 : osys), ready G c u o -> SpecFrame.aligned c -> no_orbits c ->
    ready G c2 u2 o2 -> c_sky c2 = c_sky (to_kpckms G (to_radec G sort c)) -> nstars c2 <> nstars c -> ~ SpecFrame.aligned (to_kpckms G (to_radec G sort' c2)).
Proof.
  intros G sort sort' c c2 u u2 o o2 HR HL F R2 SK NE [A _]. destruct (@C11_stale_refuted G sort sort' c c2 u u2 o o2 HR HL F R2 SK) as [_ [_ [L [M _]]]]. cbn zeta in *. congruence.
Qed.
Print Assumptions C11_added_refuted.
Lemma path_method_form G ev tfinal nt (c c1 : cluster) pth orb : orbital_path G ev tfinal nt false None None c = Ok (pth, orb, c1) ->
  orbital_path_method G ev tfinal nt false true None None c = Ok (pth, keep_orbit orb c1).
Proof. intros I. unfold orbital_path_method. rewrite I. reflexivity. Qed.
Lemma keep_orbit_ready G ob c u o : ready G c u o -> ready G (keep_orbit ob c) u o.
Proof. intros H. exact H. Qed.
Lemma keep_orbit_the G ob c : the_orbit G (keep_orbit ob c) = initial ob.
Proof. reflexivity. Qed.
(* orbital_path(initialize=True) keeps an orbit that begins tfinal ago: after a visit to the sky the cluster is where it was then *)
Theorem C11_path_refuted :
  forall (G : galpy) (ev : evolution) (tfinal : option R) (nt : nat) (sort : bool) (c : cluster) (u : usys) (o : osys), lawful ev -> ready G c u o -> (2 <= nt)%nat ->
    let r := ro (c_sc c) in let v := vo (c_sc c) in
    exists pth c', orbital_path_method G ev tfinal nt false true None None c = Ok (pth, c') /\
      p_g (c_ph (to_kpckms G (to_radec G sort c'))) = in_kpc r v (ev 0 (- duration G c u (1 / 10) tfinal) (natural r v (orbit_kpc G c false))).
Proof.
  intros G ev tfinal nt sort c u o HE HR NT r v. pose proof HR as [HS _]. pose proof HS as [N1 [N2 [N3 [N4 [N5 [N6 _]]]]]].
  destruct (@orbital_path_ok G ev tfinal nt false None None c u o HE HR NT N5 N6) as [pth [orb [E1 [_ [E3 _]]]]]. cbn [opt] in E1, E3.
  destruct (returned HR (proj1 (ready_galpy HR))) as [_ [RC1 _]]. rewrite (galpy_time_ok (1 / 10) tfinal HR) in E3. revert E1 RC1. generalize (return_cluster G (save_cluster c) (to_galpy G c)). intros c1 E1 RC1.
  exists pth, (keep_orbit orb c1). split; [exact (path_method_form E1)|].
  destruct (round_trip_kept sort (keep_orbit_ready orb RC1)) as [_ [_ [G1 _]]]. cbn zeta in G1. rewrite keep_orbit_the in G1. exact (eq_trans G1 (f_equal initial E3)).
Qed.
Print Assumptions C11_path_refuted.
Lemma orbits_method_form G (c : cluster) : exists os, initialize_orbits_method G None None c = (os, keep_orbits os (return_cluster G (save_cluster c) (to_galpy G c))) /\
  map initial os = map (in_kpc (ro (c_sc c)) (vo (c_sc c))) (rows6 (p_s (c_ph (to_galpy G c)))).
Proof.
  unfold initialize_orbits_method, initialize_orbits. generalize (rows6 (p_s (c_ph (to_galpy G c)))) (return_cluster G (save_cluster c) (to_galpy G c)). intros rows c1.
  eexists. split; [reflexivity|]. rewrite map_map. apply map_ext. intros p. unfold initial, orbit_cyl. cbn [opt ob_at]. unfold physical. cbn [ob_ro ob_vo].
  destruct (cyl_round_trip p) as [E _]. cbn zeta in E. set (q := cart_to_cyl p) in *. assert (Q : mk6 (sx q) (sy q) (sz q) (svx q) (svy q) (svz q) = q) by (destruct q; reflexivity). rewrite Q E. reflexivity.
Qed.
Lemma keep_orbits_ready G os c u o : ready G c u o -> ready G (keep_orbits os c) u o.
Proof. intros H. exact H. Qed.
Lemma keep_orbits_the G os c : the_orbits G (keep_orbits os c) = map initial os.
Proof. reflexivity. Qed.
(* initialize_orbits of a cluster stored relative to itself keeps orbits relative to the cluster: after a visit to the sky every star is there, relative to the galaxy *)
Theorem C11_relative_refuted :
  forall (G : galpy) (sort : bool) (c : cluster) (u : usys), ready G c u Ocluster -> SpecFrame.aligned c ->
    let k := to_kpckms G (to_radec G sort (snd (initialize_orbits_method G None None c))) in
    c_origin k = Some Ogalaxy /\ forall i, (i < nstars c)%nat -> row (p_s (c_ph k)) i = stored_kpc G c u i.
Proof.
  intros G sort c u HR HL. cbv zeta. pose proof HR as [HS _]. pose proof HS as [N1 [N2 [N3 [N4 [N5 [N6 _]]]]]].
  destruct (returned HR (proj1 (ready_galpy HR))) as [_ [RC1 _]].
  assert (GR := fun i => @galpy_rows G c u Ocluster i HR HL).
  destruct (orbits_method_form G c) as [os [EO EM]]. rewrite EO. cbn [snd]. clear EO.
  revert RC1 EM GR. generalize (return_cluster G (save_cluster c) (to_galpy G c)) (rows6 (p_s (c_ph (to_galpy G c)))). intros c1 rows RC1 EM GR.
  destruct (round_trip_kept sort (keep_orbits_ready os RC1)) as [E1 [E2 _]]. cbn zeta in *. revert E1 E2. rewrite keep_orbits_the EM.
  generalize (to_kpckms G (to_radec G sort (keep_orbits os c1))). intros k E1 E2. split; [destruct E1 as [_ [_ [_ [O _]]]]; exact O|]. intros i Hi. rewrite E2.
  destruct (GR i Hi) as [L R]. rewrite row_unstack; [rewrite map_length L; exact Hi|]. rewrite (@nth_map' _ _ _ _ i zero6 zero6); [rewrite L; exact Hi|]. rewrite R. apply natural_kpc; assumption.
Qed.
Print Assumptions C11_relative_refuted.

(* ------------------------------------------------------------------ the hypotheses are met *)
Example C11_hypotheses_met : forall o, flat o -> let c := ride o (mk6 8000 0 100 3 4 0) in
  ready demo_galpy c Upckms o /\ SpecFrame.aligned c /\ no_orbits c /\ k_xcn (c_sky c) = None /\ nstars c = 5%nat /\ orbit_kpc demo_galpy c false = mk6 8 0 (1 / 10) 3 4 0 /\ lawful drift.
Proof. intros o F c. destruct (C72_hypotheses_met o F) as [H1 [H2 [H3 [_ [_ [_ [_ [_ [_ [H4 H5]]]]]]]]]]. fold c in H2, H3, H4, H5. split; [exact H2|]. split; [exact H3|]. split; [split; reflexivity|]. split; [reflexivity|]. split; [exact H4|]. split; [exact H5|exact H1]. Qed.
