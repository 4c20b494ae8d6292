(* Proofs: NBODY6++ HDF5 snapshots without a header. *)
From Coq Require Import String Ascii.
From Verif Require Import Base ModelCluster ModelOps ModelRecipes ModelEnergy ModelStars ModelLoad ModelDynamics ModelNbody6 ModelNbody6pp ModelHdf5.
From Verif Require Import SpecUnits SpecStars SpecRecipes SpecEnergy SpecDynamics SpecHdf5.
From Verif Require Import ProofsUnits ProofsRecipes ProofsRecipes2 ProofsStars ProofsEnergy ProofsPot ProofsVirial ProofsVR ProofsDynamics5 ProofsHdf5 ProofsHdf52 ProofsHdf53 ProofsHdf54.
Set Implicit Arguments. Unset Strict Implicit.
Open Scope list_scope. Open Scope R_scope.

Section WithGalpy.
Variable G : galpy.
Lemma holds_skel s nb t cen sc c d : skel c = skel d -> holds_group s nb t cen sc d -> holds_group s nb t cen sc c.
Proof.
  move=> E. have [F1 [F2 [F3 [F4 [F5 [F6 [F7 [F8 F9]]]]]]]] := skel_eq_fields E. unfold holds_group.
  by rewrite F1 F2 F3 F4 F5 F6 F7 F9.
Qed.
Theorem alone_group o f g ns s ps : nth_error f g = Some s -> luminous s -> (2 <= length (entries s))%nat ->
  (forall e, In e (entries s) -> 0 < x_mass e) -> separated (file_bodies s) -> pair_set (length (entries s)) ps ->
  exists v, get_h5 G o None f g ns false None = Ok v /\ shows s v /\
    (let sc := c_sc (g_c (h5_cat v)) in
     zmbar sc = sumR (map x_mass (entries s)) /\ rbar sc = virial_pc (file_bodies s) ps /\ nbody_scales (zmbar sc) (rbar sc) (vbar sc) (tbar sc) /\
     rbar_au sc = 1 /\ tbar_days sc = 1) /\ p_c (c_ph (g_c (h5_cat v))) = zero6 /\
    (the_pairs s <> [] -> shows_pairs s v 1 1) /\ g_b (h5_cat v) = components_in s /\
    g_ns (h5_cat v) = (Z.of_nat (length (entries s)) - Z.of_nat (twice_nb 0 s))%Z /\
    h5_ngroups v = length f /\ h5_ngroup v = g /\ h5_nsnap v = int_n ns /\ h5_file v = f /\ h5_nc v = 0.
Proof.
  move=> E LU L2 PM SEP PS. pose sc := unit_scales (y_ro o) (y_vo o).
  have ST : start_h5 o s None = fresh (n_time s) 0 zero6 sc (mkSk nil6 zero6 zero6 None None None) 0 by [].
  have [k [EF FK]] := @content_filled (n_time s) 0%nat zero6 sc (mkSk nil6 zero6 zero6 None None None) 0%Z s.
  rewrite -ST in EF. have [HG [ES [EN [B1 [B2 [B3 [EB ENS]]]]]]] := filled_holds FK.
  have HG0 := HG. destruct HG0 as [A1 [A2 [A3 [A4 [A5 [A6 [A7 A8]]]]]]].
  have [c' [ER SK]] := @reset_plain G (g_c k) A1 A2. rewrite (rows_file HG) A5 in SK. cbn [p_m] in SK.
  have EM : masses_in s = map x_mass (entries s) by rewrite /masses_in /entries map_app !map_map.
  have LB : length (file_bodies s) = length (entries s) by rewrite /file_bodies map_length.
  rewrite EM widsum_eq -(@pair_set_sum (file_bodies s) ps) in SK; [by rewrite LB|].
  set z := sumR (map x_mass (entries s)) in SK *. set rb := z ^ 2 / _ in SK. set vb := 6557 / 100000 * sqrt (z / rb) in SK.
  set tb := rb / (1023 / 1000 * vb) in SK.
  have FM : map fm (file_bodies s) = map x_mass (entries s) by rewrite /file_bodies map_map.
  have ER' : rb = virial_pc (file_bodies s) ps by rewrite /rb /virial_pc FM.
  have PZ : 0 < z.
  { rewrite /z. destruct (entries s) as [|e l]; [cbn in L2; lia|]. cbn [map sumR fold_right]. rewrite -/(sumR _).
    apply Rplus_lt_le_0_compat; [apply PM; by left|]. apply sumR_nonneg. move=> x /in_map_iff [b [<- I]]. apply Rlt_le, PM. by right. }
  have PB : 0 < rb.
  { rewrite /rb. apply Rdiv_lt_0_compat; [by apply pow_lt|]. apply Rmult_lt_0_compat; [lra|]. apply inverse_positive => //; rewrite ?LB //.
    move=> a /in_map_iff [e [<- I]]. by apply PM. }
  have NS := @scales_consistent z rb PZ PB. cbn zeta in NS. fold vb in NS. fold tb in NS.
  pose sc' := set_scales sc (z, rb, vb, tb).
  have HG' : holds_group s 0 (n_time s * tbar sc') (mk6 (0 * rb) (0 * rb) (0 * rb) 0 0 0) sc' (times_scales c').
  { have HGc : holds_group s 0 (n_time s) zero6 sc' c'.
    { apply (holds_skel SK). unfold holds_group. cbn [set_sc c_units c_origin c_bunits c_nb c_ph c_sc c_bin c_id]. by rewrite A6. }
    destruct HGc as [Q1 [Q2 [Q3 [Q4 [Q5 [Q6 [Q7 Q8]]]]]]]. unfold holds_group, times_scales. cbn [set_ph c_units c_origin c_bunits c_nb c_ph c_sc c_bin c_id].
    rewrite Q5 Q6. cbn [p_t p_m p_s p_c p_g sx sy sz svx svy svz zero6]. by repeat split. }
  have [v [EV [EC [EP [F1 [F2 [F3 [F4 F5]]]]]]]] := @get_h5_parts G o None f g ns false None s None k (times_scales c') E eq_refl EF
    ltac:(by rewrite /rescale_h5 ER).
  exists v. split; [exact EV|]. destruct NS as [N1 [N2 [N3 [N4 N5]]]].
  have GS : given_scales sc' by unfold given_scales; cbn; (split; [|split; [|split]]); apply Rgt_not_eq.
  have [W1 [W2 [W3 [W4 [W5 W6]]]]] := @finished s o 0%nat _ _ sc' _ k (g_bse k) v HG' GS ltac:(done) LU eq_refl ES EN eq_refl B1 B2 B3 EC EP.
  split; [done|]. split; [rewrite W2; cbn [sc' sc unit_scales set_scales zmbar rbar vbar tbar rbar_au tbar_days]; cbn zeta; split; [done|]; split; [exact ER'|]; split; [by split|by split]|]. split; [rewrite W3; cbn; rewrite /zero6; f_equal; field; lra|].
  split; [move=> NE; by apply W6 => //; cbn; apply Rgt_not_eq; lra|]. split; [by rewrite W4|]. split; [rewrite W5 ENS; do 2 f_equal; by rewrite /places_in /entries !app_length !map_length|].
  injection F5 as -> _ _ _ _. by [].
Qed.
(* the next group, without scales to go by *)
Theorem bare_group o conf f g ns s : nth_error f g = Some s -> luminous s -> info_of_file conf None s = Ok None ->
  exists v, get_h5 G o conf f g ns true None = Ok v /\ shows s v /\
    (let sc := c_sc (g_c (h5_cat v)) in zmbar sc = 1 /\ rbar sc = 1 /\ vbar sc = 1 /\ tbar sc = 1).
Proof.
  move=> E LU EI. pose sc := unit_scales (y_ro o) (y_vo o).
  have ST : start_h5 o s None = fresh (n_time s) 0 zero6 sc (mkSk nil6 zero6 zero6 None None None) 0 by [].
  have [k [EF FK]] := @content_filled (n_time s) 0%nat zero6 sc (mkSk nil6 zero6 zero6 None None None) 0%Z s.
  rewrite -ST in EF. have [HG [ES [EN [B1 [B2 [B3 [EB ENS]]]]]]] := filled_holds FK.
  have [v [EV [EC [EP _]]]] := @get_h5_parts G o conf f g ns true None s None k (g_c k) E EI EF eq_refl.
  have GS : given_scales sc by repeat split; cbn; lra.
  have [W1 [W2 _]] := @finished s o 0%nat _ _ sc _ k (g_bse k) v HG GS ltac:(done) LU ltac:(cbn; ring) ES EN eq_refl B1 B2 B3 EC EP.
  exists v. split; [exact EV|]. split; [done|]. rewrite W2. by repeat split.
Qed.
(* masses and positions in N-body units *)
Lemma shown_masses s v : shows s v -> map (fun a => a * zmbar (c_sc (g_c (h5_cat v)))) (p_m (c_ph (g_c (h5_cat v)))) = map x_mass (entries s).
Proof.
  move=> [_ [_ [_ [_ [_ [_ [L [_ [_ H]]]]]]]]]. apply (nth_ext _ _ 0 0); [by rewrite !map_length|].
  move=> i Hi. rewrite map_length L in Hi. have Q := H i Hi.
  have -> : nth i (map x_mass (entries s)) 0 = x_mass (shown v i) by apply nth_error_nth; rewrite nth_error_map Q.
  rewrite (@nth_indep _ _ i 0 (0 * zmbar (c_sc (g_c (h5_cat v))))); [by rewrite map_length L|]. by rewrite (map_nth (fun a => a * _)).
Qed.
Lemma shown_total s v : shows s v -> zmbar (c_sc (g_c (h5_cat v))) = sumR (map x_mass (entries s)) -> zmbar (c_sc (g_c (h5_cat v))) <> 0 ->
  sumR (p_m (c_ph (g_c (h5_cat v)))) = 1.
Proof.
  move=> SH E N. have Q := shown_masses SH. set z := zmbar _ in Q E N. set m := p_m _ in Q *.
  have : sumR (map (fun a => a * z) m) = sumR m * z by apply sumR_map_mul. rewrite Q -E => H. apply (Rmult_eq_reg_r z) => //. lra.
Qed.
End WithGalpy.
