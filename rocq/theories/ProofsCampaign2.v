(* Campaigns over the groups of an HDF5 file: every group has usable scales. *)
From Verif Require Import Base ModelCluster ModelOps ModelEnergy ModelStars ModelNbody6 ModelNbody6pp ModelHdf5 ModelSurvey ModelCampaign.
From Verif Require Import SpecUnits SpecFrame SpecStars SpecNbody6 SpecHdf5 SpecCampaign ProofsUnits ProofsFrame ProofsHdf5 ProofsHdf52 ProofsHdf53 ProofsHdf54 ProofsCampaign.
Set Implicit Arguments.
Unset Strict Implicit.
Open Scope list_scope. Open Scope R_scope.

Section WithGalpy.
Variable G : galpy.
Lemma group_scales o conf3 f g ns adv nlist s i v : nth_error f g = Some s -> info_of_file conf3 nlist s = Ok (Some i) -> positive_info i ->
  luminous s -> (n_pairs s = None -> ni_nb i = 0%nat) -> get_h5 G o conf3 f g ns adv nlist = Ok v -> c_sc (g_c (h5_cat v)) = info_scales i (y_ro o) (y_vo o).
Proof.
  move=> E EI PI_ LU NB EV0.
  pose sc := info_scales i (y_ro o) (y_vo o). pose cen := mk6 (ni_xc i) (ni_yc i) (ni_zc i) 0 0 0.
  have ST : start_h5 o s (Some i) = fresh (n_time s) (ni_nb i) cen sc
     (mkSk nil6 zero6 zero6 None None (Some (ni_xc i, ni_yc i, ni_zc i))) (Z.of_nat (ni_ns i)) by [].
  have [k [EF FK]] := @content_filled (n_time s) (ni_nb i) cen sc (mkSk nil6 zero6 zero6 None None (Some (ni_xc i, ni_yc i, ni_zc i))) (Z.of_nat (ni_ns i)) s.
  rewrite -ST in EF. have [HG [ES [EN [B1 [B2 [B3 [EB ENS]]]]]]] := filled_holds FK.
  have [v' [EV [EC [EP [F1 [F2 [F3 [F4 F5]]]]]]]] := @get_h5_parts G o conf3 f g ns adv nlist s (Some i) k (times_scales (g_c k)) E EI EF eq_refl.
  have X : v' = v by congruence. subst v'. clear EV0.
  have [P1 [P2 [P3 P4]]] := PI_.
  have HG' : holds_group s (ni_nb i) (n_time s * tbar sc) (mk6 (sx cen * rbar sc) (sy cen * rbar sc) (sz cen * rbar sc) 0 0 0) sc (times_scales (g_c k)).
  { destruct HG as [A1 [A2 [A3 [A4 [A5 [A6 [A7 A8]]]]]]]. unfold holds_group, times_scales. cbn [set_ph c_units c_origin c_bunits c_nb c_ph c_sc c_bin c_id].
    rewrite A5 A6. cbn [p_t p_m p_s p_c p_g svx svy svz cen]. by repeat split. }
  have GS : given_scales sc by repeat split; cbn; lra.
  have [_ [W2 _]] := @finished s o (ni_nb i) _ _ sc _ k (g_bse k) v HG' GS NB LU eq_refl ES EN eq_refl B1 B2 B3 EC EP.
  exact W2.
Qed.
Lemma group_ready o i s v : shows s v -> positive_info i -> galactic_constants G o -> c_sc (g_c (h5_cat v)) = info_scales i (y_ro o) (y_vo o) -> ready G (g_c (h5_cat v)) Unbody Ocluster.
Proof.
  move=> [U [O _]] [P1 [P2 [P3 P4]]] [C1 [C2 [C3 [C4 C5]]]] ES. split; [|split; [exact U|]; split; [done|]; split; [exact O|done]].
  rewrite ES. do 4 (split; [cbn; lra|]). by do 4 (split; [done|]).
Qed.
Lemma advance_scales D d o dt v f s s' i v' : shows s v -> in_scales i v -> positive_info i -> ni_nc i <> 0 -> ni_np i <> 0 ->
  h5_file v = f -> h5_ngroups v = length f -> nth_error f (S (h5_ngroup v)) = Some s' -> luminous s' -> (n_pairs s' = None -> the_pairs s = []) ->
  advance_h5 G D d o dt v = Ok v' -> exists i', positive_info i' /\ c_sc (g_c (h5_cat v')) = info_scales i' (y_ro o) (y_vo o).
Proof.
  move=> SH SC PI_ N1 N2 F NG E' LU NP. unfold advance_h5.
  have L : (S (h5_ngroup v) < length f)%nat by apply nth_error_Some; rewrite E'.
  have -> : Nat.ltb (S (h5_ngroup v)) (h5_ngroups v) = true by rewrite NG; apply Nat.ltb_lt. rewrite F.
  have [i' [EI [B [X1 X2]]]] := @next_list G s i v SH SC N1 N2. injection X1 as A1 A2 A3 A4 A5 A6 A7. injection X2 as A8 A9 A10 A11 A12.
  have PI' : positive_info i' by rewrite /positive_info A3 A8 A9 A10.
  move=> E. exists i'. split; [done|].
  exact (@group_scales o None f (S (h5_ngroup v)) (Whole (Z.max 0 (h5_nsnap v))) true (list_of G v) s' i' v' E' ltac:(by rewrite /info_of_file EI) PI' LU ltac:(by move=> Q; rewrite B (NP Q)) E).
Qed.
Lemma put_changes D d o dt ops w u q : ready G (g_c (h5_cat w)) u q -> Forall flat_op ops ->
  advance_h5 G D d o dt (put_group w (set_cluster (h5_cat w) (run G ops (g_c (h5_cat w))))) = advance_h5 G D d o dt w.
Proof.
  move=> R1 FO. have [V1 [V2 [V3 [V4 [V5 V6]]]]] := run_view R1 FO. eapply advance_h5_put; [exact R1|exact V2|exact V1|exact V3|exact V6|done].
Qed.
Lemma worked_same D d o dt h f s0 i v : galactic_constants G o -> (forall k, Forall flat_op (h k)) ->
  nth_error f 0 = Some s0 -> shows s0 v -> in_scales i v -> positive_info i -> ni_nc i <> 0 -> ni_np i <> 0 ->
  (exists i0, positive_info i0 /\ c_sc (g_c (h5_cat v)) = info_scales i0 (y_ro o) (y_vo o)) ->
  h5_file v = f -> h5_ngroups v = length f -> h5_ngroup v = 0%nat -> (forall s, In s f -> luminous s) ->
  (forall s, In s f -> n_pairs s <> None) \/ (forall s, In s f -> n_pairs s = None) ->
  forall m s, nth_error f m = Some s -> exists w, worked G D d o dt h m v = Ok w /\ advance_h5_times G D d o dt m v = Ok w /\ shows s w /\ in_scales i w /\
    h5_file w = f /\ h5_ngroups w = length f /\ h5_ngroup w = m /\ (exists i0, positive_info i0 /\ c_sc (g_c (h5_cat w)) = info_scales i0 (y_ro o) (y_vo o)).
Proof.
  move=> GC FO E0 SH SC PI_ N1 N2 SI F1 F2 F3 LU PR. induction m as [|m IH] => s Em.
  - have X : s = s0 by congruence. subst s. exists v. by repeat (split; [done|]).
  - have [s' Es'] : exists s', nth_error f m = Some s'.
    { destruct (nth_error f m) as [s'|] eqn:X; [by exists s'|]. apply nth_error_None in X. have : (S m < length f)%nat by apply nth_error_Some; rewrite Em. lia. }
    have [w [W1 [W2 [W3 [W4 [W5 [W6 [W7 [i0 [W8 W9]]]]]]]]]] := IH s' Es'.
    have Em' : nth_error f (S (h5_ngroup w)) = Some s by rewrite W7.
    have NPP : n_pairs s = None -> the_pairs s' = [].
    { move=> X. destruct PR as [PR|PR]; [by destruct (PR s (nth_error_In _ _ Em))|]. by rewrite /the_pairs (PR s' (nth_error_In _ _ Es')). }
    have [w' [V1 [V2 [V3 [V4 [V5 [V6 [V7 V8]]]]]]]] := @advance_group G D d o dt w f s' s i W3 W4 PI_ N1 N2 W5 W6 Em' (LU s (nth_error_In _ _ Em)) NPP.
    exists w'. rewrite /worked; cbn [nat_rect advance_h5_times]. rewrite -/(worked G D d o dt h m v) W1 W2; cbn [bind].
    rewrite (put_changes D d o dt (group_ready W3 W8 GC W9) (FO m)). do 4 (split; [done|]). split; [done|]. split; [done|]. split; [by rewrite V6 W7|].
    exact (@advance_scales D d o dt w f s' s i w' W3 W4 PI_ N1 N2 W5 W6 Em' (LU s (nth_error_In _ _ Em)) NPP V1).
Qed.
End WithGalpy.
