(* Proofs: NBODY6++ HDF5 snapshots, headers, groups without scales, and the groups that follow. *)
From Coq Require Import String Ascii.
From Verif Require Import Base ModelCluster ModelOps ModelRecipes ModelEnergy ModelStars ModelLoad ModelDynamics ModelNbody6 ModelNbody6pp ModelHdf5.
From Verif Require Import SpecUnits SpecStars SpecRecipes SpecEnergy SpecDynamics SpecHdf5.
From Verif Require Import ProofsUnits ProofsRecipes ProofsRecipes2 ProofsStars ProofsEnergy ProofsPot ProofsVirial ProofsVR ProofsDynamics5 ProofsHdf5 ProofsHdf52 ProofsHdf53.
Set Implicit Arguments. Unset Strict Implicit.
Open Scope list_scope. Open Scope R_scope.

Section WithGalpy.
Variable G : galpy.
(* ------------------------------------------------------------------ headers *)
Definition info_of_header (h : header) (n nb : nat) : nbinfo :=
  mkNI (hd_core h) (hd_rc h) (hd_length h) (hd_tide h) (fst (fst (hd_centre h))) (snd (fst (hd_centre h))) (snd (hd_centre h)) (hd_mass h) (hd_speed h)
       (hd_time h) (hd_rscale h) n nb (INR n + hd_extra h).
Lemma info_header l h n nb : header_of l h -> info_of l n nb = Ok (info_of_header h n nb).
Proof.
  move=> [H3 [H2 [H11 [H10 [H6 [H7 [H8 [H13 [H4 [H12 [H17 H1]]]]]]]]]]]. unfold info_of, al.
  by rewrite H3 H2 H11 H10 H6 H7 H8 H13 H4 H12 H17 H1.
Qed.
Lemma positive_of_header h n nb : positive_header h -> positive_info (info_of_header h n nb). Proof. move=> [H1 [H2 [H3 H4]]]. by repeat split. Qed.
Lemma in_scales_header h n nb v : in_scales (info_of_header h n nb) v -> scaled_by h v /\ h5_np v = INR n + hd_extra h.
Proof.
  move=> [H1 [H2 [H3 [H4 [H5 [H6 H7]]]]]]. unfold scaled_by. cbn zeta. rewrite H1 H2 H3 H4 H6.
  injection H7 as -> -> -> -> ->. split; [|done]. do 4 (split; [done|]). split; [|done]. cbn. by destruct (hd_centre h) as [[? ?] ?].
Qed.
Definition pairs_shown (h : header) (s : hstep) (v : h5) : Prop :=
  the_pairs s <> [] -> shows_pairs s v (au_in_pc * hd_length h) (365.25 * sqrt ((au_in_pc * hd_length h) ^ 3 / hd_mass h)).
Theorem header_group o l f g ns adv nlist s h : nth_error f g = Some s -> header_of l h -> positive_header h -> luminous s ->
  exists v, get_h5 G o (Some (Ok l)) f g ns adv nlist = Ok v /\ shows s v /\ scaled_by h v /\ pairs_shown h s v /\
    in_scales (info_of_header h (n_single s) (length (the_pairs s))) v /\
    h5_ngroups v = length f /\ h5_ngroup v = g /\ h5_nsnap v = int_n ns /\ h5_file v = f.
Proof.
  move=> E HH HP LU. pose i := info_of_header h (n_single s) (length (the_pairs s)).
  have [v [EV [SH [SC [SP [F1 [F2 [F3 [F4 _]]]]]]]]] := @given_group G o (Some (Ok l)) f g ns adv nlist s i E
    ltac:(by rewrite /info_of_file; cbn [bind]; rewrite (info_header _ _ HH)) (positive_of_header _ _ HP) LU
    ltac:(by rewrite /i /the_pairs => ->).
  exists v. split; [done|]. split; [done|]. split; [by have [] := in_scales_header SC|]. by split.
Qed.

(* ------------------------------------------------------------------ the next group of a file with scales *)
Lemma next_list s i v : shows s v -> in_scales i v -> ni_nc i <> 0 -> ni_np i <> 0 ->
  exists i', list_of G v = Some i' /\ ni_nb i' = length (the_pairs s) /\
    (ni_nc i', ni_rc i', ni_rbar i', ni_rtide i', ni_xc i', ni_yc i', ni_zc i') = (ni_nc i, ni_rc i, ni_rbar i, ni_rtide i, ni_xc i, ni_yc i, ni_zc i) /\
    (ni_zmbar i', ni_vbar i', ni_tbar i', ni_rscale i', ni_np i') = (ni_zmbar i, ni_vbar i, ni_tbar i, ni_rscale i, ni_np i).
Proof.
  move=> [U [_ [_ [NB _]]]] [H1 [H2 [H3 [H4 [H5 [H6 H7]]]]]] N1 N2. injection H7 as E1 E2 E3 E4 E5. unfold list_of.
  have -> : Reqb (h5_nc v) 0 = false by rewrite E1; unfold Reqb; destruct (Req_EM_T _ _).
  have -> : Reqb (h5_np v) 0 = false by rewrite E5; unfold Reqb; destruct (Req_EM_T _ _).
  cbn [orb]. rewrite U. eexists. split; [reflexivity|]. cbn. by rewrite NB H1 H2 H3 H4 H6 E1 E2 E3 E4 E5.
Qed.
Lemma advance_group D d o dt v f s s' i : shows s v -> in_scales i v -> positive_info i -> ni_nc i <> 0 -> ni_np i <> 0 ->
  h5_file v = f -> h5_ngroups v = length f -> nth_error f (S (h5_ngroup v)) = Some s' -> luminous s' -> (n_pairs s' = None -> the_pairs s = []) ->
  exists v', advance_h5 G D d o dt v = Ok v' /\ shows s' v' /\ in_scales i v' /\
    (the_pairs s' <> [] -> shows_pairs s' v' (au_in_pc * ni_rbar i) (365.25 * sqrt ((au_in_pc * ni_rbar i) ^ 3 / ni_zmbar i))) /\
    h5_ngroups v' = length f /\ h5_ngroup v' = S (h5_ngroup v) /\ h5_nsnap v' = Z.max 0 (h5_nsnap v) /\ h5_file v' = f.
Proof.
  move=> SH SC PI_ N1 N2 F NG E' LU NP. unfold advance_h5.
  have L : (S (h5_ngroup v) < length f)%nat by apply nth_error_Some; rewrite E'.
  have -> : Nat.ltb (S (h5_ngroup v)) (h5_ngroups v) = true by rewrite NG; apply Nat.ltb_lt. rewrite F.
  have [i' [EI [B [X1 X2]]]] := next_list SH SC N1 N2. injection X1 as A1 A2 A3 A4 A5 A6 A7. injection X2 as A8 A9 A10 A11 A12.
  have [v' [EV [SH' [SC' [SP [G1 [G2 [G3 [G4 _]]]]]]]]] := @given_group G o None f (S (h5_ngroup v)) (Whole (Z.max 0 (h5_nsnap v))) true (list_of G v) s' i' E'
    ltac:(by rewrite /info_of_file EI) ltac:(by rewrite /positive_info A3 A8 A9 A10) LU ltac:(by move=> Q; rewrite B (NP Q)).
  exists v'. split; [done|]. split; [done|].
  split; [by move: SC'; rewrite /in_scales A1 A2 A3 A4 A5 A6 A7 A8 A9 A10 A11 A12|]. split; [by rewrite -A3 -A8|]. by split.
Qed.
(* a group with the number of pairs of the group before it *)
Lemma stale_pairs D d o dt v f s s' i : shows s v -> in_scales i v -> positive_info i -> ni_nc i <> 0 -> ni_np i <> 0 ->
  h5_file v = f -> h5_ngroups v = length f -> nth_error f (S (h5_ngroup v)) = Some s' -> n_pairs s' = None ->
  exists v', advance_h5 G D d o dt v = Ok v' /\ c_nb (g_c (h5_cat v')) = length (the_pairs s) /\
    g_ns (h5_cat v') = (Z.of_nat (length (n_alone s')) - Z.of_nat (length (the_pairs s)))%Z.
Proof.
  move=> SH SC PI_ N1 N2 F NG E' NP. unfold advance_h5.
  have L : (S (h5_ngroup v) < length f)%nat by apply nth_error_Some; rewrite E'.
  have -> : Nat.ltb (S (h5_ngroup v)) (h5_ngroups v) = true by rewrite NG; apply Nat.ltb_lt. rewrite F.
  have [i' [EI [B _]]] := next_list SH SC N1 N2. rewrite EI.
  pose sc := info_scales i' (y_ro o) (y_vo o). pose cen := mk6 (ni_xc i') (ni_yc i') (ni_zc i') 0 0 0.
  have ST : start_h5 o s' (Some i') = fresh (n_time s') (ni_nb i') cen sc
     (mkSk nil6 zero6 zero6 None None (Some (ni_xc i', ni_yc i', ni_zc i'))) (Z.of_nat (ni_ns i')) by [].
  have [k [EF FK]] := @content_filled (n_time s') (ni_nb i') cen sc (mkSk nil6 zero6 zero6 None None (Some (ni_xc i', ni_yc i', ni_zc i'))) (Z.of_nat (ni_ns i')) s'.
  rewrite -ST in EF. have [HG [ES [EN [B1 [B2 [B3 [EB ENS]]]]]]] := filled_holds FK.
  have [v' [EV [EC _]]] := @get_h5_parts G o None f (S (h5_ngroup v)) (Whole (Z.max 0 (h5_nsnap v))) true (Some i') s' (Some i') k (times_scales (g_c k)) E' eq_refl EF eq_refl.
  exists v'. split; [exact EV|].
  have [c7 [D7 [SK [S1 [S2 [S3 [S4 S5]]]]]]] := @finish_fields s' o k (times_scales (g_c k)). rewrite -EC in SK S5.
  apply skel_eq_fields in SK. destruct SK as [_ [_ [_ [K4 _]]]]. rewrite K4 S5 ENS D7 NP.
  have [P1 [P2 [P3 [P4 [P5 _]]]]] := bin_to_nbody_ph (set_ph (times_scales (g_c k)) (pckms_to_nbody (c_sc (times_scales (g_c k))) (c_ph (times_scales (g_c k)))) (Some Unbody)).
  unfold pckms_cluster_to_nbody. rewrite P5. destruct HG as [_ [_ [_ [A4 _]]]]. cbn [set_ph times_scales c_nb]. rewrite A4 /twice_nb NP B. split; [done|].
  rewrite /places_in /the_pairs NP. cbn [map app]. by rewrite map_length.
Qed.

(* ------------------------------------------------------------------ without scales *)
Definition unit_scales (ro vo : R) : scales := mkSc 1 1 1 1 1 1 1 ro vo.
Lemma rows_file s nb t cen sc c : holds_group s nb t cen sc c -> rows false c = file_bodies s.
Proof.
  move=> [_ [_ [_ [_ [H5 _]]]]]. unfold rows. rewrite H5. cbn [p_s p_m].
  have -> : places_in s = map x_place (entries s) by rewrite /places_in /entries map_app !map_map.
  have -> : masses_in s = map x_mass (entries s) by rewrite /masses_in /entries map_app !map_map.
  unfold six_lists, file_bodies. cbn [sx sy sz]. elim: (entries s) => [//|e l IH]. cbn. by rewrite IH.
Qed.
Lemma reset_plain c : c_units c = Some Upckms -> c_origin c = Some Ocluster ->
  let z := sumR (p_m (c_ph c)) in let rb := z ^ 2 / (2 * weighted_inverse_distance_sum (rows false c)) in
  let vb := 6557 / 100000 * sqrt (z / rb) in let tb := rb / (1023 / 1000 * vb) in
  exists c', reset_nbody_scale_method G true true true false false c = Ok c' /\ skel c' = skel (set_sc c (set_scales (c_sc c) (z, rb, vb, tb))).
Proof.
  move=> U O z rb vb tb.
  have SF : skel (scale_frame G c) = skel c.
  { unfold scale_frame, off_centre. rewrite O. unfold to_pckms, analyze_if_units, to_pckms0, pckms_step. rewrite U. cbn zeta. rewrite U. apply skel_analyze. }
  have F := skel_eq_fields SF. destruct F as [F1 [F2 [F3 [F4 [F5 [F6 [F7 [F8 F9]]]]]]]].
  unfold reset_nbody_scale_method, reset_nbody_scale. cbn zeta. move: (scale_frame G c) SF F1 F2 F3 F4 F5 F6 F7 F8 F9 => c1 SF F1 F2 F3 F4 F5 F6 F7 F8 F9.
  unfold virial_radius, off_centre. rewrite F1 U F2 O. cbn zeta.
  have RW : rows false c1 = rows false c by unfold rows; rewrite F5. rewrite RW F5.
  have RC : forall sv c0, c_units c0 = sv_units sv -> c_origin c0 = sv_origin sv -> skel (return_cluster G sv c0) = skel c0.
  { move=> sv c0 Hu Ho. unfold return_cluster. destruct (ousys_eq_dec _ _) as [e|e]; [|congruence]. destruct (oosys_eq_dec _ _) as [e'|e']; [|congruence].
    by rewrite skel_analyze. }
  have Q1 : skel (return_cluster G (save_cluster c1) c1) = skel c1 by apply RC.
  move: (return_cluster G (save_cluster c1) c1) Q1 => c2 Q1.
  have Q2 : skel (return_cluster G (save_cluster c) c2) = skel c.
  { have F' := skel_eq_fields Q1. rewrite RC; [| |by rewrite Q1]; cbn [save_cluster sv_units sv_origin]; intuition congruence. }
  move: (return_cluster G (save_cluster c) c2) Q2 => c3 Q2.
  eexists. split; [reflexivity|].
  have F' := skel_eq_fields Q2. destruct F' as [T1 [T2 [T3 [T4 [T5 [T6 [T7 [T8 T9]]]]]]]].
  unfold skel, set_sc, set_der. cbn. by rewrite T1 T2 T3 T4 T5 T6 T7 T8 T9.
Qed.
End WithGalpy.
