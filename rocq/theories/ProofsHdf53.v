(* Proofs: NBODY6++ HDF5 snapshots with and without scales, and the groups that follow. *)
From Coq Require Import String Ascii.
From Verif Require Import Base ModelCluster ModelOps ModelRecipes ModelEnergy ModelStars ModelLoad ModelDynamics ModelNbody6 ModelNbody6pp ModelHdf5.
From Verif Require Import SpecUnits SpecStars SpecRecipes SpecHdf5 ProofsUnits ProofsRecipes ProofsRecipes2 ProofsStars ProofsHdf5 ProofsHdf52.
Set Implicit Arguments. Unset Strict Implicit.
Open Scope list_scope. Open Scope R_scope.

Section WithGalpy.
Variable G : galpy.
Definition info_of_file (conf3 : option (result (list R))) (nlist : option nbinfo) (s : hstep) : result (option nbinfo) :=
  match conf3 with
  | Some h => bind h (fun a => bind (info_of a (n_single s) (length (the_pairs s))) (fun i => Ok (Some i)))
  | None => Ok nlist end.
Definition start_h5 (o : h5_opts) (s : hstep) (info : option nbinfo) : catalog :=
  let k0 := init_catalog (init_cluster (n_time s) (Some Upckms) (Some Ocluster) (y_ro o) (y_vo o)) in
  match info with Some i => add_info i k0 | None => k0 end.
Lemma get_h5_parts o conf3 f g ns adv nlist s info k c5 : nth_error f g = Some s -> info_of_file conf3 nlist s = Ok info ->
  fill (start_h5 o s info) s = Ok k -> rescale_h5 G (match info with Some _ => true | None => false end) adv (g_c k) = Ok c5 ->
  exists v, get_h5 G o conf3 f g ns adv nlist = Ok v /\ h5_cat v = finish_h5 s o k c5 /\ h5_pots v = pots_in s /\
    h5_ngroups v = length f /\ h5_ngroup v = g /\ h5_nsnap v = int_n ns /\ h5_file v = f /\
    (h5_nc v, h5_rc v, h5_rtide v, h5_rscale v, h5_np v) =
      match info with Some i => (ni_nc i, ni_rc i, ni_rtide i, ni_rscale i, ni_np i) | None => (0, 0, 0, 1, 0) end.
Proof.
  move=> E EI EF ER. unfold get_h5. rewrite E. unfold info_of_file in EI. fold (the_pairs s). rewrite EI. cbn [bind].
  unfold fill, start_h5 in EF.
  destruct (match n_pairs s with Some _ => _ | None => _ end) as [k2|] eqn:E2; [|discriminate]. cbn [bind] in EF |- *.
  destruct (add_stars 0 _ true false false k2) as [k3|] eqn:E3; [|discriminate]. cbn [bind] in EF |- *. rewrite EF. cbn [bind]. rewrite ER. cbn [bind].
  destruct info as [i|]; eexists; (split; [reflexivity|]); by repeat split.
Qed.

Definition info_scales (i : nbinfo) (ro vo : R) : scales :=
  mkSc (ni_zmbar i) (ni_rbar i) (ni_vbar i) (ni_tbar i) (pc_to_cm / rsun_to_cm * ni_rbar i) (pc_to_cm / au_to_cm * ni_rbar i)
       (365.25 * (rpow (ni_rbar i * 1296000 / (2 * PI)) (3/2) / sqrt (ni_zmbar i))) ro vo.
Definition positive_info (i : nbinfo) : Prop := 0 < ni_zmbar i /\ 0 < ni_rbar i /\ 0 < ni_vbar i /\ 0 < ni_tbar i.
Lemma filled_holds t nb cen sc sky s k : filled t nb cen sc sky s k ->
  holds_group s nb t cen sc (g_c k) /\
  g_sse k = mkSse (kws_in s) (logl_in s) (rs_in s) (map pow10 (logl_in s)) (repeat 0 (length (kws_in s))) (repeat 0 (length (kws_in s))) (sumR (map pow10 (logl_in s))) /\
  g_ntot k = length (places_in s) /\ f_ecc (g_bse k) = map hb_ecc (the_pairs s) /\ f_id1 (g_bse k) = map hb_id1 (the_pairs s) /\ f_id2 (g_bse k) = map hb_id2 (the_pairs s) /\
  g_b k = components_in s /\ g_ns k = (Z.of_nat (length (places_in s)) - Z.of_nat (twice_nb nb s))%Z.
Proof. move=> [bse [m0 [np [-> [F1 [F2 F3]]]]]]. by repeat split. Qed.
Lemma au_days i ro vo : positive_info i ->
  rbar_au (info_scales i ro vo) = au_in_pc * ni_rbar i /\ tbar_days (info_scales i ro vo) = 365.25 * sqrt ((au_in_pc * ni_rbar i) ^ 3 / ni_zmbar i) /\
  0 < au_in_pc * ni_rbar i /\ 0 < 365.25 * sqrt ((au_in_pc * ni_rbar i) ^ 3 / ni_zmbar i).
Proof.
  move=> [H1 [H2 _]]. have PP := PI_RGT_0. have PA : 0 < au_in_pc by rewrite /au_in_pc; apply Rdiv_lt_0_compat; lra.
  have PX : 0 < au_in_pc * ni_rbar i by apply Rmult_lt_0_compat. cbn [rbar_au tbar_days info_scales].
  split; [rewrite /pc_to_cm /au_in_pc /au_to_cm; field; lra|]. split; [|split; [done|]].
  - have -> : ni_rbar i * 1296000 / (2 * PI) = au_in_pc * ni_rbar i by rewrite /au_in_pc; field; lra.
    rewrite sqrt_div; [apply pow_le; lra|done|]. do 2 f_equal.
    rewrite /rpow. destruct (Req_EM_T _ _) as [E|E]; [lra|].
    rewrite -Rpower_sqrt; [by apply pow_lt|]. have -> : (au_in_pc * ni_rbar i) ^ 3 = Rpower (au_in_pc * ni_rbar i) (INR 3) by rewrite Rpower_pow.
    rewrite Rpower_mult. f_equal. cbn. lra.
  - apply Rmult_lt_0_compat; [lra|]. apply sqrt_lt_R0, Rdiv_lt_0_compat => //. by apply pow_lt.
Qed.
Definition in_scales (i : nbinfo) (v : h5) : Prop :=
  let c := g_c (h5_cat v) in let s := c_sc c in
  zmbar s = ni_zmbar i /\ rbar s = ni_rbar i /\ vbar s = ni_vbar i /\ tbar s = ni_tbar i /\ rbar_au s = au_in_pc * ni_rbar i /\
  p_c (c_ph c) = mk6 (ni_xc i) (ni_yc i) (ni_zc i) 0 0 0 /\
  (h5_nc v, h5_rc v, h5_rtide v, h5_rscale v, h5_np v) = (ni_nc i, ni_rc i, ni_rtide i, ni_rscale i, ni_np i).
Theorem given_group o conf3 f g ns adv nlist s i : nth_error f g = Some s -> info_of_file conf3 nlist s = Ok (Some i) -> positive_info i ->
  luminous s -> (n_pairs s = None -> ni_nb i = 0%nat) ->
  exists v, get_h5 G o conf3 f g ns adv nlist = Ok v /\ shows s v /\ in_scales i v /\
    (the_pairs s <> [] -> shows_pairs s v (au_in_pc * ni_rbar i) (365.25 * sqrt ((au_in_pc * ni_rbar i) ^ 3 / ni_zmbar i))) /\
    h5_ngroups v = length f /\ h5_ngroup v = g /\ h5_nsnap v = int_n ns /\ h5_file v = f /\
    g_b (h5_cat v) = components_in s /\ g_ns (h5_cat v) = (Z.of_nat (length (entries s)) - Z.of_nat (twice_nb (ni_nb i) s))%Z.
Proof.
  move=> E EI PI_ LU NB.
  pose sc := info_scales i (y_ro o) (y_vo o). pose cen := mk6 (ni_xc i) (ni_yc i) (ni_zc i) 0 0 0.
  have ST : start_h5 o s (Some i) = fresh (n_time s) (ni_nb i) cen sc
     (mkSk nil6 zero6 zero6 None None (Some (ni_xc i, ni_yc i, ni_zc i))) (Z.of_nat (ni_ns i)) by [].
  have [k [EF FK]] := @content_filled (n_time s) (ni_nb i) cen sc (mkSk nil6 zero6 zero6 None None (Some (ni_xc i, ni_yc i, ni_zc i))) (Z.of_nat (ni_ns i)) s.
  rewrite -ST in EF. have [HG [ES [EN [B1 [B2 [B3 [EB ENS]]]]]]] := filled_holds FK.
  have [v [EV [EC [EP [F1 [F2 [F3 [F4 F5]]]]]]]] := @get_h5_parts o conf3 f g ns adv nlist s (Some i) k (times_scales (g_c k)) E EI EF eq_refl.
  exists v. split; [exact EV|].
  have [P1 [P2 [P3 P4]]] := PI_. have [D1 [D2 [D3 D4]]] := au_days (y_ro o) (y_vo o) PI_. fold sc in D1, D2.
  have HG' : holds_group s (ni_nb i) (n_time s * tbar sc) (mk6 (sx cen * rbar sc) (sy cen * rbar sc) (sz cen * rbar sc) 0 0 0) sc (times_scales (g_c k)).
  { destruct HG as [A1 [A2 [A3 [A4 [A5 [A6 [A7 A8]]]]]]]. unfold holds_group, times_scales. cbn [set_ph c_units c_origin c_bunits c_nb c_ph c_sc c_bin c_id].
    rewrite A5 A6. cbn [p_t p_m p_s p_c p_g svx svy svz cen]. by repeat split. }
  have GS : given_scales sc by repeat split; cbn; lra.
  have [W1 [W2 [W3 [W4 [W5 W6]]]]] := @finished s o (ni_nb i) _ _ sc _ k (g_bse k) v HG' GS NB LU eq_refl ES EN eq_refl B1 B2 B3 EC EP.
  split; [done|]. split.
  - unfold in_scales. cbn zeta. rewrite W2 W3 F5 D1. cbn [sx sy sz svx svy svz cen sc info_scales rbar zmbar vbar tbar].
    do 4 (split; [done|]). split; [done|]. split; [|done]. f_equal; field; cbn in *; lra.
  - split; [move=> NE; rewrite -D2 -D1; apply W6 => //; rewrite ?D1 ?D2; lra|]. do 4 (split; [done|]). split; [by rewrite W4|].
    rewrite W5 ENS. do 2 f_equal. by rewrite /places_in /entries !app_length !map_length.
Qed.
End WithGalpy.
