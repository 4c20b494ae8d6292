From Coq Require Import Sorted.
From Verif Require Import Base ModelCluster ModelOps SpecUnits SpecFrame SpecOrder ProofsUnits ProofsFrame ProofsOrder.
Set Implicit Arguments. Unset Strict Implicit.

Section S.
Variable G : galpy.

Lemma positive_good s : positive_scales G s -> good_scales G s.
Proof. move=> [? [? [? [? [? [? [? [? ?]]]]]]]]; repeat split; lra. Qed.

Lemma to_units_full_eq c u u' : good_scales G (c_sc c) -> c_units c = Some u -> linear u -> linear u' ->
  to_units G (Ureq u') c = c \/
  to_units G (Ureq u') c = analyze true true
     (set_ph (bin_after c u') (rescale (unit_size G (c_sc c) u) (unit_size G (c_sc c) u') (c_ph c)) (Some u')).
Proof.
  move=> HS Hu Hl Hl'.
  have P := fun u => unit_size_nz u HS.
  have K := to_kpckms0_lin HS Hu Hl. have Q := to_pckms0_lin HS Hu Hl.
  rewrite /to_units Hu.
  destruct u'; rewrite /bin_after.
  - right. rewrite /to_nbody Hu. f_equal. destruct u; rewrite ?Q /= ?Hu /=;
      rewrite ?(prim9 HS) ?rescale_comp ?rescale_id ?bin_to_nbody_set_ph //.
    rewrite -{1}(@set_ph_id (bin_to_nbody c) Unbody).
    + rewrite /bin_to_nbody; destruct (c_bunits c) as [[]|] => //=; destruct (Nat.ltb 0 (c_nb c)) => //.
    + f_equal. rewrite /bin_to_nbody; destruct (c_bunits c) as [[]|] => //=; destruct (Nat.ltb 0 (c_nb c)) => //.
  - right. rewrite /to_pckms /analyze_if_units Hu Q //.
  - rewrite /to_pcmyr Hu. destruct u; first [by left|right; by rewrite ?Q /= ?(prim4 HS) rescale_comp |right; by rewrite ?Q /= ?(prim4 HS) ].
  - right. rewrite /to_kpckms /analyze_if_units Hu K //.
  - rewrite /to_kpcgyr Hu. destruct u; first [by left|right; by rewrite ?K /= ?(prim4' HS) rescale_comp |right; by rewrite ?K /= ?(prim4' HS) ].
  - right. rewrite /to_galpy Hu. destruct u; first [by rewrite ?K /= ?Hu /= ?(prim10 HS) rescale_comp |by rewrite ?K /= ?Hu /= ?(prim10 HS)|by rewrite ?K /= ?Hu /= rescale_id // set_ph_id].
  - rewrite /to_WDunits Hu. destruct u; first [by left|right; by rewrite ?K /= ?(prim11 HS) rescale_comp |right; by rewrite ?K /= ?(prim11 HS) ].
  - rewrite /to_amuse Hu. destruct u; first [by left|right; by rewrite ?Q /= ].
  - by case: Hl'.
Qed.

Lemma to_cluster_full_eq s c u o : c_units c = Some u -> linear u -> c_origin c = Some o -> flat o ->
  (o = Ocluster /\ to_cluster s c = c) \/
  to_cluster s c = analyze s true (set_stars c (reorigin (c_ph c) o Ocluster) (Some Ocluster)).
Proof.
  move=> Hu Hl Ho Hf. rewrite /to_cluster Ho Hu.
  destruct o; [right | by left | right | by case: Hf]; (destruct u; try (by case: Hl));
  rewrite /reorigin /shift_of ?sub6_add6; f_equal; (f_equal; apply add6_ext); destruct (p_g _), (p_c _);
  rewrite /plus6 /minus6 /zero6 /=; f_equal; lra.
Qed.

Definition frad (p : phys) (o oo : osys) : list R :=
  norm3 (sx (reorigin p o oo)) (sy (reorigin p o oo)) (sz (reorigin p o oo)).

Definition vord (c : cluster) : Prop := forall r, d_rorder (c_der c) = Some r ->
  exists oo o, c_origin c = Some o /\ d_rorder_origin (c_der c) = Some oo /\ sorted_order r (frad (c_ph c) o oo).

Lemma vord_analyze s c o : c_origin c = Some o -> vord c -> vord (analyze s true c).
Proof.
  move=> Ho Hv. rewrite /vord.
  have [_ [Eo [_ [_ [Ep _]]]]] := skel_eq_fields (skel_analyze s true c).
  rewrite Eo Ep.
  destruct s.
  - have F : frad (c_ph c) o o = rlist c by rewrite /frad reorigin_id.
    rewrite /analyze /analyze_fracs /sortstars /= -/(rlist c).
    destruct (d_rorder (c_der c)) as [r0|] eqn:E.
    + destruct (oosys_eqb (d_rorder_origin (c_der c)) (c_origin c)) eqn:E1;
      destruct (Nat.eqb (length (rlist c)) (length r0)) eqn:E2 => /=.
      all: set D := (X in match X with Some _ => _ | None => _ end).
      all: destruct D as [rp|] => /= r [<-].
      all: try (by exists o, o; repeat split => //; rewrite F; apply argsort_sorted).
      all: try (by apply Hv).
      all: try (exists o, o; rewrite F; split; [exact Ho|split; [|apply argsort_sorted]]; exact Ho).
    + rewrite oosys_eqb_refl /=. set D := (X in match X with Some _ => _ | None => _ end).
      destruct D as [rp|] => /= r [<-]; exists o, o; rewrite F; (split; [exact Ho|split; [|apply argsort_sorted]]; exact Ho).
  - rewrite /analyze /analyze_fracs /=.
    destruct (d_rorder (c_der c)) eqn:E; destruct (d_rproorder (c_der c)) => /= r H; apply Hv; rewrite -H ?E //.
Qed.

Lemma norm3_scale k x y z : 0 < k ->
  norm3 (map (fun a => a * k) x) (map (fun a => a * k) y) (map (fun a => a * k) z) =
  map (fun a => a * k) (norm3 x y z).
Proof.
  move=> Hk. rewrite /norm3. revert y z; induction x as [|a x IH]; destruct y as [|b y]; destruct z as [|c z] => //=.
  rewrite IH; f_equal.
  have -> : (a * k) * (a * k * 1) + (b * k) * (b * k * 1) + (c * k) * (c * k * 1) =
            (a * (a * 1) + b * (b * 1) + c * (c * 1)) * (k * k) by ring.
  rewrite sqrt_mult; [nra | nra |]. rewrite sqrt_square //; lra.
Qed.

Lemma sorted_order_scale o r k : 0 < k -> sorted_order o r -> sorted_order o (map (fun a => a * k) r).
Proof.
  move=> Hk [H1 H2]. split; [by rewrite map_length|].
  have N : forall i, nth i (map (fun a => a * k) r) 0 = nth i r 0 * k.
  { move=> i. rewrite -{1}(Rmult_0_l k). apply (map_nth (fun a => a * k)). }
  elim: H2 => [|a l Hs IH Hf]; [constructor|]. constructor; [exact IH|].
  eapply Forall_impl; [|exact Hf] => j /= Hj. rewrite !N. apply Rmult_le_compat_r; lra.
Qed.

Lemma reorigin_rescale sa sb p o oo :
  reorigin (rescale sa sb p) o oo = rscs sa sb (reorigin p o oo).
Proof.
  destruct p as [t m [a b c d e f] [a1 b1 c1 d1 e1 f1] [a2 b2 c2 d2 e2 f2]].
  rewrite /reorigin /rescale /rscs /rsc6 /add6 /vadd /rsc /=.
  f_equal; rewrite !map_map; apply map_ext => x; destruct o, oo => /=; ring.
Qed.

Lemma positive_size s u : positive_scales G s -> 0 < in_pc (unit_size G s u).
Proof. move=> [? [? [? [? [? [? [? [? ?]]]]]]]]; destruct u; rewrite /unit_size /=; nra || lra. Qed.

Lemma vord_rescale c sa sb u : 0 < in_pc sa -> 0 < in_pc sb -> vord c -> vord (set_ph c (rescale sa sb (c_ph c)) u).
Proof.
  move=> Ha Hb Hv r Hr. have [oo [o [H1 [H2 H3]]]] := Hv r Hr. exists oo, o. repeat split => //=.
  - rewrite /frad reorigin_rescale /rscs /= /rsc norm3_scale ?map_length; [by apply Rdiv_lt_0_compat|]. apply H3.
  - rewrite /frad reorigin_rescale /rscs /= /rsc norm3_scale; [by apply Rdiv_lt_0_compat|].
    apply sorted_order_scale => //. by apply Rdiv_lt_0_compat.
Qed.

Lemma vord_stars c o o' : c_origin c = Some o -> vord c -> vord (set_stars c (reorigin (c_ph c) o o') (Some o')).
Proof.
  move=> Ho Hv r Hr. have [oo [o1 [H1 [H2 H3]]]] := Hv r Hr. rewrite Ho in H1. case: H1 => H1. subst o1.
  exists oo, o'. split; [by []|]. split; [by []|]. simpl.
  have -> : frad (mkP (p_t (c_ph c)) (p_m (c_ph c)) (reorigin (c_ph c) o o') (p_c (c_ph c)) (p_g (c_ph c))) o' oo = frad (c_ph c) o oo.
  { rewrite /frad. have -> : reorigin (mkP (p_t (c_ph c)) (p_m (c_ph c)) (reorigin (c_ph c) o o') (p_c (c_ph c)) (p_g (c_ph c))) o' oo = reorigin (c_ph c) o oo; last by [].
    rewrite /reorigin /= add6_add6. apply add6_ext.
    destruct (c_ph c) as [t m s [] []]; destruct o, o', oo; rewrite /shift_of /plus6 /minus6 /zero6 /=; f_equal; lra. }
  exact H3.
Qed.

Lemma vord_bin c : vord c -> vord (bin_to_nbody c).
Proof.
  rewrite /bin_to_nbody; destruct (c_bunits c) as [[]|] => //=; destruct (Nat.ltb 0 (c_nb c)) => //.
Qed.

Lemma vord_units c u u' o : positive_scales G (c_sc c) -> ready G c u o -> linear u' -> vord c ->
  vord (to_units G (Ureq u') c).
Proof.
  move=> HP [HS [Hu [Hl [Ho Hf]]]] Hl' Hv.
  destruct (to_units_full_eq HS Hu Hl Hl') as [->| ->] => //.
  apply (@vord_analyze true _ o).
  - destruct u' => //=; have := bin_to_nbody_frame c => /= [[-> _]] //.
  - have := positive_size u HP. have := positive_size u' HP => P1 P2.
    destruct u'; rewrite /bin_after; try by apply vord_rescale.
    rewrite -bin_to_nbody_set_ph. apply vord_bin. by apply vord_rescale.
Qed.

Lemma vord_to_cluster s c u o : c_units c = Some u -> linear u -> c_origin c = Some o -> flat o -> vord c ->
  vord (to_cluster s c).
Proof.
  move=> Hu Hl Ho Hf Hv. destruct (to_cluster_full_eq s Hu Hl Ho Hf) as [[_ ->]| ->] => //.
  apply (@vord_analyze s _ Ocluster) => //. exact: vord_stars.
Qed.

Lemma vord_origin s c u o o' : c_units c = Some u -> linear u -> c_origin c = Some o -> flat o -> flat o' -> vord c ->
  vord (to_origin G (Oreq o') s c).
Proof.
  move=> Hu Hl Ho Hf Hf' Hv. rewrite /to_origin Ho.
  have step : forall s' c1 o1 ss, c_origin c1 = Some o1 -> vord c1 -> forall o2, ss = reorigin (c_ph c1) o1 o2 ->
     vord (analyze s' true (set_stars c1 ss (Some o2))).
  { move=> s' c1 o1 ss H1 H2 o2 ->. apply (@vord_analyze s' _ o2) => //. exact: vord_stars. }
  have tc : forall s', vord (to_cluster s' c) /\ c_origin (to_cluster s' c) = Some Ocluster.
  { move=> s'. split; [eapply vord_to_cluster; eassumption|].
    have E := @to_cluster_flat s' c u o Hu Hl Ho Hf. by have [_ [-> _]] := skel_eq_fields E. }
  have E1 : forall p, sub6 (p_s p) (p_c p) = reorigin p Ocluster Ocentre.
  { move=> p; rewrite sub6_add6 /reorigin; apply add6_ext. destruct p as [? ? ? [] []]; rewrite /shift_of /plus6 /minus6 /zero6 /=; f_equal; lra. }
  have E2 : forall p, add6 (p_s p) (p_g p) = reorigin p Ocluster Ogalaxy.
  { move=> p; rewrite /reorigin; apply add6_ext. destruct p as [? ? ? [] []]; rewrite /shift_of /plus6 /minus6 /zero6 /=; f_equal; lra. }
  have V : exists o2, c_origin (match o' with Ocentre => to_centre s c | Ocluster => to_cluster s c | Ogalaxy => to_galaxy G s c | Osky => to_sky G s c end) = Some o2 /\
    vord (match o' with Ocentre => to_centre s c | Ocluster => to_cluster s c | Ogalaxy => to_galaxy G s c | Osky => to_sky G s c end).
  { destruct o'; [| | | by case: Hf'].
    - exists Ocentre. split.
      { have E := @to_centre_flat s c u o Hu Hl Ho Hf. by have [_ [-> _]] := skel_eq_fields E. }
      rewrite /to_centre Ho Hu. destruct o; [exact Hv| | | by case: Hf]; (destruct u; try (by case: Hl));
      first [ by eapply step; [exact Ho|exact Hv|apply E1] | by have [T1 T2] := tc true; eapply step; [exact T2|exact T1|apply E1] ].
    - exists Ocluster. by have [T1 T2] := tc s.
    - exists Ogalaxy. split.
      { have E := @to_galaxy_flat G s c u o Hu Hl Ho Hf. by have [_ [-> _]] := skel_eq_fields E. }
      rewrite /to_galaxy Ho Hu. destruct o; [ | | | by case: Hf]; (destruct u; try (by case: Hl));
      first [ by eapply vord_analyze; [exact Ho|exact Hv] | by eapply step; [exact Ho|exact Hv|apply E2] | by have [T1 T2] := tc false; eapply step; [exact T2|exact T1|apply E2] ]. }
  destruct V as [o2 [V1 V2]].
  destruct o'; (eapply vord_analyze; [exact V1|exact V2]).
Qed.

Lemma vord_run ops : forall c u o, positive_scales G (c_sc c) -> ready G c u o -> Forall flat_op ops -> vord c ->
  vord (run G ops c).
Proof.
  induction ops as [|a ops IH] => c u o HP HR HF Hv; [exact Hv|].
  inversion HF as [|? ? Ha HF']; subst. have [HS [Hu [Hl [Ho Hf]]]] := HR.
  destruct a as [v|v s]; rewrite /run /=.
  - have [V [R1 [R2 _]]] := to_units_view HR Ha.
    eapply (IH _ _ _ _ R1 HF'); exact: (vord_units HP HR Ha Hv).
  - have [V [R1 [R2 _]]] := @to_origin_view G s c u o v HR Ha.
    eapply (IH _ _ _ _ R1 HF'). eapply vord_origin; [exact Hu|exact Hl|exact Ho|exact Hf|exact Ha|exact Hv].
  Unshelve. all: by rewrite R2.
Qed.

Lemma distances_eq c : distances c = rlist c.
Proof.
  rewrite /distances /rlist /norm3. destruct (p_s (c_ph c)) as [x y z ? ? ?] => /=.
  revert y z; induction x as [|a x IH]; destruct y as [|b y]; destruct z as [|e z] => //=.
  rewrite IH /=; do 2 f_equal; ring.
Qed.

(* after any history, asking for a sorted analysis gives the order for the current origin *)
Lemma order_after_history ops c u o : positive_scales G (c_sc c) -> ready G c u o -> Forall flat_op ops ->
  d_rorder (c_der c) = None ->
  let c' := analyze true true (run G ops c) in
  exists r, d_rorder (c_der c') = Some r /\ sorted_order r (distances c').
Proof.
  move=> HP HR HF Hn /=.
  have Hv : vord c by move=> r; rewrite Hn.
  have := vord_run HP HR HF Hv. have [_ [[_ [_ [_ [Ho _]]]] _]] := run_view HR HF.
  move=> Hv'. have Hv2 : vord (analyze true true (run G ops c)) by apply: (vord_analyze Ho Hv').
  have [ro [rp [H1 [H2 [H3 _]]]]] := analyze_sorted (run G ops c).
  exists ro; split => //.
  have [oo [o1 [K1 [K2 K3]]]] := Hv2 ro H1.
  rewrite H3 K1 in K2. case: K2 => K2. subst oo.
  rewrite distances_eq. by rewrite /frad reorigin_id in K3.
Qed.

(* the last to_origin(sortstars=True) of a history leaves a valid order too *)
End S.
