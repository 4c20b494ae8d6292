From Verif Require Import Base ModelCluster ModelOps SpecUnits.
Set Implicit Arguments. Unset Strict Implicit.

Definition rsc (ka kb a : R) : R := a * (ka / kb).
Definition rsc6 (sa sb : usize) (a : six R) : six R :=
  mk6 (rsc (in_pc sa) (in_pc sb) (sx a)) (rsc (in_pc sa) (in_pc sb) (sy a)) (rsc (in_pc sa) (in_pc sb) (sz a))
      (rsc (in_kms sa) (in_kms sb) (svx a)) (rsc (in_kms sa) (in_kms sb) (svy a)) (rsc (in_kms sa) (in_kms sb) (svz a)).
Definition rscs (sa sb : usize) (a : six (list R)) : six (list R) :=
  mk6 (map (rsc (in_pc sa) (in_pc sb)) (sx a)) (map (rsc (in_pc sa) (in_pc sb)) (sy a))
      (map (rsc (in_pc sa) (in_pc sb)) (sz a)) (map (rsc (in_kms sa) (in_kms sb)) (svx a))
      (map (rsc (in_kms sa) (in_kms sb)) (svy a)) (map (rsc (in_kms sa) (in_kms sb)) (svz a)).
Definition rescale (sa sb : usize) (p : phys) : phys :=
  mkP (rsc (in_Myr sa) (in_Myr sb) (p_t p)) (map (rsc (in_Msun sa) (in_Msun sb)) (p_m p))
      (rscs sa sb (p_s p)) (rsc6 sa sb (p_c p)) (rsc6 sa sb (p_g p)).

Definition pos_size (s : usize) : Prop := in_Myr s <> 0 /\ in_Msun s <> 0 /\ in_pc s <> 0 /\ in_kms s <> 0.

Lemma kms_nz : kms <> 0. Proof. rewrite /kms; lra. Qed.
Lemma mcon_nz : wd_mcon <> 0. Proof. rewrite /wd_mcon; lra. Qed.

Lemma kms_spec : kms_in_pcmyr = kms. Proof. rewrite /kms_in_pcmyr /kms; lra. Qed.
Lemma mcon_spec : wd_mass_in_msun = wd_mcon. Proof. rewrite /wd_mass_in_msun /wd_mcon; lra. Qed.

Lemma inv_nz k : k <> 0 -> 1 / k <> 0.
Proof. move=> H; rewrite /Rdiv Rmult_1_l; exact: Rinv_neq_0_compat. Qed.
Lemma div_nz a k : a <> 0 -> k <> 0 -> a / k <> 0.
Proof. move=> Ha H; rewrite /Rdiv; apply Rmult_integral_contrapositive_currified => //; exact: Rinv_neq_0_compat. Qed.

Lemma unit_size_nz G s u : good_scales G s -> pos_size (unit_size G s u).
Proof.
  move=> [H1 [H2 [H3 [H4 [H5 [H6 [H7 [H8 H9]]]]]]]].
  have K := kms_nz. have M := mcon_nz. have IK := inv_nz K. have D := div_nz H6 H9.
  destruct u; rewrite /unit_size /pos_size /= ?kms_spec ?mcon_spec; repeat split; try assumption; try lra.
Qed.

Lemma rsc_id k a : k <> 0 -> rsc k k a = a.
Proof. move=> H; rewrite /rsc; field; exact H. Qed.
Lemma rsc_comp a b c x : b <> 0 -> c <> 0 -> rsc b c (rsc a b x) = rsc a c x.
Proof. move=> Hb Hc; rewrite /rsc; field; split; assumption. Qed.

Lemma rescale_id s p : pos_size s -> rescale s s p = p.
Proof.
  move=> [H1 [H2 [H3 H4]]]. destruct p as [t m [a b c d e f] [a1 b1 c1 d1 e1 f1] [a2 b2 c2 d2 e2 f2]].
  rewrite /rescale /rscs /rsc6 /= !rsc_id //.
  rewrite !(map_id_ext (rsc _ _)) // => x; exact: rsc_id.
Qed.

Lemma rescale_comp sa sb sc p : pos_size sb -> pos_size sc ->
  rescale sb sc (rescale sa sb p) = rescale sa sc p.
Proof.
  move=> [H1 [H2 [H3 H4]]] [K1 [K2 [K3 K4]]].
  destruct p as [t m [a b c d e f] [a1 b1 c1 d1 e1 f1] [a2 b2 c2 d2 e2 f2]].
  rewrite /rescale /rscs /rsc6 /= !map_map !rsc_comp //.
  f_equal; [apply map_ext => x; exact: rsc_comp|].
  f_equal; apply map_ext => x; exact: rsc_comp.
Qed.

Lemma Forall2_map_self {A} (P : A -> A -> Prop) f l : (forall a, P a (f a)) -> Forall2 P l (map f l).
Proof. move=> H; induction l => /=; constructor; auto. Qed.

Lemma rescale_same sa sb p : pos_size sb -> same_physics sa sb p (rescale sa sb p).
Proof.
  move=> [H1 [H2 [H3 H4]]]. rewrite /same_physics /same_stars /same_6 /=.
  have Q : forall ka kb a, kb <> 0 -> same_q ka kb a (rsc ka kb a) by move=> *; rewrite /same_q /rsc; field.
  repeat split; try (apply Q; assumption); apply Forall2_map_self => a; apply Q; assumption.
Qed.

Lemma Forall2_same_map ka kb l k : kb <> 0 -> Forall2 (same_q ka kb) l k -> k = map (rsc ka kb) l.
Proof.
  move=> H; induction 1 as [|a b l k Hab _ IH] => //=. rewrite IH /rsc; f_equal.
  rewrite /same_q in Hab. apply (Rmult_eq_reg_r kb) => //. rewrite -Hab; field; exact H.
Qed.
Lemma same_q_rsc ka kb a b : kb <> 0 -> same_q ka kb a b -> b = rsc ka kb a.
Proof.
  move=> H Hab; rewrite /same_q in Hab. rewrite /rsc. apply (Rmult_eq_reg_r kb) => //. rewrite -Hab; field; exact H.
Qed.
Lemma same_rescale sa sb p q : pos_size sb -> same_physics sa sb p q -> q = rescale sa sb p.
Proof.
  move=> [H1 [H2 [H3 H4]]] [Ht [Hm [Hs [Hc Hg]]]].
  destruct p as [t m [a b c d e f] [a1 b1 c1 d1 e1 f1] [a2 b2 c2 d2 e2 f2]].
  destruct q as [t' m' [a' b' c' d' e' f'] [a1' b1' c1' d1' e1' f1'] [a2' b2' c2' d2' e2' f2']].
  destruct Hs as (?&?&?&?&?&?); destruct Hc as (?&?&?&?&?&?); destruct Hg as (?&?&?&?&?&?); simpl in *.
  rewrite /rescale /rscs /rsc6 /=.
  f_equal; [|apply Forall2_same_map => //| | |]; try (apply same_q_rsc => //).
  1: f_equal; apply Forall2_same_map => //.
  1,2: f_equal; apply same_q_rsc => //.
Qed.

Lemma c_ph_analyze s p c : c_ph (analyze s p c) = c_ph c.
Proof.
  rewrite /analyze /analyze_fracs /sortstars /analyze_radii; destruct s => /=;
  repeat match goal with |- context [match ?x with _ => _ end] => destruct x end; reflexivity.
Qed.

(* analyze touches nothing but the derived quantities *)
Definition skel (c : cluster) := set_der c empty_derived.
Lemma skel_analyze s p c : skel (analyze s p c) = skel c.
Proof.
  rewrite /skel /analyze /analyze_fracs /sortstars /analyze_radii /set_der; destruct s => /=;
  repeat match goal with |- context [match ?x with _ => _ end] => destruct x end; reflexivity.
Qed.
Lemma skel_eq_fields c d : skel c = skel d ->
  c_units c = c_units d /\ c_origin c = c_origin d /\ c_bunits c = c_bunits d /\ c_nb c = c_nb d /\
  c_ph c = c_ph d /\ c_sc c = c_sc d /\ c_bin c = c_bin d /\ c_sky c = c_sky d /\ c_id c = c_id d.
Proof. rewrite /skel /set_der; case; intros; repeat split; assumption. Qed.

(* ---- each primitive is a rescaling *)
Section Prims.
Variables (G : galpy) (s : scales).
Hypothesis HS : good_scales G s.
Notation sz_ u := (unit_size G s u).

Ltac prim :=
  destruct HS as (?&?&?&?&?&?&?&?&?);
  have K := kms_nz; have M := mcon_nz;
  intros [t m [a b c d e f] [a1 b1 c1 d1 e1 f1] [a2 b2 c2 d2 e2 f2]];
  rewrite /rescale /rscs /rsc6 /rsc /vmul /vdiv /wd_vcon /= ?kms_spec ?mcon_spec;
  let fin := (field; repeat split; (assumption || lra)) in
  let lst := (first [ apply map_ext => ?; fin | symmetry; apply map_id_ext => ?; fin ]) in
  let rec go := (match goal with
    | |- @eq R _ _ => fin
    | |- @eq (list R) _ _ => lst
    | |- @eq (six _) _ _ => f_equal; go
    | |- @eq phys _ _ => f_equal; go end) in go.

Lemma prim1 : forall p, nbody_to_pckms s p = rescale (sz_ Unbody) (sz_ Upckms) p.
Proof. rewrite /nbody_to_pckms; prim. Qed.
Lemma prim2 : forall p, kpckms_to_pckms p = rescale (sz_ Ukpckms) (sz_ Upckms) p.
Proof. rewrite /kpckms_to_pckms; prim. Qed.
Lemma prim3 : forall p, div_velocities kms p = rescale (sz_ Upcmyr) (sz_ Upckms) p.
Proof. rewrite /div_velocities; prim. Qed.
Lemma prim3' : forall p, div_velocities kms p = rescale (sz_ Ukpcgyr) (sz_ Ukpckms) p.
Proof. rewrite /div_velocities; prim. Qed.
Lemma prim4 : forall p, mul_velocities kms p = rescale (sz_ Upckms) (sz_ Upcmyr) p.
Proof. rewrite /mul_velocities; prim. Qed.
Lemma prim4' : forall p, mul_velocities kms p = rescale (sz_ Ukpckms) (sz_ Ukpcgyr) p.
Proof. rewrite /mul_velocities; prim. Qed.
Lemma prim5 : forall p, galpy_to_kpckms G s p = rescale (sz_ Ugalpy) (sz_ Ukpckms) p.
Proof. rewrite /galpy_to_kpckms; prim. Qed.
Lemma prim6 : forall p, nbody_to_kpckms s p = rescale (sz_ Unbody) (sz_ Ukpckms) p.
Proof. rewrite /nbody_to_kpckms; prim. Qed.
Lemma prim7 : forall p, pckms_to_kpckms p = rescale (sz_ Upckms) (sz_ Ukpckms) p.
Proof. rewrite /pckms_to_kpckms; prim. Qed.
Lemma prim8 : forall p, wd_to_kpckms G s p = rescale (sz_ UWD) (sz_ Ukpckms) p.
Proof. rewrite /wd_to_kpckms; prim. Qed.
Lemma prim9 : forall p, pckms_to_nbody s p = rescale (sz_ Upckms) (sz_ Unbody) p.
Proof. rewrite /pckms_to_nbody; prim. Qed.
Lemma prim10 : forall p, kpckms_to_galpy G s p = rescale (sz_ Ukpckms) (sz_ Ugalpy) p.
Proof. rewrite /kpckms_to_galpy; prim. Qed.
Lemma prim11 : forall p, kpckms_to_wd G s p = rescale (sz_ Ukpckms) (sz_ UWD) p.
Proof. rewrite /kpckms_to_wd; prim. Qed.
End Prims.

Arguments unit_size : simpl never.
Section Ops.
Variable G : galpy.

Notation size c u := (unit_size G (c_sc c) u).
Definition goes (c c' : cluster) (u' : usys) : Prop :=
  match c_units c with
  | Some u => skel c' = skel (set_ph c (rescale (size c u) (size c u') (c_ph c)) (Some u'))
  | None => False
  end.

Lemma set_ph_id c u : c_units c = Some u -> set_ph c (c_ph c) (Some u) = c.
Proof. destruct c => /= ->; reflexivity. Qed.

Lemma to_kpckms0_lin c u : good_scales G (c_sc c) -> c_units c = Some u -> linear u ->
  to_kpckms0 G c = set_ph c (rescale (size c u) (size c Ukpckms) (c_ph c)) (Some Ukpckms).
Proof.
  move=> HS Hu Hl. rewrite /to_kpckms0 Hu.
  have P := fun u => unit_size_nz u HS.
  destruct u; rewrite /kpckms_step /pckms_step /from_amuse ?Hu /= ?Hu /=.
  - by rewrite (prim6 HS).
  - by rewrite (prim7 HS).
  - rewrite (prim3 HS) (prim7 HS) rescale_comp //. 
  - rewrite rescale_id // set_ph_id //.
  - by rewrite (prim3' HS).
  - by rewrite (prim5 HS).
  - by rewrite (prim8 HS).
  - rewrite (prim7 HS); reflexivity.
  - by case: Hl.
Qed.

Lemma to_pckms0_lin c u : good_scales G (c_sc c) -> c_units c = Some u -> linear u ->
  to_pckms0 G c = set_ph c (rescale (size c u) (size c Upckms) (c_ph c)) (Some Upckms).
Proof.
  move=> HS Hu Hl. rewrite /to_pckms0.
  have P := fun u => unit_size_nz u HS.
  have K := to_kpckms0_lin HS Hu Hl.
  destruct u; rewrite ?Hu /= ?K /pckms_step /from_amuse /= ?Hu /=.
  - by rewrite (prim1 HS).
  - rewrite rescale_id // set_ph_id //.
  - by rewrite (prim3 HS).
  - by rewrite (prim2 HS).
  - rewrite (prim2 HS) rescale_comp //.
  - rewrite (prim2 HS) rescale_comp //.
  - rewrite (prim2 HS) rescale_comp //.
  - rewrite -(rescale_id (c_ph c) (P Upckms)) /=; f_equal. by rewrite !rescale_id.
  - by case: Hl.
Qed.

Definition bin_after (c : cluster) (u' : usys) : cluster :=
  match u' with Unbody => bin_to_nbody c | _ => c end.

Lemma bin_to_nbody_set_ph c p u : bin_to_nbody (set_ph c p u) = set_ph (bin_to_nbody c) p u.
Proof.
  rewrite /bin_to_nbody /=. destruct (c_bunits c) as [[]|] => //=; destruct (Nat.ltb 0 (c_nb c)) => //.
Qed.

Lemma to_units_lin c u u' : good_scales G (c_sc c) -> c_units c = Some u -> linear u -> linear u' ->
  skel (to_units G (Ureq u') c) =
  skel (set_ph (bin_after c u') (rescale (size c u) (size c u') (c_ph c)) (Some u')).
Proof.
  move=> HS Hu Hl Hl'.
  have P := fun u => unit_size_nz u HS.
  have K := to_kpckms0_lin HS Hu Hl. have Q := to_pckms0_lin HS Hu Hl.
  have A : forall u1 p1, c_sc (set_ph c p1 u1) = c_sc c by [].
  rewrite /to_units Hu.
  destruct u'; rewrite /bin_after.
  - (* nbody *)
    rewrite /to_nbody Hu skel_analyze. destruct u; rewrite ?Q /= ?Hu /=;
      rewrite ?(prim9 HS) ?rescale_comp ?rescale_id ?bin_to_nbody_set_ph //.
    rewrite -(@set_ph_id (bin_to_nbody c) Unbody).
    + rewrite /bin_to_nbody; destruct (c_bunits c) as [[]|] => //=; destruct (Nat.ltb 0 (c_nb c)) => //.
    + f_equal. rewrite /bin_to_nbody; destruct (c_bunits c) as [[]|] => //=; destruct (Nat.ltb 0 (c_nb c)) => //.
  - rewrite /to_pckms /analyze_if_units Hu skel_analyze Q //.
  - rewrite /to_pcmyr Hu. destruct u; first [by rewrite ?skel_analyze ?Q /= ?(prim4 HS) rescale_comp | by rewrite ?skel_analyze ?Q /= ?(prim4 HS) | by rewrite ?skel_analyze ?Q /= ?(prim4 HS) rescale_id // set_ph_id].
  - rewrite /to_kpckms /analyze_if_units Hu skel_analyze K //.
  - rewrite /to_kpcgyr Hu. destruct u; first [by rewrite ?skel_analyze ?K /= ?(prim4' HS) rescale_comp | by rewrite ?skel_analyze ?K /= ?(prim4' HS) | by rewrite ?skel_analyze ?K /= ?(prim4' HS) rescale_id // set_ph_id].
  - rewrite /to_galpy Hu skel_analyze. destruct u; first [by rewrite ?K /= ?Hu /= ?(prim10 HS) rescale_comp | by rewrite ?K /= ?Hu /= ?(prim10 HS) | by rewrite ?K /= ?Hu /= ?(prim10 HS) rescale_id // set_ph_id].
  - rewrite /to_WDunits Hu. destruct u; first [by rewrite ?skel_analyze ?K /= ?(prim11 HS) rescale_comp | by rewrite ?skel_analyze ?K /= ?(prim11 HS) | by rewrite ?skel_analyze ?K /= ?(prim11 HS) rescale_id // set_ph_id].
  - rewrite /to_amuse Hu. destruct u; first [by rewrite ?skel_analyze ?Q /= rescale_comp | by rewrite ?skel_analyze ?Q /= | by rewrite ?skel_analyze ?Q /= rescale_id // set_ph_id].
  - by case: Hl'.
Qed.
End Ops.

Section Hist.
Variable G : galpy.
Notation size c u := (unit_size G (c_sc c) u).

Lemma bin_to_nbody_frame c : let c' := bin_to_nbody c in
  c_origin c' = c_origin c /\ c_sc c' = c_sc c /\ c_sky c' = c_sky c /\ c_id c' = c_id c /\ c_nb c' = c_nb c /\
  c_units c' = c_units c /\ c_ph c' = c_ph c.
Proof. rewrite /bin_to_nbody /=. destruct (c_bunits c) as [[]|] => //=; destruct (Nat.ltb 0 (c_nb c)) => //=; repeat split. Qed.

Lemma to_units_full c u u' : good_scales G (c_sc c) -> c_units c = Some u -> linear u -> linear u' ->
  let c' := to_units G (Ureq u') c in
  c_units c' = Some u' /\ c_ph c' = rescale (size c u) (size c u') (c_ph c) /\
  c_origin c' = c_origin c /\ c_sc c' = c_sc c /\ c_sky c' = c_sky c /\ c_id c' = c_id c /\ c_nb c' = c_nb c.
Proof.
  move=> HS Hu Hl Hl' /=.
  have /skel_eq_fields := to_units_lin HS Hu Hl Hl'.
  move=> [H1 [H2 [H3 [H4 [H5 [H6 [H7 [H8 H9]]]]]]]].
  rewrite H1 H2 H4 H5 H6 H8 H9.
  have B := bin_to_nbody_frame c.
  destruct u' => //=; simpl in B; intuition.
Qed.

Lemma request_full us : forall c u, good_scales G (c_sc c) -> c_units c = Some u -> linear u -> Forall linear us ->
  let c' := request_units G us c in let u' := last us u in
  c_units c' = Some u' /\ c_ph c' = rescale (size c u) (size c u') (c_ph c) /\
  c_origin c' = c_origin c /\ c_sc c' = c_sc c /\ c_sky c' = c_sky c /\ c_id c' = c_id c /\ c_nb c' = c_nb c.
Proof.
  induction us as [|v us IH] => c u HS Hu Hl HF.
  - rewrite /= Hu rescale_id //. by apply unit_size_nz.
  - inversion HF as [|? ? Hv HF']; subst.
    have [H1 [H2 [H3 [H4 [H5 [H6 H7]]]]]] := to_units_full HS Hu Hl Hv.
    have HS' : good_scales G (c_sc (to_units G (Ureq v) c)) by rewrite H4.
    have := IH _ v HS' H1 Hv HF'. rewrite /request_units /= H2 H3 H4 H5 H6 H7.
    rewrite rescale_comp; try by apply unit_size_nz.
    have -> : match us with [] => v | _ :: _ => last us u end = last us v.
    { clear. destruct us as [|a us] => //. revert a; induction us as [|b us IH] => a //. exact: IH. }
    by [].
Qed.

Lemma last_in {A} (us : list A) (d : A) : last us d = d \/ In (last us d) us.
Proof.
  induction us as [|a us IH]; [by left|]. destruct us as [|b us]; [right; by left|].
  destruct IH as [IH|IH]; [left; exact IH|right; right; exact IH].
Qed.
Lemma last_linear us u : linear u -> Forall linear us -> linear (last us u).
Proof. move=> Hu HF. destruct (last_in us u) as [->|Hin] => //. rewrite Forall_forall in HF; exact: HF. Qed.

Lemma unit_same_physics us c u : good_scales G (c_sc c) -> c_units c = Some u -> linear u -> Forall linear us ->
  let c' := request_units G us c in let u' := last us u in
  c_units c' = Some u' /\ same_physics (size c u) (size c u') (c_ph c) (c_ph c') /\
  c_origin c' = c_origin c /\ c_sc c' = c_sc c /\ c_sky c' = c_sky c /\ c_id c' = c_id c /\ c_nb c' = c_nb c.
Proof.
  move=> HS Hu Hl HF /=.
  have [H1 [H2 [H3 [H4 [H5 [H6 H7]]]]]] := request_full HS Hu Hl HF.
  repeat split => //; rewrite H2; apply rescale_same; by apply unit_size_nz.
Qed.

Lemma unit_round_trip us c u : good_scales G (c_sc c) -> c_units c = Some u -> linear u -> Forall linear us ->
  last us u = u -> c_ph (request_units G us c) = c_ph c /\ c_units (request_units G us c) = Some u.
Proof.
  move=> HS Hu Hl HF HL.
  have [H1 [H2 _]] := request_full HS Hu Hl HF. rewrite H1 H2 HL rescale_id //. by apply unit_size_nz.
Qed.

Lemma unit_path_independent us vs c u : good_scales G (c_sc c) -> c_units c = Some u -> linear u ->
  Forall linear us -> Forall linear vs -> last us u = last vs u ->
  c_ph (request_units G us c) = c_ph (request_units G vs c) /\
  c_units (request_units G us c) = c_units (request_units G vs c).
Proof.
  move=> HS Hu Hl HF HF' HL.
  have [H1 [H2 _]] := request_full HS Hu Hl HF. have [K1 [K2 _]] := request_full HS Hu Hl HF'.
  by rewrite H1 H2 K1 K2 HL.
Qed.

Lemma unit_unknown c : to_units G Uother c = c /\ (c_units c = None -> forall q, to_units G q c = c).
Proof. rewrite /to_units; split; [by destruct (c_units c)|move=> ->; by []]. Qed.
End Hist.
