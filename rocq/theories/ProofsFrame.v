From Verif Require Import Base ModelCluster ModelOps SpecUnits SpecFrame ProofsUnits.
Set Implicit Arguments. Unset Strict Implicit.

Section F.
Variable G : galpy.

Lemma view_skel c d : skel c = skel d -> galactic_view G c = galactic_view G d.
Proof.
  move=> /skel_eq_fields [H1 [H2 [_ [_ [H5 [H6 _]]]]]].
  by rewrite /galactic_view /origin_shift H1 H2 H5 H6.
Qed.

Lemma view_units c u p' u' b : good_scales G (c_sc c) -> c_units c = Some u ->
  c_sc b = c_sc c -> c_origin b = c_origin c ->
  p' = rescale (unit_size G (c_sc c) u) (unit_size G (c_sc c) u') (c_ph c) ->
  galactic_view G (set_ph b p' (Some u')) = galactic_view G c.
Proof.
  move=> HS Hu Hb Ho ->. have [N1 [N2 [N3 N4]]] := unit_size_nz u' HS.
  rewrite /galactic_view /= Hb Hu.
  set z := unit_size G (c_sc c) u in N1 N2 N3 N4 |- *. set z' := unit_size G (c_sc c) u' in N1 N2 N3 N4 |- *.
  rewrite /origin_shift /= Ho.
  destruct (c_ph c) as [t m [a b' c' d e f] [a1 b1 c1 d1 e1 f1] [a2 b2 c2 d2 e2 f2]].
  rewrite /rescale /rscs /rsc6 /view6 /rsc /=.
  destruct (c_origin c) as [[]|] => /=; rewrite !map_map; f_equal;
    try (apply map_ext => ?; field; assumption);
    try (field; assumption); f_equal; try (apply map_ext => ?; field; assumption); try (field; assumption).
Qed.

Lemma to_units_view c u u' o : ready G c u o -> linear u' ->
  let c' := to_units G (Ureq u') c in
  galactic_view G c' = galactic_view G c /\ ready G c' u' o /\ c_sc c' = c_sc c /\ c_id c' = c_id c /\ c_sky c' = c_sky c
  /\ c_nb c' = c_nb c.
Proof.
  move=> [HS [Hu [Hl [Ho Hf]]]] Hl' /=.
  have E := to_units_lin HS Hu Hl Hl'.
  have [F1 [F2 [F3 [F4 [F5 [F6 F7]]]]]] := to_units_full HS Hu Hl Hl'.
  split; [|split].
  - rewrite (view_skel E). eapply view_units; eauto.
    + have := bin_to_nbody_frame c. by destruct u' => //= [[_ [? _]]].
    + have := bin_to_nbody_frame c. by destruct u' => //= [[? _]].
  - repeat split; rewrite ?F1 ?F3 ?F4 //; apply HS.
  - by [].
Qed.

Definition shift_of (p : phys) (o : osys) : six R :=
  match o with Ocluster => p_g p
  | Ocentre => plus6 (p_g p) (p_c p)
  | _ => zero6 end.

Lemma origin_shift_eq c o : c_origin c = Some o -> origin_shift c = shift_of (c_ph c) o.
Proof. rewrite /origin_shift => ->; by destruct o. Qed.

Definition minus6 (a b : six R) : six R :=
  mk6 (sx a - sx b) (sy a - sy b) (sz a - sz b) (svx a - svx b) (svy a - svy b) (svz a - svz b).

(* stars re-expressed from origin o to origin o' *)
Definition reorigin (p : phys) (o o' : osys) : six (list R) :=
  add6 (p_s p) (minus6 (shift_of p o) (shift_of p o')).

Lemma add6_0 a : add6 a zero6 = a.
Proof. destruct a; rewrite /add6 /vadd /=; f_equal; apply map_id_ext => x; lra. Qed.
Lemma minus6_self a : minus6 a a = zero6.
Proof. destruct a; rewrite /minus6 /zero6 /=; f_equal; lra. Qed.
Lemma reorigin_id p o : reorigin p o o = p_s p.
Proof. by rewrite /reorigin minus6_self add6_0. Qed.
Lemma add6_add6 a b c : add6 (add6 a b) c = add6 a (plus6 b c).
Proof. destruct a; rewrite /add6 /vadd /plus6 /=; f_equal; rewrite map_map; apply map_ext => x; lra. Qed.
Lemma sub6_add6 a b : sub6 a b = add6 a (minus6 zero6 b).
Proof. destruct a; rewrite /add6 /sub6 /vadd /vsub /minus6 /=; f_equal; apply map_ext => x; lra. Qed.
Lemma set_stars_same c o : c_origin c = Some o -> set_stars c (p_s (c_ph c)) (Some o) = c.
Proof. destruct c as [u o' bu n [] ? ? ? ? ?] => /= ->; reflexivity. Qed.
Lemma p_s_set_stars c s o : p_s (c_ph (set_stars c s o)) = s. Proof. by []. Qed.

Lemma add6_ext a b c : b = c -> add6 a b = add6 a c. Proof. by move=> ->. Qed.
Ltac six := rewrite /plus6 /minus6 /zero6 /=; f_equal; lra.

Lemma to_cluster_flat s c u o : c_units c = Some u -> linear u -> c_origin c = Some o -> flat o ->
  skel (to_cluster s c) = skel (set_stars c (reorigin (c_ph c) o Ocluster) (Some Ocluster)).
Proof.
  move=> Hu Hl Ho Hf. rewrite /to_cluster Ho.
  destruct o; [| by rewrite reorigin_id set_stars_same | | by case: Hf].
  - have -> : (match c_units c with Some Uradec => analyze s true (set_stars (to_sky_radec c) (sky_offset (p_s (c_ph (to_sky_radec c))) (p_g (c_ph (to_sky_radec c)))) (Some Ocluster)) | _ => analyze s true (set_stars c (add6 (p_s (c_ph c)) (p_c (c_ph c))) (Some Ocluster)) end) = analyze s true (set_stars c (add6 (p_s (c_ph c)) (p_c (c_ph c))) (Some Ocluster)).
    { rewrite Hu; destruct u => //; by case: Hl. }
    rewrite skel_analyze /reorigin /shift_of; do 2 f_equal. apply add6_ext. destruct (p_g _), (p_c _); six.
  - have -> : (match c_units c with Some Uradec => analyze s true (set_stars (to_sky_radec c) (sky_offset (p_s (c_ph (to_sky_radec c))) (p_g (c_ph (to_sky_radec c)))) (Some Ocluster)) | _ => analyze s true (set_stars c (sub6 (p_s (c_ph c)) (p_g (c_ph c))) (Some Ocluster)) end) = analyze s true (set_stars c (sub6 (p_s (c_ph c)) (p_g (c_ph c))) (Some Ocluster)).
    { rewrite Hu; destruct u => //; by case: Hl. }
    rewrite skel_analyze /reorigin /shift_of sub6_add6 //.
Qed.

Lemma skel_set_stars c d s o : skel c = skel d -> skel (set_stars c s o) = skel (set_stars d s o).
Proof. move=> /skel_eq_fields [? [? [? [? [E [? [? [? ?]]]]]]]]; rewrite /skel /set_stars /set_der /= E; congruence. Qed.
Lemma skel_ph c d : skel c = skel d -> c_ph c = c_ph d.
Proof. by move=> /skel_eq_fields [_ [_ [_ [_ [E _]]]]]. Qed.

Lemma to_centre_flat s c u o : c_units c = Some u -> linear u -> c_origin c = Some o -> flat o ->
  skel (to_centre s c) = skel (set_stars c (reorigin (c_ph c) o Ocentre) (Some Ocentre)).
Proof.
  move=> Hu Hl Ho Hf. rewrite /to_centre Ho.
  destruct o; [by rewrite reorigin_id set_stars_same | | | by case: Hf].
  - transitivity (skel (analyze s true (set_stars c (sub6 (p_s (c_ph c)) (p_c (c_ph c))) (Some Ocentre)))).
    { rewrite Hu; destruct u => //; by case: Hl. }
    rewrite skel_analyze /reorigin /shift_of sub6_add6; do 2 f_equal. apply add6_ext. destruct (p_g _), (p_c _); six.
  - have E := @to_cluster_flat true c u Ogalaxy Hu Hl Ho Hf.
    have P := skel_ph E.
    transitivity (skel (analyze s true (set_stars (to_cluster true c) (sub6 (p_s (c_ph (to_cluster true c))) (p_c (c_ph (to_cluster true c)))) (Some Ocentre)))).
    { rewrite Hu; destruct u => //; by case: Hl. }
    rewrite skel_analyze P /= (skel_set_stars _ _ E). rewrite /set_stars /reorigin /shift_of /= sub6_add6 add6_add6.
    do 3 f_equal. apply add6_ext. destruct (p_g _), (p_c _); six.
Qed.

Lemma to_galaxy_flat s c u o : c_units c = Some u -> linear u -> c_origin c = Some o -> flat o ->
  skel (to_galaxy G s c) = skel (set_stars c (reorigin (c_ph c) o Ogalaxy) (Some Ogalaxy)).
Proof.
  move=> Hu Hl Ho Hf. rewrite /to_galaxy Ho.
  destruct o; [| | | by case: Hf].
  - have E := @to_cluster_flat false c u Ocentre Hu Hl Ho Hf.
    have P := skel_ph E.
    transitivity (skel (analyze s true (set_stars (to_cluster false c) (add6 (p_s (c_ph (to_cluster false c))) (p_g (c_ph (to_cluster false c)))) (Some Ogalaxy)))).
    { rewrite Hu; destruct u => //; by case: Hl. }
    rewrite skel_analyze P /= (skel_set_stars _ _ E) /set_stars /reorigin /shift_of /= add6_add6.
    do 3 f_equal. apply add6_ext. destruct (p_g _), (p_c _); six.
  - transitivity (skel (analyze s true (set_stars c (add6 (p_s (c_ph c)) (p_g (c_ph c))) (Some Ogalaxy)))).
    { rewrite Hu; destruct u => //; by case: Hl. }
    rewrite skel_analyze /reorigin /shift_of; do 2 f_equal. apply add6_ext. destruct (p_g _); six.
  - transitivity (skel (analyze s true c)).
    { rewrite Hu; destruct u => //; by case: Hl. }
    by rewrite skel_analyze reorigin_id set_stars_same.
Qed.

Lemma to_origin_flat s c u o o' : c_units c = Some u -> linear u -> c_origin c = Some o -> flat o -> flat o' ->
  skel (to_origin G (Oreq o') s c) = skel (set_stars c (reorigin (c_ph c) o o') (Some o')).
Proof.
  move=> Hu Hl Ho Hf Hf'. rewrite /to_origin Ho skel_analyze.
  destruct o'; [eapply to_centre_flat; eassumption | eapply to_cluster_flat; eassumption | eapply to_galaxy_flat; eassumption | by case: Hf'].
Qed.

Lemma to_origin_view s c u o o' : ready G c u o -> flat o' ->
  let c' := to_origin G (Oreq o') s c in
  galactic_view G c' = galactic_view G c /\ ready G c' u o' /\ c_sc c' = c_sc c /\ c_id c' = c_id c /\
  c_sky c' = c_sky c /\ c_nb c' = c_nb c /\
  p_t (c_ph c') = p_t (c_ph c) /\ p_m (c_ph c') = p_m (c_ph c) /\ p_c (c_ph c') = p_c (c_ph c) /\
  p_g (c_ph c') = p_g (c_ph c) /\ p_s (c_ph c') = reorigin (c_ph c) o o'.
Proof.
  move=> [HS [Hu [Hl [Ho Hf]]]] Hf' /=.
  have E := @to_origin_flat s c u o o' Hu Hl Ho Hf Hf'.
  have [F1 [F2 [F3 [F4 [F5 [F6 [F7 [F8 F9]]]]]]]] := skel_eq_fields E.
  repeat split; rewrite ?F1 ?F2 ?F4 ?F5 ?F6 ?F8 ?F9 //; try apply HS.
  rewrite (view_skel E) /galactic_view /=.
  rewrite (@origin_shift_eq (set_stars c (reorigin (c_ph c) o o') (Some o')) o') // (@origin_shift_eq c o) //=.
  f_equal. rewrite /reorigin /add6 /vadd /=.
  have S : shift_of (mkP (p_t (c_ph c)) (p_m (c_ph c)) (mk6 (map (fun a => a + sx (minus6 (shift_of (c_ph c) o) (shift_of (c_ph c) o'))) (sx (p_s (c_ph c)))) (map (fun a => a + sy (minus6 (shift_of (c_ph c) o) (shift_of (c_ph c) o'))) (sy (p_s (c_ph c)))) (map (fun a => a + sz (minus6 (shift_of (c_ph c) o) (shift_of (c_ph c) o'))) (sz (p_s (c_ph c)))) (map (fun a => a + svx (minus6 (shift_of (c_ph c) o) (shift_of (c_ph c) o'))) (svx (p_s (c_ph c)))) (map (fun a => a + svy (minus6 (shift_of (c_ph c) o) (shift_of (c_ph c) o'))) (svy (p_s (c_ph c)))) (map (fun a => a + svz (minus6 (shift_of (c_ph c) o) (shift_of (c_ph c) o'))) (svz (p_s (c_ph c))))) (p_c (c_ph c)) (p_g (c_ph c))) o' = shift_of (c_ph c) o' by destruct o'.
  rewrite S. f_equal; rewrite map_map; apply map_ext => x /=; lra.
Qed.

Lemma run_view ops : forall c u o, ready G c u o -> Forall flat_op ops ->
  let c' := run G ops c in
  galactic_view G c' = galactic_view G c /\ ready G c' (last_units ops u) (last_origin ops o) /\ c_sc c' = c_sc c /\
  c_id c' = c_id c /\ c_sky c' = c_sky c /\ c_nb c' = c_nb c.
Proof.
  induction ops as [|a ops IH] => c u o HR HF; [by []|].
  inversion HF as [|? ? Ha HF']; subst.
  destruct a as [v|v s].
  - have [V [R1 [R2 [R3 [R4 R5]]]]] := to_units_view HR Ha.
    have := IH _ _ _ R1 HF'. rewrite /run /= V R2 R3 R4 R5. by [].
  - have [V [R1 [R2 [R3 [R4 [R5 _]]]]]] := @to_origin_view s c u o v HR Ha.
    have := IH _ _ _ R1 HF'. rewrite /run /= V R2 R3 R4 R5. by [].
Qed.

(* the view determines the stored data *)
Lemma map_inj {A B} (f : A -> B) l k : (forall a b, f a = f b -> a = b) -> map f l = map f k -> l = k.
Proof. move=> H; revert k; induction l as [|a l IH]; destruct k => //= [[E1 E2]]. by rewrite (H _ _ E1) (IH _ E2). Qed.

Lemma view_inj c d u o : ready G c u o -> ready G d u o -> c_sc c = c_sc d ->
  galactic_view G c = galactic_view G d -> c_ph c = c_ph d.
Proof.
  move=> [HS [Hu [Hl [Ho Hf]]]] [HS' [Hu' [_ [Ho' _]]]] Hsc.
  have [N1 [N2 [N3 N4]]] := unit_size_nz u HS.
  have [N1' [N2' [N3' N4']]] := unit_size_nz u HS'.
  rewrite /galactic_view Hu Hu' (@origin_shift_eq c o) // (@origin_shift_eq d o) // -Hsc.
  set z := unit_size G (c_sc c) u in N1 N2 N3 N4 *.
  destruct (c_ph c) as [t m [a b c' d' e f] [a1 b1 c1 d1 e1 f1] [a2 b2 c2 d2 e2 f2]].
  destruct (c_ph d) as [t' m' [a' b' c'' d'' e' f'] [a1' b1' c1' d1' e1' f1'] [a2' b2' c2' d2' e2' f2']].
  rewrite /view6 /=. case => Et Em Ea Eb Ec Ed Ee Ef Ea1 Eb1 Ec1 Ed1 Ee1 Ef1 Ea2 Eb2 Ec2 Ed2 Ee2 Ef2.
  have C : forall k x y, k <> 0 -> x * k = y * k -> x = y by move=> k x y Hk E; apply (Rmult_eq_reg_r k).
  repeat match goal with
  | H : ?x * in_pc z = ?y * in_pc z |- _ => apply (C _ _ _ N3) in H; subst
  | H : ?x * in_kms z = ?y * in_kms z |- _ => apply (C _ _ _ N4) in H; subst
  | H : ?x * in_Myr z = ?y * in_Myr z |- _ => apply (C _ _ _ N1) in H; subst
  end.
  have Hm : m = m' by apply (map_inj (f := fun a => a * in_Msun z)) => // x y; apply C.
  have D3 : forall k1 x y, (x + k1) * in_pc z = (y + k1) * in_pc z -> x = y.
  { move=> k1 x y E. apply (C _ _ _ N3) in E. lra. }
  have D4 : forall k1 x y, (x + k1) * in_kms z = (y + k1) * in_kms z -> x = y.
  { move=> k1 x y E. apply (C _ _ _ N4) in E. lra. }
  f_equal => //.
  have S : forall s s' cc g, shift_of (mkP t' m s cc g) o = shift_of (mkP t' m' s' cc g) o by move=> *; destruct o.
  rewrite -(S (mk6 a b c' d' e f)) in Ea, Eb, Ec, Ed, Ee, Ef.
  f_equal; (eapply map_inj; [|eassumption]) => x y /=; try apply D3; apply D4.
Qed.
End F.

(* ------------------------------------------------ sorting/derived state *)
Lemma insert_length key i l : length (insert_by key i l) = S (length l).
Proof. induction l as [|j l IH] => //=. destruct (Rleb _ _) => //=. by rewrite IH. Qed.
Lemma argsort_length l : length (argsort l) = length l.
Proof.
  rewrite /argsort. rewrite -{2}(seq_length (length l) 0). generalize (seq 0 (length l)) => k.
  induction k as [|a k IH] => //=. by rewrite insert_length IH.
Qed.

Lemma oosys_eqb_refl o : oosys_eqb o o = true.
Proof. rewrite /oosys_eqb; by destruct (oosys_eq_dec o o). Qed.
Lemma oosys_eqb_true a b : oosys_eqb a b = true -> a = b.
Proof. rewrite /oosys_eqb; by destruct (oosys_eq_dec a b). Qed.

Definition rlist (c : cluster) := norm3 (sx (p_s (c_ph c))) (sy (p_s (c_ph c))) (sz (p_s (c_ph c))).
Definition rprolist (c : cluster) := norm2 (sx (p_s (c_ph c))) (sy (p_s (c_ph c))).

(* orders that sortstars will keep *)
Definition order_ok (c : cluster) (o : list nat) := length (rlist c) = length o.
Definition proorder_ok (c : cluster) (o : list nat) := length (rprolist c) = length o.

Lemma analyze_keeps_proorder s c o :
  d_rproorder (c_der c) = Some o -> proorder_ok c o -> d_rproorder (c_der (analyze s true c)) = Some o.
Proof.
  move=> Ho Hl. rewrite /analyze.
  destruct s.
  - rewrite /analyze_fracs /sortstars /=.
    rewrite /proorder_ok /rprolist in Hl.
    rewrite Ho Hl Nat.eqb_refl.
    destruct (d_rorder (c_der c)) as [ro|] => /=.
    + destruct (oosys_eqb (d_rorder_origin (c_der c)) (c_origin c) &&
        Nat.eqb (length (norm3 (sx (p_s (c_ph c))) (sy (p_s (c_ph c))) (sz (p_s (c_ph c))))) (length ro)) eqn:E => /=.
      * apply andb_prop in E as [E _]. by rewrite E.
      * by rewrite oosys_eqb_refl.
    + by rewrite oosys_eqb_refl.
  - rewrite /analyze_fracs /=. rewrite Ho. by destruct (d_rorder (c_der c)).
Qed.

Definition sorted_state (c : cluster) : Prop :=
  exists ro rp, d_rorder (c_der c) = Some ro /\ order_ok c ro /\ d_rorder_origin (c_der c) = c_origin c /\
                d_rproorder (c_der c) = Some rp /\ proorder_ok c rp.

Lemma analyze_sorted c : sorted_state (analyze true true c).
Proof.
  rewrite /sorted_state /analyze /analyze_fracs /sortstars /=.
  set r3 := norm3 (sx (p_s (c_ph c))) (sy (p_s (c_ph c))) (sz (p_s (c_ph c))).
  set r2 := norm2 (sx (p_s (c_ph c))) (sy (p_s (c_ph c))).
  have fin1 : forall d o, order_ok (set_der c d) o <-> length r3 = length o by [].
  have fin2 : forall d o, proorder_ok (set_der c d) o <-> length r2 = length o by [].
  destruct (d_rorder (c_der c)) as [ro|];
    [destruct (oosys_eqb (d_rorder_origin (c_der c)) (c_origin c)) eqn:E1;
     destruct (Nat.eqb (length r3) (length ro)) eqn:E2|];
    rewrite /= ?oosys_eqb_refl ?E1 /=;
    (destruct (d_rproorder (c_der c)) as [rp|]; [destruct (Nat.eqb (length r2) (length rp)) eqn:E3|]) => /=;
    (eexists _, _; split; [reflexivity|split; [|split; [|split; [reflexivity|]]]]);
    rewrite /order_ok /proorder_ok /rlist /rprolist /= -?/r3 -?/r2 ?argsort_length //;
    first [by apply Nat.eqb_eq | by apply oosys_eqb_true].
Qed.

(* what analyze computes once the orders are settled *)
Definition der_of (c : cluster) (ro : list nat) (rp : list nat) : derived :=
  let s := p_s (c_ph c) in let m := p_m (c_ph c) in
  mkD (rlist c) (rprolist c) (norm3 (svx s) (svy s) (svz s)) (norm2 (svx s) (svy s)) (sumR m)
      (Some ro) (c_origin c) (Some rp)
      (frac_radius (1/2) m (rlist c) (sumR m) ro) (frac_radius (1/10) m (rlist c) (sumR m) ro)
      (frac_radius (1/2) m (rprolist c) (sumR m) rp) (frac_radius (1/10) m (rprolist c) (sumR m) rp).

Lemma analyze_settled c ro rp : d_rorder (c_der c) = Some ro -> order_ok c ro ->
  d_rorder_origin (c_der c) = c_origin c -> d_rproorder (c_der c) = Some rp -> proorder_ok c rp ->
  analyze true true c = set_der c (der_of c ro rp).
Proof.
  rewrite /order_ok /proorder_ok /rlist /rprolist => H1 H2 H3 H4 H5.
  rewrite /analyze /analyze_fracs /sortstars /= H1 H3 H2 H4 H5 oosys_eqb_refl !Nat.eqb_refl /= ?oosys_eqb_refl /=.
  by rewrite /set_der /der_of /rlist /rprolist /=.
Qed.

Lemma analyze_idem c : analyze true true (analyze true true c) = analyze true true c.
Proof.
  have [ro [rp [H1 [H2 [H3 [H4 H5]]]]]] := analyze_sorted c.
  rewrite (analyze_settled H1 H2 H3 H4 H5).
  have E : exists d, analyze true true c = set_der c d /\ d_rorder d = Some ro /\ d_rproorder d = Some rp /\ d_rorder_origin d = c_origin c /\
     d_r d = rlist c /\ d_rpro d = rprolist c /\ d_v d = norm3 (svx (p_s (c_ph c))) (svy (p_s (c_ph c))) (svz (p_s (c_ph c))) /\
     d_vpro d = norm2 (svx (p_s (c_ph c))) (svy (p_s (c_ph c))) /\ d_mtot d = sumR (p_m (c_ph c)) /\
     d_rm d = frac_radius (1/2) (p_m (c_ph c)) (rlist c) (sumR (p_m (c_ph c))) ro /\
     d_r10 d = frac_radius (1/10) (p_m (c_ph c)) (rlist c) (sumR (p_m (c_ph c))) ro /\
     d_rmpro d = frac_radius (1/2) (p_m (c_ph c)) (rprolist c) (sumR (p_m (c_ph c))) rp /\
     d_r10pro d = frac_radius (1/10) (p_m (c_ph c)) (rprolist c) (sumR (p_m (c_ph c))) rp.
  { have K : c_origin (analyze true true c) = c_origin c.
    { by have /skel_eq_fields [_ [-> _]] := skel_analyze true true c. }
    rewrite K in H3. clear K H2 H5. move: H1 H3 H4.
    rewrite /analyze /analyze_fracs /sortstars /=.
    destruct (d_rorder (c_der c)) as [ro'|];
    [destruct (oosys_eqb (d_rorder_origin (c_der c)) (c_origin c)) eqn:E1;
     [destruct (Nat.eqb (length (norm3 (sx (p_s (c_ph c))) (sy (p_s (c_ph c))) (sz (p_s (c_ph c))))) (length ro')) |]|];
    rewrite /= ?oosys_eqb_refl ?E1 /=;
    (destruct (d_rproorder (c_der c)) as [rp'|];
      [destruct (Nat.eqb (length (norm2 (sx (p_s (c_ph c))) (sy (p_s (c_ph c))))) (length rp'))|]) => /=;
    case=> <- Hoo [<-]; (eexists; split; [reflexivity|]); simpl; repeat split => //. }
  destruct E as [d [E [? [? [? [? [? [? [? [? [? [? [? ?]]]]]]]]]]]]].
  rewrite E /set_der /der_of /rlist /rprolist /=; f_equal. destruct d; simpl in *; subst; reflexivity.
Qed.

Section Bracket.
Variable G : galpy.

Definition kp (c c' : cluster) : Prop := forall rp,
  d_rproorder (c_der c) = Some rp -> proorder_ok c rp -> d_rproorder (c_der c') = Some rp /\ proorder_ok c' rp.
Lemma kp_refl c : kp c c. Proof. by move=> rp. Qed.
Lemma kp_trans c d e : kp c d -> kp d e -> kp c e.
Proof. move=> H K rp H1 H2. have [A B] := H _ H1 H2. exact: K. Qed.
Lemma norm2_length x y x' y' : length x = length x' -> length y = length y' ->
  length (norm2 x y) = length (norm2 x' y').
Proof. by rewrite /norm2 !zip_with_length => -> ->. Qed.
Lemma kp_analyze s c : kp c (analyze s true c).
Proof.
  move=> rp H1 H2; split; [exact: analyze_keeps_proorder|].
  by rewrite /proorder_ok /rprolist c_ph_analyze.
Qed.
Definition same_len (c c' : cluster) :=
  length (sx (p_s (c_ph c))) = length (sx (p_s (c_ph c'))) /\ length (sy (p_s (c_ph c))) = length (sy (p_s (c_ph c'))).
Lemma kp_len c c' : c_der c' = c_der c -> same_len c c' -> kp c c'.
Proof.
  move=> E [L1 L2] rp H1 H2; rewrite E; split => //.
  rewrite /proorder_ok -H2 /rprolist. symmetry. exact: norm2_length.
Qed.
Lemma kp_rescale c a b u : kp c (set_ph c (rescale a b (c_ph c)) u).
Proof. apply kp_len => //; split; by rewrite /= map_length. Qed.

Lemma kp_bin c : kp c (bin_to_nbody c).
Proof.
  apply kp_len; rewrite /bin_to_nbody; destruct (c_bunits c) as [[]|] => //=; destruct (Nat.ltb 0 (c_nb c)) => //.
Qed.

Lemma kp_units c u u' : good_scales G (c_sc c) -> c_units c = Some u -> linear u -> linear u' ->
  kp c (to_units G (Ureq u') c).
Proof.
  move=> HS Hu Hl Hl'.
  have K := to_kpckms0_lin HS Hu Hl. have Q := to_pckms0_lin HS Hu Hl.
  rewrite /to_units Hu.
  destruct u'.
  - rewrite /to_nbody Hu. eapply kp_trans; [|apply kp_analyze]. eapply kp_trans; [|apply kp_bin].
    destruct u; rewrite ?Q /= ?Hu /= ?(prim9 HS); try apply kp_refl;
      apply kp_len => //; split; by rewrite /= ?map_length.
  - rewrite /to_pckms /analyze_if_units Hu Q. eapply kp_trans; [apply kp_rescale|apply kp_analyze].
  - rewrite /to_pcmyr Hu. destruct u; try apply kp_refl; rewrite ?Q;
      (eapply kp_trans; [|apply kp_analyze]); apply kp_len => //; split; by rewrite /= ?map_length.
  - rewrite /to_kpckms /analyze_if_units Hu K. eapply kp_trans; [apply kp_rescale|apply kp_analyze].
  - rewrite /to_kpcgyr Hu. destruct u; try apply kp_refl; rewrite ?K;
      (eapply kp_trans; [|apply kp_analyze]); apply kp_len => //; split; by rewrite /= ?map_length.
  - rewrite /to_galpy Hu. (eapply kp_trans; [|apply kp_analyze]). destruct u; rewrite ?K /= ?Hu; try apply kp_refl;
      apply kp_len => //; split; by rewrite /= ?map_length.
  - rewrite /to_WDunits Hu. destruct u; try apply kp_refl; rewrite ?K;
      (eapply kp_trans; [|apply kp_analyze]); apply kp_len => //; split; by rewrite /= ?map_length.
  - rewrite /to_amuse Hu. destruct u; try apply kp_refl; rewrite ?Q;
      (eapply kp_trans; [|apply kp_analyze]); apply kp_len => //; split; by rewrite /= ?map_length.
  - by case: Hl'.
Qed.

Lemma kp_stars c s o : length s.(sx) = length (sx (p_s (c_ph c))) -> length s.(sy) = length (sy (p_s (c_ph c))) ->
  kp c (set_stars c s o).
Proof. move=> H1 H2; by apply kp_len. Qed.

Lemma kp_to_cluster s c u o : c_units c = Some u -> linear u -> c_origin c = Some o -> flat o -> kp c (to_cluster s c).
Proof.
  move=> Hu Hl Ho Hf. rewrite /to_cluster Ho Hu.
  destruct o; [| apply kp_refl | | by case: Hf];
  (destruct u; try (by case: Hl)); (eapply kp_trans; [|apply kp_analyze]); apply kp_stars; by rewrite /= ?map_length.
Qed.

Lemma kp_to_origin s c u o o' : c_units c = Some u -> linear u -> c_origin c = Some o -> flat o -> flat o' ->
  kp c (to_origin G (Oreq o') s c).
Proof.
  move=> Hu Hl Ho Hf Hf'. rewrite /to_origin Ho. eapply kp_trans; [|apply kp_analyze].
  destruct o'; [| by eapply kp_to_cluster; eassumption | | by case: Hf'].
  - rewrite /to_centre Ho Hu. destruct o; [apply kp_refl | | | by case: Hf]; (destruct u; try (by case: Hl));
    (eapply kp_trans; [|apply kp_analyze]);
    first [ eapply kp_trans; [eapply kp_to_cluster; [exact Hu|exact Hl|exact Ho|exact Hf] |]; apply kp_stars; by rewrite /= ?map_length
          | apply kp_stars; by rewrite /= ?map_length].
  - rewrite /to_galaxy Ho Hu. destruct o; [ | | | by case: Hf]; (destruct u; try (by case: Hl));
    (eapply kp_trans; [|apply kp_analyze]); try apply kp_refl;
    first [ eapply kp_trans; [eapply kp_to_cluster; [exact Hu|exact Hl|exact Ho|exact Hf] |]; apply kp_stars; by rewrite /= ?map_length
          | apply kp_stars; by rewrite /= ?map_length].
Qed.

Lemma kp_run ops : forall c u o, ready G c u o -> Forall flat_op ops -> kp c (run G ops c).
Proof.
  induction ops as [|a ops IH] => c u o HR HF; [apply kp_refl|].
  inversion HF as [|? ? Ha HF']; subst. have [HS [Hu [Hl [Ho Hf]]]] := HR.
  destruct a as [v|v s]; rewrite /run /=.
  - have [V [R1 _]] := to_units_view HR Ha.
    eapply kp_trans; [exact (kp_units HS Hu Hl Ha)|]. exact (IH _ _ _ R1 HF').
  - have [V [R1 _]] := @to_origin_view G s c u o v HR Ha.
    eapply kp_trans; [eapply kp_to_origin; [exact Hu|exact Hl|exact Ho|exact Hf|exact Ha]|]. exact (IH _ _ _ R1 HF').
Qed.

Lemma return_is_run c u o u0 o0 : ready G c u o -> linear u0 -> flat o0 -> forall sv,
  sv_units sv = Some u0 -> sv_origin sv = Some o0 ->
  exists ops, Forall flat_op ops /\ last_units ops u = u0 /\ last_origin ops o = o0 /\
    return_cluster G sv c = analyze true true (set_rorder (run G ops c) (sv_rorder sv) (sv_rorder_origin sv)).
Proof.
  move=> HR Hl0 Hf0 sv Hsu Hso. have [HS [Hu [Hl [Ho Hf]]]] := HR.
  rewrite /return_cluster Hsu Hso.
  set c1 := (if ousys_eq_dec (c_units c) (Some u0) then c else _).
  have [ops1 [F1 [L1 [M1 E1]]]] : exists ops1, Forall flat_op ops1 /\ last_units ops1 u = u0 /\ last_origin ops1 o = o /\ c1 = run G ops1 c.
  { rewrite /c1. destruct (ousys_eq_dec (c_units c) (Some u0)) as [E|E].
    - exists []. repeat split => //. rewrite Hu in E. by case: E.
    - exists [OpUnits u0]. by repeat split => //; repeat constructor. }
  have [_ [R1 _]] := run_view HR F1. rewrite -E1 L1 M1 in R1.
  have [_ [_ [_ [Ho1 _]]]] := R1.
  destruct (oosys_eq_dec (c_origin c1) (Some o0)) as [E|E].
  - exists ops1. rewrite -E1. rewrite Ho1 in E. case: E => E. rewrite -E. repeat split => //.
  - exists (ops1 ++ [OpOrigin o0 false]). repeat split.
    + apply Forall_app; split => //. by repeat constructor.
    + rewrite -L1. clear. revert u; induction ops1 as [|[v|v s] ops1 IH] => u //=; rewrite ?IH //.
    + clear. revert o; induction ops1 as [|[v|v s] ops1 IH] => o //=; rewrite ?IH //.
    + by rewrite /run fold_left_app /= -/(run G ops1 c) -E1.
Qed.

(* order of saved state survives *)
Lemma bracket_restores c0 u o ops : ready G c0 u o -> Forall flat_op ops ->
  analyze true true c0 = c0 ->
  let c' := return_cluster G (save_cluster c0) (run G ops c0) in
  c_ph c' = c_ph c0 /\ c_units c' = c_units c0 /\ c_origin c' = c_origin c0 /\ c_der c' = c_der c0 /\
  c_sc c' = c_sc c0 /\ c_id c' = c_id c0 /\ c_sky c' = c_sky c0 /\ c_nb c' = c_nb c0.
Proof.
  move=> HR HF HA /=. have [HS [Hu [Hl [Ho Hf]]]] := HR.
  have [V [R1 [R2 [R3 [R4 R5]]]]] := run_view HR HF.
  have [HS1 [Hu1 [Hl1 [Ho1 Hf1]]]] := R1.
  have [ops2 [F2 [L2 [M2 E2]]]] := return_is_run R1 Hl Hf (sv := save_cluster c0) Hu Ho.
  rewrite E2.
  have [V2 [S1 [S2 [S3 [S4 S5]]]]] := run_view R1 F2.
  rewrite L2 M2 in S1.
  set c2 := run G ops2 (run G ops c0) in E2 V2 S1 S2 S3 S4 S5 *.
  have Eph : c_ph c2 = c_ph c0.
  { apply (view_inj S1 HR); [by rewrite S2 R2 | by rewrite V2 V]. }
  have [_ [Hu2 [_ [Ho2 _]]]] := S1.
  have [ro [rp [H1 [H2 [H3 [H4 H5]]]]]] := analyze_sorted c0.
  rewrite HA in H1 H2 H3 H4 H5.
  have K : kp c0 c2.
  { eapply kp_trans; [exact (kp_run HR HF)|exact (kp_run R1 F2)]. }
  have [K1 K2] := K _ H4 H5.
  have A : analyze true true (set_rorder c2 (d_rorder (c_der c0)) (d_rorder_origin (c_der c0))) =
           set_der c2 (der_of c0 ro rp).
  { rewrite (@analyze_settled (set_rorder c2 (d_rorder (c_der c0)) (d_rorder_origin (c_der c0))) ro rp) //.
    - rewrite /order_ok /rlist /= Eph. exact H2.
    - by rewrite /= H3 Ho2 Ho.
    - rewrite /set_rorder /set_der /der_of /rlist /rprolist /= Eph Ho2 Ho //. }
  simpl. rewrite A /=.
  have D : c_der c0 = der_of c0 ro rp.
  { rewrite -{1}HA (analyze_settled H1 H2 H3 H4 H5) //. }
  repeat split; rewrite ?Eph ?Hu2 ?Ho2 ?S2 ?S3 ?S4 ?S5 //.
Qed.
End Bracket.
