From Verif Require Import Base ModelCluster ModelOps ModelConv ModelEnergy SpecUnits SpecFrame SpecConv SpecEnergy
  ProofsUnits ProofsFrame ProofsPot ProofsSees ProofsEnergy.
Set Implicit Arguments. Unset Strict Implicit.

Section E.
Variable G : galpy.

Lemma energy_frame_idem c1 : off_centre c1 = false -> c_units c1 <> Some Uamuse -> energy_frame G c1 = c1.
Proof. move=> H1 H2. rewrite /energy_frame H1. destruct (c_units c1) as [[]|] => //. Qed.

Lemma list_seq_nth {A} (l : list A) n f d : length l = n -> (forall k, (k < n)%nat -> nth k l d = f k) -> l = map f (seq 0 n).
Proof.
  move=> HL H. apply (nth_ext _ _ d d); [by rewrite map_length seq_length|]. move=> k. rewrite HL => Hk.
  rewrite (@nth_map_in _ _ _ _ _ 0%nat); [by rewrite seq_length|]. rewrite seq_nth //. exact: H.
Qed.

Lemma energies_method_spec spec p soft c u o : ready G c u o -> aligned c -> analyze true true c = c ->
  separated (bodies_seen p c) ->
  let '(e, c') := energies_method G spec p true soft c in
  let '(kp, _) := energies G spec p true soft c in
  restored c c' /\ e_kin e = fst kp /\ e_pot e = snd kp /\
  length (e_etot e) = nstars c /\
  (forall k, (k < nstars c)%nat -> nth k (e_etot e) None = nadd (Some (nth k (e_kin e) 0)) (nth k (e_pot e) None)) /\
  e_ektot e = kinetic_sum spec p c /\ e_ptot e = potential_sum spec p soft c / 2 /\
  e_qvir e = virial_ratio spec p soft c.
Proof.
  move=> R HA HN HS. have ES := @energies_spec G spec p soft c u o R HA HN HS.
  rewrite /energies_method. rewrite /energies in ES *. have FR := energy_frame_framed R HA (fresh_settled HN).
  have [SE [F1 [AL [OC [GR [HM [HB [HV NA]]]]]]]] := FR.
  move: (energy_frame G c) ES FR SE F1 AL OC GR HM HB HV NA => c1 ES FR SE F1 AL OC GR HM HB HV NA.
  rewrite energy_frame_idem //. have [L1 [L2 [L3 L4]]] := ES.
  have KS : sumR (kinetic spec p c1) = kinetic_sum spec p c.
  { rewrite /kinetic_sum. f_equal. apply (list_seq_nth (d := 0)) => // k Hk. by have [] := L3 _ Hk. }
  have PS : sumR (map nan_to_num (potential spec p true soft c1)) = potential_sum spec p soft c.
  { rewrite /potential_sum. f_equal.
    rewrite (list_seq_nth (d := None) (f := fun k => Some (get_grav c * newton_potential soft (bodies_seen p c) k / (if spec then mass c k else 1))) L2).
    - move=> k Hk. by have [] := L3 _ Hk.
    - by rewrite map_map. }
  rewrite /add_energies. cbn [e_kin e_pot e_etot e_ektot e_ptot e_qvir fst snd].
  split; [|do 2 (split => //); split; [rewrite zip_with_length L1 L2; lia|split]].
  - apply (bracket_sees R) => //. have [u1 [o1 R1]] := sees_ready SE. have [_ [Hu1 [Hl1 [Ho1 Hf1]]]] := R1.
    exact (@sees_return G c c1 (save_cluster c1) u1 o1 SE Hu1 Hl1 Ho1 Hf1).
  - move=> k Hk. rewrite (@nth_zip_with _ _ _ _ _ _ _ 0 None) ?L1 ?L2 //.
  - rewrite /virial_ratio KS PS //.
Qed.

(* ------------------------------------------------------------ signs *)
Lemma grav_pos c : 0 < get_grav c.
Proof.
  have K : 0 < kms ^ 2 by rewrite /kms; apply pow_lt; lra.
  rewrite /get_grav. destruct (c_units c) as [[]|]; nra.
Qed.
Lemma rel_speed2_nonneg p c k : 0 <= rel_speed2 p c k.
Proof.
  rewrite /rel_speed2. set a := nth k _ 0 - _. set b := nth k _ 0 - _. set d := nth k _ 0 - _.
  have := pow2_ge_0 a. have := pow2_ge_0 b. have := pow2_ge_0 d. destruct p; lra.
Qed.
Lemma sumR_nonpos l : (forall a, In a l -> a <= 0) -> sumR l <= 0.
Proof.
  induction l as [|a l IH] => /= H; [lra|].
  have Ha : a <= 0 by apply H; left. have Hl : sumR l <= 0 by apply IH => b Hb; apply H; right. lra.
Qed.
Lemma div_pos_nonneg a b : 0 <= a -> 0 <= b -> 0 <= a / b.
Proof.
  move=> Ha Hb. destruct (Req_dec b 0) as [->|N]; [rewrite /Rdiv Rinv_0; lra|].
  apply Rmult_le_pos => //. left. apply Rinv_0_lt_compat. lra.
Qed.
Lemma nth_mass_seen p c k : (k < nstars c)%nat -> fm (nth k (bodies_seen p c) star0) = mass c k.
Proof.
  move=> Hk. rewrite /bodies_seen (@nth_map_in _ _ _ _ _ star0); [by rewrite /bodies map_length seq_length|].
  rewrite /bodies (@nth_map_in _ _ _ _ _ 0%nat); [by rewrite seq_length|]. by rewrite seq_nth.
Qed.
Lemma newton_nonpos soft l k : (forall i, (i < length l)%nat -> 0 <= fm (nth i l star0)) -> (k < length l)%nat ->
  newton_potential soft l k <= 0.
Proof.
  move=> H Hk. apply sumR_nonpos => a /in_map_iff [j [<- Hj]]. apply filter_In in Hj as [Hj _]. apply in_seq in Hj.
  rewrite /pair_energy. have A : 0 <= fm (nth k l star0) * fm (nth j l star0) by apply Rmult_le_pos; apply H; lia.
  have B := div_pos_nonneg A (sqrt_pos (dist2 (nth k l star0) (nth j l star0) + soft ^ 2)).
  rewrite /Rdiv in B *. lra.
Qed.
Lemma kinetic_nonneg spec p c : (forall k, (k < nstars c)%nat -> 0 < mass c k) -> 0 <= kinetic_sum spec p c.
Proof.
  move=> H. apply sumR_nonneg => a /in_map_iff [k [<- Hk]]. apply in_seq in Hk.
  have M : 0 < mass c k by apply H; lia. have V := rel_speed2_nonneg p c k. destruct spec; nra.
Qed.
Lemma potential_nonpos spec p soft c : (forall k, (k < nstars c)%nat -> 0 < mass c k) -> potential_sum spec p soft c <= 0.
Proof.
  move=> H. apply sumR_nonpos => a /in_map_iff [k [<- Hk]]. apply in_seq in Hk.
  have N : newton_potential soft (bodies_seen p c) k <= 0.
  { apply newton_nonpos; rewrite seen_length; [|lia]. move=> i Hi. rewrite nth_mass_seen //. by left; apply H. }
  have M : 0 < mass c k by apply H; lia. have GP := grav_pos c.
  have A : 0 <= - (get_grav c * newton_potential soft (bodies_seen p c) k) by nra.
  have B := div_pos_nonneg A (b := if spec then mass c k else 1). have C : 0 <= (if spec then mass c k else 1) by destruct spec; lra.
  have := B C. rewrite /Rdiv. lra.
Qed.
Lemma virial_ratio_nonpos spec p soft c : (forall k, (k < nstars c)%nat -> 0 < mass c k) -> virial_ratio spec p soft c <= 0.
Proof.
  move=> H. rewrite /virial_ratio. have A := @kinetic_nonneg spec p c H. have B := @potential_nonpos spec p soft c H.
  have C : 0 <= kinetic_sum spec p c / - (potential_sum spec p soft c / 2) by apply div_pos_nonneg; lra.
  destruct (Req_dec (potential_sum spec p soft c) 0) as [->|N].
  - have -> : 0 / 2 = 0 by lra. rewrite /Rdiv Rinv_0. lra.
  - have E : kinetic_sum spec p c / - (potential_sum spec p soft c / 2) = - (kinetic_sum spec p c / (potential_sum spec p soft c / 2)) by field.
    lra.
Qed.

(* ------------------------------------------------------------ virialize *)
Lemma return_same sv d : c_units d = sv_units sv -> c_origin d = sv_origin sv ->
  return_cluster G sv d = analyze true true (set_rorder d (sv_rorder sv) (sv_rorder_origin sv)).
Proof.
  move=> H1 H2. rewrite /return_cluster. destruct (ousys_eq_dec (c_units d) (sv_units sv)) => //.
  destruct (oosys_eq_dec (c_origin d) (sv_origin sv)) => //.
Qed.
Lemma skel_set_rorder d a b : skel (set_rorder d a b) = skel d. Proof. by []. Qed.

(* c' differs from c by velocities relative to the cluster multiplied by k *)
Definition boosted (k : R) (c c' : cluster) : Prop :=
  (forall u o, ready G c u o -> ready G c' u o) /\ aligned c' /\ analyze true true c' = c' /\
  p_m (c_ph c') = p_m (c_ph c) /\ bodies c' = bodies c /\ p_g (c_ph c') = p_g (c_ph c) /\ p_c (c_ph c') = p_c (c_ph c) /\
  c_units c' = c_units c /\
  forall p i, (i < nstars c)%nat -> rel_speed2 p c' i = k ^ 2 * rel_speed2 p c i.


Lemma boost_return k c u o : ready G c u o -> aligned c -> still_centre c ->
  boosted k c (return_cluster G (save_cluster c) (scale_velocities k (if off_centre c then to_centre false c else c))).
Proof.
  move=> R HA HC. have [HS [Hu [Hl [Ho Hf]]]] := R. have [A1 [A2 [A3 [A4 [A5 A6]]]]] := HA.
  set d := scale_velocities k _.
  have [e [EE [EP [EU [EO ES]]]]] : exists e, return_cluster G (save_cluster c) d = analyze true true e /\
    c_ph e = mkP (p_t (c_ph c)) (p_m (c_ph c)) (mk6 (sx (p_s (c_ph c))) (sy (p_s (c_ph c))) (sz (p_s (c_ph c)))
      (map (fun a => k * (a - match o with Ogalaxy => svx (p_g (c_ph c)) | _ => 0 end) + match o with Ogalaxy => svx (p_g (c_ph c)) | _ => 0 end) (svx (p_s (c_ph c))))
      (map (fun a => k * (a - match o with Ogalaxy => svy (p_g (c_ph c)) | _ => 0 end) + match o with Ogalaxy => svy (p_g (c_ph c)) | _ => 0 end) (svy (p_s (c_ph c))))
      (map (fun a => k * (a - match o with Ogalaxy => svz (p_g (c_ph c)) | _ => 0 end) + match o with Ogalaxy => svz (p_g (c_ph c)) | _ => 0 end) (svz (p_s (c_ph c)))))
      (p_c (c_ph c)) (p_g (c_ph c)) /\ c_units e = Some u /\ c_origin e = Some o /\ c_sc e = c_sc c.
  { rewrite /d /off_centre Ho. destruct o; try (by case: Hf).
    - rewrite return_same //. eexists; split => //. rewrite /set_rorder /scale_velocities /set_stars /set_der /= Hu.
      split => //. do 2 f_equal; rewrite /vmul; apply map_ext => a; lra.
    - rewrite return_same //. eexists; split => //. rewrite /set_rorder /scale_velocities /set_stars /set_der /= Hu.
      split => //. do 2 f_equal; rewrite /vmul; apply map_ext => a; lra.
    - have [F1 [F2 [F3 F4]]] := to_centre_fields false R.
      move: (to_centre false c) F1 F2 F3 F4 => c1 F1 F2 F3 F4.
      set c2 := scale_velocities k c1.
      have RR : ready G c2 u Ocentre by rewrite /ready /c2 /= F4 F2 F3; repeat split => //; apply HS.
      have E0 : return_cluster G (save_cluster c) c2 = analyze true true (set_rorder (to_origin G (Oreq Ogalaxy) false c2) (d_rorder (c_der c)) (d_rorder_origin (c_der c))).
      { rewrite /return_cluster. have -> : c_units c2 = Some u by exact F2. rewrite /save_cluster Hu Ho. cbn [sv_units sv_origin sv_rorder sv_rorder_origin].
        destruct (ousys_eq_dec (Some u) (Some u)) => //. have -> : c_origin c2 = Some Ocentre by exact F3.
        destruct (oosys_eq_dec (Some Ocentre) (Some Ogalaxy)) => //. }
      rewrite E0. eexists; split => //.
      have [_ [Hu2 [Hl2 [Ho2 Hf2]]]] := RR.
      have SK := to_origin_flat G false Hu2 Hl2 Ho2 Hf2 (o' := Ogalaxy). 
      have SK2 := SK Hf. clear SK.
      have [E1 [E2 [E3 [E4 [E5 [E6 _]]]]]] := skel_eq_fields SK2.
      move: (to_origin G (Oreq Ogalaxy) false c2) E1 E2 E3 E4 E5 E6 => c3 E1 E2 E3 E4 E5 E6.
      cbn [set_rorder set_der c_ph c_units c_origin c_sc]. rewrite E1 E2 E5 E6. cbn [set_stars c_ph c_units c_origin c_sc].
      split; [|by split; [exact F2|split => //]].
      have [Z1 [Z2 Z3]] := HC Ho.
      rewrite /c2 /scale_velocities /reorigin /add6 /vadd /vmul /=. rewrite F1 /= /vadd !map_map. f_equal. f_equal.
      + apply map_id_ext => a; lra.
      + apply map_id_ext => a; lra.
      + apply map_id_ext => a; lra.
      + apply map_ext => a; rewrite Z1; lra.
      + apply map_ext => a; rewrite Z2; lra.
      + apply map_ext => a; rewrite Z3; lra. }
  rewrite EE. have SK : skel (analyze true true e) = skel e by apply skel_analyze.
  have [E1 [E2 [E3 [E4 [E5 [E6 _]]]]]] := skel_eq_fields SK.
  have AN := analyze_idem e.
  move: (analyze true true e) E1 E2 E3 E4 E5 E6 AN => c' E1 E2 E3 E4 E5 E6 AN.
  rewrite EP in E5. rewrite EU in E1. rewrite EO in E2. rewrite ES in E6.
  split. { move=> u' o'. rewrite /ready E1 E2 E6 Hu Ho => H. exact H. }
  split. { rewrite /aligned E5 /= !map_length //. }
  split => //. rewrite E5. do 1 (split => //). split; [by rewrite /bodies /body E5|].
  do 2 (split => //). split; [by rewrite E1 Hu|].
  move=> p i Hi. rewrite /nstars in Hi. rewrite /rel_speed2 E5 E2 Ho. cbn [p_s svx svy svz p_g].
  rewrite !(@nth_map_in _ _ _ _ _ 0); try lia. destruct o, p; cbn [zero6 svx svy svz]; ring.
Qed.

Lemma sumR_ext (f g : nat -> R) l : (forall k, In k l -> f k = g k) -> sumR (map f l) = sumR (map g l).
Proof. move=> H. f_equal. exact: map_ext_in. Qed.
Lemma boosted_ratio k c c' spec p soft : boosted k c c' -> virial_ratio spec p soft c' = k ^ 2 * virial_ratio spec p soft c.
Proof.
  move=> [_ [_ [_ [HM [HB [_ [_ [HU HV]]]]]]]]. have EN : nstars c' = nstars c by rewrite /nstars HM.
  have GR : get_grav c' = get_grav c by rewrite /get_grav HU.
  have E1 : kinetic_sum spec p c' = kinetic_sum spec p c * k ^ 2.
  { rewrite /kinetic_sum -sumR_map_mul map_map EN. apply sumR_ext => i /in_seq Hi. rewrite HV; [lia|]. rewrite /mass HM. destruct spec; field. }
  have E2 : potential_sum spec p soft c' = potential_sum spec p soft c.
  { rewrite /potential_sum EN GR /bodies_seen HB /mass HM //. }
  rewrite /virial_ratio E1 E2 /Rdiv. ring.
Qed.

Lemma restored_ready c c' u o : restored c c' -> ready G c u o -> ready G c' u o.
Proof. move=> [E1 [E2 [E3 [E4 [E5 _]]]]]. by rewrite /ready E2 E3 E5. Qed.
Lemma restored_aligned c c' : restored c c' -> aligned c -> aligned c'.
Proof. move=> [E1 _]. by rewrite /aligned E1. Qed.
Lemma boosted_restored k c c0 c' : restored c c0 -> boosted k c0 c' -> boosted k c c'.
Proof.
  move=> RS [B1 [B2 [B3 [B4 [B5 [B6 [B7 [B8 B9]]]]]]]]. have [E1 [E2 [E3 [E4 [E5 _]]]]] := RS.
  split. { move=> u o H. apply B1. exact: restored_ready RS H. }
  rewrite E1 in B4, B6, B7. rewrite E2 in B8. do 2 (split => //). split => //. split. { by rewrite B5 /bodies /body E1. }
  do 3 (split => //). move=> p i Hi. rewrite B9; [by rewrite /nstars E1|]. by rewrite /rel_speed2 E1 E3.
Qed.

(* the energies measured inside virialize are those of the cluster *)
Lemma centre_ratio c u o spec p soft : ready G c u o -> aligned c -> still_centre c ->
  let c1 := if off_centre c then to_centre true c else c in
  virial_ratio spec p soft c1 = virial_ratio spec p soft c /\ sees G c c1 /\ aligned c1 /\
  (analyze true true c = c -> analyze true true c1 = c1) /\
  exists d, bodies c1 = map (translate d) (bodies c).
Proof.
  move=> R HA HC /=. have [HS [Hu [Hl [Ho Hf]]]] := R. have [A1 [A2 [A3 [A4 [A5 A6]]]]] := HA.
  rewrite /off_centre Ho. destruct o; try (by case: Hf).
  - split => //; split; [exact (sees_refl R)|]; do 2 (split => //). exists (0, 0, 0). symmetry. apply map_id_ext, translate_0.
  - split => //; split; [exact (sees_refl R)|]; do 2 (split => //). exists (0, 0, 0). symmetry. apply map_id_ext, translate_0.
  - have [F1 [F2 [F3 F4]]] := to_centre_fields true R. have SE := @sees_centre G c c true (sees_refl R).
    have AN : analyze true true (to_centre true c) = to_centre true c.
    { rewrite /to_centre Ho. destruct (c_units c) as [[]|] => //; try (by rewrite analyze_idem); try by case: Hl; case: Hu. }
    move: (to_centre true c) F1 F2 F3 F4 SE AN => c1 F1 F2 F3 F4 SE AN. have [Z1 [Z2 Z3]] := HC Ho.
    have HM : p_m (c_ph c1) = p_m (c_ph c) by rewrite F1.
    have HB : bodies c1 = map (translate (- (sx (p_g (c_ph c)) + sx (p_c (c_ph c))), - (sy (p_g (c_ph c)) + sy (p_c (c_ph c))), - (sz (p_g (c_ph c)) + sz (p_c (c_ph c))))) (bodies c).
    { rewrite /bodies HM map_map. apply map_ext_in => k /in_seq Hk. rewrite /body F1 /translate /= /vadd.
      rewrite !(@nth_map_in _ _ _ _ _ 0); try lia. f_equal; lra. }
    split; [|split => //; split; [|split => //; eexists; exact HB]].
    + have EN : nstars c1 = nstars c by rewrite /nstars HM.
      have GR : get_grav c1 = get_grav c by rewrite /get_grav F2 Hu.
      rewrite /virial_ratio. congr (_ / (_ / 2)).
      * rewrite /kinetic_sum EN. apply sumR_ext => i /in_seq Hi. rewrite /nstars in Hi.
        have -> : rel_speed2 p c1 i = rel_speed2 p c i; last by rewrite /mass HM.
        rewrite /rel_speed2 F3 Ho F1 /= /vadd. rewrite !(@nth_map_in _ _ _ _ _ 0); try lia. rewrite Z1 Z2 Z3. destruct p; ring.
      * rewrite /potential_sum EN GR. apply sumR_ext => i /in_seq Hi. rewrite /mass HM /bodies_seen HB in_plane_translate newton_translate //.
        rewrite -/(bodies_seen p c) seen_length. lia.
    + rewrite /aligned F1 /= /reorigin /add6 /vadd /= !map_length. by repeat split.
Qed.

Lemma virialize_spec Q soft p cache c u o : ready G c u o -> aligned c -> analyze true true c = c ->
  separated (bodies_seen p c) -> still_centre c ->
  let q := match cache with Some q => q | None => virial_ratio true p soft c end in
  let '(cache', c') := virialize G Q soft p cache c in
  cache' = Some q /\ boosted (sqrt (Rabs (Q / q))) c c'.
Proof.
  move=> R HA HN HS HC. rewrite /virialize /virialize_factor.
  have [VR [SE [AL [AN [d HB]]]]] := @centre_ratio c u o true p soft R HA HC.
  move: (if off_centre c then to_centre true c else c) VR SE AL AN HB => c1 VR SE AL AN HB.
  have KEY : forall c2, sees G c c2 -> forall k, boosted k c
    (let c3 := return_cluster G (save_cluster c) c2 in
     return_cluster G (save_cluster c3) (scale_velocities k (if off_centre c3 then to_centre false c3 else c3))).
  { move=> c2 S2 k. cbn zeta. have RS : restored c (return_cluster G (save_cluster c) c2) by exact: bracket_sees R S2 HN.
    move: (return_cluster G (save_cluster c) c2) RS => c3 RS. apply (boosted_restored RS).
    have HC3 : still_centre c3 by have [E1 [E2 [E3 _]]] := RS; rewrite /still_centre E1 E3.
    exact (boost_return k (restored_ready RS R) (restored_aligned RS HA) HC3). }
  destruct cache as [q|].
  - split => //. exact: KEY.
  - have [u1 [o1 R1]] := sees_ready SE.
    have HS1 : separated (bodies_seen p c1) by rewrite /bodies_seen HB in_plane_translate; exact: separated_translate.
    pose proof (@energies_method_spec true p soft c1 u1 o1 R1 AL (AN HN) HS1) as EM.
    destruct (energies_method G true p true soft c1) as [e c2].
    destruct (energies G true p true soft c1) as [kp c3]. have [RS [_ [_ [_ [_ [_ [_ EQ]]]]]]] := EM.
    split; [by rewrite EQ VR|]. rewrite EQ VR. apply KEY. apply (sees_trans SE).
    have [E1 [E2 [E3 [E4 [E5 [E6 [E7 E8]]]]]]] := RS.
    split; [by rewrite /galactic_view /origin_shift E1 E2 E3 E5|].
    split; [exists u1, o1; exact: restored_ready RS R1|]. do 4 (split => //).
    move=> rp H1 H2. by rewrite E4 /proorder_ok /rprolist E1.
Qed.
End E.
