From Verif Require Import Base ModelCluster ModelOps ModelConv ModelEnergy SpecUnits SpecFrame SpecConv SpecEnergy
  ProofsUnits ProofsFrame ProofsPot ProofsSees.
Set Implicit Arguments. Unset Strict Implicit.

(* ---------------------------------------------------------------- rows *)
Definition mkrow (x y z m : list R) : list star4 :=
  zip_with (fun '(a, b, z) m => mk4 a b z m) (combine (combine x y) z) m.
Lemma mkrow_nth x : forall y z m, length x = length m -> length y = length m -> length z = length m ->
  mkrow x y z m = map (fun k => mk4 (nth k x 0) (nth k y 0) (nth k z 0) (nth k m 0)) (seq 0 (length m)).
Proof.
  induction x as [|a x IH]; move=> [|b y] [|c z] [|d m] //= E1 E2 E3; try lia.
  rewrite /mkrow /= -/(mkrow x y z m) IH; try lia. by rewrite -seq_shift map_map.
Qed.
Lemma rows_seen p c : aligned c -> rows p c = bodies_seen p c.
Proof.
  move=> [H1 [H2 [H3 _]]]. rewrite /rows -/(mkrow _ _ _ _).
  rewrite mkrow_nth //; [destruct p => //; by rewrite map_length|].
  rewrite /bodies_seen /bodies map_map. apply map_ext_in => k /in_seq Hk.
  rewrite /body /in_plane /=. destruct p => //. f_equal. rewrite (@nth_map_in _ _ _ _ _ 0) //. lia.
Qed.

Lemma norm3_nth x : forall y z k, length y = length x -> length z = length x -> (k < length x)%nat ->
  nth k (norm3 x y z) 0 = sqrt (nth k x 0 ^ 2 + nth k y 0 ^ 2 + nth k z 0 ^ 2).
Proof.
  induction x as [|a x IH]; move=> [|b y] [|c z] k //= E1 E2 Hk; try lia. destruct k as [|k] => //. apply IH; lia.
Qed.
Lemma norm2_nth x : forall y k, length y = length x -> (k < length x)%nat ->
  nth k (norm2 x y) 0 = sqrt (nth k x 0 ^ 2 + nth k y 0 ^ 2).
Proof. induction x as [|a x IH]; move=> [|b y] k //= E1 Hk; try lia. destruct k as [|k] => //. apply IH; lia. Qed.
Lemma norm3_length x y z : length y = length x -> length z = length x -> length (norm3 x y z) = length x.
Proof. move=> H1 H2. rewrite /norm3 !zip_with_length map_length H1 H2. lia. Qed.
Lemma norm2_length_eq x y : length y = length x -> length (norm2 x y) = length x.
Proof. move=> H1. rewrite /norm2 !zip_with_length H1. lia. Qed.

(* derived quantities match the stored phase space *)
Definition fresh (c : cluster) : Prop :=
  let s := p_s (c_ph c) in
  d_v (c_der c) = norm3 (svx s) (svy s) (svz s) /\ d_vpro (c_der c) = norm2 (svx s) (svy s) /\
  d_r (c_der c) = norm3 (sx s) (sy s) (sz s) /\ d_rpro (c_der c) = norm2 (sx s) (sy s) /\
  d_mtot (c_der c) = sumR (p_m (c_ph c)).
Lemma fresh_analyze s p c : fresh (analyze s p c).
Proof.
  rewrite /fresh c_ph_analyze /analyze. destruct s; rewrite /analyze_fracs.
  - rewrite /sortstars. cbn.
    destruct (d_rorder (c_der c)) as [o|]; [destruct (_ && _)|]; cbn; destruct p; cbn;
      repeat match goal with |- context [match ?x with _ => _ end] => destruct x; cbn end; by [].
  - cbn. destruct (d_rorder (c_der c)), (d_rproorder (c_der c)); by [].
Qed.
Lemma fresh_settled c : analyze true true c = c -> fresh c.
Proof. move=> <-. apply fresh_analyze. Qed.

Section E.
Variable G : galpy.

(* fields of a change of origin *)
Lemma to_cluster_fields s c u o : ready G c u o ->
  let c1 := to_cluster s c in
  c_ph c1 = mkP (p_t (c_ph c)) (p_m (c_ph c)) (reorigin (c_ph c) o Ocluster) (p_c (c_ph c)) (p_g (c_ph c)) /\
  c_units c1 = Some u /\ c_origin c1 = Some Ocluster /\ c_sc c1 = c_sc c.
Proof.
  move=> [HS [Hu [Hl [Ho Hf]]]] /=. have E := to_cluster_flat s Hu Hl Ho Hf.
  have [E1 [E2 [E3 [E4 [E5 [E6 _]]]]]] := skel_eq_fields E. rewrite E1 E2 E5 E6 /= Hu. by repeat split.
Qed.
Lemma to_centre_fields s c u o : ready G c u o ->
  let c1 := to_centre s c in
  c_ph c1 = mkP (p_t (c_ph c)) (p_m (c_ph c)) (reorigin (c_ph c) o Ocentre) (p_c (c_ph c)) (p_g (c_ph c)) /\
  c_units c1 = Some u /\ c_origin c1 = Some Ocentre /\ c_sc c1 = c_sc c.
Proof.
  move=> [HS [Hu [Hl [Ho Hf]]]] /=. have E := to_centre_flat s Hu Hl Ho Hf.
  have [E1 [E2 [E3 [E4 [E5 [E6 _]]]]]] := skel_eq_fields E. rewrite E1 E2 E5 E6 /= Hu. by repeat split.
Qed.
Lemma fresh_to_cluster s c u o : ready G c u o -> fresh c -> fresh (to_cluster s c).
Proof.
  move=> [HS [Hu [Hl [Ho Hf]]]] H. rewrite /to_cluster Ho.
  destruct o => //; try (by case: Hf); rewrite Hu; destruct u; try (by case: Hl); exact: fresh_analyze.
Qed.

(* amuse -> pckms changes only the label *)
Lemma amuse_to_pckms c o : ready G c Uamuse o ->
  let c1 := to_pckms G c in
  c_ph c1 = c_ph c /\ c_units c1 = Some Upckms /\ c_origin c1 = Some o /\ c_sc c1 = c_sc c /\ fresh c1.
Proof.
  move=> [HS [Hu [Hl [Ho Hf]]]]. rewrite /to_pckms /analyze_if_units Hu /to_pckms0 /from_amuse Hu.
  have -> : pckms_step (set_ph c (c_ph c) (Some Upckms)) = set_ph c (c_ph c) (Some Upckms) by [].
  cbn zeta. rewrite c_ph_analyze. set d := set_ph c (c_ph c) (Some Upckms).
  have E : skel (analyze true true d) = skel d by apply skel_analyze.
  have [E1 [E2 [E3 [E4 [E5 [E6 _]]]]]] := skel_eq_fields E. rewrite E1 E2 E6. 
  repeat split => //; by have [F1 [F2 [F3 [F4 F5]]]] := fresh_analyze true true d.
Qed.

(* the frame in which energies are computed *)
Definition framed (c c1 : cluster) : Prop :=
  sees G c c1 /\ fresh c1 /\ aligned c1 /\ off_centre c1 = false /\ get_grav c1 = get_grav c /\ p_m (c_ph c1) = p_m (c_ph c) /\ (exists d, bodies c1 = map (translate d) (bodies c)) /\ (forall p k, (k < nstars c)%nat -> rel_speed2 p c1 k = rel_speed2 p c k) /\ c_units c1 <> Some Uamuse.

Lemma translate_0 a : translate (0, 0, 0) a = a.
Proof. destruct a; rewrite /translate /=; f_equal; lra. Qed.
Lemma frame_cluster c u o : ready G c u o -> aligned c -> fresh c ->
  let c1 := if off_centre c then to_cluster false c else c in
  ready G c1 u (match o with Ogalaxy => Ocluster | o => o end) /\ sees G c c1 /\ fresh c1 /\ aligned c1 /\ off_centre c1 = false /\ c_units c1 = Some u /\ p_m (c_ph c1) = p_m (c_ph c) /\ (exists d, bodies c1 = map (translate d) (bodies c)) /\ (forall p k, (k < nstars c)%nat -> rel_speed2 p c1 k = rel_speed2 p c k).
Proof.
  move=> R HA HF /=. have [HS [Hu [Hl [Ho Hf]]]] := R. have [A1 [A2 [A3 [A4 [A5 A6]]]]] := HA.
  rewrite /off_centre Ho. destruct o; try (by case: Hf).
  - split => //; split; [exact (sees_refl R)|]; split => //; split => //. rewrite Ho Hu. repeat split => //. exists (0, 0, 0).
    symmetry. apply map_id_ext, translate_0.
  - split => //; split; [exact (sees_refl R)|]; split => //; split => //. rewrite Ho Hu. repeat split => //. exists (0, 0, 0).
    symmetry. apply map_id_ext, translate_0.
  - have [F1 [F2 [F3 F4]]] := to_cluster_fields false R.
    have FR := @fresh_to_cluster false _ _ _ R HF.
    have SE := @sees_cluster G c c false (sees_refl R).
    move: (to_cluster false c) F1 F2 F3 F4 FR SE => c1 F1 F2 F3 F4 FR SE.
    have HM : p_m (c_ph c1) = p_m (c_ph c) by rewrite F1.
    split. { rewrite /ready F4 F2 F3. repeat split => //; try apply HS. }
    do 2 (split => //). split.
    { rewrite /aligned F1 /= /reorigin /add6 /vadd /= !map_length. by repeat split. }
    rewrite F3 F2. do 3 (split => //). split.
    + exists (- sx (p_g (c_ph c)), - sy (p_g (c_ph c)), - sz (p_g (c_ph c))).
      rewrite /bodies HM map_map. apply map_ext_in => k /in_seq Hk. rewrite /body F1 /translate /= /vadd.
      rewrite !(@nth_map_in _ _ _ _ _ 0); try lia. f_equal; lra.
    + move=> p k Hk. rewrite /nstars in Hk. rewrite /rel_speed2 F3 Ho F1 /= /vadd.
      rewrite !(@nth_map_in _ _ _ _ _ 0); try lia.
      have E : forall a b, a + (0 - b) - 0 = a - b by move=> *; lra.
      by rewrite !E.
Qed.

Lemma energy_frame_framed c u o : ready G c u o -> aligned c -> fresh c -> framed c (energy_frame G c).
Proof.
  move=> R HA HF. have [R1 [S1 [FR [AL [OC [HU [HM [HB HV]]]]]]]] := frame_cluster R HA HF.
  rewrite /energy_frame. move: (if off_centre c then _ else c) R1 S1 FR AL OC HU HM HB HV => c1 R1 S1 FR AL OC HU HM HB HV.
  have [HS [Hu [Hl [Ho Hf]]]] := R.
  have GR : get_grav c1 = get_grav c by rewrite /get_grav Hu HU.
  rewrite HU. destruct u; try (by repeat split => //; try apply S1; try apply FR; try apply AL; rewrite HU).
  have [P1 [P2 [P3 [P4 P5]]]] := amuse_to_pckms R1. have S2 := sees_pckms S1.
  have [_ [_ [_ [Ho1 _]]]] := R1.
  move: (to_pckms G c1) P1 P2 P3 P4 P5 S2 => c2 P1 P2 P3 P4 P5 S2.
  split => //. split => //. split; [by rewrite /aligned P1|]. split; [by rewrite /off_centre Ho1 in OC; rewrite /off_centre P3|].
  split; [by rewrite /get_grav P2 Hu|]. split; [by rewrite P1|]. split; [by rewrite /bodies /body P1|].
  split; [|by rewrite P2]. move=> p k Hk. rewrite -HV // /rel_speed2 P1 P3 Ho1 //.
Qed.

Lemma nth_zip_with {A B C} (f : A -> B -> C) l k i a b c : (i < length l)%nat -> (i < length k)%nat ->
  nth i (zip_with f l k) c = f (nth i l a) (nth i k b).
Proof.
  revert k i; induction l as [|x l IH]; move=> [|y k] i /=; try lia. destruct i as [|i] => //= H1 H2. apply IH; lia.
Qed.
Lemma sqrt_pow2 x : 0 <= x -> sqrt x ^ 2 = x.
Proof. move=> H. have -> : sqrt x ^ 2 = sqrt x * sqrt x by ring. exact: sqrt_sqrt. Qed.

Lemma kin_spec spec p c1 k : aligned c1 -> fresh c1 -> off_centre c1 = false -> (k < nstars c1)%nat ->
  nth k (kinetic spec p c1) 0 = (if spec then 1 else mass c1 k) * rel_speed2 p c1 k / 2.
Proof.
  move=> [A1 [A2 [A3 [A4 [A5 A6]]]]] [F1 [F2 _]] OC Hk. rewrite /nstars in Hk.
  have E : nth k (if p then d_vpro (c_der c1) else d_v (c_der c1)) 0 ^ 2 = rel_speed2 p c1 k.
  { rewrite /rel_speed2. have -> : (match c_origin c1 with Some Ogalaxy => p_g (c_ph c1) | _ => zero6 end) = zero6.
    { rewrite /off_centre in OC. by destruct (c_origin c1) as [[]|]. }
    cbn [zero6 svx svy svz]. rewrite !Rminus_0_r. destruct p.
    - rewrite F2 norm2_nth; try lia. rewrite sqrt_pow2; [|lra].
      have := pow2_ge_0 (nth k (svx (p_s (c_ph c1))) 0). have := pow2_ge_0 (nth k (svy (p_s (c_ph c1))) 0). lra.
    - rewrite F1 norm3_nth; try lia. rewrite sqrt_pow2 //.
      have := pow2_ge_0 (nth k (svx (p_s (c_ph c1))) 0). have := pow2_ge_0 (nth k (svy (p_s (c_ph c1))) 0).
      have := pow2_ge_0 (nth k (svz (p_s (c_ph c1))) 0). lra. }
  have L : length (if p then d_vpro (c_der c1) else d_v (c_der c1)) = length (p_m (c_ph c1)).
  { destruct p; [rewrite F2 norm2_length_eq; lia|rewrite F1 norm3_length; lia]. }
  rewrite /kinetic. destruct spec.
  - rewrite (@nth_map_in _ _ _ _ _ 0); [lia|]. rewrite E. lra.
  - rewrite (@nth_zip_with _ _ _ _ _ _ _ 0 0); try lia. rewrite E /mass. lra.
Qed.
Lemma kin_length spec p c1 : aligned c1 -> fresh c1 -> length (kinetic spec p c1) = nstars c1.
Proof.
  move=> [A1 [A2 [A3 [A4 [A5 A6]]]]] [F1 [F2 _]]. rewrite /kinetic /nstars.
  have L : length (if p then d_vpro (c_der c1) else d_v (c_der c1)) = length (p_m (c_ph c1)).
  { destruct p; [rewrite F2 norm2_length_eq; lia|rewrite F1 norm3_length; lia]. }
  destruct spec; rewrite ?map_length ?zip_with_length L; lia.
Qed.

Lemma in_plane_translate p d l :
  map (in_plane p) (map (translate d) l) = map (translate (fst (fst d), snd (fst d), if p then 0 else snd d)) (map (in_plane p) l).
Proof.
  destruct d as [[x y] z]. rewrite !map_map. apply map_ext => a. rewrite /in_plane /translate /=. f_equal.
  destruct p; lra.
Qed.
Lemma framed_seen c c1 p : framed c c1 -> exists d, bodies_seen p c1 = map (translate d) (bodies_seen p c).
Proof.
  move=> [_ [_ [_ [_ [_ [_ [[d E] _]]]]]]]. eexists. rewrite /bodies_seen E. exact: in_plane_translate.
Qed.
Lemma seen_length p c : length (bodies_seen p c) = nstars c.
Proof. by rewrite /bodies_seen /bodies !map_length seq_length. Qed.

Lemma pot_spec spec p soft c c1 k : framed c c1 -> separated (bodies_seen p c) -> (k < nstars c)%nat ->
  nth k (potential spec p true soft c1) None =
  Some (get_grav c * newton_potential soft (bodies_seen p c) k / (if spec then mass c k else 1)).
Proof.
  move=> FR HS Hk. have [d ED] := framed_seen p FR. have [_ [_ [AL [_ [GR [HM _]]]]]] := FR.
  have HL : length (bodies_seen p c1) = nstars c by rewrite seen_length /nstars HM.
  rewrite /potential rows_seen // GR.
  have E : nth k (map (nmul (get_grav c)) (potential_energy soft (bodies_seen p c1))) None =
           Some (get_grav c * newton_potential soft (bodies_seen p c) k).
  { rewrite (@nth_map_in _ _ _ _ _ None); [rewrite potential_energy_length HL //|].
    rewrite potential_energy_spec; [|by rewrite HL|].
    - rewrite ED. exact: separated_translate.
    - rewrite ED newton_translate //. by rewrite seen_length. }
  destruct spec; last by rewrite E; f_equal; field.
  rewrite (@nth_zip_with _ _ _ _ _ _ _ None 0).
  - rewrite map_length potential_energy_length HL //.
  - rewrite HM. exact: Hk.
  - by rewrite E HM.
Qed.
Lemma pot_length spec p full soft c1 : aligned c1 -> length (potential spec p full soft c1) = nstars c1.
Proof.
  move=> AL. rewrite /potential. destruct full, spec; rewrite ?zip_with_length ?map_length ?potential_energy_length ?rows_seen // ?seen_length /nstars; lia.
Qed.

(* energies() *)
Lemma energies_spec spec p soft c u o : ready G c u o -> aligned c -> analyze true true c = c ->
  separated (bodies_seen p c) ->
  let '((kin, pot), c') := energies G spec p true soft c in
  length kin = nstars c /\ length pot = nstars c /\
  (forall k, (k < nstars c)%nat ->
     nth k kin 0 = (if spec then 1 else mass c k) * rel_speed2 p c k / 2 /\
     nth k pot None = Some (get_grav c * newton_potential soft (bodies_seen p c) k / (if spec then mass c k else 1))) /\
  restored c c'.
Proof.
  move=> R HA HN HS. rewrite /energies. have FR := energy_frame_framed R HA (fresh_settled HN).
  have [SE [F1 [AL [OC [GR [HM [HB [HV _]]]]]]]] := FR.
  move: (energy_frame G c) FR SE F1 AL OC GR HM HB HV => c1 FR SE F1 AL OC GR HM HB HV.
  have EN : nstars c1 = nstars c by rewrite /nstars HM.
  split; [by rewrite kin_length|]. split; [by rewrite pot_length|]. split.
  - move=> k Hk. split; [|exact: pot_spec]. rewrite kin_spec ?EN // HV // /mass HM //.
  - exact: bracket_sees R SE HN.
Qed.

(* the loop used with full=False *)
Lemma sum_map_filter_ne {A} (f g : A -> R) (l : list A) :
  sumR (map snd (filter (fun p => negb (Reqb (fst p) 0)) (map (fun b => (f b, g b)) l))) =
  sumR (map (fun b => if Reqb (f b) 0 then 0 else g b) l).
Proof. elim: l => //= a l IH. destruct (Reqb (f a) 0) => /=; rewrite IH; lra. Qed.

Lemma pot_loop_spec spec p soft l k : separated (map (in_plane p) l) -> (k < length l)%nat ->
  (spec = true -> fm (nth k l star0) <> 0) -> forall grav,
  nth k (potential_energy_loop grav soft spec p l) 0 =
  grav * (newton_potential soft (map (in_plane p) l) k +
          (if Reqb soft 0 then 0 else - (fm (nth k l star0) * fm (nth k l star0)) / Rabs soft))
  / (if spec then fm (nth k l star0) else 1).
Proof.
  move=> HS Hk Hm grav. rewrite /potential_energy_loop (@nth_map_in _ _ _ _ _ star0) //.
  set a := nth k l star0. rewrite sum_map_filter_ne.
  set P := in_plane p. set dr := fun b => sqrt (dist2 (P a) (P b) + soft ^ 2).
  have HD : forall b, (if p then sqrt ((fx a - fx b) ^ 2 + (fy a - fy b) ^ 2 + soft ^ 2)
     else sqrt ((fx a - fx b) ^ 2 + (fy a - fy b) ^ 2 + (fz a - fz b) ^ 2 + soft ^ 2)) = dr b.
  { move=> b. rewrite /dr /dist2 /P /in_plane /=. destruct p => //; f_equal; ring. }
  have HZ : forall b, dr b = 0 <-> dist2 (P a) (P b) + soft ^ 2 = 0.
  { move=> b. have N : 0 <= dist2 (P a) (P b) + soft ^ 2 by have := dist2_nonneg (P a) (P b); have := pow2_ge_0 soft; lra.
    split => H; [by apply sqrt_eq_0 in H|]. by rewrite /dr H sqrt_0. }
  set dm := if spec then fm a else 1.
  have Hdm : dm <> 0. { rewrite /dm. destruct spec; [exact: Hm|lra]. }
  transitivity (sumR (map (fun b => if Reqb (dr b) 0 then 0 else grav * pair_energy soft (P a) (P b) / dm) l)).
  { f_equal. apply map_ext => b. rewrite HD. destruct (Reqb (dr b) 0) eqn:E => //. apply Reqb_false in E.
    rewrite /pair_energy -/(dr b) /dm. rewrite /dm in Hdm. destruct spec; cbn [P in_plane fm]; field; try split; assumption. }
  rewrite (list_as_nth _ l star0) (sumR_map_split _ Hk) -/a.
  have SA : dist2 (P a) (P a) = 0 by rewrite /dist2; ring.
  have E1 : (if Reqb (dr a) 0 then 0 else grav * pair_energy soft (P a) (P a) / dm) =
            grav * (if Reqb soft 0 then 0 else - (fm a * fm a) / Rabs soft) / dm.
  { have DA : dr a = Rabs soft by rewrite /dr SA Rplus_0_l -sqrt_Rsqr_abs /Rsqr; f_equal; ring.
    destruct (Reqb soft 0) eqn:E.
    - apply Reqb_spec in E. have -> : Reqb (dr a) 0 = true by apply Reqb_spec; rewrite DA E Rabs_R0. rewrite Rmult_0_r /Rdiv. ring.
    - apply Reqb_false in E. have -> : Reqb (dr a) 0 = false by apply Reqb_false; rewrite DA; exact: Rabs_no_R0.
      by rewrite /pair_energy -/(dr a) DA. }
  rewrite E1.
  have -> : sumR (map (fun j => if Reqb (dr (nth j l star0)) 0 then 0 else grav * pair_energy soft (P a) (P (nth j l star0)) / dm) (others k (length l)))
    = newton_potential soft (map P l) k * (grav / dm).
  { rewrite /newton_potential -sumR_map_mul map_length map_map. f_equal. apply map_ext_in => j Hj.
    apply filter_In in Hj as [Hj1 Hj2]. apply in_seq in Hj1. apply negb_true_iff, Nat.eqb_neq in Hj2.
    rewrite !(@nth_map_in _ _ _ _ _ star0); try lia. rewrite -/a.
    have -> : Reqb (dr (nth j l star0)) 0 = false.
    { apply Reqb_false => /HZ E. apply (HS k j); rewrite ?map_length; try lia.
      rewrite !(@nth_map_in _ _ _ _ _ star0); try lia. rewrite -/a -/P.
      have := dist2_nonneg (P a) (P (nth j l star0)). have := pow2_ge_0 soft. lra. }
    field. exact Hdm. }
  rewrite /P. field. exact Hdm.
Qed.

Lemma energies_loop_spec spec p soft c u o : ready G c u o -> aligned c -> analyze true true c = c ->
  separated (bodies_seen p c) -> (spec = true -> forall k, (k < nstars c)%nat -> mass c k <> 0) ->
  let '((kin, pot), c') := energies G spec p false soft c in
  length pot = nstars c /\
  (forall k, (k < nstars c)%nat ->
     nth k pot None = Some (get_grav c * (newton_potential soft (bodies_seen p c) k +
        (if Reqb soft 0 then 0 else - (mass c k * mass c k) / Rabs soft)) / (if spec then mass c k else 1))) /\
  restored c c'.
Proof.
  move=> R HA HN HS Hm. rewrite /energies. have FR := energy_frame_framed R HA (fresh_settled HN).
  have [SE [F1 [AL [OC [GR [HM [[d HB] [HV _]]]]]]]] := FR.
  move: (energy_frame G c) FR SE F1 AL OC GR HM HB HV => c1 FR SE F1 AL OC GR HM HB HV.
  have EN : nstars c1 = nstars c by rewrite /nstars HM.
  split; [by rewrite pot_length|]. split; [|exact: bracket_sees R SE HN].
  move=> k Hk. rewrite /potential rows_seen //. have [d2 ED] := framed_seen p FR.
  have E0 : bodies_seen false c1 = bodies c1. { rewrite /bodies_seen. apply map_id_ext. by case. }
  have BL : length (bodies c1) = nstars c by rewrite -EN /bodies map_length seq_length.
  have EM : fm (nth k (bodies c1) star0) = mass c k.
  { rewrite /bodies (@nth_map_in _ _ _ _ _ 0%nat); [rewrite seq_length -/(nstars c1) EN //|].
    rewrite seq_nth; [rewrite -/(nstars c1) EN //|]. by rewrite /body /mass HM. }
  rewrite (@nth_map_in _ _ _ _ _ 0); [by rewrite /potential_energy_loop map_length seen_length EN|].
  rewrite E0 pot_loop_spec.
  - rewrite -/(bodies_seen p c1) ED. exact: separated_translate.
  - by rewrite BL.
  - rewrite EM => /Hm. by apply.
  - rewrite EM GR -/(bodies_seen p c1) ED newton_translate ?seen_length //.
Qed.

(* ids: the selected stars get the values of the full computation *)
Lemma select_nth_ext {A} (d : A) mask : forall l k : list A, length l = length k -> (forall i, (i < length l)%nat -> nth i l d = nth i k d) ->
  select mask l = select mask k.
Proof. move=> l k HL H. f_equal. exact: nth_ext HL H. Qed.
Lemma zip_with_nil_r {A B C} (f : A -> B -> C) l : zip_with f l [] = []. Proof. by destruct l. Qed.
Lemma select_nil {A} mask : select mask (@nil A) = []. Proof. by destruct mask. Qed.
Lemma select_zip {A B C} (f : A -> B -> C) mask : forall l k, select mask (zip_with f l k) = zip_with f (select mask l) (select mask k).
Proof.
  induction mask as [|b mask IH] => l k //. destruct l as [|x l]; [by []|].
  destruct k as [|y k]; [by rewrite zip_with_nil_r !select_nil zip_with_nil_r|].
  rewrite /=. destruct b; by rewrite /= IH.
Qed.
Lemma zip_with_map2 {A B C D E} (f : C -> D -> E) (g : A -> C) (h : B -> D) l : forall k,
  zip_with f (map g l) (map h k) = zip_with (fun a b => f (g a) (h b)) l k.
Proof. induction l as [|a l IH]; move=> [|b k] //=. by rewrite IH. Qed.
Lemma map_zip_with {A B C D} (g : C -> D) (f : A -> B -> C) l : forall k,
  map g (zip_with f l k) = zip_with (fun a b => g (f a b)) l k.
Proof. induction l as [|a l IH]; move=> [|b k] //=. by rewrite IH. Qed.
Lemma zip_kin_div m v : Forall (fun a => a <> 0) m -> length v = length m ->
  zip_with Rdiv (zip_with (fun m v => 1/2 * m * v ^ 2) m v) m = map (fun a => 1/2 * a ^ 2) v.
Proof.
  revert v; induction m as [|a m IH]; move=> [|b v] //= H L; try lia. inversion H; subst. rewrite IH //; try lia. f_equal. field. assumption.
Qed.
Lemma Forall_select {A} (P : A -> Prop) mask : forall l, Forall P l -> Forall P (select mask l).
Proof. induction mask as [|b mask IH] => l H //; destruct l as [|a l] => //=. inversion H; subst. destruct b; [constructor|]; auto. Qed.

Lemma energies_ids_spec spec soft ids c u o : ready G c u o -> aligned c -> analyze true true c = c ->
  separated (bodies c) -> length ids = nstars c -> Forall (fun m => m <> 0) (p_m (c_ph c)) ->
  let '((kin, pot), c') := energies_ids G spec soft ids c in
  let '((kin_all, pot_all), _) := energies G spec false true soft c in
  kin = select ids kin_all /\ map Some pot = select ids pot_all /\ restored c c'.
Proof.
  move=> R HA HN HS HL Hm. rewrite /energies_ids /energies. have FR := energy_frame_framed R HA (fresh_settled HN).
  have [SE [F1 [AL [OC [GR [HM [[d HB] [HV _]]]]]]]] := FR.
  move: (energy_frame G c) FR SE F1 AL OC GR HM HB HV => c1 FR SE F1 AL OC GR HM HB HV.
  have EN : nstars c1 = nstars c by rewrite /nstars HM.
  have E0 : forall c, bodies_seen false c = bodies c. { move=> c2. rewrite /bodies_seen. apply map_id_ext. by case. }
  have HS1 : separated (bodies c1) by rewrite HB; exact: separated_translate.
  have BL : length (bodies c1) = nstars c by rewrite -EN /bodies map_length seq_length.
  have VL : length (d_v (c_der c1)) = length (p_m (c_ph c1)).
  { have [A1 [A2 [A3 [A4 [A5 A6]]]]] := AL. have [-> _] := F1. rewrite norm3_length; lia. }
  rewrite rows_seen // E0 subset_select //; [by rewrite BL|].
  rewrite /kinetic /potential rows_seen // E0 potential_energy_all // map_map.
  set NP := fun k : nat => nmul (get_grav c1) (Some (newton_potential soft (bodies c1) k)).
  have EK : zip_with (fun m v => 1/2 * m * v ^ 2) (select ids (p_m (c_ph c1))) (select ids (d_v (c_der c1))) =
            select ids (zip_with (fun m v => 1/2 * m * v ^ 2) (p_m (c_ph c1)) (d_v (c_der c1))) by rewrite select_zip.
  have EP : map Some (map (fun p => get_grav c1 * p) (select ids (map (newton_potential soft (bodies c1)) (seq 0 (length (bodies c1)))))) =
            select ids (map NP (seq 0 (length (bodies c1)))).
  { rewrite -!select_map !map_map //. }
  have BR : restored c (return_cluster G (save_cluster c) c1) by exact: bracket_sees R SE HN.
  destruct spec; (split; [|split; [|exact: BR]]) => //.
  - rewrite EK -select_zip zip_kin_div ?HM // -HM VL //.
  - rewrite select_zip -EP. rewrite map_zip_with -{2}(map_id (select ids (p_m (c_ph c1)))) zip_with_map2 //.
Qed.
End E.
