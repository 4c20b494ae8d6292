From Verif Require Import Base ModelCluster ModelOps ModelConv ModelEnergy SpecUnits SpecFrame SpecConv SpecEnergy
  ProofsUnits ProofsFrame ProofsPot ProofsSees ProofsEnergy ProofsVirial ProofsSort.
Set Implicit Arguments. Unset Strict Implicit.

Lemma same_nth ka kb l : forall k i, Forall2 (same_q ka kb) l k -> nth i k 0 * kb = nth i l 0 * ka.
Proof.
  induction l as [|a l IH] => k i H; inversion H; subst; destruct i as [|i] => /=; try lra; try (by apply IH).
  rewrite /same_q in H2. lra.
Qed.
Lemma same_len2 ka kb l k : Forall2 (same_q ka kb) l k -> length k = length l.
Proof. induction 1 => //=. by f_equal. Qed.

Section E.
Variable G : galpy.

Lemma size_positive s u : positive_scales G s -> linear u ->
  0 < in_pc (unit_size G s u) /\ 0 < in_kms (unit_size G s u) /\ 0 < in_Msun (unit_size G s u).
Proof.
  move=> [H1 [H2 [H3 [H4 [H5 [H6 [H7 [H8 H9]]]]]]]] Hl.
  have K : 0 < 1 / kms_in_pcmyr by rewrite /kms_in_pcmyr; apply Rdiv_lt_0_compat; lra.
  have V : 0 < vo s / velocity_in_kpcGyr G (vo s) (ro s) by apply Rdiv_lt_0_compat.
  have W : 0 < wd_mass_in_msun by rewrite /wd_mass_in_msun; lra.
  destruct u; rewrite /unit_size; cbn [in_pc in_kms in_Msun]; repeat split; try lra; try assumption; try nra.
Qed.

Variables (c c' : cluster) (u u' : usys) (o : osys).
Hypotheses (R : ready G c u o) (R' : ready G c' u' o) (HSc : c_sc c' = c_sc c) (HP : positive_scales G (c_sc c))
  (HA : aligned c) (HPH : same_physics (unit_size G (c_sc c) u) (unit_size G (c_sc c) u') (c_ph c) (c_ph c')).
Let z := unit_size G (c_sc c) u.
Let z' := unit_size G (c_sc c) u'.
Hypotheses (HG : is_grav z (get_grav c)) (HG' : is_grav z' (get_grav c')).

Let kr := in_pc z / in_pc z'.
Let kv := in_kms z / in_kms z'.
Let km := in_Msun z / in_Msun z'.

Lemma kr_pos : 0 < kr /\ 0 < kv /\ 0 < km.
Proof.
  have [_ [_ [Hl _]]] := R. have [_ [_ [Hl' _]]] := R'.
  have [P1 [P2 P3]] := size_positive HP Hl. have [P1' [P2' P3']] := size_positive HP Hl'.
  repeat split; by apply Rdiv_lt_0_compat.
Qed.
Lemma conv_nth ka kb l k i : kb <> 0 -> Forall2 (same_q ka kb) l k -> nth i k 0 = (ka / kb) * nth i l 0.
Proof. move=> H F. have E := same_nth i F. apply (Rmult_eq_reg_r kb) => //. rewrite E. by field. Qed.

Lemma z'_nz : in_pc z' <> 0 /\ in_kms z' <> 0 /\ in_Msun z' <> 0.
Proof. have [_ [_ [Hl' _]]] := R'. have [P1' [P2' P3']] := size_positive HP Hl'. rewrite /z'. lra. Qed.

Lemma n_same : nstars c' = nstars c.
Proof. have [_ [HM _]] := HPH. exact: same_len2 HM. Qed.
Lemma mass_same k : mass c' k = km * mass c k.
Proof. have [_ [HM _]] := HPH. have [_ [_ Z]] := z'_nz. exact: conv_nth Z HM. Qed.
Lemma bodies_same p : bodies_seen p c' = map (dilate kr km) (bodies_seen p c).
Proof.
  have [Z1 [_ Z3]] := z'_nz. have [_ [HM [[S1 [S2 [S3 _]]] _]]] := HPH.
  rewrite /bodies_seen /bodies -/(nstars c') n_same !map_map. apply map_ext => k. rewrite /body /in_plane /dilate /=.
  rewrite (conv_nth k Z1 S1) (conv_nth k Z1 S2) (conv_nth k Z1 S3) (conv_nth k Z3 HM). f_equal. destruct p => //. by rewrite Rmult_0_r.
Qed.
Lemma speed_same p k : rel_speed2 p c' k = kv ^ 2 * rel_speed2 p c k.
Proof.
  have [_ [Z _]] := z'_nz. have [_ [_ [[_ [_ [_ [S1 [S2 S3]]]]] [_ [_ [_ [_ [G1 [G2 G3]]]]]]]]] := HPH.
  have [_ [_ [_ [Ho _]]]] := R. have [_ [_ [_ [Ho' _]]]] := R'.
  rewrite /rel_speed2 Ho Ho' (conv_nth k Z S1) (conv_nth k Z S2) (conv_nth k Z S3).
  have Q : forall a b, same_q (in_kms z) (in_kms z') a b -> b = kv * a.
  { move=> a b E. rewrite /same_q in E. apply (Rmult_eq_reg_r (in_kms z')) => //. rewrite -E /kv. by field. }
  rewrite -/kv. destruct o; cbn [zero6 svx svy svz]; rewrite ?(Q _ _ G1) ?(Q _ _ G2) ?(Q _ _ G3); destruct p; ring.
Qed.
Lemma aligned_same : aligned c'.
Proof.
  have [A1 [A2 [A3 [A4 [A5 A6]]]]] := HA. have [_ [HM [[S1 [S2 [S3 [S4 [S5 S6]]]]] _]]] := HPH.
  rewrite /aligned (same_len2 HM) (same_len2 S1) (same_len2 S2) (same_len2 S3) (same_len2 S4) (same_len2 S5) (same_len2 S6). by repeat split.
Qed.
Lemma separated_dilate s m l : 0 < s -> separated l -> separated (map (dilate s m) l).
Proof.
  move=> Hs H i j. rewrite map_length => Hi Hj Hne. rewrite !(@nth_map_in _ _ _ _ _ star0) // => E. apply (H i j) => //.
  apply (Rmult_eq_reg_l (s * s)); [|nra]. rewrite Rmult_0_r -E /dist2 /=. ring.
Qed.
Lemma separated_same p : separated (bodies_seen p c) -> separated (bodies_seen p c').
Proof. move=> H. rewrite bodies_same. apply separated_dilate => //. by have [] := kr_pos. Qed.


Lemma grav_same : get_grav c' * km / kr = kv ^ 2 * get_grav c.
Proof.
  have [_ [_ [Hl _]]] := R. have [_ [_ [Hl' _]]] := R'.
  have [P1 [P2 P3]] := size_positive HP Hl. have [P1' [P2' P3']] := size_positive HP Hl'. rewrite -/z in P1 P2 P3. rewrite -/z' in P1' P2' P3'.
  have E : get_grav c' = get_grav c * (in_pc z * in_kms z ^ 2 / in_Msun z) / (in_pc z' * in_kms z' ^ 2 / in_Msun z').
  { have HG1 := HG. have HG2 := HG'. rewrite /is_grav in HG1 HG2. rewrite HG1 -HG2. field. repeat split; lra. }
  rewrite E /km /kr /kv. field. repeat split; lra.
Qed.

Lemma pot_same spec p soft k : (k < nstars c)%nat ->
  (spec = true -> mass c k <> 0) ->
  get_grav c' * newton_potential (kr * soft) (bodies_seen p c') k / (if spec then mass c' k else 1) =
  kv ^ 2 * (if spec then 1 else km) * (get_grav c * newton_potential soft (bodies_seen p c) k / (if spec then mass c k else 1)).
Proof.
  move=> Hk Hm. have [P1 [P2 P3]] := kr_pos. rewrite bodies_same newton_dilate ?seen_length //.
  have E := grav_same.
  have E2 : get_grav c' = kv ^ 2 * get_grav c * kr / km by rewrite -E; field; lra.
  destruct spec; rewrite ?mass_same E2; field.
  - have := Hm Logic.eq_refl. move=> M. repeat split => //; lra.
  - lra.
Qed.

Lemma ratio_same spec p soft : (spec = true -> forall k, (k < nstars c)%nat -> mass c k <> 0) ->
  virial_ratio spec p (kr * soft) c' = virial_ratio spec p soft c.
Proof.
  move=> Hm. have [P1 [P2 P3]] := kr_pos. set e := kv ^ 2 * (if spec then 1 else km).
  have Pe : e <> 0. { rewrite /e. have : 0 < kv ^ 2 by apply pow_lt. destruct spec; nra. }
  have E1 : kinetic_sum spec p c' = kinetic_sum spec p c * e.
  { rewrite /kinetic_sum n_same -sumR_map_mul map_map. apply sumR_ext => k _. rewrite speed_same mass_same /e. destruct spec; field. }
  have E2 : potential_sum spec p (kr * soft) c' = potential_sum spec p soft c * e.
  { rewrite /potential_sum n_same -sumR_map_mul map_map. apply sumR_ext => k /in_seq Hk. rewrite pot_same //; try lia.
    - move=> S. apply Hm => //. lia.
    - rewrite -/e. ring. }
  rewrite /virial_ratio E1 E2. set a := kinetic_sum _ _ _. set b := potential_sum _ _ _ _.
  destruct (Req_dec b 0) as [->|N]; [|by field].
  have -> : 0 * e / 2 = 0 by field. have -> : 0 / 2 = 0 by field. rewrite /Rdiv Rinv_0. ring.
Qed.

Lemma energies_units spec p soft : analyze true true c = c -> analyze true true c' = c' ->
  separated (bodies_seen p c) -> (forall k, (k < nstars c)%nat -> mass c k <> 0) ->
  let '((kin, pot), _) := energies G spec p true soft c in
  let '((kin', pot'), _) := energies G spec p true (soft * in_pc z / in_pc z') c' in
  length kin' = length kin /\ length pot' = length pot /\
  forall k, (k < nstars c)%nat ->
    nth k kin' 0 * energy_size spec z' = nth k kin 0 * energy_size spec z /\
    exists P P', nth k pot None = Some P /\ nth k pot' None = Some P' /\ P' * energy_size spec z' = P * energy_size spec z.
Proof.
  move=> N N' HS Hm. have [_ [_ [Hl' _]]] := R'. have [P1 [P2 P3]] := kr_pos. have [Z1 [Z2 Z3]] := z'_nz.
  pose proof (@energies_spec G spec p soft c u o R HA N HS) as E.
  pose proof (@energies_spec G spec p (soft * in_pc z / in_pc z') c' u' o R' aligned_same N' (separated_same HS)) as E'.
  destruct (energies G spec p true soft c) as [[kin pot] d]. destruct (energies G spec p true _ c') as [[kin' pot'] d'].
  have [L1 [L2 [L3 _]]] := E. have [L1' [L2' [L3' _]]] := E'. rewrite n_same in L1' L2' L3'.
  split; [congruence|]. split; [congruence|]. move=> k Hk. have [K1 K2] := L3 _ Hk. have [K1' K2'] := L3' _ Hk.
  have ES : energy_size spec z = energy_size spec z' * (kv ^ 2 * (if spec then 1 else km)).
  { rewrite /energy_size /kv /km. destruct spec; field; try split; assumption. }
  split.
  - rewrite K1 K1' speed_same mass_same ES. destruct spec; field.
  - eexists; eexists. split; [exact K2|]. split; [exact K2'|].
    have -> : soft * in_pc z / in_pc z' = kr * soft by rewrite /kr; field.
    rewrite pot_same // ?ES; [by move=> _; apply Hm|]. ring.
Qed.
End E.
