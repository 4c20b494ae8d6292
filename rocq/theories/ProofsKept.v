(* Proofs: results that a cluster keeps. *)
From Coq Require Import String Ascii.
From Verif Require Import Base ModelCluster ModelOps ModelConv ModelEnergy ModelRecipes ModelLagrange ModelProfiles ModelDynamics ModelStars ModelOrbit ModelSkyPath ModelKept.
From Verif Require Import SpecUnits SpecFrame SpecOrder SpecRecipes SpecEnergy SpecLagrange SpecProfiles SpecDynamics SpecKept.
From Verif Require Import ProofsUnits ProofsFrame ProofsOrder ProofsSort ProofsSees ProofsEnergy ProofsEnergy2 ProofsRecipes ProofsRecipes2 ProofsLagrange ProofsVR ProofsDynamics4 ProofsRadii9.
Set Implicit Arguments. Unset Strict Implicit.
Open Scope list_scope. Open Scope R_scope.

Section WithGalpy.
Variable G : galpy.
Variables (c : cluster) (u : usys) (o : osys) (b : bool).
Hypothesis HR : ready G c u o.
Hypothesis HP : positive_scales G (c_sc c).
Hypothesis HL : SpecFrame.aligned c.
Hypothesis HW : well_sorted b c.
Hypothesis HB : b = true -> c_origin c <> Some Ogalaxy.
Hypothesis HM : forall k, (k < nstars c)%nat -> 0 < mass c k.
Hypothesis HN : (0 < nstars c)%nat.
Let z (v : usys) : usize := unit_size G (c_sc c) v.

(* d is the cluster in units v *)
Definition fit (d : cluster) (v : usys) : Prop :=
  ready G d v o /\ c_sc d = c_sc c /\ well_sorted b d /\ c_ph d = rescale (z u) (z v) (c_ph c).
Lemma fit_start : fit c u.
Proof. split; [exact HR|]. split; [by []|]. split; [exact HW|]. rewrite rescale_id //. have [HS _] := HR. exact (unit_size_nz u HS). Qed.
Lemma fit_origin d v : fit d v -> c_origin d = c_origin c.
Proof. move=> [[_ [_ [_ [E _]]]] _]. have [_ [_ [_ [E2 _]]]] := HR. by rewrite E E2. Qed.
Lemma fit_aligned d v : fit d v -> SpecFrame.aligned d.
Proof. move=> [_ [_ [_ E]]]. by rewrite /SpecFrame.aligned E /rescale /= !map_length. Qed.
Lemma fit_n d v : fit d v -> nstars d = nstars c.
Proof. move=> [_ [_ [_ E]]]. by rewrite /nstars E /rescale /= map_length. Qed.
Lemma fit_mass d v : fit d v -> p_m (c_ph d) = map (fun a => a * (in_Msun (z u) / in_Msun (z v))) (p_m (c_ph c)).
Proof. move=> [_ [_ [_ E]]]. rewrite E /rescale /=. apply map_ext => a. rewrite /rsc /Rdiv. ring. Qed.
Lemma mass_in a : In a (p_m (c_ph c)) -> 0 < a.
Proof. move=> I. apply (In_nth _ _ 0) in I. destruct I as [k [Hk <-]]. exact (HM Hk). Qed.
Lemma ratio_pos v : 0 < in_Msun (z u) / in_Msun (z v).
Proof. apply Rdiv_lt_0_compat; exact (positive_mass _ HP). Qed.
Lemma fit_pos d v : fit d v -> forall a, In a (p_m (c_ph d)) -> 0 < a.
Proof. move=> F a. rewrite (fit_mass F) => /in_map_iff [x [<- I]]. have := mass_in I. have := ratio_pos v. nra. Qed.
Lemma sum_pos l : (forall a, In a l -> 0 < a) -> (0 < List.length l)%nat -> 0 < sumR l.
Proof.
  elim: l => [|a l IH] H L; [cbn in L; lia|]. cbn [sumR]. have H0 := H a (or_introl eq_refl). destruct l as [|x l]; [cbn; lra|].
  have : 0 < sumR (x :: l) by apply IH; [move=> y I; apply H; by right|cbn; lia]. lra.
Qed.
Lemma fit_sum d v : fit d v -> nonneg (p_m (c_ph d)) /\ 0 < sumR (p_m (c_ph d)).
Proof.
  move=> F. have H := fit_pos F. split; [move=> a I; have := H a I; lra|]. apply sum_pos => //. have := fit_n F. rewrite /nstars => ->. exact HN.
Qed.
Lemma fit_own q d v : fit d v -> own_distances q d = map (fun a => a * (in_pc (z u) / in_pc (z v))) (own_distances q c).
Proof.
  move=> F. have E := fit_origin F. have [_ [_ [_ P]]] := F. apply own_rescale => //; exact (positive_size _ HP).
Qed.
Lemma fit_weaker q d v : fit d v -> (q = true -> b = true) -> well_sorted q d.
Proof. move=> [_ [_ [[W1 [W2 W3]] _]]] H. split; [exact W1|]. split; [exact W2|]. move=> Q. apply W3. exact (H Q). Qed.
Lemma fit_restored d d' v : fit d v -> restored d d' -> fit d' v.
Proof.
  move=> [F1 [F2 [[W1 [W2 W3]] F4]]] RE. have RE0 := RE. destruct RE0 as [P [U [O [D [Sc _]]]]].
  split; [by rewrite /ready Sc U O|]. split; [by rewrite Sc|]. split; [|by rewrite P].
  split; [exact (restored_settled RE W1)|]. rewrite /distances /distances_2d D P. by split.
Qed.
Lemma fit_units d v w : fit d v -> linear w -> fit (to_units G (Ureq w) d) w.
Proof.
  move=> F Hw. have OR := fit_origin F. have LD := fit_aligned F. have [F1 [F2 [F3 F4]]] := F. have [HS [Hu [Hl [Ho Hf]]]] := F1. have [HA [_ HW2]] := F3.
  have HPd : positive_scales G (c_sc d) by rewrite F2.
  have HBd : b = true -> c_origin d <> Some Ogalaxy by rewrite OR.
  have [V1 [V2 [V3 [V4 [V5 V6]]]]] := to_units_view F1 Hw.
  have FF := skel_eq_fields (to_units_lin HS Hu Hl Hw).
  have VU := vord_units HPd F1 Hw (settled_vord Ho F3).
  have K := kp_units HS Hu Hl Hw.
  have SA : analyze true true (to_units G (Ureq w) d) = to_units G (Ureq w) d.
  { destruct (to_units_full_eq HS Hu Hl Hw) as [-> | ->] => //. by rewrite analyze_idem. }
  move: (to_units G (Ureq w) d) V1 V2 V3 V4 V5 V6 FF VU K SA => e V1 V2 V3 V4 V5 V6 FF VU K SA.
  destruct FF as [_ [_ [_ [_ [F5 _]]]]]. have Od : c_origin e = Some o by have [_ [_ [_ [? _]]]] := V2.
  cbn in F5. rewrite F2 in F5. rewrite -/(z v) -/(z w) in F5.
  have Pa : 0 < in_pc (z v) by exact (positive_size _ HP). have Pb : 0 < in_pc (z w) by exact (positive_size _ HP).
  have Kp : 0 < in_pc (z v) / in_pc (z w) by apply Rdiv_lt_0_compat.
  have EO : own_distances b e = map (fun a => a * (in_pc (z v) / in_pc (z w))) (own_distances b d).
  { apply own_rescale => //. by rewrite Od Ho. }
  have Le : SpecFrame.aligned e by rewrite /SpecFrame.aligned F5 /= !map_length.
  split; [exact V2|]. split; [by rewrite V3|]. split.
  - have [W1 [W3 _]] := vord_well Od SA VU. split => //. split => // Hpt. have [rp [P1 P2]] := HW2 Hpt.
    have [|K1 K2] := K _ P1.
    { rewrite /proorder_ok -distances_2d_eq. destruct P2 as [P2 _]. by rewrite (Permutation_length P2) seq_length. }
    exists rp. split => //. rewrite (distances_2d_own Le _ Hpt) ?Od -?Ho; [by apply HBd|]. rewrite EO. apply sorted_order_scale => //.
    rewrite -(distances_2d_own LD _ Hpt) //. by apply HBd.
  - rewrite F5 F4. have [HSc _] := HR. apply rescale_comp; exact (unit_size_nz _ HSc).
Qed.
Lemma z_sizes d v : fit d v -> sizes G d = z v.
Proof. move=> [[_ [U _]] [S _]]. by rewrite /sizes U S. Qed.
Lemma c_sizes : sizes G c = z u.
Proof. exact (z_sizes fit_start). Qed.
Lemma fit_pc q d v : fit d v -> map (pc_distance G q d) (stars d) = map (pc_distance G q c) (stars c).
Proof.
  move=> F. have E := fit_own q F. have P2 : 0 < in_pc (z v) by exact (positive_size _ HP).
  have T : forall x, map (pc_distance G q x) (stars x) = map (fun a => a * in_pc (sizes G x)) (own_distances q x) by move=> x; rewrite /own_distances map_map.
  rewrite !T E (z_sizes F) c_sizes map_map. apply map_ext => a. field. lra.
Qed.
Lemma fit_sun d v : fit d v -> map (sun_mass G d) (stars d) = map (sun_mass G c) (stars c).
Proof.
  move=> F. have E := fit_mass F. have P2 : 0 < in_Msun (z v) by exact (positive_mass _ HP).
  have T : forall x, map (sun_mass G x) (stars x) = map (fun a => a * in_Msun (sizes G x)) (p_m (c_ph x)).
  { move=> x. apply (nth_ext _ _ 0 0); [by rewrite !map_length /stars seq_length /nstars|]. move=> i Hi. rewrite map_length /stars seq_length in Hi.
    rewrite /stars nth_map_seq //. rewrite (@nth_map' _ _ (fun a => a * in_Msun (sizes G x)) _ i 0 0) //. }
  rewrite !T E (z_sizes F) c_sizes map_map. apply map_ext => a. field. lra.
Qed.
Lemma fit_lagrange d v n q : fit d v -> (1 <= n)%nat -> (q = true -> b = true) -> exists rn d', rlagrange G n q d = Ok (rn, d') /\ restored d d' /\
  lagrange_table n (map (pc_distance G q c) (stars c)) (map (sun_mass G c) (stars c)) (map (fun a => a * in_pc (z v)) rn).
Proof.
  move=> F Hn Hq. have [F1 [F2 [F3 F4]]] := F. have [S1 S2] := fit_sum F.
  have PD : positive_scales G (c_sc d) by rewrite F2. have BD : q = true -> c_origin d <> Some Ogalaxy by move=> Q; rewrite (fit_origin F); exact (HB (Hq Q)).
  have [rn [d' [A1 [A2 A3]]]] := @rlagrange_correct G n q d v o F1 PD (fit_aligned F) (fit_weaker F Hq) BD Hn S1 S2.
  exists rn, d'. split; [exact A1|]. split; [exact A3|]. have P1 : 0 < in_pc (z v) by exact (positive_size _ HP). have P2 : 0 < in_Msun (z v) by exact (positive_mass _ HP).
  have T := table_scale Hn P1 P2 A2. rewrite -(fit_pc q F) -(fit_sun F).
  have -> : map (pc_distance G q d) (stars d) = map (fun a => a * in_pc (z v)) (own_distances q d) by rewrite /own_distances map_map /pc_distance (z_sizes F).
  have -> : map (sun_mass G d) (stars d) = map (fun a => a * in_Msun (z v)) (p_m (c_ph d)); [|exact T].
  apply (nth_ext _ _ 0 0); [by rewrite !map_length /stars seq_length /nstars|]. move=> i Hi. rewrite map_length /stars seq_length in Hi.
  rewrite /stars nth_map_seq //. rewrite (@nth_map' _ _ (fun a => a * in_Msun (z v)) _ i 0 0) // /sun_mass (z_sizes F) //.
Qed.
Lemma fit_relaxation d v k q : fit d v -> ln (k * INR (nstars c)) <> 0 -> (q = true -> b = true) -> exists h t d', half_mass_relaxation_time G k q d = Ok (Some t, d') /\ restored d d' /\
  is_fraction_radius (1/2) (map (pc_distance G q c) (stars c)) (map (sun_mass G c) (stars c)) h /\ t * in_Myr (z v) = spitzer_half_mass k (INR (nstars c)) (total_mass G c) h.
Proof.
  move=> F Hk Hq. have [F1 [F2 [F3 F4]]] := F. have [S1 S2] := fit_sum F. have N := fit_n F.
  have PD : positive_scales G (c_sc d) by rewrite F2. have BD : q = true -> c_origin d <> Some Ogalaxy by move=> Q; rewrite (fit_origin F); exact (HB (Hq Q)).
  have KD : ln (k * INR (nstars d)) <> 0 by rewrite N.
  have [h [t [d' [A1 [A2 [A3 A4]]]]]] := @half_mass_relaxation G k q d v o F1 PD (fit_aligned F) (fit_weaker F Hq) BD S1 S2 KD.
  exists h, t, d'. split; [exact A1|]. split; [exact A2|]. rewrite (fit_pc q F) (fit_sun F) in A3. split; [exact A3|]. by rewrite (z_sizes F) N /total_mass (fit_sun F) in A4.
Qed.
Lemma fit_virial d v full q ps : fit d v -> pair_set (nstars c) ps -> exists rv d', virial_radius G q full d = (rv, d') /\ restored d d' /\
  rv * in_pc (z v) = sumR (p_m (c_ph c)) ^ 2 / (2 * inverse_distance (bodies_seen q c) ps) * in_pc (z u).
Proof.
  move=> F HPS. have [F1 [F2 [[W1 _] F4]]] := F. have [HA _] := HW. have [HS _] := HR.
  have SP : same_physics (z u) (z v) (c_ph c) (c_ph d) by rewrite F4; apply rescale_same; exact (unit_size_nz _ HS).
  have UV := virial_radius_units q full HR F1 F2 HP HL SP HA W1 HM.
  pose proof (@virial_radius_spec G q full c u o ps HR HL HA HPS) as VC. pose proof (@virial_radius_spec G q full d v o ps F1 (fit_aligned F) W1) as VD.
  rewrite (fit_n F) in VD. specialize (VD HPS). revert UV VC VD. destruct (virial_radius G q full d) as [rv d']. destruct (virial_radius G q full c) as [rc c']. cbn [fst].
  move=> UV [VC _] [_ VD]. exists rv, d'. split; [reflexivity|]. split; [exact VD|]. rewrite /z UV VC. reflexivity.
Qed.
End WithGalpy.
