(* Proofs: nothing but the binaries depends on the binaries. *)
From Verif Require Import Base ModelCluster ModelOps ModelConv ModelEnergy ModelRecipes ModelLagrange ModelProfiles ModelDynamics ModelStars ModelOrbit ModelRadii ModelTail ModelCentre ModelHistory.
From Verif Require Import SpecUnits SpecFrame SpecEnergy SpecHistory.
Set Implicit Arguments. Unset Strict Implicit.
Open Scope list_scope. Open Scope R_scope.

Definition bare (c : cluster) : cluster :=
  mkC (c_units c) (c_origin c) None (c_nb c) (c_ph c) (c_sc c) (mkB [] [] [] []) (c_sky c) (c_der c) (c_id c).
Lemma bare_restored c d : restored c d <-> bare c = bare d.
Proof.
  split.
  - move=> [A1 [A2 [A3 [A4 [A5 [A6 [A7 A8]]]]]]]. by rewrite /bare A1 A2 A3 A4 A5 A6 A7 A8.
  - rewrite /bare => E. injection E => *. rewrite /restored. repeat split; congruence.
Qed.
Lemma bare_ph c : c_ph (bare c) = c_ph c. Proof. by []. Qed.
Lemma bare_sc c : c_sc (bare c) = c_sc c. Proof. by []. Qed.
Lemma bare_units c : c_units (bare c) = c_units c. Proof. by []. Qed.
Lemma bare_origin c : c_origin (bare c) = c_origin c. Proof. by []. Qed.
Lemma bare_der c : c_der (bare c) = c_der c. Proof. by []. Qed.
Lemma bare_sky c : c_sky (bare c) = c_sky c. Proof. by []. Qed.
Lemma bare_id c : c_id (bare c) = c_id c. Proof. by []. Qed.
Lemma bare_set_ph c p u : bare (set_ph c p u) = set_ph (bare c) p u. Proof. by []. Qed.
Lemma bare_set_stars c s o : bare (set_stars c s o) = set_stars (bare c) s o. Proof. by []. Qed.
Lemma bare_set_sky c s : bare (set_sky c s) = set_sky (bare c) s. Proof. by []. Qed.
Lemma bare_set_der c s : bare (set_der c s) = set_der (bare c) s. Proof. by []. Qed.
Lemma bare_set_rorder c s t : bare (set_rorder c s t) = set_rorder (bare c) s t. Proof. by []. Qed.
Lemma bare_radii c : bare (analyze_radii c) = analyze_radii (bare c). Proof. by []. Qed.
Lemma bare_sort p c : bare (sortstars p c) = sortstars p (bare c).
Proof.
  rewrite /sortstars bare_der bare_origin. cbv zeta.
  destruct (match d_rorder (c_der c) with Some o => _ | None => _ end) as [a b]. by rewrite bare_set_der.
Qed.
Lemma bare_fracs c : bare (analyze_fracs c) = analyze_fracs (bare c).
Proof.
  rewrite /analyze_fracs bare_der bare_ph. cbv zeta.
  destruct (match d_rorder (c_der c) with Some o => _ | None => _ end) as [a b].
  destruct (match d_rproorder (c_der c) with Some o => _ | None => _ end) as [a' b']. by rewrite bare_set_der.
Qed.
Lemma bare_analyze s p c : bare (analyze s p c) = analyze s p (bare c).
Proof. rewrite /analyze. cbv zeta. destruct s; by rewrite bare_fracs ?bare_sort bare_radii. Qed.
Lemma bare_analyze_if c0 c : bare (analyze_if_units c0 c) = analyze_if_units (bare c0) (bare c).
Proof. rewrite /analyze_if_units bare_units. destruct (c_units c0); by rewrite ?bare_analyze. Qed.
Lemma bare_from_amuse c : bare (from_amuse c) = from_amuse (bare c).
Proof. rewrite /from_amuse bare_units. by destruct (c_units c) as [[]|]. Qed.
Lemma bare_to_sky_radec c : bare (to_sky_radec c) = to_sky_radec (bare c).
Proof.
  rewrite /to_sky_radec bare_units bare_origin bare_sky. destruct (c_origin c) as [o|] => //. destruct (c_units c) as [[]|] => //. destruct o => //; by rewrite bare_analyze ?bare_set_stars.
Qed.
Section WithGalpy.
Variable G : galpy.
Lemma bare_from_radec c : bare (from_radec G c) = from_radec G (bare c).
Proof.
  have H : forall d, bare (match c_units d, c_origin d with
    | Some Uradec, Some Osky => let k := c_sky d in let p := c_ph d in let s := c_sc d in
      let orb := match k_orbit k with Some o => o | None => of_radec6 G (k_gc k) end in
      let orbs := match k_orbits k with Some os => os | None => map (of_radec6 G) (stack6 (k_s k)) end in
      let cc := match k_xcn k with Some (a, b, d) => mk6 (a * (rbar s / 1000)) (b * (rbar s / 1000)) (d * (rbar s / 1000)) 0 0 0 | None => of_radec6 G (k_c k) end in
      let k' := mkSk (k_s k) (k_gc k) (k_c k) (Some orb) (Some orbs) (k_xcn k) in
      let c1 := set_ph d (mkP (p_t p) (p_m p) (unstack6 orbs) cc orb) (Some Ukpckms) in
      set_sky (set_stars c1 (unstack6 orbs) (Some Ogalaxy)) k'
    | _, _ => d end) = match c_units (bare d), c_origin (bare d) with
    | Some Uradec, Some Osky => let k := c_sky (bare d) in let p := c_ph (bare d) in let s := c_sc (bare d) in
      let orb := match k_orbit k with Some o => o | None => of_radec6 G (k_gc k) end in
      let orbs := match k_orbits k with Some os => os | None => map (of_radec6 G) (stack6 (k_s k)) end in
      let cc := match k_xcn k with Some (a, b, d) => mk6 (a * (rbar s / 1000)) (b * (rbar s / 1000)) (d * (rbar s / 1000)) 0 0 0 | None => of_radec6 G (k_c k) end in
      let k' := mkSk (k_s k) (k_gc k) (k_c k) (Some orb) (Some orbs) (k_xcn k) in
      let c1 := set_ph (bare d) (mkP (p_t p) (p_m p) (unstack6 orbs) cc orb) (Some Ukpckms) in
      set_sky (set_stars c1 (unstack6 orbs) (Some Ogalaxy)) k'
    | _, _ => bare d end.
  { move=> d. rewrite !bare_units !bare_origin. destruct (c_units d) as [[]|] => //. by destruct (c_origin d) as [[]|]. }
  rewrite /from_radec H.
  have -> : bare match c_units c, c_origin c with Some Uradec, Some Osky => c | Some Uradec, _ => to_sky_radec c | _, _ => c end =
     match c_units (bare c), c_origin (bare c) with Some Uradec, Some Osky => bare c | Some Uradec, _ => to_sky_radec (bare c) | _, _ => bare c end.
  { rewrite bare_units bare_origin. destruct (c_units c) as [[]|] => //. destruct (c_origin c) as [[]|] => //; apply bare_to_sky_radec. }
  reflexivity.
Qed.
Lemma bare_pckms_step c : bare (pckms_step c) = pckms_step (bare c).
Proof. rewrite /pckms_step bare_units. by destruct (c_units c) as [[]|]. Qed.
Lemma bare_kpckms_step c : bare (kpckms_step G c) = kpckms_step G (bare c).
Proof. rewrite /kpckms_step bare_units. by destruct (c_units c) as [[]|]. Qed.
Lemma bare_to_kpckms0 c : bare (to_kpckms0 G c) = to_kpckms0 G (bare c).
Proof. rewrite /to_kpckms0 bare_kpckms_step bare_units. f_equal. destruct (c_units c) as [[]|] => //; first [apply bare_from_radec|apply bare_pckms_step|apply bare_from_amuse]. Qed.
Lemma bare_to_pckms0 c : bare (to_pckms0 G c) = to_pckms0 G (bare c).
Proof. rewrite /to_pckms0 bare_pckms_step bare_units. f_equal. destruct (c_units c) as [[]|] => //; first [apply bare_to_kpckms0|apply bare_from_amuse]. Qed.
Lemma bare_to_pckms c : bare (to_pckms G c) = to_pckms G (bare c).
Proof. by rewrite /to_pckms bare_analyze_if bare_to_pckms0. Qed.
Lemma bare_to_kpckms c : bare (to_kpckms G c) = to_kpckms G (bare c).
Proof. by rewrite /to_kpckms bare_analyze_if bare_to_kpckms0. Qed.
Lemma bare_bin c : bare (bin_to_nbody c) = bare c.
Proof. rewrite /bin_to_nbody. destruct (c_bunits c) as [[]|] => //; by destruct (Nat.ltb 0 (c_nb c)). Qed.
Lemma bin_bare c : bin_to_nbody (bare c) = bare c. Proof. by []. Qed.
Lemma bare_to_nbody c : bare (to_nbody G c) = to_nbody G (bare c).
Proof.
  rewrite /to_nbody bare_units. destruct (c_units c) as [u|] => //. cbv zeta. rewrite bare_analyze bare_bin.
  have E : bare match u with Upckms | Unbody => c | _ => to_pckms0 G c end = match u with Upckms | Unbody => bare c | _ => to_pckms0 G (bare c) end by destruct u; rewrite ?bare_to_pckms0.
  move: E. move: (match u with Upckms | Unbody => c | _ => to_pckms0 G c end) (match u with Upckms | Unbody => bare c | _ => to_pckms0 G (bare c) end) => d _ <-.
  f_equal. rewrite bare_units. by destruct (c_units d) as [[]|].
Qed.
Lemma bare_to_galpy c : bare (to_galpy G c) = to_galpy G (bare c).
Proof.
  rewrite /to_galpy bare_units. destruct (c_units c) as [u|] => //. cbv zeta. rewrite bare_analyze. f_equal.
  have E : bare match u with Ukpckms | Ugalpy => c | _ => to_kpckms0 G c end = match u with Ukpckms | Ugalpy => bare c | _ => to_kpckms0 G (bare c) end by destruct u; rewrite ?bare_to_kpckms0.
  move: E. move: (match u with Ukpckms | Ugalpy => c | _ => to_kpckms0 G c end) (match u with Ukpckms | Ugalpy => bare c | _ => to_kpckms0 G (bare c) end) => d _ <-.
  rewrite bare_units. by destruct (c_units d) as [[]|].
Qed.
Lemma bare_to_pcmyr c : bare (to_pcmyr G c) = to_pcmyr G (bare c).
Proof. rewrite /to_pcmyr bare_units. destruct (c_units c) as [[]|] => //; cbv zeta; rewrite bare_analyze bare_set_ph -?bare_to_pckms0; by []. Qed.
Lemma bare_to_kpcgyr c : bare (to_kpcgyr G c) = to_kpcgyr G (bare c).
Proof. rewrite /to_kpcgyr bare_units. destruct (c_units c) as [[]|] => //; cbv zeta; rewrite bare_analyze bare_set_ph -?bare_to_kpckms0; by []. Qed.
Lemma bare_to_WD c : bare (to_WDunits G c) = to_WDunits G (bare c).
Proof. rewrite /to_WDunits bare_units. destruct (c_units c) as [[]|] => //; cbv zeta; rewrite bare_analyze bare_set_ph -?bare_to_kpckms0; by []. Qed.
Lemma bare_to_amuse c : bare (to_amuse G c) = to_amuse G (bare c).
Proof. rewrite /to_amuse bare_units. destruct (c_units c) as [[]|] => //; cbv zeta; rewrite bare_analyze bare_set_ph -?bare_to_pckms0; by []. Qed.
Lemma bare_to_cluster s c : bare (to_cluster s c) = to_cluster s (bare c).
Proof.
  rewrite /to_cluster bare_origin bare_units. destruct (c_origin c) as [o|] => //.
  have E : bare match o with Osky => c | _ => to_sky_radec c end = match o with Osky => bare c | _ => to_sky_radec (bare c) end by destruct o; rewrite ?bare_to_sky_radec.
  destruct (c_units c) as [[]|]; destruct o => //; cbv zeta; rewrite bare_analyze bare_set_stars; rewrite -?E //.
  all: by rewrite -?bare_to_sky_radec.
Qed.
Lemma bare_to_centre s c : bare (to_centre s c) = to_centre s (bare c).
Proof.
  rewrite /to_centre bare_origin bare_units. destruct (c_origin c) as [o|] => //.
  destruct (c_units c) as [[]|]; destruct o => //; cbv zeta; rewrite bare_analyze bare_set_stars; rewrite -?bare_to_sky_radec -?bare_to_cluster //.
Qed.
Lemma bare_to_galaxy s c : bare (to_galaxy G s c) = to_galaxy G s (bare c).
Proof.
  rewrite /to_galaxy bare_origin bare_units. destruct (c_origin c) as [o|] => //.
  destruct (c_units c) as [[]|]; destruct o => //; cbv zeta; rewrite bare_analyze ?bare_from_radec ?bare_set_stars; rewrite -?bare_to_sky_radec -?bare_to_cluster //.
Qed.
Lemma bare_to_radec s c : bare (to_radec G s c) = to_radec G s (bare c).
Proof.
  rewrite /to_radec bare_units. destruct (c_units c) as [u|] => //. 
  have W : forall d, bare (analyze s true match c_origin c with Some Ocluster => to_cluster true d | Some Ocentre => to_centre true d | _ => d end) =
     analyze s true match c_origin (bare c) with Some Ocluster => to_cluster true (bare d) | Some Ocentre => to_centre true (bare d) | _ => bare d end.
  { move=> d. rewrite bare_analyze bare_origin. f_equal. destruct (c_origin c) as [[]|] => //; [apply bare_to_centre|apply bare_to_cluster]. }
  have E := bare_to_galaxy true (to_kpckms0 G c). rewrite bare_to_kpckms0 in E.
  move: E. move: (to_galaxy G true (to_kpckms0 G c)) (to_galaxy G true (to_kpckms0 G (bare c))) => d _ <-.
  destruct u => //; cbv zeta; rewrite W; by [].
Qed.
Lemma bare_to_sky s c : bare (to_sky G s c) = to_sky G s (bare c).
Proof.
  rewrite /to_sky bare_origin bare_units. destruct (c_origin c) as [o|] => //.
  destruct (c_units c) as [[]|]; destruct o; rewrite bare_analyze ?bare_set_stars ?bare_to_radec ?bare_to_galaxy //.
Qed.
Lemma bare_to_units q c : bare (to_units G q c) = to_units G q (bare c).
Proof.
  rewrite /to_units bare_units. destruct (c_units c) as [u|] => //. destruct q as [[]|] => //;
    first [apply bare_to_pckms|apply bare_to_kpckms|apply bare_to_nbody|apply bare_to_galpy|apply bare_to_pcmyr|apply bare_to_kpcgyr|apply bare_to_WD|apply bare_to_amuse|apply bare_to_radec].
Qed.
Lemma bare_to_origin q s c : bare (to_origin G q s c) = to_origin G q s (bare c).
Proof.
  rewrite /to_origin bare_origin. destruct (c_origin c) as [u|] => //. rewrite bare_analyze. f_equal. destruct q as [[]| |] => //;
    first [apply bare_to_centre|apply bare_to_cluster|apply bare_to_galaxy|apply bare_to_sky|apply bare_to_radec].
Qed.
Lemma bare_save c : save_cluster (bare c) = save_cluster c. Proof. by []. Qed.
Lemma bare_return sv c : bare (return_cluster G sv c) = return_cluster G sv (bare c).
Proof.
  rewrite /return_cluster. cbv zeta. rewrite bare_analyze bare_set_rorder. do 2 f_equal.
  have -> : (if ousys_eq_dec (c_units (bare c)) (sv_units sv) then bare c else to_units G (ureq_of (sv_units sv)) (bare c)) =
            bare (if ousys_eq_dec (c_units c) (sv_units sv) then c else to_units G (ureq_of (sv_units sv)) c).
  { rewrite bare_units. destruct (ousys_eq_dec _ _) => //. by rewrite bare_to_units. }
  move: (if ousys_eq_dec (c_units c) (sv_units sv) then c else _) => d. rewrite bare_origin. destruct (oosys_eq_dec _ _) => //. by rewrite bare_to_origin.
Qed.
End WithGalpy.
