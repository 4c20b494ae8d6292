(* Proofs: analyses do not depend on the binaries. *)
From Verif Require Import Base ModelCluster ModelOps ModelConv ModelEnergy ModelRecipes ModelLagrange ModelProfiles ModelDynamics ModelStars ModelOrbit ModelRadii ModelTail ModelCentre ModelHistory.
From Verif Require Import SpecUnits SpecFrame SpecEnergy SpecHistory ProofsHistory.
Set Implicit Arguments. Unset Strict Implicit.
Open Scope list_scope. Open Scope R_scope.

Definition bare_snd {T} (r : result (T * cluster)) : result (T * cluster) := match r with Ok (x, c) => Ok (x, bare c) | Raise => Raise end.
Section WithGalpy.
Variable G : galpy.
Lemma off_bare c : off_centre (bare c) = off_centre c. Proof. by []. Qed.
Lemma unamuse_bare c : bare (match c_units c with Some Uamuse => to_pckms G c | _ => c end) = match c_units (bare c) with Some Uamuse => to_pckms G (bare c) | _ => bare c end.
Proof. rewrite bare_units. destruct (c_units c) as [[]|] => //. apply bare_to_pckms. Qed.
Lemma bare_lagrange_frame c : bare (lagrange_frame G c) = lagrange_frame G (bare c).
Proof.
  rewrite /lagrange_frame -unamuse_bare bare_origin. move: (match c_units c with Some Uamuse => to_pckms G c | _ => c end) => d.
  destruct (c_origin c) as [[]|]; first [apply bare_sort|apply bare_to_centre].
Qed.
Lemma bare_energy_frame c : bare (energy_frame G c) = energy_frame G (bare c).
Proof.
  rewrite /energy_frame off_bare. have -> : (if off_centre c then to_cluster false (bare c) else bare c) = bare (if off_centre c then to_cluster false c else c) by destruct (off_centre c); rewrite ?bare_to_cluster.
  apply unamuse_bare.
Qed.
Lemma bare_tidal_frame c : bare (tidal_frame G c) = tidal_frame G (bare c).
Proof.
  rewrite /tidal_frame off_bare -unamuse_bare bare_to_galpy. f_equal. move: (match c_units c with Some Uamuse => to_pckms G c | _ => c end) => d.
  destruct (off_centre c) => //. apply bare_to_centre.
Qed.
Lemma bare_relax_frame c : bare (relax_frame G c) = relax_frame G (bare c).
Proof. rewrite /relax_frame off_bare bare_to_pckms. f_equal. destruct (off_centre c); [apply bare_to_centre|apply bare_sort]. Qed.
Lemma bare_grav c : get_grav (bare c) = get_grav c. Proof. by []. Qed.
Lemma bare_length x u c : convert_length x u (bare c) = convert_length x u c. Proof. by []. Qed.
Lemma bare_time x u c : convert_time G x u (bare c) = convert_time G x u c. Proof. by []. Qed.
Lemma bare_6 p u c : convert6 p u (bare c) = convert6 p u c. Proof. by []. Qed.

Lemma bare_rlagrange n p c : rlagrange G n p (bare c) = bare_snd (rlagrange G n p c).
Proof.
  rewrite /rlagrange. cbv zeta. rewrite bare_save -bare_lagrange_frame -bare_return. move: (lagrange_frame G c) => d.
  move: (return_cluster G (save_cluster c) d) => e. rewrite /lagrange_order /lagrange_radii bare_der bare_ph.
  destruct (if p then _ else _) as [o|] => //; by destruct (lagrange_list _ _ _ _).
Qed.
Lemma bare_fraction f p c : rlagrange_frac G f p (bare c) = bare_snd (rlagrange_frac G f p c).
Proof.
  rewrite /rlagrange_frac. cbv zeta. rewrite bare_save -bare_lagrange_frame -bare_return. move: (lagrange_frame G c) => d.
  move: (return_cluster G (save_cluster c) d) => e. rewrite /lagrange_order /lagrange_radii bare_der bare_ph.
  destruct (if p then _ else _) as [o|] => //; by destruct (frac_radius _ _ _ _ _).
Qed.
Lemma bare_half k p c : half_mass_relaxation_time G k p (bare c) = bare_snd (half_mass_relaxation_time G k p c).
Proof.
  rewrite /half_mass_relaxation_time. cbv zeta. rewrite bare_save -bare_relax_frame -bare_return bare_ph bare_der bare_grav. move: (relax_frame G c) => d.
  move: (return_cluster G (save_cluster c) d) => e. destruct (if p then _ else _) as [o|] => //; by rewrite bare_time.
Qed.
Lemma bare_relaxation r k p c : relaxation_time G r k p (bare c) = bare_snd (relaxation_time G r k p c).
Proof.
  rewrite /relaxation_time. cbv zeta. rewrite bare_save -bare_relax_frame -bare_return bare_ph bare_der bare_grav. move: (relax_frame G c) => d.
  move: (return_cluster G (save_cluster c) d) => e. destruct r => //. destruct (if p then d_rmpro _ else _) as [o|] => //; by rewrite bare_time.
Qed.
Lemma bare_critical crit H Om o p c : virial_radius_critical_density G crit H Om o p (bare c) = bare_snd (virial_radius_critical_density G crit H Om o p c).
Proof.
  rewrite /virial_radius_critical_density. cbv zeta. rewrite bare_save -bare_relax_frame -bare_return. move: (relax_frame G c) => d.
  move: (return_cluster G (save_cluster c) d) => e. rewrite /lagrange_order /lagrange_radii bare_der bare_ph bare_sc.
  destruct (if p then d_rproorder _ else _) as [[|i l]|] => //.
Qed.
Lemma bare_energies s p f e c : energies G s p f e (bare c) = (fst (energies G s p f e c), bare (snd (energies G s p f e c))).
Proof.
  rewrite /energies. cbv zeta. cbn [fst snd]. rewrite bare_save -bare_energy_frame -bare_return. by move: (energy_frame G c) => d.
Qed.
Lemma bare_energies_ids s e ids c : energies_ids G s e ids (bare c) = (fst (energies_ids G s e ids c), bare (snd (energies_ids G s e ids c))).
Proof.
  rewrite /energies_ids. cbv zeta. cbn [fst snd]. rewrite bare_save -bare_energy_frame -bare_return. move: (energy_frame G c) => d.
  rewrite bare_ph bare_der bare_grav. by [].
Qed.
Lemma bare_virial p f c : virial_radius G p f (bare c) = (fst (virial_radius G p f c), bare (snd (virial_radius G p f c))).
Proof.
  rewrite /virial_radius. cbv zeta. cbn [fst snd]. rewrite bare_save -unamuse_bare off_bare. move: (match c_units c with Some Uamuse => to_pckms G c | _ => c end) => d.
  have -> : (if off_centre c then to_centre false (bare d) else bare d) = bare (if off_centre c then to_centre false d else d) by destruct (off_centre c); rewrite ?bare_to_centre.
  move: (if off_centre c then to_centre false d else d) => e. by rewrite -bare_return.
Qed.
Lemma bare_tidal t n k m a z f c : rtidal G t n k m a z f (bare c) =
  let q := rtidal G t n k m a z f c in (fst (fst q), bare (snd (fst q)), snd q).
Proof.
  rewrite /rtidal. cbv zeta. rewrite bare_save -bare_tidal_frame -bare_return. move: (tidal_frame G c) => d.
  move: (return_cluster G (save_cluster c) d) => e. rewrite bare_ph bare_der. have -> : tidal_place a z f (bare d) = tidal_place a z f d by [].
  destruct (tidal_place a z f d) as [x y]. destruct (tide_loop _ _ _ _ _ _ _) as [rt msk]. cbn [fst snd]. by rewrite bare_length.
Qed.
Lemma bare_tail c : to_tail G (bare c) = (fst (to_tail G c), bare (snd (to_tail G c))).
Proof.
  rewrite /to_tail. cbv zeta. cbn [fst snd]. rewrite bare_save off_bare.
  have -> : (if off_centre c then to_centre false (bare c) else bare c) = bare (if off_centre c then to_centre false c else c) by destruct (off_centre c); rewrite ?bare_to_centre.
  move: (if off_centre c then to_centre false c else c) => e. by rewrite -bare_return.
Qed.
Lemma bare_initialize f r v c : initialize_orbit G f r v (bare c) = (fst (initialize_orbit G f r v c), bare (snd (initialize_orbit G f r v c))).
Proof. rewrite /initialize_orbit. cbv zeta. cbn [fst snd]. rewrite bare_save -bare_to_galpy -bare_return bare_sc. by move: (to_galpy G c) => e. Qed.
Lemma bare_path ev t n f r v c : orbital_path G ev t n f r v (bare c) = bare_snd (orbital_path G ev t n f r v c).
Proof.
  rewrite /orbital_path. cbv zeta. rewrite bare_initialize bare_sc. have -> : galpy_time G (1 / 10) (opt r (ro (c_sc c))) (opt v (vo (c_sc c))) t (bare c) = galpy_time G (1 / 10) (opt r (ro (c_sc c))) (opt v (vo (c_sc c))) t c by [].
  destruct (initialize_orbit G f _ _ c) as [o d]. cbn [fst snd]. destruct n => //.
Qed.
Lemma bare_centre a c : find_centre_of_density G a (bare c) = bare_snd (find_centre_of_density G a c).
Proof.
  rewrite /find_centre_of_density. cbv zeta. rewrite bare_save -unamuse_bare -bare_return. move: (match c_units c with Some Uamuse => to_pckms G c | _ => c end) => d.
  move: (return_cluster G (save_cluster c) d) => e. have -> : particles (bare d) = particles d by []. rewrite bare_ph. destruct (ca_method a) => //.
  - destruct (pick_rows _ _ _) => //; by destruct (harfst _ _ _ _ _ _).
  - by destruct (casertano _ _).
Qed.
Theorem bare_measure a c : measure G a (bare c) = bare_snd (measure G a c).
Proof.
  destruct a; cbn [measure].
  - rewrite bare_rlagrange. by destruct (rlagrange G n projected c) as [[x d]|].
  - rewrite bare_fraction. by destruct (rlagrange_frac G f projected c) as [[x d]|].
  - rewrite bare_half. by destruct (half_mass_relaxation_time G coulomb projected c) as [[x d]|].
  - rewrite bare_relaxation. by destruct (relaxation_time G None coulomb projected c) as [[x d]|].
  - rewrite bare_energies. by destruct (energies G specific projected full soft c) as [[x y] d].
  - rewrite bare_energies_ids. by destruct (energies_ids G specific soft ids c) as [[x y] d].
  - rewrite bare_virial. by destruct (virial_radius G projected full c) as [x d].
  - rewrite bare_critical. by destruct (virial_radius_critical_density G crit H Om overdens projected c) as [[x d]|].
  - rewrite bare_tidal. by destruct (rtidal G rtide n converge indx rgc zgc from_centre c) as [[x d] y].
  - rewrite bare_tail. by destruct (to_tail G c) as [x d].
  - rewrite bare_path. by destruct (orbital_path G ev tfinal nt from_centre r v c) as [[[x y] d]|].
  - rewrite bare_centre. by destruct (find_centre_of_density G a c) as [[x d]|].
Qed.
End WithGalpy.
