(* Proofs: surveys restore the cluster, and do not depend on the binaries. *)
From Verif Require Import Base ModelCluster ModelOps ModelConv ModelEnergy ModelRecipes ModelStars ModelSubset ModelCoords ModelLagrange ModelProfiles ModelMassFunction ModelDynamics.
From Verif Require Import ModelOrbit ModelTail ModelCentre ModelRadii ModelMeqProf ModelHistory ModelSurvey.
From Verif Require Import SpecUnits SpecFrame SpecEnergy SpecHistory SpecSurvey ProofsUnits ProofsFrame ProofsFrame2 ProofsSees ProofsSort ProofsEnergy ProofsEnergy2 ProofsLagrange ProofsRadii9 ProofsHistory ProofsHistory2 ProofsHistory3.
Set Implicit Arguments. Unset Strict Implicit.
Open Scope list_scope. Open Scope R_scope.

Definition barel (s : system) : system := sys_with s (bare (g_c (y_k s))).
Definition bare_look {T} (r : result (T * system * option (list bool))) : result (T * system * option (list bool)) :=
  match r with Ok (x, s, i) => Ok (x, barel s, i) | Raise => Raise end.
Section WithGalpy.
Variable G : galpy.
Lemma bare_profile_frame n c : bare (profile_frame G n c) = profile_frame G n (bare c).
Proof.
  rewrite /profile_frame -unamuse_bare bare_origin. move: (match c_units c with Some Uamuse => to_pckms G c | _ => c end) => d.
  destruct (c_origin c) as [[]|]; first [by rewrite bare_to_centre|by destruct n; rewrite ?bare_sort].
Qed.
Lemma bare_vcirc_frame n c : bare (vcirc_frame G n c) = vcirc_frame G n (bare c).
Proof.
  rewrite /vcirc_frame -unamuse_bare bare_origin. move: (match c_units c with Some Uamuse => to_pckms G c | _ => c end) => d.
  destruct (c_origin c) as [[]|]; first [by rewrite bare_to_centre|by rewrite bare_sort].
Qed.
Lemma bare_mass_frame c : bare (mass_frame G c) = mass_frame G (bare c). Proof. exact (unamuse_bare G c). Qed.
Lemma bare_subset q i s d : get_subset q i (sys_with s (bare d)) = get_subset q i (sys_with s d). Proof. by []. Qed.
Lemma bare_rows q i user n bt r s d : profile_rows q i user n bt r (sys_with s (bare d)) = profile_rows q i user n bt r (sys_with s d). Proof. by []. Qed.
Lemma cluster_barel s : g_c (y_k (barel s)) = bare (g_c (y_k s)). Proof. by []. Qed.
Lemma barel_with s c : barel (sys_with s c) = sys_with s (bare c). Proof. by []. Qed.
Lemma with_barel s c : sys_with (barel s) c = sys_with s c. Proof. by []. Qed.
Lemma bare_sphere c : sphere_coords G (bare c) = match sphere_coords G c with Ok (l, d) => Ok (l, bare d) | Raise => Raise end.
Proof.
  rewrite /sphere_coords /with_cartesian bare_origin. cbv zeta. rewrite bare_save -unamuse_bare -bare_return bare_ph.
  move: (match c_units c with Some Uamuse => to_pckms G c | _ => c end) => d. move: (return_cluster G (save_cluster c) d) => e. by destruct (c_origin c) as [[]|].
Qed.

Lemma bare_m_prof q i user n bt norm cum s : m_prof G q i user n bt norm cum (barel s) = 
  match m_prof G q i user n bt norm cum s with Ok (r, m, k, s', j) => Ok (r, m, k, barel s', j) | Raise => Raise end.
Proof.
  rewrite /m_prof. cbv zeta. rewrite cluster_barel !with_barel bare_save -bare_profile_frame -bare_return bare_rows !bare_der !bare_ph.
  move: (profile_frame G norm (g_c (y_k s))) => d. move: (return_cluster G (save_cluster (g_c (y_k s))) d) => e.
  destruct (profile_rows _ _ _ _ _ _ _) as [w|] => //. cbn [bind]. by destruct (radii_over _ _ _).
Qed.
Lemma bare_rho_prof q i user n bt norm s : rho_prof G q i user n bt norm (barel s) = 
  match rho_prof G q i user n bt norm s with Ok (r, m, k, s', j) => Ok (r, m, k, barel s', j) | Raise => Raise end.
Proof.
  rewrite /rho_prof. cbv zeta. rewrite cluster_barel !with_barel bare_save -bare_profile_frame -bare_return bare_rows !bare_der !bare_ph.
  move: (profile_frame G norm (g_c (y_k s))) => d. move: (return_cluster G (save_cluster (g_c (y_k s))) d) => e.
  destruct (profile_rows _ _ _ _ _ _ _) as [w|] => //. cbn [bind]. by destruct (radii_over _ _ _).
Qed.
Lemma bare_column w k p c : velocity_column G w k p (bare c) = match velocity_column G w k p c with Ok (r, v, d) => Ok (r, v, bare d) | Raise => Raise end.
Proof.
  rewrite /velocity_column. cbv zeta. rewrite !bare_der !bare_ph bare_sphere. destruct k as [k|] => //. destruct p; [by destruct k|].
  destruct (sphere_coords G c) as [[l d]|] => //. cbn [bind]. by destruct k; destruct w.
Qed.
Lemma bare_velocity w k q i user n bt norm s : velocity_prof G w k q i user n bt norm (barel s) = 
  match velocity_prof G w k q i user n bt norm s with Ok (r, m, s', j) => Ok (r, m, barel s', j) | Raise => Raise end.
Proof.
  rewrite /velocity_prof. cbv zeta. rewrite cluster_barel !with_barel bare_save -bare_profile_frame bare_column.
  move: (profile_frame G norm (g_c (y_k s))) => d. destruct (velocity_column G w k (l_projected q) d) as [[[r v] d2]|] => //. cbn [bind]. rewrite -bare_return bare_rows.
  move: (return_cluster G (save_cluster (g_c (y_k s))) d2) => e.
  destruct (profile_rows _ _ _ _ _ _ _) as [x|] => //. cbn [bind]. have -> : half_mass (l_projected q) (bare d2) = half_mass (l_projected q) d2 by [].
  by destruct (radii_over _ _ _).
Qed.
Lemma bare_three p c : three_velocities G p (bare c) = match three_velocities G p c with Ok (r, a, b, v, d) => Ok (r, a, b, v, bare d) | Raise => Raise end.
Proof.
  rewrite /three_velocities. cbv zeta. rewrite !bare_ph bare_sphere. destruct p => //. by destruct (sphere_coords G c) as [[l d]|].
Qed.
Lemma bare_beta q i user n bt norm s : beta_prof G q i user n bt norm (barel s) = 
  match beta_prof G q i user n bt norm s with Ok (r, m, s', j) => Ok (r, m, barel s', j) | Raise => Raise end.
Proof.
  rewrite /beta_prof. cbv zeta. rewrite cluster_barel !with_barel bare_save -bare_profile_frame bare_three.
  move: (profile_frame G norm (g_c (y_k s))) => d. destruct (three_velocities G (l_projected q) d) as [[[[[r a] b] v] d2]|] => //. cbn [bind]. rewrite -bare_return bare_rows.
  move: (return_cluster G (save_cluster (g_c (y_k s))) d2) => e.
  destruct (profile_rows _ _ _ _ _ _ _) as [x|] => //. cbn [bind]. have -> : half_mass (l_projected q) (bare d2) = half_mass (l_projected q) d2 by [].
  by destruct (radii_over _ _ _).
Qed.
Lemma bare_vcirc q i user n bt norm s : vcirc_prof G q i user n bt norm (barel s) = 
  match vcirc_prof G q i user n bt norm s with Ok (r, v, rv, vm, s', j) => Ok (r, v, rv, vm, barel s', j) | Raise => Raise end.
Proof.
  rewrite /vcirc_prof. cbv zeta. rewrite cluster_barel !with_barel bare_save -bare_vcirc_frame -bare_return bare_subset !bare_der !bare_ph bare_grav.
  move: (vcirc_frame G norm (g_c (y_k s))) => d. move: (return_cluster G (save_cluster (g_c (y_k s))) d) => e.
  have -> : half_mass (l_projected q) (bare d) = half_mass (l_projected q) d by [].
  destruct (if l_projected q then d_rproorder (c_der d) else d_rorder (c_der d)) as [o|] => //. destruct (get_subset _ _ _) as [[[x|] y]|] => //. cbn [bind fst snd].
  destruct (masked _ _) as [a|] => //. cbn [bind]. destruct (masked _ _) as [b|] => //. cbn [bind]. destruct (all_some _) as [vc|] => //. destruct (amax vc) as [vmax|] => //.
  destruct (match user with Some (_, _) => _ | None => _ end) as [[args|]|] => //. cbn [bind]. by destruct (radii_over _ _ _).
Qed.
Lemma bare_mf q i n bt mc s : mass_function G q i n bt mc (barel s) = bare_look (mass_function G q i n bt mc s).
Proof.
  rewrite /mass_function. cbv zeta. rewrite cluster_barel !with_barel bare_save -bare_mass_frame -bare_return bare_subset !bare_ph.
  move: (mass_frame G (g_c (y_k s))) => d. move: (return_cluster G (save_cluster (g_c (y_k s))) d) => e. have -> : g_ntot (y_k (barel s)) = g_ntot (y_k s) by [].
  destruct (get_subset _ _ _) as [[[x|] y]|] => //. cbn [bind fst snd]. destruct (Nat.leb _ _) => //. destruct (Nat.eqb _ _) => //. by destruct (rows_of _ _ _ _ _).
Qed.
Lemma bare_eta q i n s : eta_function G q i n (barel s) = bare_look (eta_function G q i n s).
Proof.
  rewrite /eta_function. cbv zeta. rewrite cluster_barel !with_barel bare_save -bare_mass_frame -bare_return bare_subset !bare_ph !bare_der.
  move: (mass_frame G (g_c (y_k s))) => d. move: (return_cluster G (save_cluster (g_c (y_k s))) d) => e.
  destruct (get_subset _ _ _) as [[[x|] y]|] => //. cbn [bind fst snd]. destruct (Nat.leb _ _) => //. by destruct (rows_of _ _ _ _ _).
Qed.
Lemma bare_eta_meq fit q i n s : eta_meq G fit q i n (barel s) = bare_look (eta_meq G fit q i n s).
Proof.
  rewrite /eta_meq. cbv zeta. rewrite cluster_barel !with_barel bare_save -bare_mass_frame -bare_return bare_subset !bare_ph !bare_der.
  move: (mass_frame G (g_c (y_k s))) => d. move: (return_cluster G (save_cluster (g_c (y_k s))) d) => e.
  destruct (get_subset _ _ _) as [[[x|] y]|] => //. cbn [bind fst snd]. destruct (Nat.leb _ _) => //. destruct (rows_of _ _ _ _ _) as [w|] => //. cbn [bind].
  destruct (all_some _) => //. destruct (amin _) => //. destruct (amax _) => //. by destruct (fit _ _ _ _).
Qed.
Lemma over_rows_ext {A} (f g : nat -> result A) ks : (forall k, f k = g k) -> over_rows f ks = over_rows g ks.
Proof. move=> H. elim: ks => [|k ks IH] //=. by rewrite H IH. Qed.
Lemma bare_alpha q i n bt k mbt mc norm s : alpha_prof G q i n bt k mbt mc norm (barel s) = 
  match alpha_prof G q i n bt k mbt mc norm s with Ok (r, a, f, s', j) => Ok (r, a, f, barel s', j) | Raise => Raise end.
Proof.
  rewrite /alpha_prof. cbv zeta. rewrite cluster_barel !with_barel bare_save -bare_profile_frame -bare_return bare_rows !bare_der.
  move: (profile_frame G norm (g_c (y_k s))) => d. move: (return_cluster G (save_cluster (g_c (y_k s))) d) => e.
  have -> : half_mass (l_projected q) (bare d) = half_mass (l_projected q) d by [].
  destruct (profile_rows _ _ _ _ _ _ _) as [w|] => //. cbn [bind]. destruct (radii_over _ _ _) => //. cbn [bind].
  have -> : forall ks, over_rows (fun j => bind (mass_function G (mass_default (l_projected q)) (Some (in_row false w j)) k mbt mc (sys_with s (bare d)))
    (fun x => Ok (kept_slope (mt_fit (fst (fst x)))))) ks = over_rows (fun j => bind (mass_function G (mass_default (l_projected q)) (Some (in_row false w j)) k mbt mc (sys_with s d))
    (fun x => Ok (kept_slope (mt_fit (fst (fst x)))))) ks.
  { move=> ks. apply over_rows_ext => j. have := bare_mf (mass_default (l_projected q)) (Some (in_row false w j)) k mbt mc (sys_with s d). rewrite barel_with => ->.
    by destruct (mass_function _ _ _ _ _ _ _) as [[[? ?] ?]|]. }
  by destruct (over_rows _ _).
Qed.
Lemma bare_eta_prof q i n bt k norm s : eta_prof G q i n bt k norm (barel s) = 
  match eta_prof G q i n bt k norm s with Ok (r, a, f, s', j) => Ok (r, a, f, barel s', j) | Raise => Raise end.
Proof.
  rewrite /eta_prof. cbv zeta. rewrite cluster_barel !with_barel bare_save -bare_profile_frame -bare_return bare_rows !bare_der.
  move: (profile_frame G norm (g_c (y_k s))) => d. move: (return_cluster G (save_cluster (g_c (y_k s))) d) => e.
  have -> : half_mass (l_projected q) (bare d) = half_mass (l_projected q) d by [].
  destruct (profile_rows _ _ _ _ _ _ _) as [w|] => //. cbn [bind]. destruct (radii_over _ _ _) => //. cbn [bind].
  have -> : forall ks, over_rows (fun j => bind (eta_function G (eta_limits q (nth j (w_lo w) 0) (nth j (w_hi w) 0)) None k (sys_with s (bare d)))
    (fun x => Ok (kept_slope (et_fit (fst (fst x)))))) ks = over_rows (fun j => bind (eta_function G (eta_limits q (nth j (w_lo w) 0) (nth j (w_hi w) 0)) None k (sys_with s d))
    (fun x => Ok (kept_slope (et_fit (fst (fst x)))))) ks.
  { move=> ks. apply over_rows_ext => j. have := bare_eta (eta_limits q (nth j (w_lo w) 0) (nth j (w_hi w) 0)) None k (sys_with s d). rewrite barel_with => ->.
    by destruct (eta_function _ _ _ _ _) as [[[? ?] ?]|]. }
  by destruct (over_rows _ _).
Qed.
Lemma bare_meq_prof fit q i n bt k norm s : meq_prof G fit q i n bt k norm (barel s) = 
  match meq_prof G fit q i n bt k norm s with Ok (r, a, f, s', j) => Ok (r, a, f, barel s', j) | Raise => Raise end.
Proof.
  rewrite /meq_prof. cbv zeta. rewrite cluster_barel !with_barel bare_save -bare_profile_frame -bare_return bare_rows !bare_der.
  move: (profile_frame G norm (g_c (y_k s))) => d. move: (return_cluster G (save_cluster (g_c (y_k s))) d) => e.
  have -> : half_mass (l_projected q) (bare d) = half_mass (l_projected q) d by [].
  destruct (profile_rows _ _ _ _ _ _ _) as [w|] => //. cbn [bind]. destruct (radii_over _ _ _) => //. cbn [bind].
  have -> : forall ks, over_rows (fun j => bind (eta_meq G fit (eta_limits q (nth j (w_lo w) 0) (nth j (w_hi w) 0)) None k (sys_with s (bare d)))
    (fun x => Ok (kept_mass (snd (fst (fst x)))))) ks = over_rows (fun j => bind (eta_meq G fit (eta_limits q (nth j (w_lo w) 0) (nth j (w_hi w) 0)) None k (sys_with s d))
    (fun x => Ok (kept_mass (snd (fst (fst x)))))) ks.
  { move=> ks. apply over_rows_ext => j. have := bare_eta_meq fit (eta_limits q (nth j (w_lo w) 0) (nth j (w_hi w) 0)) None k (sys_with s d). rewrite barel_with => ->.
    by destruct (eta_meq _ _ _ _ _ _) as [[[? ?] ?]|]. }
  by destruct (over_rows _ _).
Qed.
Lemma bare_meq fit q i n s : meq_function G fit q i n (barel s) = bare_look (meq_function G fit q i n s).
Proof.
  rewrite /meq_function. cbv zeta. rewrite cluster_barel !with_barel bare_save -bare_mass_frame. move: (mass_frame G (g_c (y_k s))) => d.
  have := bare_eta_meq fit q i n (sys_with s d). rewrite barel_with => ->. destruct (eta_meq _ _ _ _ _ _) as [[[t s2] j]|] => //. cbn [bare_look bind].
  by rewrite cluster_barel -bare_return.
Qed.
Theorem bare_survey a q i s : look G a q i (barel s) = bare_look (look G a q i s).
Proof.
  destruct a; cbn [look].
  - rewrite bare_m_prof. by destruct (m_prof _ _ _ _ _ _ _ _ _) as [[[[[? ?] ?] ?] ?]|].
  - rewrite bare_rho_prof. by destruct (rho_prof _ _ _ _ _ _ _ _) as [[[[[? ?] ?] ?] ?]|].
  - rewrite bare_velocity. by destruct (velocity_prof _ _ _ _ _ _ _ _ _ _) as [[[[? ?] ?] ?]|].
  - rewrite bare_beta. by destruct (beta_prof _ _ _ _ _ _ _ _) as [[[[? ?] ?] ?]|].
  - rewrite bare_vcirc. by destruct (vcirc_prof _ _ _ _ _ _ _ _) as [[[[[[? ?] ?] ?] ?] ?]|].
  - rewrite bare_mf. by destruct (mass_function _ _ _ _ _ _ _) as [[[? ?] ?]|].
  - rewrite bare_alpha. by destruct (alpha_prof _ _ _ _ _ _ _ _ _ _) as [[[[[? ?] ?] ?] ?]|].
  - rewrite bare_eta. by destruct (eta_function _ _ _ _ _) as [[[? ?] ?]|].
  - rewrite bare_eta_prof. by destruct (eta_prof _ _ _ _ _ _ _ _) as [[[[[? ?] ?] ?] ?]|].
  - rewrite bare_meq. by destruct (meq_function _ _ _ _ _ _) as [[[[[? ?] ?] ?] ?]|].
  - rewrite bare_meq_prof. by destruct (meq_prof _ _ _ _ _ _ _ _ _) as [[[[[? ?] ?] ?] ?]|].
Qed.
End WithGalpy.
