(* Proofs for clusters from galpy Orbits and AMUSE particles: the two readers. *)
From Verif Require Import Base ModelCluster ModelOps ModelConv ModelRecipes ModelCoords ModelCentre ModelStars ModelOutput SpecUnits SpecStars ModelLoad SpecLoad
  ProofsRecipes ProofsStars ProofsStars2 ProofsUnits ProofsFrame ProofsSubset2 ProofsLoad ProofsLoad2 ProofsGorbit ModelParticles SpecParticles ProofsParticles.
Set Implicit Arguments.
Unset Strict Implicit.
Open Scope R_scope.

Lemma orbit_masses_length n m : enough_masses m n -> length (orbit_masses n m) = n.
Proof. destruct m as [[a|l]|] => //= _; by rewrite repeat_length. Qed.
Lemma given_nth n m i a : enough_masses m n -> given_mass m i a -> (i < n)%nat -> nth i (orbit_masses n m) 0 = a.
Proof.
  destruct m as [[b|l]|] => /= E H Hi.
  - subst a. by rewrite nth_repeat'.
  - exact (nth_error_nth _ _ 0 H).
  - subst a. by rewrite nth_repeat'.
Qed.
Lemma in_kpc_length ro vo l : six_length (in_kpc ro vo l) (length l).
Proof. rewrite /six_length /in_kpc; cbn [sx sy sz svx svy svz]. by rewrite !map_length. Qed.
Lemma in_kpc_nth ro vo l i p : nth_error l i = Some p -> map6 (fun q => nth i q 0) (in_kpc ro vo l) = physical ro vo p.
Proof.
  move=> H. have Hi : (i < length l)%nat by apply nth_error_Some; rewrite H.
  rewrite /in_kpc /map6 /physical; cbn [sx sy sz svx svy svz].
  rewrite !(@nth_map' _ _ _ l i 0 p Hi) (nth_error_nth _ _ p H). by [].
Qed.
Lemma from_one_nth n i : (i < n)%nat -> nth i (from_one n) 0%Z = Z.of_nat (S i).
Proof. move=> H. rewrite /from_one (@nth_map' _ _ Z.of_nat (seq 1 n) i 0%Z 0%nat) ?seq_length // seq_nth //. Qed.
Lemma from_one_length n : length (from_one n) = n.
Proof. by rewrite /from_one map_length seq_length. Qed.

Section WithGalpy.
Variable G : galpy.
Lemma get_orbits_ok o ro vo l m : l <> [] -> enough_masses m (length l) -> l_units o <> Some Uradec -> l_units o <> Some Uamuse ->
  exists v, get_orbits G o ro vo l m None = Ok v /\ 
    (aligned (v_cat v) (length l) /\ g_ntot (v_cat v) = length l /\ c_nb (g_c (v_cat v)) = 0%nat) /\
    (forall i p a, nth_error l i = Some p -> given_mass m i a ->
      star_at (v_cat v) i = mkStar (physical ro vo p) (a / mass_scale G (l_units o) ro vo) (Z.of_nat (S i)) 0 1%Z) /\
    c_units (g_c (v_cat v)) = l_units o /\ c_origin (g_c (v_cat v)) = l_origin o /\ v_units v = l_units o /\ v_origin v = l_origin o /\ v_set v = l_set o /\
    p_t (c_ph (g_c (v_cat v))) = 0 /\ c_sc (g_c (v_cat v)) = mkSc 1 1 1 1 1 1 1 solar_ro solar_vo /\
    match l_origin o with
    | Some Ogalaxy => density_of (p_m (c_ph (g_c (v_cat v)))) (p_s (c_ph (g_c (v_cat v)))) = Some (p_g (c_ph (g_c (v_cat v))))
    | Some Ocluster => density_of (p_m (c_ph (g_c (v_cat v)))) (p_s (c_ph (g_c (v_cat v)))) = Some (p_c (c_ph (g_c (v_cat v)))) /\ p_g (c_ph (g_c (v_cat v))) = zero6
    | _ => p_g (c_ph (g_c (v_cat v))) = zero6 /\ p_c (c_ph (g_c (v_cat v))) = zero6
    end.
Proof.
  move=> NL EM NR NA. have Hn : (1 <= length l)%nat by destruct l => //=; lia.
  have LM : length (map (fun a => a / mass_scale G (l_units o) ro vo) (orbit_masses (length l) m)) = length l by rewrite map_length orbit_masses_length.
  have [k [E [AL [NT [NB [ST [U [O [P [T [G0 [C0 SC]]]]]]]]]]]] := @arrays_added (length l) _ _ _ false (l_proj o) (l_units o) (l_origin o) solar_ro solar_vo (in_kpc_length ro vo l) LM (from_one_length _) Hn NR.
  rewrite /get_orbits. rewrite /array_args in E. rewrite E. cbn [bind].
  have PL : plain (g_c k) by rewrite /plain U. have UA : c_units (g_c k) <> Some Uamuse by rewrite U.
  have [c' [-> [[S1 [S2 [S3 [S4 [S5 [S6 [S7 [S8 S9]]]]]]]] C]]] := @centre_orbits_ok G o (g_c k) O P PL UA G0. cbn [bind]. eexists; split; [reflexivity|].
  cbn [v_cat v_units v_origin v_set]. split. { split; [by apply set_cluster_aligned|]. split; [exact NT|]. cbn [set_cluster g_c]. by rewrite S5. }
  split. { move=> i p a Hp Ha. have Hi : (i < length l)%nat by apply nth_error_Some; rewrite Hp.
    rewrite set_cluster_star // (ST i Hi) (in_kpc_nth ro vo Hp) (from_one_nth Hi).
    rewrite (@nth_map' _ _ _ (orbit_masses (length l) m) i 0 0); [by rewrite orbit_masses_length|]. by rewrite (given_nth EM Ha Hi). }
  cbn [set_cluster g_c]. rewrite S6 S7 S1 S8 S2 S3 U O T SC. do 7 (split; [by []|]). move: C. rewrite /centred G0 C0. by [].
Qed.

Lemma six_cols_length kx kv l : six_length (six_cols kx kv l) (length l).
Proof. rewrite /six_length /six_cols /col; cbn [sx sy sz svx svy svz]. by rewrite !map_length. Qed.
Definition scaled (kx kv : R) (p : six R) : six R :=
  mk6 (sx p * kx) (sy p * kx) (sz p * kx) (svx p * kv) (svy p * kv) (svz p * kv).
Lemma six_cols_nth kx kv l i p : nth_error l i = Some p -> map6 (fun q => nth i q 0) (six_cols kx kv l) = scaled kx kv (pt_s p).
Proof.
  move=> H. have Hi : (i < length l)%nat by apply nth_error_Some; rewrite H.
  rewrite /six_cols /col /map6 /scaled; cbn [sx sy sz svx svy svz].
  rewrite !(@nth_map' _ _ _ l i 0 p Hi) (nth_error_nth _ _ p H). by [].
Qed.
Lemma get_particles_ok kms o u l kx kv : l <> [] ->
  convert_amuse kms u l = Ok (six_cols kx kv l) -> u <> Uradec -> u <> Uamuse ->
  exists v, get_particles G kms o u l None = Ok v /\ 
    (aligned (v_cat v) (length l) /\ g_ntot (v_cat v) = length l /\ c_nb (g_c (v_cat v)) = 0%nat) /\
    (forall i p, nth_error l i = Some p -> star_at (v_cat v) i = mkStar (scaled kx kv (pt_s p)) (pt_m p) (pt_key p) 0 1%Z) /\
    c_units (g_c (v_cat v)) = Some u /\ c_origin (g_c (v_cat v)) = l_origin o /\ v_units v = Some u /\ v_origin v = l_origin o /\ v_set v = l_set o /\
    p_t (c_ph (g_c (v_cat v))) = 0 /\ c_sc (g_c (v_cat v)) = mkSc 1 1 1 1 1 1 1 (l_ro o) (l_vo o) /\
    match l_origin o with
    | Some Ogalaxy => density_of (p_m (c_ph (g_c (v_cat v)))) (p_s (c_ph (g_c (v_cat v)))) = Some (p_g (c_ph (g_c (v_cat v))))
    | Some Ocluster => density_of (p_m (c_ph (g_c (v_cat v)))) (p_s (c_ph (g_c (v_cat v)))) = Some (p_c (c_ph (g_c (v_cat v)))) /\ p_g (c_ph (g_c (v_cat v))) = zero6
    | _ => p_g (c_ph (g_c (v_cat v))) = zero6 /\ p_c (c_ph (g_c (v_cat v))) = zero6
    end.
Proof.
  move=> NL EC NR NA. have Hn : (1 <= length l)%nat by destruct l => //=; lia.
  have NR' : Some u <> Some Uradec by congruence. have NA' : Some u <> Some Uamuse by congruence.
  have [k [E [AL [NT [NB [ST [U [O [P [T [G0 [C0 SC]]]]]]]]]]]] := @arrays_added (length l) _ _ _ true (l_proj o) (Some u) (l_origin o) (l_ro o) (l_vo o) (six_cols_length kx kv l) (map_length pt_m l) (map_length pt_key l) Hn NR'.
  rewrite /get_particles EC. cbn [bind]. rewrite /array_args in E. rewrite E. cbn [bind].
  have PL : plain (g_c k) by rewrite /plain U. have UA : c_units (g_c k) <> Some Uamuse by rewrite U.
  have [c' [-> [[S1 [S2 [S3 [S4 [S5 [S6 [S7 [S8 S9]]]]]]]] C]]] := @centre_amuse_ok G o (g_c k) O P PL UA G0. cbn [bind]. eexists; split; [reflexivity|].
  cbn [v_cat v_units v_origin v_set]. split. { split; [by apply set_cluster_aligned|]. split; [exact NT|]. cbn [set_cluster g_c]. by rewrite S5. }
  split. { move=> i p Hp. have Hi : (i < length l)%nat by apply nth_error_Some; rewrite Hp.
    rewrite set_cluster_star // (ST i Hi) (six_cols_nth kx kv Hp).
    rewrite (@nth_map' _ _ pt_m l i 0 p Hi) (@nth_map' _ _ pt_key l i 0%Z p Hi) (nth_error_nth _ _ p Hp). by []. }
  cbn [set_cluster g_c]. rewrite S6 S7 S1 S8 S2 S3 U O T SC. do 7 (split; [by []|]). move: C. rewrite /centred G0 C0. by [].
Qed.
End WithGalpy.
