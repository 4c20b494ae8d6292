(* A header longer than skiprows. *)
From Coq Require Import String Ascii.
From Verif Require Import Base ModelCluster ModelOps ModelRecipes ModelCoords ModelCentre ModelStars SpecStars ModelLoad SpecLoad
  ProofsRecipes ProofsStars ProofsStars2 ProofsUnits ProofsFrame ProofsLoad ProofsLoad2 ProofsLoad3 ProofsLoad4 ProofsLoad5 ModelGyr SpecGyr ProofsGyr ProofsGyr2 ProofsGyr3 ProofsGyr4.
Set Implicit Arguments.
Unset Strict Implicit.
Open Scope string_scope. Open Scope list_scope. Open Scope R_scope.
Lemma added_none first proj t u og a b k : add_stars 0 (gyr_args first []) false true proj (init_catalog (init_cluster t u og a b)) = Ok k -> g_ntot k = 0%nat.
Proof.
  unfold add_stars. cbn [Nat.eqb bind]. case=> <-. cbn [set_counts g_ntot set_cluster g_c put_columns].
  rewrite (skel_ph (skel_analyze _ _ _)). rewrite /add_sky_rows. destruct u as [[]|]; destruct og as [[]|]; reflexivity.
Qed.
Lemma build_none G rd o adv first t ntot v : build_gyr G rd o None adv first t ntot [] = Ok v -> g_ntot (v_cat v) = 0%nat.
Proof.
  rewrite /build_gyr. destruct (Z.ltb 0 ntot); [|by case=> <-].
  destruct (add_stars 0 _ false true (l_proj o) _) as [k|] eqn:E => //; cbn [bind]. destruct (centre_gyr _ _ _ _ _ _) => //; cbn [bind]. case=> <-. cbn [v_cat set_cluster g_ntot].
  exact (added_none E).
Qed.
Lemma long_header G rd o g adv hdr n t c rest v : length hdr = o_skip (l_set o) -> nemo_header rd hdr n t -> In "#" c ->
  get_gyrfalcon G rd o g None adv (hdr ++ c :: rest) = Ok v -> g_ntot (v_cat (n_v v)) = 0%nat.
Proof.
  move=> L H C. have [S1 S2] := header_values H. have [FH _] := H.
  rewrite /get_gyrfalcon (gyr_header_scan _ FH (Nat.eq_le_incl _ _ L) S1 S2) L Nat.sub_diag. cbn [gyr_header bind].
  have [q ->] : exists q, gyr_data rd (seq 0 7 ++ extra_columns g) (Z.to_nat (Z.of_nat n)) None (c :: rest) = Ok ([], q).
  { rewrite Nat2Z.id. destruct n as [|n]; [by eexists|]. exists rest. cbn [gyr_data readline]. by rewrite (proj2 (hashed_in c) C). }
  cbn [bind fst snd]. destruct (build_gyr _ _ _ _ _ _ _ _ _) as [w|] eqn:E => //; cbn [bind]. case=> <-. cbn [n_v]. exact (build_none E).
Qed.
