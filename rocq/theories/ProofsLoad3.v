(* Orbit files, and the whole reader. *)
From Coq Require Import String Ascii.
From Verif Require Import Base ModelCluster ModelOps ModelRecipes ModelCoords ModelCentre ModelStars SpecStars ModelLoad SpecLoad
  ProofsRecipes ProofsStars ProofsStars2 ProofsUnits ProofsFrame ProofsSubset2 ProofsLoad ProofsLoad2.
Set Implicit Arguments.
Unset Strict Implicit.
Open Scope string_scope. Open Scope list_scope. Open Scope R_scope.

Definition get (s : string) (q : R * six R) : R := component s (fst q) (snd q).
Lemma get_set s s' v q : In s orbit_quantities -> get s (set_named s' v q) = if String.eqb s s' then v else get s q.
Proof.
  destruct q as [t p]. cbn [In orbit_quantities].
  move=> [<-|[<-|[<-|[<-|[<-|[<-|[<-|//]]]]]]]; rewrite /set_named;
  destruct (String.eqb_spec s' "t") as [->|N1] => //; destruct (String.eqb_spec s' "x") as [->|N2] => //;
  destruct (String.eqb_spec s' "y") as [->|N3] => //; destruct (String.eqb_spec s' "z") as [->|N4] => //;
  destruct (String.eqb_spec s' "vx") as [->|N5] => //; destruct (String.eqb_spec s' "vy") as [->|N6] => //;
  destruct (String.eqb_spec s' "vz") as [->|N7] => //; match goal with |- context [String.eqb ?a s'] => destruct (String.eqb_spec a s'); [congruence|done] end.
Qed.
Lemma quantity_name s : existsb (String.eqb s) orbit_names = true <-> In s orbit_quantities.
Proof.
  rewrite existsb_exists /orbit_names /orbit_quantities. split.
  - move=> [x [I E]]. apply String.eqb_eq in E. by subst x.
  - move=> I. exists s. split => //. apply String.eqb_refl.
Qed.
Lemma parse_orbit_values rd l cols : NoDup (map fst cols) ->
  (forall s k, In (s, k) cols -> In s orbit_quantities -> exists tok v, nth_error l k = Some tok /\ float_of rd tok = Some v) ->
  forall q0, exists q, parse_orbit rd l cols q0 = Ok q /\
    forall s, In s orbit_quantities ->
      (forall k, In (s, k) cols -> exists tok, nth_error l k = Some tok /\ float_of rd tok = Some (get s q)) /\
      (~ In s (map fst cols) -> get s q = get s q0).
Proof.
  induction cols as [|[s0 k0] cols IH] => ND H q0; cbn [parse_orbit].
  - by exists q0.
  - inversion ND as [|? ? NI ND']; subst. cbn [map fst] in NI.
    have H' : forall s k, In (s, k) cols -> In s orbit_quantities -> exists tok v, nth_error l k = Some tok /\ float_of rd tok = Some v.
    { move=> s k I. apply H. by right. }
    destruct (existsb (String.eqb s0) orbit_names) eqn:E.
    + have Q := proj1 (quantity_name s0) E. have [tok [v [T V]]] := H s0 k0 (or_introl eq_refl) Q.
      rewrite /orbit_value T V. have [q [-> P]] := IH ND' H' (set_named s0 v q0). exists q. split => // s I.
      have [P1 P2] := P s I. split.
      * move=> k [[E1 E2]|I2]; [|by apply P1]. subst s0 k0. exists tok. split => //.
        have N : ~ In s (map fst cols) by [].
        by rewrite V (P2 N) (get_set _ _ _ I) String.eqb_refl.
      * move=> N. rewrite P2; [by move=> I2; apply N; right|]. rewrite (get_set _ _ _ I).
        destruct (String.eqb_spec s s0) as [E2|] => //. case: N. by left.
    + have [q [-> P]] := IH ND' H' q0. exists q. split => // s I. have [P1 P2] := P s I. split.
      * move=> k [[E1 E2]|I2]; [|by apply P1]. subst s0. have := proj2 (quantity_name s) I. by rewrite E.
      * move=> N. apply P2 => I2. apply N. by right.
Qed.
Lemma component_ext q t p : (forall s, In s orbit_quantities -> get s q = component s t p) -> q = (t, p).
Proof.
  destruct q as [t' [a b c d e f]], p as [a' b' c' d' e' f'] => H.
  have H1 := H "t" ltac:(cbn; tauto). have H2 := H "x" ltac:(cbn; tauto). have H3 := H "y" ltac:(cbn; tauto).
  have H4 := H "z" ltac:(cbn; tauto). have H5 := H "vx" ltac:(cbn; tauto). have H6 := H "vy" ltac:(cbn; tauto).
  have H7 := H "vz" ltac:(cbn; tauto). cbn in *. congruence.
Qed.
Lemma parse_orbit_ok rd cols l t p : orbit_line rd cols l t p -> parse_orbit rd l cols (0, zero6) = Ok (t, p).
Proof.
  move=> [ND H].
  have H' : forall s k, In (s, k) cols -> In s orbit_quantities -> exists tok v, nth_error l k = Some tok /\ float_of rd tok = Some v.
  { move=> s k I Q. have [tok [T V]] := proj1 (H s Q) k I. by exists tok, (component s t p). }
  have [q [E P]] := parse_orbit_values ND H' (0, zero6). rewrite E. f_equal. apply component_ext => s I.
  have [P1 P2] := P s I. have [H1 H2] := H s I. destruct (in_dec string_dec s (map fst cols)) as [J|N].
  - apply in_map_iff in J. destruct J as [[s' k] [E1 J]]. cbn in E1; subst s'.
    have [tok [T V]] := P1 k J. have [tok' [T' V']] := H1 k J. rewrite T' in T. case: T => T. subst tok'. rewrite V' in V. by case: V.
  - rewrite (P2 N) (H2 N). rewrite /get /component /zero6 /=. by repeat (destruct (String.eqb s _) => //).
Qed.
Lemma readlines_nth n : forall f last l, nth_error f n = Some l -> readlines (n + 1) f last = (l, skipn (n + 1) f).
Proof.
  induction n as [|n IH]; case => [|a f] //= last l; [by case=> ->|]. move=> H. by rewrite (IH f a l H).
Qed.

Section WithGalpy.
Variable G : galpy.
(* the number of the line read *)
Definition line_number (nsnap : nat) (adv : bool) : nat := if adv then 0%nat else nsnap.
Lemma get_cluster_orbit_ok rd oo nsnap adv f c l t p : nth_error f (line_number nsnap adv) = Some l -> orbit_line rd (q_cols oo) l t p ->
  get_cluster_orbit G rd oo nsnap adv f c =
    Ok (add_orbit G p (q_units oo) (if q_time oo then Some t else None) c, skipn (line_number nsnap adv + 1) f).
Proof.
  move=> N L. rewrite /get_cluster_orbit.
  have -> : (if negb (Nat.eqb nsnap 0) && negb adv then readlines (nsnap + 1) f [] else readline f) = (l, skipn (line_number nsnap adv + 1) f).
  { rewrite /line_number in N |- *. destruct adv; [rewrite andb_false_r; destruct f => //; by case: N => ->|].
    destruct (Nat.eqb_spec nsnap 0) as [->|]; [destruct f => //; by case: N => ->|]. cbn [negb andb]. by apply readlines_nth. }
  by rewrite (parse_orbit_ok L).
Qed.

Lemma add_orbit_g p u t c c' : c_sc c' = c_sc c -> c_units c' = c_units c ->
  p_g (c_ph (add_orbit G p u t c')) = p_g (c_ph (add_orbit G p u t c)).
Proof.
  move=> S U. rewrite /add_orbit S U. destruct u as [u|].
  - destruct (ousys_eq_dec (Some u) (c_units c)); [by destruct (c_units c) as [[]|]|].
    destruct (orbit_of_kpckms _ _ _ _). by destruct (c_units c) as [[]|].
  - by destruct (c_units c) as [[]|].
Qed.
Lemma add_orbit_plain p u t c : plain c ->
  let c1 := add_orbit G p u t c in
  p_m (c_ph c1) = p_m (c_ph c) /\ p_s (c_ph c1) = p_s (c_ph c) /\ c_id c1 = c_id c /\ c_nb c1 = c_nb c /\ c_units c1 = c_units c /\
  c_origin c1 = c_origin c /\ c_sc c1 = c_sc c /\ c_sky c1 = c_sky c /\ p_c (c_ph c1) = p_c (c_ph c) /\
  (t = None -> p_t (c_ph c1) = p_t (c_ph c)).
Proof.
  move=> P. rewrite /add_orbit. destruct (match u with Some _ => _ | None => _ end) as [q r].
  destruct (c_units c) as [[]|] eqn:U => //; try (by case: P); cbn; rewrite ?U; repeat split => //; by move=> ->.
Qed.
Lemma add_orbit_t p u t c c' : c_sc c' = c_sc c -> c_units c' = c_units c -> p_t (c_ph c') = p_t (c_ph c) ->
  p_t (c_ph (add_orbit G p u t c')) = p_t (c_ph (add_orbit G p u t c)).
Proof.
  move=> S U T. rewrite /add_orbit S U T. destruct u as [u|].
  - destruct (ousys_eq_dec (Some u) (c_units c)); [by destruct (c_units c) as [[]|]|].
    destruct (orbit_of_kpckms _ _ _ _). by destruct (c_units c) as [[]|].
  - by destruct (c_units c) as [[]|].
Qed.

Lemma centre_snapshot_orbit rd o adv c f l t p : plain c -> c_units c <> Some Uamuse -> c_origin c = l_origin o -> populated c ->
  (exists og, l_origin o = Some og /\ og <> Osky) ->
  nth_error f (line_number (o_nsnap (l_set o)) adv) = Some l -> orbit_line rd (q_cols (l_orbit o)) l t p ->
  let c0 := add_orbit G p (q_units (l_orbit o)) (if q_time (l_orbit o) then Some t else None) c in
  exists c', centre_snapshot G rd o (Some f) adv c = Ok (c', Some (skipn (line_number (o_nsnap (l_set o)) adv + 1) f)) /\
    same_stars c0 c' /\ p_g (c_ph c') = p_g (c_ph c0).
Proof.
  move=> P U O N [og [OG OS]] F L. cbv zeta.
  set tt := (if q_time (l_orbit o) then Some t else None).
  have GO c' := get_cluster_orbit_ok c' F L.
  rewrite /centre_snapshot.
  have [M0 [X0 [I0 [B0 [U0 [O0 [S0 [K0 [PC0 _]]]]]]]]] := add_orbit_plain p (q_units (l_orbit o)) tt P.
  have CF : exists c', bind (if l_analyze o then bind (find_centre_default G c) (fun c' => Ok (analyze (l_sort o) (l_proj o) c')) else Ok c)
      (fun c' => bind (get_cluster_orbit G rd (l_orbit o) (o_nsnap (l_set o)) adv f c') (fun r => Ok (fst r, Some (snd r)))) =
        Ok (c', Some (skipn (line_number (o_nsnap (l_set o)) adv + 1) f)) /\
      same_stars (add_orbit G p (q_units (l_orbit o)) tt c) c' /\ p_g (c_ph c') = p_g (c_ph (add_orbit G p (q_units (l_orbit o)) tt c)).
  { have [c1 [E1 S1]] : exists c1, (if l_analyze o then bind (find_centre_default G c) (fun c' => Ok (analyze (l_sort o) (l_proj o) c')) else Ok c) = Ok c1 /\ same_stars c c1.
    { destruct (l_analyze o); [|by exists c]. have [c' [-> S]] := centre_found G U (populated_particles N). cbn [bind].
      eexists. split; [reflexivity|]. apply (same_trans S). apply same_skel. apply skel_analyze. }
    rewrite E1; cbn [bind]. rewrite GO; cbn [bind fst snd]. eexists. split; [reflexivity|].
    have [T1 [M1 [X1 [I1 [B1 [U1 [O1 [S2 K1]]]]]]]] := S1.
    have P1 : plain c1 by rewrite /plain U1.
    have [M3 [X3 [I3 [B3 [U3 [O3 [S3 [K3 _]]]]]]]] := add_orbit_plain p (q_units (l_orbit o)) tt P1.
    split; [|exact (add_orbit_g p _ _ S2 U1)].
    rewrite /same_stars M3 X3 I3 B3 U3 O3 S3 K3 M0 X0 I0 B0 U0 O0 S0 K0. split; [exact (add_orbit_t p _ _ S2 U1 T1)|]. tauto. }
  destruct (l_origin o) as [[]|] eqn:OO; first [exact CF | discriminate OG | by case: OG => E; subst og | idtac].
  rewrite GO; cbn [bind fst snd]. rewrite -/tt.
  set c0 := add_orbit G p (q_units (l_orbit o)) tt c in M0 X0 I0 B0 U0 O0 S0 K0 CF |- *.
  destruct (l_analyze o); [|by exists c0].
  have P' : plain c0 by rewrite /plain U0. have U' : c_units c0 <> Some Uamuse by rewrite U0.
  have O' : c_origin c0 = Some Ogalaxy by rewrite O0. have N' : populated c0 by rewrite /populated M0 X0.
  have [c2 [-> [S2 G2]]] := galaxy_tour G (l_sort o) P' U' O' N'. cbn [bind]. eexists. split; [reflexivity|]. by split.
Qed.
End WithGalpy.
