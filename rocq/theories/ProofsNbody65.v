(* Proofs: NBODY6 series with an orbit file. *)
From Coq Require Import String Ascii.
From Coq Require Import Init.Byte.
From Verif Require Import Base ModelCluster ModelOps ModelRecipes ModelStars ModelLoad ModelNbody6
  SpecUnits SpecStars SpecLoad SpecNbody6 ProofsNbody6 ProofsNbody62 ProofsNbody63 ProofsNbody64 ProofsLoad3.
Open Scope string_scope. Open Scope list_scope. Open Scope R_scope.
Set Implicit Arguments. Unset Strict Implicit.
Lemma skip_skip {A} n : forall m (l : list A), skipn n (skipn m l) = skipn (m + n) l.
Proof. elim=> [|m IH] l //. destruct l as [|a l]; [by rewrite !skipn_nil|]. exact (IH l). Qed.
Section WithGalpy.
Variable G : galpy.
Lemma orbit_at_skip rd cols f n m t p : orbit_at rd cols f (n + m) t p -> orbit_at rd cols (skipn n f) m t p.
Proof.
  move=> [l [N L]]. exists l. split; [|exact L]. rewrite -N. clear. elim: n f => [|n IH] f //. destruct f as [|a f]; [by destruct m|]. exact (IH f).
Qed.
Lemma orbit_series D rd ol oa has33 hasse zs f3 f33 f82 f83 t3 t33 t82 t83 fo (tt : nat -> R) (ps : nat -> six R) m :
  (forall j, (j <= m)%nat -> snap_records D rd has33 hasse (zs j) (f3 j) (f33 j) (f82 j) (f83 j)) ->
  orbit_at rd (q_cols (j_orbit ol)) fo (j_nsnap ol) (tt 0%nat) (ps 0%nat) ->
  (forall j, (1 <= j <= m)%nat -> orbit_at rd (q_cols (j_orbit oa)) fo (j_nsnap ol + j) (tt j) (ps j)) ->
  q_units (j_orbit ol) = None \/ q_units (j_orbit ol) = Some Unbody -> q_units (j_orbit oa) = None \/ q_units (j_orbit oa) = Some Unbody ->
  forall k, (k <= m)%nat ->
  let load fl := load_nbody6 G D rd ol (records f3 0 (S m) ++ t3) (given has33 (records f33 0 (S m) ++ t33)) (given hasse (records f82 0 (S m) ++ t82))
      (given hasse (records f83 0 (S m) ++ t83)) fl in
  exists v w v' w', load None = Ok v /\ advance_nbody6_times G D rd oa k v = Ok w /\ snap_loaded hasse (zs k) (x_cat w) /\
    load (Some fo) = Ok v' /\ advance_nbody6_times G D rd oa k v' = Ok w' /\
    x_out3 w' = x_out3 w /\ x_out33 w' = x_out33 w /\ x_82 w' = x_82 w /\ x_83 w' = x_83 w /\ x_ofile w' = Some (skipn (j_nsnap ol + k + 1) fo) /\
    x_ofile w = None /\
    (exists c, x_cat w' = set_cluster (x_cat w) c /\ p_g (c_ph c) = ps k /\
      p_t (c_ph c) = (if q_time (j_orbit (match k with O => ol | _ => oa end)) then tt k else p_t (c_ph (g_c (x_cat w)))) /\
      p_m (c_ph c) = p_m (c_ph (g_c (x_cat w))) /\ p_s (c_ph c) = p_s (c_ph (g_c (x_cat w))) /\ c_id c = c_id (g_c (x_cat w)) /\ c_sc c = c_sc (g_c (x_cat w)) /\
      p_c (c_ph c) = p_c (c_ph (g_c (x_cat w)))).
Proof.
  move=> H O0 OJ QL QA k. cbn zeta. elim: k => [|k IH] Hk.
  - have [v [w [E1 [E2 [L E3]]]]] := many_nbody6 G ol oa t3 t33 t82 t83 H Hk. have EW : v = w by cbn in E2; congruence. subst w.
    have U : c_units (g_c (x_cat v)) = Some Unbody by case: L => _ [_ [U _]].
    rewrite /load_nbody6 in E1. have [c [E4 C4]] := @orbit_nbody6 G D rd ol false _ _ _ _ fo v (tt 0%nat) (ps 0%nat) E1 U O0 QL.
    exists v, v. eexists. eexists. split; [exact E1|]. split; [reflexivity|]. split; [exact L|]. split; [exact E4|]. split; [reflexivity|]. cbn [x_out3 x_out33 x_82 x_83 x_ofile x_cat].
    do 4 (split; [reflexivity|]). split; [by rewrite Nat.add_0_r|]. split; [by rewrite E3|]. exists c. split; [reflexivity|exact C4].
  - have [v [w [v' [w' [E1 [E2 [_ [E4 [E5 [X1 [X2 [X3 [X4 [X5 [X6 _]]]]]]]]]]]]]]] := IH ltac:(lia).
    have [v0 [w1 [F1 [F2 [L F3]]]]] := many_nbody6 G ol oa t3 t33 t82 t83 H Hk. have EV : v0 = v by congruence. subst v0.
    have U : c_units (g_c (x_cat w1)) = Some Unbody by case: L => _ [_ [U _]].
    have A : get_nbody6 G D rd oa (x_out3 w) (x_out33 w) (x_82 w) (x_83 w) None true = Ok w1.
    { cbn [advance_nbody6_times] in F2. rewrite E2 in F2. cbn [bind] in F2. rewrite /advance_nbody6 X6 in F2. exact F2. }
    have OA : orbit_at rd (q_cols (j_orbit oa)) (skipn (j_nsnap ol + k + 1) fo) (line_number (j_nsnap oa) true) (tt (S k)) (ps (S k)).
    { apply orbit_at_skip. cbn [line_number]. have -> : (j_nsnap ol + k + 1 + 0 = j_nsnap ol + S k)%nat by lia. apply OJ. lia. }
    have [c [E6 C6]] := orbit_nbody6 A U OA QA.
    exists v, w1, v'. eexists. split; [exact E1|]. split; [exact F2|]. split; [exact L|]. split; [exact E4|].
    split. { cbn [advance_nbody6_times]. rewrite E5. cbn [bind]. rewrite /advance_nbody6 X1 X2 X3 X4 X5. exact E6. }
    cbn [x_out3 x_out33 x_82 x_83 x_ofile x_cat]. do 4 (split; [reflexivity|]). split.
    + f_equal. cbn [line_number]. rewrite skip_skip. f_equal. lia.
    + split; [by rewrite F3|]. exists c. split; [reflexivity|exact C6].
Qed.
End WithGalpy.
