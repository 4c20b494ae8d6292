(* Advancing from snapshot to snapshot. *)
From Coq Require Import String Ascii.
From Verif Require Import Base ModelCluster ModelOps ModelConv ModelRecipes ModelCoords ModelCentre ModelStars SpecUnits SpecStars ModelLoad SpecLoad
  ProofsRecipes ProofsStars ProofsStars2 ProofsUnits ProofsFrame ProofsSubset2 ProofsLoad ProofsLoad2 ProofsLoad3 ProofsLoad4.
Set Implicit Arguments.
Unset Strict Implicit.
Open Scope string_scope. Open Scope list_scope. Open Scope R_scope.

Lemma append_cancel_l a b c : append a b = append a c -> b = c.
Proof. induction a as [|x a IH] => //=. case. exact IH. Qed.
Lemma append_cancel_r b c e : append b e = append c e -> b = c.
Proof.
  move=> H. have L : String.length b = String.length c.
  { have := f_equal String.length H. rewrite !append_length. lia. }
  revert c H L. induction b as [|x b IH]; case => [|y c] //= H L. case: H => -> H. f_equal. apply IH => //. by case: L.
Qed.
(* different numbers, different names *)
Lemma names_differ o n n' l l' j : n <> n' -> search (set_nsnap o n) None l -> search (set_nsnap o n') None l' -> (j < 2)%nat ->
  nth j l "" <> nth j l' "".
Proof.
  move=> N [w [s [num [W [S [M ->]]]]]] [w' [s' [num' [W' [S' [M' ->]]]]]] J. cbn [set_nsnap o_wdir o_snapdir o_nsnap o_nzfill o_snapbase o_snapend] in *.
  have E1 := slashed_unique W W'. have E2 := slashed_unique S S'. subst w' s'.
  have X : append (o_snapbase o) (append num (o_snapend o)) = append (o_snapbase o) (append num' (o_snapend o)) -> False.
  { move=> /append_cancel_l /append_cancel_r E. subst num'. have [V _] := M. have [V' _] := M'. congruence. }
  destruct j as [|[|j]]; [| |lia]; cbn [nth] => E; apply X; [by move: E => /append_cancel_l /append_cancel_l|by move: E => /append_cancel_l].
Qed.

Section WithGalpy.
Variable G : galpy.
Lemma advance_one rd d a proj v u og names nums w rows :
  v_units v = u -> v_origin v = og -> u <> Some Uradec -> u <> Some Uamuse -> plain_advance a -> v_orbit v = None ->
  advance_columns a = (names, nums) -> columns_fit names nums w -> on_disk rd d (v_set v) (o_nsnap (v_set v) + 1) rows w ->
  exists v', advance_snapshot G rd d a proj v = Ok v' /\
    loaded_from names nums rows u og (set_nsnap (v_set v) (o_nsnap (v_set v) + 1)) v' /\ v_orbit v' = None /\
    p_t (c_ph (g_c (v_cat v'))) = w_tphys a.
Proof.
  move=> EU EO U1 U2 [A1 [A2 A3]] OF CO CF [f [FF [FH [W2 L2]]]].
  rewrite /advance_snapshot; cbn zeta. rewrite A2 A3 OF. set o := adv_load_opts a v proj.
  have ES : l_set o = set_nsnap (v_set v) (o_nsnap (v_set v) + 1) by rewrite /o /adv_load_opts /next_nsnap A1.
  have EN : l_names o = names /\ l_nums o = nums.
  { rewrite /o /adv_load_opts; cbn zeta; cbn [l_names l_nums]. rewrite -/(advance_columns a) CO. done. }
  have [N1 N2] := EN. have UO : l_units o = u by []. have OO : l_origin o = og by [].
  have [v' [E [R [OV T]]]] : exists v', get_snapshot G rd d o None None true = Ok v' /\ reads o rows v' /\ v_orbit v' = None /\ p_t (c_ph (g_c (v_cat v'))) = l_tphys o.
  { apply (@snapshot_read G rd d o None f rows w true) => //; rewrite ?ES ?N1 ?N2 ?UO //. }
  rewrite E; cbn [bind]. rewrite /reads N1 N2 UO OO ES in R. have [[_ [NT _]] _] := R.
  rewrite NT. destruct (Nat.eqb_spec (length rows) 0) as [Q|Q]; [lia|]. by exists v'.
Qed.
Lemma advance_to_orbit rd d a proj v u og names nums w rows fo k t p N :
  v_units v = Some u -> v_origin v = Some og -> u <> Uradec -> u <> Uamuse -> og <> Osky -> next_nsnap a v = N -> w_filename a = None -> w_ofile a = None -> v_orbit v = Some (skipn k fo) ->
  q_units (w_orbit a) = None \/ q_units (w_orbit a) = Some u ->
  advance_columns a = (names, nums) -> columns_fit names nums w -> on_disk rd d (v_set v) N rows w ->
  orbit_at rd (q_cols (w_orbit a)) fo k t p ->
  exists v', advance_snapshot G rd d a proj v = Ok v' /\
    loaded_from names nums rows (Some u) (Some og) (set_nsnap (v_set v) N) v' /\ v_orbit v' = Some (skipn (k + 1) fo) /\
    p_g (c_ph (g_c (v_cat v'))) = p /\ p_t (c_ph (g_c (v_cat v'))) = if q_time (w_orbit a) then t else w_tphys a.
Proof.
  move=> EU EO U1 U2 OS A1 A2 A3 OF QU CO CF [f [FF [FH [W2 L2]]]] [l [NL OL]].
  rewrite /advance_snapshot; cbn zeta. rewrite A2 A3 OF. set o := adv_load_opts a v proj.
  have ES : l_set o = set_nsnap (v_set v) N by rewrite /o /adv_load_opts; cbn zeta; cbn [l_set]; rewrite A1.
  have EN : l_names o = names /\ l_nums o = nums.
  { rewrite /o /adv_load_opts; cbn zeta; cbn [l_names l_nums]. rewrite -/(advance_columns a) CO. done. }
  have [N1 N2] := EN. have UO : l_units o = Some u by []. have OO : l_origin o = Some og by [].
  have FF' : finds d (l_set o) None f by rewrite ES.
  have FH' : file_holds rd (o_skip (l_set o)) f rows w by rewrite ES.
  have CF' : columns_fit (l_names o) (l_nums o) w by rewrite N1 N2.
  have U1' : l_units o <> Some Uradec by rewrite UO; case. have U2' : l_units o <> Some Uamuse by rewrite UO; case.
  have NL' : nth_error (skipn k fo) (line_number (o_nsnap (l_set o)) true) = Some l.
  { rewrite /line_number. have [pre [post [-> L]]] := nth_error_split _ _ NL. rewrite -L skipn_app skipn_all Nat.sub_diag. done. }
  have [v' [E [R [OV [c0 [C1 [C2 [C3 [C4 C5]]]]]]]]] := snapshot_read_orbit G FF' FH' W2 L2 CF' U1' U2' OO OS NL' OL.
  rewrite E; cbn [bind]. rewrite /reads N1 N2 UO OO ES in R. have [[_ [NT _]] _] := R.
  rewrite NT. destruct (Nat.eqb_spec (length rows) 0) as [Q|Q]; [lia|]. exists v'. split => //. split => //.
  split. { rewrite OV /line_number. cbn [Nat.add]. f_equal. clear. revert fo. induction k as [|k IH] => fo //. destruct fo => //=. apply IH. }
  have EQ : q_units (l_orbit o) = q_units (w_orbit a) by []. have ET : q_time (l_orbit o) = q_time (w_orbit a) by []. have EW : l_tphys o = w_tphys a by [].
  rewrite EQ ET in C4 C5. rewrite C4 C5. rewrite UO in C1.
  have P0 : plain c0 by rewrite /plain C1; case.
  case: QU => ->.
  - have [Q1 Q2] := add_orbit_none G p (if q_time (w_orbit a) then Some t else None) c0. rewrite Q1. split => //.
    destruct (q_time (w_orbit a)); [by apply Q2|]. have [_ [_ [_ [_ [_ [_ [_ [_ [_ T]]]]]]]]] := add_orbit_plain G p None None P0.
    by rewrite (T eq_refl) C2.
  - have [Q1 Q2] := add_orbit_same G p (if q_time (w_orbit a) then Some t else None) C1. rewrite Q1. split => //.
    destruct (q_time (w_orbit a)); [by apply Q2|]. have [_ [_ [_ [_ [_ [_ [_ [_ [_ T]]]]]]]]] := add_orbit_plain G p (Some u) None P0.
    by rewrite (T eq_refl) C2.
Qed.
Lemma advance_one_orbit rd d a proj v u og names nums w rows fo k t p :
  v_units v = Some u -> v_origin v = Some og -> u <> Uradec -> u <> Uamuse -> og <> Osky -> plain_advance a -> v_orbit v = Some (skipn k fo) ->
  q_units (w_orbit a) = None \/ q_units (w_orbit a) = Some u ->
  advance_columns a = (names, nums) -> columns_fit names nums w -> on_disk rd d (v_set v) (o_nsnap (v_set v) + 1) rows w ->
  orbit_at rd (q_cols (w_orbit a)) fo k t p ->
  exists v', advance_snapshot G rd d a proj v = Ok v' /\
    loaded_from names nums rows (Some u) (Some og) (set_nsnap (v_set v) (o_nsnap (v_set v) + 1)) v' /\ v_orbit v' = Some (skipn (k + 1) fo) /\
    p_g (c_ph (g_c (v_cat v'))) = p /\ p_t (c_ph (g_c (v_cat v'))) = if q_time (w_orbit a) then t else w_tphys a.
Proof.
  move=> EU EO U1 U2 OS [A1 [A2 A3]] OF QU CO CF D OA.
  have N : next_nsnap a v = (o_nsnap (v_set v) + 1)%nat by rewrite /next_nsnap A1.
  exact (advance_to_orbit proj EU EO U1 U2 OS N A2 A3 OF QU CO CF D OA).
Qed.
Lemma set_nsnap_set o n m : set_nsnap (set_nsnap o n) m = set_nsnap o m. Proof. by []. Qed.
Lemma on_disk_set rd d o k n rows w : on_disk rd d (set_nsnap o k) n rows w = on_disk rd d o n rows w. Proof. by []. Qed.
Lemma set_same o : set_nsnap o (o_nsnap o) = o. Proof. by destruct o. Qed.

Lemma advance_many rd d a proj v u og names nums w rows m :
  v_units v = u -> v_origin v = og -> u <> Some Uradec -> u <> Some Uamuse -> plain_advance a -> v_orbit v = None ->
  advance_columns a = (names, nums) -> columns_fit names nums w ->
  (forall j, (1 <= j <= m)%nat -> on_disk rd d (v_set v) (o_nsnap (v_set v) + j) (rows (o_nsnap (v_set v) + j)%nat) w) ->
  let n := o_nsnap (v_set v) in
  exists v', advance_times G rd d a proj m v = Ok v' /\ v_set v' = set_nsnap (v_set v) (n + m) /\ v_units v' = u /\ v_origin v' = og /\ v_orbit v' = None /\
    (m <> 0%nat -> loaded_from names nums (rows (n + m)%nat) u og (set_nsnap (v_set v) (n + m)) v').
Proof.
  move=> EU EO U1 U2 A OF CO CF. induction m as [|m IH] => D n; cbn [advance_times].
  - exists v. rewrite Nat.add_0_r set_same. done.
  - have [v1 [-> [S1 [W1 [O1 [F1 _]]]]]] := IH ltac:(move=> j Hj; apply D; lia). cbn [bind]. rewrite -/n in S1.
    have N1 : o_nsnap (v_set v1) = (n + m)%nat by rewrite S1.
    have D1 : on_disk rd d (v_set v1) (o_nsnap (v_set v1) + 1) (rows (n + S m)%nat) w.
    { rewrite N1 S1 on_disk_set. have -> : (n + m + 1 = n + S m)%nat by lia. apply D. lia. }
    have [v2 [-> [R [F2 _]]]] := advance_one proj W1 O1 U1 U2 A F1 CO CF D1. rewrite N1 S1 set_nsnap_set in R.
    have E : (n + m + 1 = n + S m)%nat by lia. rewrite E in R. exists v2. have [_ [_ [_ [R4 [R5 R6]]]]] := R. rewrite R4 R5 R6. done.
Qed.
Lemma advance_many_orbit rd d a proj v u og names nums w rows fo ts ps m :
  v_units v = Some u -> v_origin v = Some og -> u <> Uradec -> u <> Uamuse -> og <> Osky -> plain_advance a ->
  v_orbit v = Some (skipn (o_nsnap (v_set v) + 1) fo) -> q_units (w_orbit a) = None \/ q_units (w_orbit a) = Some u ->
  advance_columns a = (names, nums) -> columns_fit names nums w ->
  (forall j, (1 <= j <= m)%nat -> on_disk rd d (v_set v) (o_nsnap (v_set v) + j) (rows (o_nsnap (v_set v) + j)%nat) w /\
     orbit_at rd (q_cols (w_orbit a)) fo (o_nsnap (v_set v) + j) (ts (o_nsnap (v_set v) + j)%nat) (ps (o_nsnap (v_set v) + j)%nat)) ->
  let n := o_nsnap (v_set v) in
  exists v', advance_times G rd d a proj m v = Ok v' /\ v_set v' = set_nsnap (v_set v) (n + m) /\ v_units v' = Some u /\ v_origin v' = Some og /\
    v_orbit v' = Some (skipn (n + m + 1) fo) /\
    (m <> 0%nat -> loaded_from names nums (rows (n + m)%nat) (Some u) (Some og) (set_nsnap (v_set v) (n + m)) v' /\
       p_g (c_ph (g_c (v_cat v'))) = ps (n + m)%nat /\
       p_t (c_ph (g_c (v_cat v'))) = if q_time (w_orbit a) then ts (n + m)%nat else w_tphys a).
Proof.
  move=> EU EO U1 U2 OS A OF QU CO CF. induction m as [|m IH] => D n; cbn [advance_times].
  - exists v. rewrite Nat.add_0_r set_same. done.
  - have [v1 [-> [S1 [W1 [O1 [F1 _]]]]]] := IH ltac:(move=> j Hj; apply D; lia). cbn [bind]. rewrite -/n in S1 F1.
    have N1 : o_nsnap (v_set v1) = (n + m)%nat by rewrite S1. have E : (n + m + 1 = n + S m)%nat by lia.
    have [D1 D2] := D (S m) ltac:(lia). rewrite -/n in D1 D2.
    have D1' : on_disk rd d (v_set v1) (o_nsnap (v_set v1) + 1) (rows (n + S m)%nat) w by rewrite N1 S1 on_disk_set E.
    rewrite E in F1.
    have [v2 [-> [R [F2 [P2 T2]]]]] := advance_one_orbit proj W1 O1 U1 U2 OS A F1 QU CO CF D1' D2. rewrite N1 S1 set_nsnap_set E in R.
    exists v2. have [_ [_ [_ [R4 [R5 R6]]]]] := R. rewrite R4 R5 R6 F2 P2 T2. done.
Qed.
End WithGalpy.
