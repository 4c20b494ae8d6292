From Coq Require Import String Ascii.
From Verif Require Import Base ModelCluster ModelOps ModelConv ModelRecipes ModelEnergy ModelDynamics ModelStars ModelLoad ModelOutput
  SpecUnits SpecFrame SpecStars SpecLoad SpecOutput SpecEnergy ProofsRecipes ProofsUnits ProofsConv ProofsFrame ProofsSees ProofsLoad ProofsLoad2 ProofsLoad3 ProofsLoad4.
Set Implicit Arguments.
Unset Strict Implicit.
Open Scope string_scope. Open Scope list_scope. Open Scope R_scope.

Lemma column_stack_ok cols n : (exists a t, cols = a :: t) -> Forall (fun l : list R => length l = n) cols ->
  column_stack cols = Ok (map (fun i => map (fun l => nth i l 0) cols) (seq 0 n)).
Proof.
  move=> [a [t E]] F. rewrite /column_stack. have H : length (hd [] cols) = n by rewrite E in F *; inversion F.
  rewrite H. have -> : forallb (fun l => Nat.eqb (length l) n) cols = true.
  { apply forallb_forall => l I. apply Nat.eqb_eq. by apply (proj1 (Forall_forall _ _) F). }
  done.
Qed.
Lemma column_stack_raises cols a b : In a cols -> In b cols -> length a <> length b -> column_stack cols = Raise.
Proof.
  move=> I J N. rewrite /column_stack. destruct (forallb _ cols) eqn:E => //. rewrite forallb_forall in E.
  have A := proj1 (Nat.eqb_eq _ _) (E _ I). have B := proj1 (Nat.eqb_eq _ _) (E _ J). congruence.
Qed.

(* snapout read back *)
Lemma savetxt_holds rd show rows w : printable rd show rows -> Forall (fun r => length r = w) rows ->
  file_holds rd 0 (savetxt show rows) rows w.
Proof.
  move=> P W. exists [], (savetxt show rows). split => //. split => //. split => //. clear W.
  induction P as [|r rows H P IH]; constructor => //. clear IH P. induction H as [|v r H _ IH]; constructor => //.
Qed.
Lemma stands_snap (names : list string) nums j s : NoDup names -> nth_error names j = Some s -> nth_error nums j = Some j ->
  stands_for names nums s j.
Proof.
  move=> ND N M. have [pre [post [E L]]] := nth_error_split _ _ N. exists pre, post. rewrite E L. split => //. split => //.
  rewrite E in ND. apply NoDup_remove in ND. move=> I. apply (proj2 ND). apply in_app_iff. by left.
Qed.
Lemma quantity_stands names nums rows s d i v k : quantity names nums rows s d i v -> stands_for names nums s k ->
  v = nth k (nth i rows []) 0.
Proof. move=> [[N _]|[k' [S <-]]] H; [by case: (N (stands_in H))|]. by rewrite (stands_unique S H). Qed.

Section WithGalpy.
Variable G : galpy.
Lemma snap_rows_ok cols n i k : (i < n)%nat -> nth k (nth i (map (fun i => map (fun l : list R => nth i l 0) cols) (seq 0 n)) []) 0 = nth i (nth k cols []) 0.
Proof.
  move=> H. rewrite (@nth_map' _ _ (fun i => map (fun l : list R => nth i l 0) cols) _ _ [] 0%nat) ?seq_length // seq_nth //.
  cbn [Nat.add]. destruct (Nat.lt_ge_cases k (length cols)) as [L|L].
  - by rewrite (@nth_map' _ _ (fun l : list R => nth i l 0) _ _ 0 []).
  - rewrite nth_overflow ?map_length // (nth_overflow cols) //. by destruct i.
Qed.
Lemma snap_widths cols n : Forall (fun r : list R => length r = length cols) (map (fun i => map (fun l : list R => nth i l 0) cols) (seq 0 n)).
Proof. apply Forall_forall => r I. apply in_map_iff in I. destruct I as [i [<- _]]. by rewrite map_length. Qed.

Lemma snapout_ok k n : aligned k n -> g_ntot k = n ->
  snapout None None k = Ok (map (fun i => map (fun l => nth i l 0)
     (if Nat.eqb (length (e_kw (g_sse k))) n then seven (g_c k) ++ [map IZR (c_id (g_c k))] ++ [e_kw (g_sse k)]
      else seven (g_c k) ++ [map IZR (c_id (g_c k))])) (seq 0 n)).
Proof.
  move=> [[A1 [A2 [A3 [A4 [A5 A6]]]]] [A7 [A8 _]]] N. rewrite /snapout N; cbn zeta.
  have F : Forall (fun l : list R => length l = n) (seven (g_c k) ++ [map IZR (c_id (g_c k))]).
  { repeat constructor => //. by rewrite map_length. }
  destruct (Nat.eqb_spec (length (e_kw (g_sse k))) n) as [E|E].
  - rewrite -app_assoc. apply column_stack_ok; [by do 2 eexists|]. rewrite app_assoc. apply Forall_app. split => //. by repeat constructor.
  - apply column_stack_ok => //. by do 2 eexists.
Qed.

(* the row of snapout and the star *)
Lemma snap_star names nums k n kw i st : (forall j s, nth_error snap_names j = Some s -> stands_for names nums s j) ->
  aligned k n -> (i < n)%nat ->
  row_star names nums (map (fun i => map (fun l => nth i l 0) ((seven (g_c k) ++ [map IZR (c_id (g_c k))]) ++ kw)) (seq 0 n)) i st ->
  same_star st (star_at k i).
Proof.
  move=> H A Hi. set cols := (_ ++ kw). rewrite /row_star; cbn zeta. move=> [Qm [Qx [Qy [Qz [Qu [Qv [Qw [_ [Qi _]]]]]]]]].
  have S j s : nth_error snap_names j = Some s -> stands_for names nums s j by apply H.
  have X j s v d : quantity names nums (map (fun i => map (fun l => nth i l 0) cols) (seq 0 n)) s d i v -> nth_error snap_names j = Some s ->
    v = nth i (nth j cols []) 0.
  { move=> Q E. rewrite (quantity_stands Q (S _ _ E)). by rewrite snap_rows_ok. }
  rewrite /same_star /star_at; cbn [w_s w_m w_id].
  have E0 := X 0%nat _ _ _ Qm eq_refl. have E1 := X 1%nat _ _ _ Qx eq_refl. have E2 := X 2%nat _ _ _ Qy eq_refl.
  have E3 := X 3%nat _ _ _ Qz eq_refl. have E4 := X 4%nat _ _ _ Qu eq_refl. have E5 := X 5%nat _ _ _ Qv eq_refl.
  have E6 := X 6%nat _ _ _ Qw eq_refl. cbn [cols seven app nth] in E0, E1, E2, E3, E4, E5, E6.
  split; [destruct (w_s st); cbn in *; by rewrite /map6 E1 E2 E3 E4 E5 E6|]. split => //.
  apply (Qi 7%nat _ (S 7%nat _ eq_refl)). rewrite snap_rows_ok //. cbn [cols seven app nth].
  have [_ [_ [L _]]] := A. by rewrite (@nth_map' _ _ IZR _ _ 0 0%Z) ?L.
Qed.

Lemma snap_stands j s : nth_error snap_names j = Some s -> stands_for snap_names (seq 0 8) s j.
Proof.
  move=> H. apply stands_snap => //; [by repeat constructor; cbn; intuition discriminate|].
  have L : (j < length snap_names)%nat by apply nth_error_Some; rewrite H. cbn in L. by do 8 (destruct j as [|j]; [done|]); lia.
Qed.
Lemma snap_stands_kw j s : nth_error snap_names_kw j = Some s -> stands_for snap_names_kw (seq 0 9) s j.
Proof.
  move=> H. apply stands_snap => //; [by repeat constructor; cbn; intuition discriminate|].
  have L : (j < length snap_names_kw)%nat by apply nth_error_Some; rewrite H. cbn in L. by do 9 (destruct j as [|j]; [done|]); lia.
Qed.
Lemma snap_fit names nums w : (forall j s, nth_error names j = Some s -> stands_for names nums s j) -> (length names <= w)%nat ->
  In "m" names -> columns_fit names nums w.
Proof.
  move=> H L M. split; [|by exists "m"; split; [left|]].
  move=> s _ I. have [j J] := In_nth_error _ _ I. exists j. split; [by apply H|].
  have : (j < length names)%nat by apply nth_error_Some; rewrite J. lia.
Qed.
Lemma snapout_back rd d o fn show k n rows : aligned k n -> g_ntot k = n -> (2 <= n)%nat -> snapout None None k = Ok rows ->
  printable rd show rows -> finds d (l_set o) fn (savetxt show rows) -> o_skip (l_set o) = 0%nat ->
  (l_names o = snap_names /\ l_nums o = seq 0 8) \/ (l_names o = snap_names_kw /\ l_nums o = seq 0 9 /\ length (e_kw (g_sse k)) = n) ->
  l_units o <> Some Uradec -> l_units o <> Some Uamuse ->
  exists v, load_snapshot G rd d o fn None = Ok v /\ aligned (v_cat v) n /\ g_ntot (v_cat v) = n /\
    (forall i, (i < n)%nat -> same_star (star_at (v_cat v) i) (star_at k i)) /\
    (l_names o = snap_names_kw -> e_kw (g_sse (v_cat v)) = e_kw (g_sse k)) /\
    c_units (g_c (v_cat v)) = l_units o /\ c_origin (g_c (v_cat v)) = l_origin o /\ p_t (c_ph (g_c (v_cat v))) = l_tphys o.
Proof.
  move=> A N L2 E P F SK NM U1 U2. rewrite (snapout_ok A N) in E. case: E => E.
  set cols := (if Nat.eqb _ _ then _ else _) in E.
  have [kw [EC KW]] : exists kw, cols = (seven (g_c k) ++ [map IZR (c_id (g_c k))]) ++ kw /\ (length (e_kw (g_sse k)) = n -> kw = [e_kw (g_sse k)]).
  { rewrite /cols. destruct (Nat.eqb_spec (length (e_kw (g_sse k))) n) as [Q|Q]; [by exists [e_kw (g_sse k)]|by exists []; rewrite app_nil_r]. }
  have W : Forall (fun r => length r = length cols) rows by rewrite -E; apply snap_widths.
  have LR : length rows = n by rewrite -E map_length seq_length.
  have LC : (8 <= length cols)%nat by rewrite EC app_length; cbn; lia.
  have FH : file_holds rd (o_skip (l_set o)) (savetxt show rows) rows (length cols) by rewrite SK; apply savetxt_holds.
  have ST : forall j s, nth_error (l_names o) j = Some s -> stands_for (l_names o) (l_nums o) s j.
  { case: NM => [[-> ->]|[-> [-> _]]]; [exact snap_stands|exact snap_stands_kw]. }
  have CF : columns_fit (l_names o) (l_nums o) (length cols).
  { apply snap_fit => //; case: NM => [[-> _]|[-> [_ Q]]]; try (cbn; tauto). cbn. rewrite EC (KW Q). cbn. lia. }
  have L2' : (2 <= length rows)%nat by rewrite LR. have W2 : (2 <= length cols)%nat by lia.
  have [v [EV [[[AL [NT [_ [RS [_ KWS]]]]] [UV [OV _]]] [_ TV]]]] := snapshot_read G false F FH W2 L2' CF U1 U2.
  exists v. split => //. rewrite LR in AL NT RS. split => //. split => //. split; [|split; [|by split]].
  - move=> i Hi. have := RS i Hi. rewrite -E EC. apply snap_star => //.
    move=> j s J. apply ST. case: NM => [[-> _]|[-> _]] //. by do 8 (destruct j as [|j]; [exact J|]); destruct j.
  - move=> Q. have L : length (e_kw (g_sse k)) = n by case: NM => [[Q1 _]|[_ [_ ?]]] //; rewrite Q1 in Q.
    have S8 : stands_for (l_names o) (l_nums o) "kw" 8 by apply ST; rewrite Q.
    rewrite (KWS _ S8) -E map_map EC (KW L). apply (nth_ext _ _ 0 0); [by rewrite map_length seq_length|].
    move=> i. rewrite map_length seq_length => Hi. rewrite (@nth_map' _ _ _ _ _ 0 0%nat) ?seq_length // seq_nth //.
Qed.

(* what leaves the program in another frame *)
Lemma shown_in c c2 u o U O : ready G c u o -> sees G c c2 -> ready G c2 U O -> SpecFrame.aligned c2 ->
  forall i, (i < length (p_m (c_ph c)))%nat ->
  let z := unit_size G (c_sc c) U in
  let d := match O with Ogalaxy => mk6 0 0 0 0 0 0 | Ocluster => p_g (galactic_view G c) | _ => galactic_centre G c end in
  row_shows z (sun_mass_of G c i) (relative6 (galactic_star G c i) d) (map (fun l => nth i l 0) (seven c2)).
Proof.
  move=> HR [V [_ [SC _]]] [HS [Hu [Hl [Ho Hf]]]] [A1 [A2 [A3 [A4 [A5 A6]]]]] i Hi. cbn zeta.
  have LM : length (p_m (c_ph c2)) = length (p_m (c_ph c)).
  { have := f_equal (fun p => length (p_m p)) V. by rewrite /galactic_view; cbn [p_m]; rewrite !map_length. }
  have Hi2 : (i < length (p_m (c_ph c2)))%nat by rewrite LM.
  rewrite /sun_mass_of /galactic_star /galactic_centre -V /galactic_view Hu SC; cbn [p_m p_s p_g p_c].
  rewrite /origin_shift Ho /map6; cbn [sx sy sz svx svy svz].
  set z := unit_size G (c_sc c) U.
  rewrite (@nth_map' _ _ (fun a => a * in_Msun z) _ _ 0 0) //.
  have X (f g e : R) (l : list R) : length l = length (p_m (c_ph c2)) -> nth i (map (fun a => (a + e) * g) l) f = (nth i l 0 + e) * g.
  { move=> L. by rewrite (@nth_map' _ _ (fun a => (a + e) * g) _ _ f 0) ?L. }
  rewrite !X //. rewrite /row_shows /relative6 /view6; cbn [sx sy sz svx svy svz seven map nth].
  destruct O; cbn [sx sy sz svx svy svz]; try (by case: Hf); repeat split; try lra.
Qed.
Lemma seven_rows c : SpecFrame.aligned c ->
  column_stack (seven c) = Ok (map (fun i => map (fun l => nth i l 0) (seven c)) (seq 0 (length (p_m (c_ph c))))).
Proof.
  move=> [A1 [A2 [A3 [A4 [A5 A6]]]]]. apply column_stack_ok; [by do 2 eexists|]. by repeat constructor.
Qed.

Lemma sees_aligned c c2 : sees G c c2 -> SpecFrame.aligned c -> SpecFrame.aligned c2 /\ length (p_m (c_ph c2)) = length (p_m (c_ph c)).
Proof.
  move=> [V _] [A1 [A2 [A3 [A4 [A5 A6]]]]].
  have X (f : phys -> nat) : f (galactic_view G c2) = f (galactic_view G c) by rewrite V.
  have L0 := X (fun p => length (p_m p)). have L1 := X (fun p => length (sx (p_s p))). have L2 := X (fun p => length (sy (p_s p))).
  have L3 := X (fun p => length (sz (p_s p))). have L4 := X (fun p => length (svx (p_s p))). have L5 := X (fun p => length (svy (p_s p))).
  have L6 := X (fun p => length (svz (p_s p))).
  rewrite /galactic_view in L0, L1, L2, L3, L4, L5, L6. cbn [p_m p_s sx sy sz svx svy svz] in L0, L1, L2, L3, L4, L5, L6.
  rewrite !map_length in L0, L1, L2, L3, L4, L5, L6. rewrite /SpecFrame.aligned. cbn zeta. repeat split; congruence.
Qed.
Lemma centre_ready s c u o : ready G c u o -> ready G (to_centre s c) u Ocentre.
Proof.
  move=> [HS [Hu [Hl [Ho Hf]]]]. have E := to_centre_flat s Hu Hl Ho Hf.
  have [E1 [E2 [_ [_ [_ [E6 _]]]]]] := skel_eq_fields E. by rewrite /ready E1 E2 E6.
Qed.
Lemma nbody_units c u o : ready G c u o -> to_nbody G c = to_units G (Ureq Unbody) c.
Proof. move=> [_ [Hu _]]. by rewrite /to_units Hu. Qed.
Lemma kpckms_units c u o : ready G c u o -> to_kpckms G c = to_units G (Ureq Ukpckms) c.
Proof. move=> [_ [Hu _]]. by rewrite /to_units Hu. Qed.

Lemma kp_to_galaxy s c u o : c_units c = Some u -> linear u -> c_origin c = Some o -> flat o -> kp c (to_galaxy G s c).
Proof.
  move=> Hu Hl Ho Hf. rewrite /to_galaxy Ho Hu. destruct o; [ | | | by case: Hf]; (destruct u; try (by case: Hl));
    (eapply kp_trans; [|apply kp_analyze]); try apply kp_refl;
    first [ eapply kp_trans; [eapply kp_to_cluster; [exact Hu|exact Hl|exact Ho|exact Hf] |]; apply kp_stars; by rewrite /= ?map_length
          | apply kp_stars; by rewrite /= ?map_length].
Qed.
Lemma sees_galaxy c d s : sees G c d -> sees G c (to_galaxy G s d).
Proof.
  move=> H. apply (sees_trans H). have [u [o R]] := sees_ready H. have [HS [Hu [Hl [Ho Hf]]]] := R.
  apply (@skel_kp_view _ _ _ u o Ogalaxy) => //; [exact (kp_to_galaxy s Hu Hl Ho Hf)|exact (to_galaxy_flat G s Hu Hl Ho Hf)].
Qed.
Lemma galaxy_ready s c u o : ready G c u o -> ready G (to_galaxy G s c) u Ogalaxy.
Proof.
  move=> [HS [Hu [Hl [Ho Hf]]]]. have E := to_galaxy_flat G s Hu Hl Ho Hf.
  have [E1 [E2 [_ [_ [_ [E6 _]]]]]] := skel_eq_fields E. by rewrite /ready E1 E2 E6.
Qed.

(* fortout without resetting the scales *)
Lemma fortout_ok k u o sse proj n : ready G (g_c k) u o -> SpecFrame.aligned (g_c k) -> analyze true true (g_c k) = g_c k ->
  length (p_m (c_ph (g_c k))) = n ->
  (sse = true -> length (g_m0 k) = n /\ length (e_kw (g_sse k)) = n /\ length (e_ep (g_sse k)) = n /\ length (e_ospin (g_sse k)) = n) ->
  exists rows q c', fortout G None sse proj k = Ok (rows, q, set_cluster k c') /\ restored (g_c k) c' /\ length rows = n /\
    (forall i, (i < n)%nat -> length (nth i rows []) = 7%nat /\
       row_shows (unit_size G (c_sc (g_c k)) Unbody) (sun_mass_of G (g_c k) i) (relative6 (galactic_star G (g_c k) i) (galactic_centre G (g_c k))) (nth i rows [])) /\
    (sse = true -> exists t, q = Some t /\ length t = n /\ forall i, (i < n)%nat ->
       nth i t [] = [nth i (g_m0 k) 0; nth i (e_kw (g_sse k)) 0; sun_mass_of G (g_c k) i; nth i (e_ep (g_sse k)) 0; nth i (e_ospin (g_sse k)) 0]).
Proof.
  move=> HR HL HA EN HE. set c := g_c k in HR HL HA EN |- *. rewrite /fortout -/c; cbn zeta; cbn [bind].
  have S1 := sees_centre false (sees_refl HR). have R1 := centre_ready false HR.
  set c1 := to_centre false c in S1 R1 |- *.
  rewrite (nbody_units R1). have S3 := sees_units S1 (u := Unbody) ltac:(done).
  have [_ [R3 _]] := to_units_view R1 (u' := Unbody) ltac:(done). set c3 := to_units G (Ureq Unbody) c1 in S3 R3 |- *.
  have [A3 L3] := sees_aligned S3 HL. rewrite (seven_rows A3) L3 EN; cbn [bind].
  have S4 := sees_pckms S3. have E4 : to_pckms G c3 = to_units G (Ureq Upckms) c3 by have [_ [Q _]] := R3; rewrite /to_units Q.
  have [_ [R4 _]] := to_units_view R3 (u' := Upckms) ltac:(done). rewrite -E4 in R4. set c4 := to_pckms G c3 in S4 R4 E4 |- *.
  have [A4 L4] := sees_aligned S4 HL.
  have BR := bracket_sees HR S4 HA. cbn zeta in BR.
  have RW : forall i, (i < n)%nat -> let rows := map (fun i => map (fun l => nth i l 0) (seven c3)) (seq 0 n) in
      length (nth i rows []) = 7%nat /\ row_shows (unit_size G (c_sc c) Unbody) (sun_mass_of G c i) (relative6 (galactic_star G c i) (galactic_centre G c)) (nth i rows []).
  { move=> i Hi rows. rewrite /rows (@nth_map' _ _ (fun i => map (fun l => nth i l 0) (seven c3)) _ _ [] 0%nat) ?seq_length // seq_nth //; cbn [Nat.add].
    split => //. apply (@shown_in c c3 u o Unbody Ocentre) => //. by rewrite EN. }
  destruct sse; cbn [bind].
  - have [M0 [KW [EP OS]]] := HE eq_refl.
    have -> : column_stack (sse_columns k c4) = Ok (map (fun i => map (fun l => nth i l 0) (sse_columns k c4)) (seq 0 n)).
    { apply column_stack_ok; [by do 2 eexists|]. rewrite EN in L4. repeat constructor => //. }
    cbn [bind]. do 3 eexists. split; [reflexivity|]. split; [exact BR|]. split; [by rewrite map_length seq_length|]. split; [exact RW|].
    move=> _. eexists. split; [reflexivity|]. split; [by rewrite map_length seq_length|]. move=> i Hi.
    rewrite (@nth_map' _ _ (fun i => map (fun l => nth i l 0) (sse_columns k c4)) _ _ [] 0%nat) ?seq_length // seq_nth //; cbn [Nat.add sse_columns map].
    do 2 f_equal. f_equal.
    have Hi' : (i < length (p_m (c_ph c)))%nat by rewrite EN.
    have [Q _] := shown_in HR S4 R4 A4 Hi'. move: Q. change (in_Msun (unit_size G (c_sc c) Upckms)) with 1. cbn [seven map nth]. lra.
  - do 3 eexists. split; [reflexivity|]. split; [exact BR|]. split; [by rewrite map_length seq_length|]. split; [exact RW|]. done.
Qed.

Lemma sseout_ok k u o n : ready G (g_c k) u o -> SpecFrame.aligned (g_c k) -> analyze true true (g_c k) = g_c k ->
  length (p_m (c_ph (g_c k))) = n -> length (g_m0 k) = n -> length (e_kw (g_sse k)) = n -> length (e_ep (g_sse k)) = n -> length (e_ospin (g_sse k)) = n ->
  exists rows c', sseout G k = Ok (rows, set_cluster k c') /\ restored (g_c k) c' /\ length rows = n /\
    forall i, (i < n)%nat ->
       nth i rows [] = [nth i (g_m0 k) 0; nth i (e_kw (g_sse k)) 0; sun_mass_of G (g_c k) i; nth i (e_ep (g_sse k)) 0; nth i (e_ospin (g_sse k)) 0].
Proof.
  move=> HR HL HA EN M0 KW EP OS. set c := g_c k in HR HL HA EN |- *. rewrite /sseout -/c; cbn zeta.
  have S4 := sees_pckms (sees_refl HR). have E4 : to_pckms G c = to_units G (Ureq Upckms) c by have [_ [Q _]] := HR; rewrite /to_units Q.
  have [_ [R4 _]] := to_units_view HR (u' := Upckms) ltac:(done). rewrite -E4 in R4. set c4 := to_pckms G c in S4 R4 E4 |- *.
  have [A4 L4] := sees_aligned S4 HL. have BR := bracket_sees HR S4 HA. cbn zeta in BR.
  have -> : column_stack (sse_columns k c4) = Ok (map (fun i => map (fun l => nth i l 0) (sse_columns k c4)) (seq 0 n)).
  { apply column_stack_ok; [by do 2 eexists|]. rewrite EN in L4. repeat constructor => //. }
  cbn [bind]. do 2 eexists. split; [reflexivity|]. split; [exact BR|]. split; [by rewrite map_length seq_length|].
  move=> i Hi.
  rewrite (@nth_map' _ _ (fun i => map (fun l => nth i l 0) (sse_columns k c4)) _ _ [] 0%nat) ?seq_length // seq_nth //; cbn [Nat.add sse_columns map].
  do 2 f_equal. f_equal. have Hi' : (i < length (p_m (c_ph c)))%nat by rewrite EN.
  have [Q _] := shown_in HR S4 R4 A4 Hi'. move: Q. change (in_Msun (unit_size G (c_sc c) Upckms)) with 1. cbn [seven map nth]. lra.
Qed.

(* units written by gyrout *)
Definition gyr_size : usize := mkSize 1000 gyr_mcon 1000 (gyr_vcon G).
Lemma gyrout_ok k u o n eps : ready G (g_c k) u o -> SpecFrame.aligned (g_c k) -> analyze true true (g_c k) = g_c k ->
  length (p_m (c_ph (g_c k))) = n -> velocity_in_kpcGyr G solar_vo solar_ro <> 0 ->
  (forall l v, eps = Some (Softs l, v) -> length l = n) -> (forall e v, eps = Some (e, Some v) -> linear v) ->
  exists rows c', gyrout G eps k = Ok (rows, set_cluster k c') /\ restored (g_c k) c' /\ length rows = n /\
    forall i, (i < n)%nat -> row_shows gyr_size (sun_mass_of G (g_c k) i) (galactic_star G (g_c k) i) (nth i rows []) /\
      length (nth i rows []) = (match eps with None => 7 | Some _ => 8 end)%nat /\
      (forall e v, eps = Some (e, v) -> let w := match v with Some w => w | None => u end in
         nth 7 (nth i rows []) 0 * 1000 = match e with Soft x => x | Softs l => nth i l 0 end * in_pc (unit_size G (c_sc (g_c k)) w)).
Proof.
  move=> HR HL HA EN VN EL EU. set c := g_c k in HR HL HA EN |- *. rewrite /gyrout -/c; cbn zeta.
  have S1 := sees_galaxy false (sees_refl HR). have R1 := galaxy_ready false HR.
  set c1 := to_galaxy G false c in S1 R1 |- *.
  rewrite (kpckms_units R1). have S3 := sees_units S1 (u := Ukpckms) ltac:(done).
  have [_ [R3 _]] := to_units_view R1 (u' := Ukpckms) ltac:(done). set c3 := to_units G (Ureq Ukpckms) c1 in S3 R3 |- *.
  have [A3 L3] := sees_aligned S3 HL. have [B1 [B2 [B3 [B4 [B5 B6]]]]] := A3.
  have BR := bracket_sees HR S3 HA. cbn zeta in BR. rewrite EN in L3.
  have [HS3 [Hu3 _]] := R3. have SC : c_sc c3 = c_sc c by have [_ [_ [Q _]]] := S3.
  have [HS [Hu [Hl _]]] := HR.
  set base := [vdiv _ _; _; _; _; _; _; _].
  set extra := (match eps with None => [] | Some (e, v) => [gyr_eps e (match v with Some w => Some w | None => c_units c end) c3] end).
  have -> : match eps with None => base | Some (e, v) => base ++ [gyr_eps e (match v with Some w => Some w | None => c_units c end) c3] end = base ++ extra.
  { rewrite /extra. by destruct eps as [[e v]|]. }
  have LE : Forall (fun l : list R => length l = n) extra.
  { rewrite /extra. destruct eps as [[e v]|] => //. repeat constructor. rewrite /gyr_eps. destruct e as [x|l]; [by rewrite repeat_length|].
    rewrite map_length. exact (EL l v eq_refl). }
  have -> : column_stack (base ++ extra) = Ok (map (fun i => map (fun l => nth i l 0) (base ++ extra)) (seq 0 n)).
  { apply column_stack_ok; [by do 2 eexists|]. apply Forall_app. split => //. rewrite /base /vdiv. repeat constructor; rewrite ?map_length; congruence. }
  cbn [bind]. do 2 eexists. split; [reflexivity|]. split; [exact BR|]. split; [by rewrite map_length seq_length|].
  move=> i Hi.
  rewrite (@nth_map' _ _ (fun i => map (fun l => nth i l 0) (base ++ extra)) _ _ [] 0%nat) ?seq_length // seq_nth //; cbn [Nat.add].
  have Hi' : (i < length (p_m (c_ph c)))%nat by rewrite EN.
  have VN' : gyr_vcon G <> 0 by rewrite /gyr_vcon; apply Rmult_integral_contrapositive; split; [lra|by apply Rinv_neq_0_compat].
  have MN : gyr_mcon <> 0 by rewrite /gyr_mcon; lra.
  split; [|split].
  - have Q := shown_in HR S3 R3 A3 Hi'. cbn zeta in Q. move: Q.
    rewrite /row_shows /relative6. cbn [sx sy sz svx svy svz seven map nth app base].
    change (in_Msun (unit_size G (c_sc c) Ukpckms)) with 1. change (in_pc (unit_size G (c_sc c) Ukpckms)) with 1000. change (in_kms (unit_size G (c_sc c) Ukpckms)) with 1.
    change (in_Msun gyr_size) with gyr_mcon. change (in_pc gyr_size) with 1000. change (in_kms gyr_size) with (gyr_vcon G).
    have X (a : R) (l : list R) : length l = n -> nth i (vdiv l a) 0 = nth i l 0 / a.
    { move=> L. rewrite /vdiv. by rewrite (@nth_map' _ _ (fun b => b / a) _ _ 0 0) ?L. }
    rewrite !X; try congruence. move=> [Q0 [Q1 [Q2 [Q3 [Q4 [Q5 Q6]]]]]].
    split; [rewrite -Q0; by field|]. do 3 (split; [lra|]). split; [have -> : svx (galactic_star G c i) = nth i (svx (p_s (c_ph c3))) 0 by lra|]; [by field|].
    split; [have -> : svy (galactic_star G c i) = nth i (svy (p_s (c_ph c3))) 0 by lra|]; [by field|].
    have -> : svz (galactic_star G c i) = nth i (svz (p_s (c_ph c3))) 0 by lra. by field.
  - rewrite map_length app_length. rewrite /extra. by destruct eps as [[e v]|].
  - move=> e v Ee. cbn zeta. rewrite /extra Ee. cbn [base app map nth].
    have -> : (match v with Some w => Some w | None => c_units c end) = Some (match v with Some w => w | None => u end) by destruct v.
    set w := (match v with Some w => w | None => u end).
    have LW : linear w by rewrite /w; destruct v as [w'|] => //; exact (EU e w' Ee).
    have CV x : convert_length x w c3 * 1000 = x * in_pc (unit_size G (c_sc c) w).
    { rewrite (length_correct x HS3 Hu3 LW) // SC /rsc. change (in_pc (unit_size G (c_sc c) Ukpckms)) with 1000. field. }
    rewrite /gyr_eps. destruct e as [x|l].
    + rewrite L3 (nth_indep _ 0 (convert_length x w c3)) ?repeat_length // nth_repeat //.
    + have Ll := EL l v Ee. by rewrite (@nth_map' _ _ (fun x => convert_length x w c3) _ _ 0 0) ?Ll.
Qed.
End WithGalpy.
