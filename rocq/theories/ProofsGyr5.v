(* The new gyrfalcON reader; stars moved to the density centre. *)
From Coq Require Import String Ascii.
From Verif Require Import Base ModelCluster ModelOps ModelRecipes ModelCoords ModelCentre ModelStars SpecStars ModelLoad SpecLoad
  ProofsRecipes ProofsStars ProofsStars2 ProofsUnits ProofsFrame ProofsLoad ProofsLoad2 ProofsLoad3 ProofsLoad4 ProofsLoad5 ModelGyr SpecGyr ProofsGyr ProofsGyr2 ProofsGyr3 ProofsGyr4.
Set Implicit Arguments.
Unset Strict Implicit.
Open Scope string_scope. Open Scope list_scope. Open Scope R_scope.

Lemma line_holds_nemo rd l r : line_holds rd l r -> nemo_line rd l r.
Proof.
  move=> F. split; [|by elim: F => [|a b l' r' [H _] F IH]; constructor].
  elim: F => [|a b l' r' [_ P] F IH] //= [E|] //. by rewrite E in P.
Qed.
Lemma uniform_nemo rd skip n g t rows f : (0 < n)%nat -> uniform_record rd skip n g t rows f -> nemo_record rd skip g t rows f.
Proof.
  move=> N [hdr [data [-> [L [E [H [F W]]]]]]]. exists hdr, data. split => //. split; [lia|]. split; [by move=> Z; rewrite -E Z /= in N; lia|].
  split; [by rewrite E|]. split => //. elim: F => [|a b l' r' Q F IH]; constructor => //. by apply line_holds_nemo.
Qed.
Lemma Forall2_len {A B} (P : A -> B -> Prop) l r : Forall2 P l r -> length l = length r.
Proof. by elim=> [|a b l' r' _ _ IH] //=; rewrite IH. Qed.
Lemma uniform_length rd skip n g t rows f : uniform_record rd skip n g t rows f -> length f = (skip + n)%nat.
Proof. move=> [hdr [data [-> [L [E [_ [F _]]]]]]]. by rewrite app_length L (Forall2_len F) E. Qed.
Lemma series_length rd skip n g time rows recs a m :
  (forall j, (a <= j < a + m)%nat -> uniform_record rd skip n g (time j) (rows j) (recs j)) -> length (series recs a m) = (m * (skip + n))%nat.
Proof.
  elim: m a => [|m IH] a H //. rewrite series_cons app_length (uniform_length (H a ltac:(lia))) IH //. move=> j J. apply H. lia.
Qed.
Lemma series_app recs a m k : series recs a (m + k) = series recs a m ++ series recs (a + m) k.
Proof. elim: m a => [|m IH] a; [by rewrite Nat.add_0_r|]. cbn [Nat.add]. by rewrite !series_cons IH -app_assoc Nat.add_succ_comm. Qed.
(* np.loadtxt of one record *)
Lemma loadtxt_record rd skip n g t rows f pre rest : (2 <= n)%nat -> uniform_record rd skip n g t rows f ->
  loadtxt rd (length pre + skip) (Some n) (pre ++ f ++ rest) = Ok (Mat rows).
Proof.
  move=> N [hdr [data [-> [L [E [H [F W]]]]]]]. rewrite /loadtxt.
  have -> : skipn (length pre + skip) (pre ++ (hdr ++ data) ++ rest) = data ++ rest.
  { rewrite -app_assoc -L app_assoc. rewrite -app_length skipn_app skipn_all Nat.sub_diag. done. }
  have LD : length data = n by rewrite (Forall2_len F).
  have X : map uncomment data = data /\ filter nonempty data = data /\ mapM (mapM (float_of rd)) data = Some rows.
  { clear - F W. elim: F W => [|l r data' rows' Q F IH] W //=. have [U M] := line_holds_plain Q. rewrite U. inversion W as [|? ? W1 W2]; subst.
    have [E1 [E2 E3]] := IH W2. rewrite E1 E2 M E3. have QQ := line_holds_length Q. destruct l => //=. rewrite -QQ /= in W1. by destruct g. }
  have [X1 [X2 X3]] := X. rewrite map_app filter_app X1 X2 -LD firstn_app firstn_all Nat.sub_diag firstn_O app_nil_r X3.
  destruct rows as [|r0 [|r1 rows]]; [cbn in E; lia|cbn in E; lia|]. cbn [hd length]. have W0 := Forall_inv W.
  have -> : forallb (fun l => Nat.eqb (length l) (length r0)) (r0 :: r1 :: rows) = true.
  { apply forallb_forall => r I. apply Nat.eqb_eq. rewrite W0. move/Forall_forall: W => WW. by apply WW. }
  rewrite W0. by destruct g.
Qed.
Lemma new_rows_ok g rows : Forall (fun r => length r = columns_given g) rows -> new_rows g (Mat rows) = Ok rows.
Proof.
  move=> W. rewrite /new_rows given_columns. rewrite (@mapM_Forall2 _ _ _ rows rows) //. elim: W => [|r rs H W IH]; constructor => //.
  rewrite -H. apply mapM_Forall2.
  have X : forall pre, Forall2 (fun i v => nth_error (pre ++ r) i = Some v) (seq (length pre) (length r)) r.
  { clear. elim: r => [|x r IH] pre; cbn [length seq]; constructor; [by rewrite nth_error_app2 // Nat.sub_diag|].
    have := IH (pre ++ [x]). by rewrite app_length -app_assoc Nat.add_1_r. }
  exact (X []).
Qed.
Lemma uniform_columns rd skip n g t rows f : uniform_record rd skip n g t rows f -> Forall (fun r => length r = columns_given g) rows.
Proof. by move=> [? [? [_ [_ [_ [_ [_ W]]]]]]]. Qed.
Lemma uniform_count rd skip n g t rows f : uniform_record rd skip n g t rows f -> length rows = n.
Proof. by move=> [? [? [_ [_ [E _]]]]]. Qed.
Lemma gyr_header2_scan rd hdr : forall n rest t t', Forall (In "#") hdr -> (length hdr <= n)%nat ->
  scan "time" (fun s => bind (real_token rd s) (fun x => Ok (Some x))) hdr t = Ok t' ->
  gyr_header2 rd n (hdr ++ rest) t = gyr_header2 rd (n - length hdr) rest t'.
Proof.
  elim: hdr => [|l h IH] n rest t t' F L S1.
  - cbn in S1. case: S1 => ->. by rewrite Nat.sub_0_r.
  - inversion F as [|? ? H F']; subst. destruct n as [|n]; [cbn in L; lia|]. cbn [scan] in S1. cbn [app gyr_header2 readline].
    have HL : hashed l = true by apply hashed_in. destruct l as [|w l] => //. rewrite HL. cbn [negb]. rewrite -/(upd "time" (fun s => bind (real_token rd s) (fun x => Ok (Some x))) (w :: l) t).
    destruct (upd "time" _ (w :: l) t) as [x|] => //. cbn [bind] in S1 |- *. cbn [length Nat.sub]. apply IH => //. cbn in L; lia.
Qed.
Lemma header2_value rd hdr n t z : nemo_header rd hdr n t -> scan "time" (fun s => bind (real_token rd s) (fun x => Ok (Some x))) hdr z = Ok (Some t).
Proof. move=> [_ [_ B]]. apply: (scan_announced _ B). move=> w I. by rewrite /real_token I. Qed.

Section WithGalpy.
Variable G : galpy.
(* the first header and the second *)
Lemma uniform_header rd skip n g t rows f rest : (0 < n)%nat -> uniform_record rd skip n g t rows f ->
  exists over r, gyr_header rd skip (f ++ rest) 0%Z 0 = Ok (Hdone (Z.of_nat n) t over r) /\ r = skipn skip f ++ rest.
Proof.
  move=> N [hdr [data [-> [L [E [H [F W]]]]]]]. have [S1 S2] := header_values H. have [FH _] := H.
  rewrite -app_assoc (gyr_header_scan _ FH (Nat.eq_le_incl _ _ L) S1 S2). rewrite L Nat.sub_diag. cbn [gyr_header].
  exists None, (data ++ rest). split => //. by rewrite -L skipn_app skipn_all Nat.sub_diag.
Qed.
Lemma uniform_step rd skip n g t0 rows0 f0 t1 rows1 f1 rest : (0 < n)%nat -> uniform_record rd skip n g t0 rows0 f0 -> uniform_record rd skip n g t1 rows1 f1 ->
  new_step rd skip None true (Z.of_nat n) t0 (skipn skip f0 ++ f1 ++ rest) = Ok (Sdt (t1 - t0)).
Proof.
  move=> N R0 R1. rewrite /new_step Nat2Z.id.
  have -> : skipn n (skipn skip f0 ++ f1 ++ rest) = f1 ++ rest.
  { have L := uniform_length R0. have X : length (skipn skip f0) = n by rewrite skipn_length L; lia. by rewrite -X skipn_app skipn_all Nat.sub_diag. }
  move: R1 => [hdr [data [-> [L [E [H [F W]]]]]]]. have [FH _] := H.
  rewrite -app_assoc (gyr_header2_scan _ FH (Nat.eq_le_incl _ _ L) (header2_value _ H)). by rewrite L Nat.sub_diag.
Qed.
Lemma load_new_ok rd d o g filename recs time rows n m tail : opens d (l_set o) filename (series recs 0 (S m) ++ tail) -> (2 <= n)%nat ->
  uniform_record rd (o_skip (l_set o)) n g (time 0%nat) (rows 0%nat) (recs 0%nat) ->
  l_units o <> Some Uradec -> l_units o <> Some Uamuse -> kept_origin (l_origin o) -> forall ofile,
  exists v, load_new_gyrfalcon G rd d o g filename ofile = Ok (mkNew v (Some (series recs 0 (S m) ++ tail)) None (extras_of g (rows 0%nat))) /\
    nemo_loaded 0 (rows 0%nat) (time 0%nat) (l_units o) (l_origin o) (l_set o) v /\ v_orbit v = ofile.
Proof.
  move=> OP N R0 U1 U2 K ofile. rewrite /load_new_gyrfalcon. have [p [-> ->]] := opens_file OP.
  rewrite /get_new_gyrfalcon; cbn zeta. rewrite series_cons -app_assoc. have N0 : (0 < n)%nat by lia. have [over [r [-> ->]]] := uniform_header (series recs 1 m ++ tail) N0 R0. cbn [bind new_step].
  rewrite Nat2Z.id. have LT := @loadtxt_record _ _ _ _ _ _ _ [] (series recs 1 m ++ tail) N R0. cbn [app length Nat.add] in LT. rewrite LT; cbn [bind].
  rewrite (new_rows_ok (uniform_columns R0)); cbn [bind]. have CN := uniform_count R0. have NE : rows 0%nat <> [] by move=> Z; rewrite Z /= in CN; lia.
  rewrite -CN. have [v [-> [L V]]] := build_ok G rd false 0 (time 0%nat) NE U1 U2 K. cbn [bind z_v z_file z_dt z_extra]. rewrite extras_ok //. eexists. by split.
Qed.
Lemma advance_new_one rd d a g proj v recs time rows n m tail :
  z_file v = Some (series recs 0 (S m) ++ tail) -> (2 <= n)%nat ->
  (forall j, (j <= m)%nat -> uniform_record rd (o_skip (v_set (z_v v))) n g (time j) (rows j) (recs j)) ->
  z_dt v = None \/ z_dt v = Some (time 1%nat - time 0%nat) ->
  v_units (z_v v) <> Some Uradec -> v_units (z_v v) <> Some Uamuse -> kept_origin (v_origin (z_v v)) -> plain_advance a -> v_orbit (z_v v) = None ->
  finds_none d (set_nsnap (v_set (z_v v)) (o_nsnap (v_set (z_v v)) + 1)) None -> (o_nsnap (v_set (z_v v)) + 1 <= m)%nat ->
  let k := (o_nsnap (v_set (z_v v)) + 1)%nat in
  exists w, advance_new_gyrfalcon G rd d a g proj v =
      Ok (mkNew w (Some (series recs 0 (S m) ++ tail)) (Some (time 1%nat - time 0%nat)) (extras_of g (rows k))) /\
    nemo_loaded 0 (rows k) (time 0%nat + (time 1%nat - time 0%nat) * INR k) (v_units (z_v v)) (v_origin (z_v v)) (set_nsnap (v_set (z_v v)) k) w /\ v_orbit w = None.
Proof.
  move=> ZF N RC DT U1 U2 K [A1 [A2 A3]] OF FN M. cbv zeta. rewrite /advance_new_gyrfalcon; cbn zeta. rewrite A2 A3 OF ZF. set o := adv_load_opts a (z_v v) proj.
  have ES : l_set o = set_nsnap (v_set (z_v v)) (o_nsnap (v_set (z_v v)) + 1) by rewrite /o /adv_load_opts /next_nsnap A1.
  rewrite get_filename_none ES (finds_no_file FN). cbn [bind]. set k := (o_nsnap (v_set (z_v v)) + 1)%nat in ES M |- *.
  have KP : (1 <= k)%nat by rewrite /k; lia. have N0 : (0 < n)%nat by lia.
  rewrite /get_new_gyrfalcon; cbn zeta. rewrite ES; cbn [set_nsnap o_skip o_nsnap]. set skip := o_skip (v_set (z_v v)) in RC |- *.
  have E0 : recs 0%nat ++ (recs 1%nat ++ series recs 2 (m - 1)) ++ tail = series recs 0 (S m) ++ tail.
  { have -> : S m = S (S (m - 1)) by lia. by rewrite !series_cons -!app_assoc. }
  have [over [r [H Hr]]] := uniform_header ((recs 1%nat ++ series recs 2 (m - 1)) ++ tail) N0 (RC 0%nat ltac:(lia)).
  rewrite E0 in H. rewrite H. cbn [bind]. rewrite Hr.
  have -> : new_step rd skip (z_dt v) true (Z.of_nat n) (time 0%nat) (skipn skip (recs 0%nat) ++ (recs 1%nat ++ series recs 2 (m - 1)) ++ tail) = Ok (Sdt (time 1%nat - time 0%nat)).
  { case: DT => -> //. rewrite -(app_assoc (recs 1%nat)). apply (uniform_step _ N0 (RC 0%nat ltac:(lia)) (RC 1%nat ltac:(lia))). }
  cbn [bind]. rewrite Nat2Z.id.
  have SP : series recs 0 (S m) ++ tail = series recs 0 k ++ recs k ++ (series recs (S k) (m - k) ++ tail).
  { have -> : S m = (k + S (m - k))%nat by lia. by rewrite series_app series_cons -!app_assoc. }
  have LS : length (series recs 0 k) = ((skip + n) * k)%nat by rewrite (@series_length rd skip n g time rows); [move=> j J; apply RC; lia|lia].
  have LT := @loadtxt_record _ _ _ _ _ _ _ (series recs 0 k) (series recs (S k) (m - k) ++ tail) N (RC k M). rewrite LS -SP in LT.
  rewrite LT; cbn [bind]. rewrite (new_rows_ok (uniform_columns (RC k M))); cbn [bind]. have CN := uniform_count (RC k M).
  have NE : rows k <> [] by move=> Z; rewrite Z /= in CN; lia. rewrite -CN.
  have [w [-> [L V]]] := build_ok G rd (o := o) true 0 (time 0%nat + (time 1%nat - time 0%nat) * INR k) NE U1 U2 K. cbn [bind]. rewrite extras_ok //. exists w. rewrite ES in L. split; [done|]. by split.
Qed.
Lemma advance_new_many rd d a g proj v recs time rows n m tail :
  z_file v = Some (series recs 0 (S m) ++ tail) -> (2 <= n)%nat ->
  (forall j, (j <= m)%nat -> uniform_record rd (o_skip (v_set (z_v v))) n g (time j) (rows j) (recs j)) ->
  z_dt v = None -> v_units (z_v v) <> Some Uradec -> v_units (z_v v) <> Some Uamuse -> kept_origin (v_origin (z_v v)) -> plain_advance a ->
  v_orbit (z_v v) = None -> one_file d (v_set (z_v v)) (o_nsnap (v_set (z_v v))) m ->
  forall k, (o_nsnap (v_set (z_v v)) + k <= m)%nat -> exists w, advance_new_times G rd d a g proj k v = Ok w /\
    z_file w = Some (series recs 0 (S m) ++ tail) /\ (z_dt w = None \/ z_dt w = Some (time 1%nat - time 0%nat)) /\
    v_orbit (z_v w) = None /\ v_set (z_v w) = set_nsnap (v_set (z_v v)) (o_nsnap (v_set (z_v v)) + k) /\
    v_units (z_v w) = v_units (z_v v) /\ v_origin (z_v w) = v_origin (z_v v) /\
    ((0 < k)%nat -> let j := (o_nsnap (v_set (z_v v)) + k)%nat in
       nemo_loaded 0 (rows j) (time 0%nat + (time 1%nat - time 0%nat) * INR j) (v_units (z_v v)) (v_origin (z_v v)) (set_nsnap (v_set (z_v v)) j) (z_v w) /\
       z_extra w = extras_of g (rows j)).
Proof.
  move=> ZF N RC DT U1 U2 K A OF ON. induction k as [|k IH] => Hk; cbn [advance_new_times].
  - exists v. rewrite Nat.add_0_r set_same. split; [done|]. split; [done|]. split; [by left|]. do 4 (split; [done|]). lia.
  - have [w [E [F1 [D1 [O1 [S1 [UU [OO _]]]]]]]] := IH ltac:(lia). rewrite E; cbn [bind].
    have EK : o_nsnap (v_set (z_v w)) = (o_nsnap (v_set (z_v v)) + k)%nat by rewrite S1.
    have RC' : forall j, (j <= m)%nat -> uniform_record rd (o_skip (v_set (z_v w))) n g (time j) (rows j) (recs j) by rewrite S1.
    have U1' : v_units (z_v w) <> Some Uradec by rewrite UU. have U2' : v_units (z_v w) <> Some Uamuse by rewrite UU.
    have K' : kept_origin (v_origin (z_v w)) by rewrite OO.
    have ES : set_nsnap (v_set (z_v w)) (o_nsnap (v_set (z_v w)) + 1) = set_nsnap (v_set (z_v v)) (o_nsnap (v_set (z_v v)) + S k).
    { rewrite S1. rewrite /set_nsnap; cbn. by rewrite -Nat.add_assoc Nat.add_1_r. }
    have FN : finds_none d (set_nsnap (v_set (z_v w)) (o_nsnap (v_set (z_v w)) + 1)) None by rewrite ES; apply ON; lia.
    have LM : (o_nsnap (v_set (z_v w)) + 1 <= m)%nat by rewrite EK; lia.
    have [x [E' [L V]]] := advance_new_one proj F1 N RC' D1 U1' U2' K' A O1 FN LM. rewrite ES UU OO in L.
    have EJ : (o_nsnap (v_set (z_v w)) + 1 = o_nsnap (v_set (z_v v)) + S k)%nat by rewrite EK; lia. rewrite EJ in L E'.
    rewrite E'. eexists. split; [reflexivity|]. cbn [z_file z_v z_extra z_dt]. split; [done|]. split; [by right|]. split; [done|].
    have [_ [_ [_ [_ [Q1 [Q2 Q3]]]]]] := L. split; [by rewrite Q1|]. split; [by rewrite Q2|]. split; [by rewrite Q3|]. move=> _. by split.
Qed.
(* origin centre: the stars are those of the file, all moved by the same vector *)
Lemma build_centre rd o adv first t rows : rows <> [] -> l_units o <> Some Uradec -> l_units o <> Some Uamuse -> l_origin o = Some Ocentre -> l_analyze o = true ->
  exists v p, build_gyr G rd o None adv first t (Z.of_nat (length rows)) rows = Ok v /\
    stars_of_nemo first rows p (v_cat v) /\ c_units (g_c (v_cat v)) = l_units o /\ c_origin (g_c (v_cat v)) = Some Ocentre /\ p_t (c_ph (g_c (v_cat v))) = t.
Proof.
  move=> NE U1 U2 K A. rewrite /build_gyr. have -> : Z.ltb 0 (Z.of_nat (length rows)) = true by apply Z.ltb_lt; destruct rows => //=; lia.
  have [k [E [RS [ST0 [U [O [T [_ [PC [SC N]]]]]]]]]] := nemo_added first (l_proj o) t (l_origin o) (l_ro o) (l_vo o) NE U1.
  rewrite E; cbn [bind]. have P : plain (g_c k) by rewrite /plain U. have U' : c_units (g_c k) <> Some Uamuse by rewrite U.
  have [c' [p [-> S]]] := centre_gyr_centre G rd adv P U' O K A N PC. cbn [bind fst snd]. eexists _, p. split; [reflexivity|].
  cbn [v_cat set_cluster g_c]. have [Q1 [Q2 [Q3 [Q4 [Q5 [Q6 [Q7 _]]]]]]] := S. split; [|by rewrite Q6 Q7 Q1; cbn [set_stars c_units c_origin c_ph p_t]; rewrite U T].
  cbn [set_stars c_ph p_t p_m p_s c_id c_nb] in Q2, Q3, Q4, Q5.
  move: ST0 => [[[X1 [X2 [X3 [X4 [X5 X6]]]]] [Lm [Li [L0 Ln]]]] [NT [NB RW]]].
  split; [|split; [done|split; [by cbn [set_cluster g_c]; rewrite Q5|]]].
  - rewrite /aligned /six_length; cbn [set_cluster g_c g_m0 g_npop]. rewrite Q2 Q3 Q4 /sub6 /vsub; cbn [sx sy sz svx svy svz]. by rewrite !map_length.
  - move=> i Hi. have RI := RW i Hi. move: RI. rewrite /nemo_star /star_at; cbn [set_cluster g_c g_m0 g_npop w_m w_s w_id w_m0 w_npop]. rewrite Q2 Q3 Q4.
    move=> [M0 [S0 [I0 M1]]]. split; [done|]. split; [|done]. rewrite /sub6 /vsub /map6; cbn [sx sy sz svx svy svz].
    rewrite /map6 in S0. case: S0 => E1 E2 E3 E4 E5 E6. cbn [zero6 sx sy sz svx svy svz] in E1, E2, E3, E4, E5, E6.
    rewrite !(@nth_map' _ _ _ _ i 0 0); rewrite ?X1 ?X2 ?X3 ?X4 ?X5 ?X6 //. rewrite E1 E2 E3 E4 E5 E6. f_equal; ring.
Qed.
End WithGalpy.
