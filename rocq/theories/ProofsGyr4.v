(* Series of gyrfalcON records. *)
From Coq Require Import String Ascii.
From Verif Require Import Base ModelCluster ModelOps ModelRecipes ModelCoords ModelCentre ModelStars SpecStars ModelLoad SpecLoad
  ProofsRecipes ProofsStars ProofsStars2 ProofsUnits ProofsFrame ProofsLoad ProofsLoad2 ProofsLoad3 ProofsLoad4 ProofsLoad5 ModelGyr SpecGyr ProofsGyr ProofsGyr2 ProofsGyr3.
Set Implicit Arguments.
Unset Strict Implicit.
Open Scope string_scope. Open Scope list_scope. Open Scope R_scope.

Lemma series_cons recs a n : series recs a (S n) = recs a ++ series recs (S a) n. Proof. by []. Qed.
Lemma get_filename_none d o : get_filename d o None = snapshot_file d o None. Proof. by []. Qed.
Lemma first_file_found d l f : first_content d l f -> exists p, first_file d l = Some p /\ files d p = Some f.
Proof. move=> C. have := first_file_content C. destruct (first_file d l) as [p|] => //. move=> H. by exists p. Qed.
Lemma opens_file d o filename f : opens d o filename f -> exists p, get_filename d o filename = Some p /\ files d p = Some f.
Proof.
  move=> [l [S C]]. destruct filename as [q|].
  - destruct S as [w [s [W [Sn ->]]]]. rewrite (slashed_unique W (with_slash_ok _)) (slashed_unique Sn (with_slash_ok _)) in C.
    have [p [E F]] := first_file_found C. exists p. split => //. rewrite /get_filename /cat3. by rewrite E.
  - have X : finds d o None f by exists l. have := finds_file X. rewrite -get_filename_none.
    destruct (get_filename d o None) as [p|] => // H. by exists p.
Qed.

Section WithGalpy.
Variable G : galpy.
Lemma load_gyr_ok rd d o g filename t rows f rest : opens d (l_set o) filename (f ++ rest) -> nemo_record rd (o_skip (l_set o)) g t rows f ->
  l_units o <> Some Uradec -> l_units o <> Some Uamuse -> kept_origin (l_origin o) -> forall ofile,
  exists v, load_gyrfalcon G rd d o g filename ofile = Ok (mkNemo v (Some rest) (extras_of g rows)) /\
    nemo_loaded 1 rows t (l_units o) (l_origin o) (l_set o) v /\ v_orbit v = ofile.
Proof.
  move=> OP Rc U1 U2 K ofile. rewrite /load_gyrfalcon. have [p [-> ->]] := opens_file OP.
  have [v [-> [L V]]] := record_read G false rest Rc U1 U2 K. cbn [bind]. eexists. by split.
Qed.
Lemma advance_gyr_one rd d a g proj v t rows f rest :
  n_file v = Some (f ++ rest) -> nemo_record rd (o_skip (v_set (n_v v))) g t rows f ->
  v_units (n_v v) <> Some Uradec -> v_units (n_v v) <> Some Uamuse -> kept_origin (v_origin (n_v v)) -> plain_advance a -> v_orbit (n_v v) = None ->
  finds_none d (set_nsnap (v_set (n_v v)) (o_nsnap (v_set (n_v v)) + 1)) None ->
  exists w, advance_gyrfalcon G rd d a g proj v = Ok (mkNemo w (Some rest) (extras_of g rows)) /\
    nemo_loaded 1 rows t (v_units (n_v v)) (v_origin (n_v v)) (set_nsnap (v_set (n_v v)) (o_nsnap (v_set (n_v v)) + 1)) w /\ v_orbit w = None.
Proof.
  move=> NF Rc U1 U2 K [A1 [A2 A3]] OF FN. rewrite /advance_gyrfalcon; cbn zeta. rewrite A2 A3 OF NF. set o := adv_load_opts a (n_v v) proj.
  have ES : l_set o = set_nsnap (v_set (n_v v)) (o_nsnap (v_set (n_v v)) + 1) by rewrite /o /adv_load_opts /next_nsnap A1.
  rewrite get_filename_none ES (finds_no_file FN). cbn [bind].
  have Rc' : nemo_record rd (o_skip (l_set o)) g t rows f by rewrite ES.
  have [w [E [L V]]] := record_read G (o := o) true rest Rc' U1 U2 K. rewrite E; cbn [bind n_v].
  have [[_ [NT _]] _] := L. rewrite NT. have NE : rows <> [] by case: Rc => [h [dd [_ [_ [NE _]]]]].
  have -> : Nat.eqb (length rows) 0 = false by destruct rows. exists w. rewrite ES in L. by split.
Qed.
Lemma advance_gyr_one_orbit rd d a g proj v t rows f rest fo k t' p :
  n_file v = Some (f ++ rest) -> nemo_record rd (o_skip (v_set (n_v v))) g t rows f ->
  v_units (n_v v) <> Some Uradec -> v_units (n_v v) <> Some Uamuse -> kept_origin (v_origin (n_v v)) -> plain_advance a -> v_orbit (n_v v) = Some (skipn k fo) ->
  q_units (w_orbit a) = None \/ q_units (w_orbit a) = v_units (n_v v) ->
  orbit_at rd (q_cols (w_orbit a)) fo k t' p ->
  finds_none d (set_nsnap (v_set (n_v v)) (o_nsnap (v_set (n_v v)) + 1)) None ->
  exists w, advance_gyrfalcon G rd d a g proj v = Ok (mkNemo w (Some rest) (extras_of g rows)) /\
    stars_of_nemo 1 rows zero6 (v_cat w) /\ c_units (g_c (v_cat w)) = v_units (n_v v) /\ c_origin (g_c (v_cat w)) = v_origin (n_v v) /\
    v_set w = set_nsnap (v_set (n_v v)) (o_nsnap (v_set (n_v v)) + 1) /\ v_units w = v_units (n_v v) /\ v_origin w = v_origin (n_v v) /\
    v_orbit w = Some (skipn (k + 1) fo) /\ p_g (c_ph (g_c (v_cat w))) = p /\
    p_t (c_ph (g_c (v_cat w))) = if q_time (w_orbit a) then t' else t.
Proof.
  move=> NF Rc U1 U2 K [A1 [A2 A3]] OF QU [l [NL OL]] FN. rewrite /advance_gyrfalcon; cbn zeta. rewrite A2 A3 OF NF. set o := adv_load_opts a (n_v v) proj.
  have ES : l_set o = set_nsnap (v_set (n_v v)) (o_nsnap (v_set (n_v v)) + 1) by rewrite /o /adv_load_opts /next_nsnap A1.
  rewrite get_filename_none ES (finds_no_file FN). cbn [bind].
  have Rc' : nemo_record rd (o_skip (l_set o)) g t rows f by rewrite ES.
  have NL' : nth_error (skipn k fo) (line_number (o_nsnap (l_set o)) true) = Some l.
  { rewrite /line_number. have [pre [post [-> L]]] := nth_error_split _ _ NL. rewrite -L skipn_app skipn_all Nat.sub_diag. done. }
  have [w [E [ST [Q1 [Q2 [Q3 [Q4 [Q5 [OV [c0 [C1 [C2 [C3 [C4 C5]]]]]]]]]]]]]] := record_read_orbit G rest Rc' U1 U2 K NL' OL.
  rewrite E; cbn [bind n_v]. have [_ [NT _]] := ST. rewrite NT. have NE : rows <> [] by case: Rc => [h [dd [_ [_ [NE _]]]]].
  have -> : Nat.eqb (length rows) 0 = false by destruct rows. exists w. split; [done|]. split; [done|]. split; [done|]. split; [done|].
  split; [by rewrite Q3|]. split; [done|]. split; [done|].
  split. { rewrite OV /line_number. cbn [Nat.add]. f_equal. clear. revert fo. induction k as [|k IH] => fo //. destruct fo => //=. apply IH. }
  have EQ : q_units (l_orbit o) = q_units (w_orbit a) by []. have ET : q_time (l_orbit o) = q_time (w_orbit a) by [].
  rewrite EQ ET in C4 C5. rewrite C4 C5. have UO : l_units o = v_units (n_v v) by []. rewrite UO in C1.
  have P0 : plain c0 by rewrite /plain C1.
  have X : forall q, q = None \/ q = v_units (n_v v) ->
    p_g (c_ph (add_orbit G p q (if q_time (w_orbit a) then Some t' else None) c0)) = p /\
    p_t (c_ph (add_orbit G p q (if q_time (w_orbit a) then Some t' else None) c0)) = if q_time (w_orbit a) then t' else t; [|exact (X _ QU)].
  move=> q HQ.
  have Y : p_g (c_ph (add_orbit G p q (if q_time (w_orbit a) then Some t' else None) c0)) = p /\
    (forall t0, (if q_time (w_orbit a) then Some t' else None) = Some t0 -> p_t (c_ph (add_orbit G p q (if q_time (w_orbit a) then Some t' else None) c0)) = t0).
  { destruct q as [u|]; [|by apply add_orbit_none]. apply add_orbit_same. rewrite C1. by case: HQ. }
  have [Y1 Y2] := Y. rewrite Y1. split => //. destruct (q_time (w_orbit a)); [by apply Y2|].
  have [_ [_ [_ [_ [_ [_ [_ [_ [_ T]]]]]]]]] := add_orbit_plain G p q None P0. by rewrite (T eq_refl) C2.
Qed.
Lemma advance_gyr_many rd d a g proj v recs time rows tail m :
  n_file v = Some (series recs 1 m ++ tail) -> (forall j, (1 <= j <= m)%nat -> nemo_record rd (o_skip (v_set (n_v v))) g (time j) (rows j) (recs j)) ->
  v_units (n_v v) <> Some Uradec -> v_units (n_v v) <> Some Uamuse -> kept_origin (v_origin (n_v v)) -> plain_advance a -> v_orbit (n_v v) = None ->
  one_file d (v_set (n_v v)) (o_nsnap (v_set (n_v v))) m ->
  forall k, (k <= m)%nat -> exists w, advance_gyr_times G rd d a g proj k v = Ok w /\ n_file w = Some (series recs (S k) (m - k) ++ tail) /\
    v_orbit (n_v w) = None /\ v_set (n_v w) = set_nsnap (v_set (n_v v)) (o_nsnap (v_set (n_v v)) + k) /\
    v_units (n_v w) = v_units (n_v v) /\ v_origin (n_v w) = v_origin (n_v v) /\
    ((0 < k)%nat -> nemo_loaded 1 (rows k) (time k) (v_units (n_v v)) (v_origin (n_v v)) (set_nsnap (v_set (n_v v)) (o_nsnap (v_set (n_v v)) + k)) (n_v w) /\
       n_extra w = extras_of g (rows k)).
Proof.
  move=> NF RC U1 U2 K A OF ON. induction k as [|k IH] => Hk; cbn [advance_gyr_times].
  - exists v. rewrite Nat.sub_0_r Nat.add_0_r set_same. do 6 (split; [done|]). lia.
  - have [w [E [F1 [O1 [S1 [UU [OO _]]]]]]] := IH ltac:(lia). rewrite E; cbn [bind].
    have EM : (m - k = S (m - S k))%nat by lia. rewrite EM series_cons -app_assoc in F1.
    have R1 : nemo_record rd (o_skip (v_set (n_v w))) g (time (S k)) (rows (S k)) (recs (S k)) by rewrite S1; apply RC; lia.
    have U1' : v_units (n_v w) <> Some Uradec by rewrite UU. have U2' : v_units (n_v w) <> Some Uamuse by rewrite UU.
    have K' : kept_origin (v_origin (n_v w)) by rewrite OO.
    have ES : set_nsnap (v_set (n_v w)) (o_nsnap (v_set (n_v w)) + 1) = set_nsnap (v_set (n_v v)) (o_nsnap (v_set (n_v v)) + S k).
    { rewrite S1. rewrite /set_nsnap; cbn. by rewrite -Nat.add_assoc Nat.add_1_r. }
    have FN : finds_none d (set_nsnap (v_set (n_v w)) (o_nsnap (v_set (n_v w)) + 1)) None by rewrite ES; apply ON; lia.
    have [x [E' [L V]]] := advance_gyr_one proj F1 R1 U1' U2' K' A O1 FN. rewrite ES UU OO in L. rewrite E'. eexists. split; [reflexivity|].
    cbn [n_file n_v n_extra]. split; [done|]. split; [done|]. have [_ [_ [_ [_ [Q1 [Q2 Q3]]]]]] := L. by rewrite Q1 Q2 Q3.
Qed.
Lemma advance_gyr_many_orbit rd d a g proj v recs time rows tail fo otime point m :
  n_file v = Some (series recs 1 m ++ tail) -> (forall j, (1 <= j <= m)%nat -> nemo_record rd (o_skip (v_set (n_v v))) g (time j) (rows j) (recs j)) ->
  v_units (n_v v) <> Some Uradec -> v_units (n_v v) <> Some Uamuse -> kept_origin (v_origin (n_v v)) -> plain_advance a -> v_orbit (n_v v) = Some fo ->
  q_units (w_orbit a) = None \/ q_units (w_orbit a) = v_units (n_v v) ->
  (forall j, (j < m)%nat -> orbit_at rd (q_cols (w_orbit a)) fo j (otime j) (point j)) ->
  one_file d (v_set (n_v v)) (o_nsnap (v_set (n_v v))) m ->
  forall k, (k <= m)%nat -> exists w, advance_gyr_times G rd d a g proj k v = Ok w /\ n_file w = Some (series recs (S k) (m - k) ++ tail) /\
    v_orbit (n_v w) = Some (skipn k fo) /\ v_set (n_v w) = set_nsnap (v_set (n_v v)) (o_nsnap (v_set (n_v v)) + k) /\
    v_units (n_v w) = v_units (n_v v) /\ v_origin (n_v w) = v_origin (n_v v) /\
    ((0 < k)%nat -> stars_of_nemo 1 (rows k) zero6 (v_cat (n_v w)) /\ p_g (c_ph (g_c (v_cat (n_v w)))) = point (k - 1)%nat /\
       p_t (c_ph (g_c (v_cat (n_v w)))) = if q_time (w_orbit a) then otime (k - 1)%nat else time k).
Proof.
  move=> NF RC U1 U2 K A OF QU OA ON. induction k as [|k IH] => Hk; cbn [advance_gyr_times].
  - exists v. rewrite Nat.sub_0_r Nat.add_0_r set_same. do 6 (split; [done|]). lia.
  - have [w [E [F1 [O1 [S1 [UU [OO _]]]]]]] := IH ltac:(lia). rewrite E; cbn [bind].
    have EM : (m - k = S (m - S k))%nat by lia. rewrite EM series_cons -app_assoc in F1.
    have R1 : nemo_record rd (o_skip (v_set (n_v w))) g (time (S k)) (rows (S k)) (recs (S k)) by rewrite S1; apply RC; lia.
    have U1' : v_units (n_v w) <> Some Uradec by rewrite UU. have U2' : v_units (n_v w) <> Some Uamuse by rewrite UU.
    have K' : kept_origin (v_origin (n_v w)) by rewrite OO.
    have QU' : q_units (w_orbit a) = None \/ q_units (w_orbit a) = v_units (n_v w) by rewrite UU.
    have OA' := OA k Hk.
    have ES : set_nsnap (v_set (n_v w)) (o_nsnap (v_set (n_v w)) + 1) = set_nsnap (v_set (n_v v)) (o_nsnap (v_set (n_v v)) + S k).
    { rewrite S1. rewrite /set_nsnap; cbn. by rewrite -Nat.add_assoc Nat.add_1_r. }
    have FN : finds_none d (set_nsnap (v_set (n_v w)) (o_nsnap (v_set (n_v w)) + 1)) None by rewrite ES; apply ON; lia.
    have [x [E' [L1 [L2 [L3 [L4 [L5 [L6 [L7 [L8 L9]]]]]]]]]] := advance_gyr_one_orbit proj F1 R1 U1' U2' K' A O1 QU' OA' FN. rewrite E'. eexists. split; [reflexivity|].
    cbn [n_file n_v n_extra]. split; [done|]. split; [by rewrite L7 Nat.add_1_r|]. split; [by rewrite L4 ES|]. split; [by rewrite L5|]. split; [by rewrite L6|].
    move=> _. have -> : (S k - 1 = k)%nat by lia. by split.
Qed.
Lemma advance_gyr_end rd d a g proj v : n_file v = Some [] -> (0 < o_skip (v_set (n_v v)))%nat -> plain_advance a -> v_orbit (n_v v) = None ->
  finds_none d (set_nsnap (v_set (n_v v)) (o_nsnap (v_set (n_v v)) + 1)) None ->
  dirs d (append (o_wdir (v_set (n_v v))) "cont/") = false ->
  exists w, advance_gyrfalcon G rd d a g proj v = Ok w /\ g_ntot (v_cat (n_v w)) = 0%nat /\ p_m (c_ph (g_c (v_cat (n_v w)))) = [].
Proof.
  move=> NF SK [A1 [A2 A3]] OF FN DC. rewrite /advance_gyrfalcon; cbn zeta. rewrite A2 A3 OF NF. set o := adv_load_opts a (n_v v) proj.
  have ES : l_set o = set_nsnap (v_set (n_v v)) (o_nsnap (v_set (n_v v)) + 1) by rewrite /o /adv_load_opts /next_nsnap A1.
  rewrite get_filename_none ES (finds_no_file FN). cbn [bind]. rewrite /get_gyrfalcon ES gyr_record_end //. cbn [bind n_v ended v_cat init_catalog g_ntot Nat.eqb v_set].
  have -> : o_wdir (no_skip (l_set o)) = o_wdir (v_set (n_v v)) by rewrite ES. rewrite DC. eexists. by split.
Qed.
End WithGalpy.
