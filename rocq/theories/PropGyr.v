(* C45: gyrfalcON / NEMO text files. *)
From Coq Require Import String Ascii.
From Verif Require Import Base ModelCluster ModelOps ModelRecipes ModelStars ModelLoad ModelGyr
  SpecUnits SpecStars SpecLoad SpecGyr ProofsLoad5 ProofsGyr3 ProofsGyr4 ProofsGyr5 ProofsGyr6 PropLoad.
Open Scope string_scope. Open Scope list_scope. Open Scope R_scope.

(* C45: the first record of the file is read line by line: star i has the mass, position and velocity of data line i, there are
   as many stars as the header declares, the time is that of the header, and the extra columns become per-star attributes *)
Theorem C45_record :
  forall (G : galpy) (rd : reader) (d : disk) (o : load_opts) (g : gives) (filename : option string) (t : R) (rows : list (list R)) (f rest : text),
    opens d (l_set o) filename (f ++ rest) -> nemo_record rd (o_skip (l_set o)) g t rows f ->
    l_units o <> Some Uradec -> l_units o <> Some Uamuse -> kept_origin (l_origin o) ->
    exists v, load_gyrfalcon G rd d o g filename None = Ok v /\
      nemo_loaded 1 rows t (l_units o) (l_origin o) (l_set o) (n_v v) /\ n_extra v = extras_of g rows.
Proof.
  intros G rd d o g fn t rows f rest OP Rc U1 U2 K.
  destruct (load_gyr_ok G OP Rc U1 U2 K None) as [v [E [L V]]]. exists (mkNemo v (Some rest) (extras_of g rows)). now split.
Qed.
Print Assumptions C45_record.
(* C45: after load_cluster, k calls of advance_cluster bring record k of the file, with its own header, whatever k *)
Theorem C45_series :
  forall (G : galpy) (rd : reader) (d : disk) (o : load_opts) (a : adv_opts) (g : gives) (proj : bool) (filename : option string)
    (recs : nat -> text) (time : nat -> R) (rows : nat -> list (list R)) (tail : text) (m k : nat),
    opens d (l_set o) filename (series recs 0 (S m) ++ tail) ->
    (forall j, (j <= m)%nat -> nemo_record rd (o_skip (l_set o)) g (time j) (rows j) (recs j)) ->
    l_units o <> Some Uradec -> l_units o <> Some Uamuse -> kept_origin (l_origin o) -> plain_advance a ->
    one_file d (l_set o) (o_nsnap (l_set o)) m -> (k <= m)%nat ->
    exists v v', load_gyrfalcon G rd d o g filename None = Ok v /\ advance_gyr_times G rd d a g proj k v = Ok v' /\
      nemo_loaded 1 (rows k) (time k) (l_units o) (l_origin o) (set_nsnap (l_set o) (o_nsnap (l_set o) + k)) (n_v v') /\
      n_extra v' = extras_of g (rows k).
Proof.
  intros G rd d o a g proj fn recs time rows tail m k OP RC U1 U2 K A ON Hk. rewrite series_cons -app_assoc in OP.
  assert (R0 : nemo_record rd (o_skip (l_set o)) g (time 0%nat) (rows 0%nat) (recs 0%nat)) by (apply RC; lia).
  destruct (load_gyr_ok G OP R0 U1 U2 K None) as [v [E [L V]]].
  set (x := mkNemo v (Some (series recs 1 m ++ tail)) (extras_of g (rows 0%nat))) in *. exists x.
  assert (Q : v_set v = l_set o /\ v_units v = l_units o /\ v_origin v = l_origin o) by (split; [apply L|split; apply L]). destruct Q as [Q1 [Q2 Q3]].
  destruct (@advance_gyr_many G rd d a g proj x recs time rows tail m) with (k := k) as [w [E' [_ [_ [S' [_ [_ R']]]]]]]; cbn [x n_v n_file]; rewrite ?Q1 ?Q2 ?Q3; try assumption.
  { reflexivity. }
  { intros j Hj. apply RC. lia. }
  exists w. split; [exact E|]. split; [exact E'|]. cbn [x n_v] in R', S'. rewrite Q1 Q2 Q3 in R'.
  destruct k as [|k]; [|apply R'; lia]. cbn [advance_gyr_times] in E'. assert (w = x) by congruence. subst w. cbn [x n_v n_extra].
  rewrite Nat.add_0_r set_same. now split.
Qed.
Print Assumptions C45_series.
(* C45: after the last record advance_cluster returns a cluster without stars *)
Theorem C45_end :
  forall (G : galpy) (rd : reader) (d : disk) (o : load_opts) (a : adv_opts) (g : gives) (proj : bool) (filename : option string)
    (recs : nat -> text) (time : nat -> R) (rows : nat -> list (list R)) (m : nat),
    opens d (l_set o) filename (series recs 0 (S m)) ->
    (forall j, (j <= m)%nat -> nemo_record rd (o_skip (l_set o)) g (time j) (rows j) (recs j)) ->
    l_units o <> Some Uradec -> l_units o <> Some Uamuse -> kept_origin (l_origin o) -> plain_advance a ->
    one_file d (l_set o) (o_nsnap (l_set o)) (S m) -> dirs d (append (o_wdir (l_set o)) "cont/") = false ->
    exists v v', load_gyrfalcon G rd d o g filename None = Ok v /\ advance_gyr_times G rd d a g proj (S m) v = Ok v' /\
      g_ntot (v_cat (n_v v')) = 0%nat /\ p_m (c_ph (g_c (v_cat (n_v v')))) = [].
Proof.
  intros G rd d o a g proj fn recs time rows m OP RC U1 U2 K A ON DC. rewrite series_cons in OP.
  assert (R0 : nemo_record rd (o_skip (l_set o)) g (time 0%nat) (rows 0%nat) (recs 0%nat)) by (apply RC; lia).
  destruct (load_gyr_ok G OP R0 U1 U2 K None) as [v [E [L V]]].
  set (x := mkNemo v (Some (series recs 1 m)) (extras_of g (rows 0%nat))) in *. exists x.
  assert (Q : v_set v = l_set o /\ v_units v = l_units o /\ v_origin v = l_origin o) by (split; [apply L|split; apply L]). destruct Q as [Q1 [Q2 Q3]].
  destruct (@advance_gyr_many G rd d a g proj x recs time rows [] m) with (k := m) as [w [E' [F' [O' [S' _]]]]]; cbn [x n_v n_file]; rewrite ?Q1 ?Q2 ?Q3 ?app_nil_r; try assumption.
  { reflexivity. }
  { intros j Hj. apply RC. lia. }
  { intros j Hj. apply ON. lia. }
  { lia. }
  rewrite Nat.sub_diag in F'. cbn [series seq map concat app] in F'. cbn [x n_v] in S'. rewrite Q1 in S'.
  destruct (@advance_gyr_end G rd d a g proj w) as [w' [E2 [N P]]]; try assumption; rewrite ?S'; cbn [set_nsnap o_skip o_wdir o_nsnap]; try assumption.
  { destruct R0 as [hdr [data [_ [Lh [_ [[_ [[pre [l [post [_ [Eh _]]]]] _]] _]]]]]]. rewrite Eh app_length in Lh. cbn [length] in Lh. lia. }
  { destruct (ON (m + 1)%nat) as [l [Sl Fl]]; [lia|]. exists l. split; [|exact Fl]. replace (o_nsnap (l_set o) + m + 1)%nat with (o_nsnap (l_set o) + (m + 1))%nat by lia. exact Sl. }
  exists w'. split; [exact E|]. cbn [advance_gyr_times]. rewrite E'. cbn [bind]. now split.
Qed.
Print Assumptions C45_end.
(* C45: with origin='centre' all the stars are moved by one common vector and nothing else changes *)
Theorem C45_centre_shift :
  forall (G : galpy) (rd : reader) (o : load_opts) (g : gives) (advance : bool) (t : R) (rows : list (list R)) (f rest : text),
    nemo_record rd (o_skip (l_set o)) g t rows f ->
    l_units o <> Some Uradec -> l_units o <> Some Uamuse -> l_origin o = Some Ocentre -> l_analyze o = true ->
    exists v shift, get_gyrfalcon G rd o g None advance (f ++ rest) = Ok v /\ stars_of_nemo 1 rows shift (v_cat (n_v v)) /\
      c_units (g_c (v_cat (n_v v))) = l_units o /\ c_origin (g_c (v_cat (n_v v))) = Some Ocentre /\ p_t (c_ph (g_c (v_cat (n_v v)))) = t /\
      n_file v = Some rest.
Proof.
  intros G rd o g adv t rows f rest Rc U1 U2 O A.
  assert (NE : rows <> []) by (destruct Rc as [h [dd [_ [_ [NE _]]]]]; exact NE).
  destruct (ProofsGyr.gyr_record rest Rc) as [over [r [H D]]]. destruct (build_centre G rd adv 1 t NE U1 U2 O A) as [v [p [E Q]]].
  exists (mkNemo v (Some rest) (extras g (Z.of_nat (length rows)) rows)), p. unfold get_gyrfalcon. rewrite H. cbn [bind]. rewrite Nat2Z.id D. cbn [bind fst snd]. rewrite E. cbn [bind n_v n_file].
  split; [reflexivity|]. destruct Q as [Q1 [Q2 [Q3 Q4]]]. now repeat (split; [assumption|]).
Qed.
Print Assumptions C45_centre_shift.
(* finding: the orbit file is ignored by load_cluster, and advance_cluster then starts it at line 0: record k goes with orbit line k-1 *)
Theorem C45_orbit_late_refuted :
  forall (G : galpy) (rd : reader) (d : disk) (o : load_opts) (a : adv_opts) (g : gives) (proj : bool) (filename : option string)
    (recs : nat -> text) (time : nat -> R) (rows : nat -> list (list R)) (tail : text) (fo : text) (otime : nat -> R) (point : nat -> six R) (m k : nat),
    opens d (l_set o) filename (series recs 0 (S m) ++ tail) ->
    (forall j, (j <= m)%nat -> nemo_record rd (o_skip (l_set o)) g (time j) (rows j) (recs j)) ->
    l_units o <> Some Uradec -> l_units o <> Some Uamuse -> kept_origin (l_origin o) -> plain_advance a ->
    one_file d (l_set o) (o_nsnap (l_set o)) m -> q_units (w_orbit a) = None \/ q_units (w_orbit a) = l_units o -> q_time (w_orbit a) = true ->
    (forall j, (j <= m)%nat -> orbit_at rd (q_cols (w_orbit a)) fo j (otime j) (point j)) -> (0 < k <= m)%nat ->
    exists v v', load_gyrfalcon G rd d o g filename (Some fo) = Ok v /\ advance_gyr_times G rd d a g proj k v = Ok v' /\
      stars_of_nemo 1 (rows k) (mk6 0 0 0 0 0 0) (v_cat (n_v v')) /\
      p_g (c_ph (g_c (v_cat (n_v v')))) = point (k - 1)%nat /\ p_t (c_ph (g_c (v_cat (n_v v')))) = otime (k - 1)%nat.
Proof.
  intros G rd d o a g proj fn recs time rows tail fo ot pt m k OP RC U1 U2 K A ON QU QT OA Hk. rewrite series_cons -app_assoc in OP.
  assert (R0 : nemo_record rd (o_skip (l_set o)) g (time 0%nat) (rows 0%nat) (recs 0%nat)) by (apply RC; lia).
  destruct (load_gyr_ok G OP R0 U1 U2 K (Some fo)) as [v [E [L V]]].
  set (x := mkNemo v (Some (series recs 1 m ++ tail)) (extras_of g (rows 0%nat))) in *. exists x.
  assert (Q : v_set v = l_set o /\ v_units v = l_units o /\ v_origin v = l_origin o) by (split; [apply L|split; apply L]). destruct Q as [Q1 [Q2 Q3]].
  destruct (@advance_gyr_many_orbit G rd d a g proj x recs time rows tail fo ot pt m) with (k := k) as [w [E' [_ [_ [S' [_ [_ R']]]]]]]; cbn [x n_v n_file]; rewrite ?Q1 ?Q2 ?Q3; try assumption.
  { reflexivity. }
  { intros j Hj. apply RC. lia. }
  { intros j Hj. apply OA. lia. }
  { lia. }
  exists w. split; [exact E|]. split; [exact E'|]. rewrite QT in R'. apply R'. lia.
Qed.
Print Assumptions C45_orbit_late_refuted.
(* finding: a header with more comment lines than skiprows gives no stars although it declares some *)
Theorem C45_long_header_refuted :
  forall (G : galpy) (rd : reader) (o : load_opts) (g : gives) (advance : bool) (hdr : text) (n : nat) (t : R) (comment : line) (rest : text) (v : nemo),
    length hdr = o_skip (l_set o) -> nemo_header rd hdr n t -> In "#" comment ->
    get_gyrfalcon G rd o g None advance (hdr ++ comment :: rest) = Ok v -> g_ntot (v_cat (n_v v)) = 0%nat.
Proof. intros. eapply long_header; eassumption. Qed.
Print Assumptions C45_long_header_refuted.

(* ------------------------------------------------------------------ ctype new_nemo *)
(* C45: with records of one shape, k advances after load_cluster(nsnap=n) bring record n+k; the time is that of an even spacing *)
Theorem C45_new_series :
  forall (G : galpy) (rd : reader) (d : disk) (o : load_opts) (a : adv_opts) (g : gives) (proj : bool) (filename : option string)
    (recs : nat -> text) (time : nat -> R) (rows : nat -> list (list R)) (tail : text) (n m k : nat),
    opens d (l_set o) filename (series recs 0 (S m) ++ tail) -> (2 <= n)%nat ->
    (forall j, (j <= m)%nat -> uniform_record rd (o_skip (l_set o)) n g (time j) (rows j) (recs j)) ->
    l_units o <> Some Uradec -> l_units o <> Some Uamuse -> kept_origin (l_origin o) -> plain_advance a ->
    one_file d (l_set o) (o_nsnap (l_set o)) m -> (o_nsnap (l_set o) + k <= m)%nat -> (0 < k)%nat ->
    let j := (o_nsnap (l_set o) + k)%nat in
    exists v v', load_new_gyrfalcon G rd d o g filename None = Ok v /\ advance_new_times G rd d a g proj k v = Ok v' /\
      nemo_loaded 0 (rows j) (time 0%nat + (time 1%nat - time 0%nat) * INR j) (l_units o) (l_origin o) (set_nsnap (l_set o) j) (z_v v') /\
      z_extra v' = extras_of g (rows j).
Proof.
  intros G rd d o a g proj fn recs time rows tail n m k OP N RC U1 U2 K A ON Hk H0 j.
  destruct (@load_new_ok G rd d o g fn recs time rows n m tail OP N (RC 0%nat ltac:(lia)) U1 U2 K None) as [v [E [L V]]].
  set (x := mkNew v (Some (series recs 0 (S m) ++ tail)) None (extras_of g (rows 0%nat))) in *. exists x.
  assert (Q : v_set v = l_set o /\ v_units v = l_units o /\ v_origin v = l_origin o) by (split; [apply L|split; apply L]). destruct Q as [Q1 [Q2 Q3]].
  destruct (@advance_new_many G rd d a g proj x recs time rows n m tail) with (k := k) as [w [E' [_ [_ [_ [_ [_ [_ R']]]]]]]]; cbn [x z_v z_file z_dt]; rewrite ?Q1 ?Q2 ?Q3; try assumption.
  { reflexivity. }
  { reflexivity. }
  exists w. split; [exact E|]. split; [exact E'|]. cbn [x z_v] in R'. rewrite Q1 Q2 Q3 in R'. apply R'. exact H0.
Qed.
Print Assumptions C45_new_series.
(* C45: for evenly spaced records that time is the time of the record *)
Theorem C45_new_time :
  forall (time : nat -> R) (dt : R) (j : nat), (forall i, time (S i) = time i + dt) -> time 0%nat + (time 1%nat - time 0%nat) * INR j = time j.
Proof.
  intros time dt j H. assert (D : time 1%nat - time 0%nat = dt) by (rewrite H; ring). rewrite D. induction j as [|j IH]; [cbn [INR]; ring|].
  rewrite H -IH S_INR. ring.
Qed.
Print Assumptions C45_new_time.
(* finding: load_cluster(ctype='new_nemo', nsnap=n) reads record 0 for every n (and so does ctype='nemo', C45_series with k=0), and calls it snapshot n *)
Theorem C45_nsnap_ignored_refuted :
  forall (G : galpy) (rd : reader) (d : disk) (o : load_opts) (g : gives) (filename : option string)
    (recs : nat -> text) (time : nat -> R) (rows : nat -> list (list R)) (tail : text) (n m : nat),
    opens d (l_set o) filename (series recs 0 (S m) ++ tail) -> (2 <= n)%nat ->
    (forall j, (j <= m)%nat -> uniform_record rd (o_skip (l_set o)) n g (time j) (rows j) (recs j)) ->
    l_units o <> Some Uradec -> l_units o <> Some Uamuse -> kept_origin (l_origin o) ->
    exists v, load_new_gyrfalcon G rd d o g filename None = Ok v /\
      nemo_loaded 0 (rows 0%nat) (time 0%nat) (l_units o) (l_origin o) (l_set o) (z_v v) /\ o_nsnap (v_set (z_v v)) = o_nsnap (l_set o).
Proof.
  intros G rd d o g fn recs time rows tail n m OP N RC U1 U2 K.
  destruct (@load_new_ok G rd d o g fn recs time rows n m tail OP N (RC 0%nat ltac:(lia)) U1 U2 K None) as [v [E [L V]]].
  eexists. split; [exact E|]. cbn [z_v]. split; [exact L|]. destruct L as [_ [_ [_ [_ [-> _]]]]]. reflexivity.
Qed.
Print Assumptions C45_nsnap_ignored_refuted.

(* ------------------------------------------------------------------ non-vacuity *)
Definition gyr_hdr (t : string) : text := [["#"; "Ntot:"; "2,"]; ["#"; "time:"; t]].
Definition gyr_recs (j : nat) : text := gyr_hdr (match j with 0%nat => "0" | 1%nat => "3" | _ => "6" end) ++ demo_lines (match j with 0%nat => "1" | 1%nat => "5" | _ => "9" end).
Definition gyr_time (j : nat) : R := match j with 0%nat => INR 0 | 1%nat => INR 3 | _ => INR 6 end.
Definition gyr_rows (j : nat) : list (list R) := demo_rows (match j with 0%nat => INR 1 | 1%nat => INR 5 | _ => INR 9 end).
Definition gyr_settings (n : nat) : settings := mkSet n 5 "run" "" "snap" ".dat" 2.
Definition gyr_disk : disk := mkDisk (fun s => if String.eqb s "run/halo.nemo" then Some (series gyr_recs 0 3) else None) (fun _ => false).
Lemma demo_slashed : slashed "run" "run/".
Proof.
  right. right. split; [discriminate|]. split; [|reflexivity]. intros u E. destruct u as [|a [|b [|c [|e u]]]]; cbn in E; inversion E.
Qed.
Lemma demo_header n t : String.prefix "#" t = false -> ~ mentions "Ntot" ["#"; "time:"; t] -> float_of demo_reader t = Some (INR n) -> nemo_header demo_reader (gyr_hdr t) 2 (INR n).
Proof.
  intros P M F. split; [|split].
  - repeat constructor.
  - exists [], ["#"; "Ntot:"; "2,"], [["#"; "time:"; t]], "2,". split; [reflexivity|]. split; [exists "Ntot:", "", ":"; split; [cbn; tauto|reflexivity]|].
    split; [reflexivity|]. split; [exists "2", ","%char; now split|]. constructor; [exact M|constructor].
  - exists [["#"; "Ntot:"; "2,"]], ["#"; "time:"; t], [], t. split; [reflexivity|]. split; [exists "time:", "", ":"; split; [cbn; tauto|reflexivity]|].
    split; [reflexivity|]. split; [exact F|]. constructor; [|constructor]. intros H. apply ProofsGyr.any_contains_mentions in H. discriminate H.
Qed.
Lemma gyr_uniform j : (j <= 2)%nat -> uniform_record demo_reader 2 2 Gmxv (gyr_time j) (gyr_rows j) (gyr_recs j).
Proof.
  intros H. destruct j as [|[|[|j]]]; [| | |lia].
  all: eexists (gyr_hdr _), (demo_lines _); split; [reflexivity|]; split; [reflexivity|]; split; [reflexivity|]; split;
    [apply demo_header; [reflexivity|intros Q; apply ProofsGyr.any_contains_mentions in Q; discriminate Q|reflexivity]|].
  all: split; [repeat constructor|now repeat constructor].
Qed.
Lemma gyr_one_file n : one_file gyr_disk (gyr_settings n) n 3.
Proof.
  intros j Hj. exists [append "run/" (append "" (append "snap" (append (zfill 5 (str (n + j))) ".dat"))); append "run/" (append "snap" (append (zfill 5 (str (n + j))) ".dat"))].
  split; [|intros q [<-|[<-|[]]]; reflexivity].
  exists "run/", "", (zfill 5 (str (n + j))). split; [exact demo_slashed|]. split; [now left|]. split; [apply ProofsLoad.zfill_numeral|reflexivity].
Qed.
Example C45_hypotheses_met :
  let o := mkLO (gyr_settings 0) [] [] (Some Upckms) (Some Ocluster) 0 true true false 8 220 (mkOO [("t", 0%nat); ("x", 1%nat)] None true) in
  opens gyr_disk (l_set o) (Some "halo.nemo") (series gyr_recs 0 3) /\
  (forall j, (j <= 2)%nat -> uniform_record demo_reader (o_skip (l_set o)) 2 Gmxv (gyr_time j) (gyr_rows j) (gyr_recs j) /\
     nemo_record demo_reader (o_skip (l_set o)) Gmxv (gyr_time j) (gyr_rows j) (gyr_recs j)) /\
  one_file gyr_disk (l_set o) (o_nsnap (l_set o)) 3 /\ kept_origin (l_origin o) /\ plain_advance demo_advance /\
  dirs gyr_disk (append (o_wdir (l_set o)) "cont/") = false.
Proof.
  cbn zeta. split; [|split; [|split; [|split; [|split]]]].
  - eexists. split; [exists "run/", ""; split; [exact demo_slashed|]; split; [now left|reflexivity]|].
    exists ["halo.nemo"], "run/halo.nemo", ["run/halo.nemo"]. split; [reflexivity|]. split; [intros q [<-|[]]; reflexivity|reflexivity].
  - intros j H. split; [now apply gyr_uniform|]. apply uniform_nemo with (n := 2%nat); [lia|]. now apply gyr_uniform.
  - apply gyr_one_file.
  - right. now left.
  - now repeat split.
  - reflexivity.
Qed.
