(* C44, C48, C68: snapshot files, advancing, orbits given in other units. *)
From Coq Require Import String Ascii.
From Verif Require Import Base ModelCluster ModelOps ModelRecipes ModelStars ModelLoad ModelOutput
  SpecUnits SpecStars SpecLoad SpecOutput ProofsLoad ProofsLoad2 ProofsLoad3 ProofsLoad4 ProofsLoad5 ProofsOutput.
Open Scope string_scope. Open Scope list_scope. Open Scope R_scope.

(* C44: a table of at least two rows is read row by row: each named column goes to its quantity, absent ones get their
   default, and the cluster has the requested units, origin and time *)
Theorem C44_snapshot_columns :
  forall (G : galpy) (rd : reader) (d : disk) (o : load_opts) (filename : option string) (f : text) (rows : list (list R)) (w : nat),
    finds d (l_set o) filename f -> file_holds rd (o_skip (l_set o)) f rows w -> (2 <= w)%nat -> (2 <= length rows)%nat ->
    columns_fit (l_names o) (l_nums o) w -> l_units o <> Some Uradec -> l_units o <> Some Uamuse ->
    exists v, load_snapshot G rd d o filename None = Ok v /\
      loaded_from (l_names o) (l_nums o) rows (l_units o) (l_origin o) (l_set o) v /\ p_t (c_ph (g_c (v_cat v))) = l_tphys o.
Proof.
  intros G rd d o fn f rows w H1 H2 H3 H4 H5 H6 H7.
  destruct (snapshot_read G false H1 H2 H3 H4 H5 H6 H7) as [v [E [Rd [_ T]]]]. now exists v.
Qed.
Print Assumptions C44_snapshot_columns.
(* C44: what snapout writes is read back: positions, velocities, masses, identifiers and stellar types of all stars *)
Theorem C44_snapout_read_back :
  forall (G : galpy) (rd : reader) (d : disk) (o : load_opts) (filename : option string) (show : R -> string) (k : catalog) (n : nat)
    (rows : list (list R)),
    aligned k n -> g_ntot k = n -> (2 <= n)%nat -> snapout None None k = Ok rows -> printable rd show rows ->
    finds d (l_set o) filename (savetxt show rows) -> o_skip (l_set o) = 0%nat ->
    (l_names o = snap_names /\ l_nums o = seq 0 8) \/
      (l_names o = snap_names_kw /\ l_nums o = seq 0 9 /\ length (e_kw (g_sse k)) = n) ->
    l_units o <> Some Uradec -> l_units o <> Some Uamuse ->
    exists v, load_snapshot G rd d o filename None = Ok v /\ aligned (v_cat v) n /\ g_ntot (v_cat v) = n /\
      (forall i, (i < n)%nat -> same_star (star_at (v_cat v) i) (star_at k i)) /\
      (l_names o = snap_names_kw -> e_kw (g_sse (v_cat v)) = e_kw (g_sse k)) /\
      c_units (g_c (v_cat v)) = l_units o /\ c_origin (g_c (v_cat v)) = l_origin o /\ p_t (c_ph (g_c (v_cat v))) = l_tphys o.
Proof. intros. eapply snapout_back; eassumption. Qed.
Print Assumptions C44_snapout_read_back.
(* snapout writes every cluster with aligned arrays *)
Theorem C44_snapout_total :
  forall (k : catalog) (n : nat), aligned k n -> g_ntot k = n -> exists rows, snapout None None k = Ok rows /\ length rows = n.
Proof.
  intros k n A N. rewrite (snapout_ok A N). eexists. split; [reflexivity|]. now rewrite map_length seq_length.
Qed.
Print Assumptions C44_snapout_total.
(* C44: no file: an empty cluster, without the requested units and origin *)
Theorem C44_missing_file :
  forall (G : galpy) (rd : reader) (d : disk) (o : load_opts) (filename : option string) (ofile : option text) (adv : bool),
    finds_none d (l_set o) filename ->
    exists v, get_snapshot G rd d o filename ofile adv = Ok v /\ g_ntot (v_cat v) = 0%nat /\ p_m (c_ph (g_c (v_cat v))) = [] /\
      c_units (g_c (v_cat v)) = None /\ c_origin (g_c (v_cat v)) = None.
Proof.
  intros G rd d o fn ofile adv H. unfold get_snapshot. rewrite (finds_no_file H). eexists. split; [reflexivity|]. now repeat split.
Qed.
Print Assumptions C44_missing_file.
(* finding: a file with a single star cannot be read *)
Theorem C44_single_star_refuted :
  forall (G : galpy) (rd : reader) (d : disk) (o : load_opts) (filename : option string) (f : text) (row : list R) (w k : nat),
    finds d (l_set o) filename f -> file_holds rd (o_skip (l_set o)) f [row] w -> (2 <= w)%nat ->
    stands_for (l_names o) (l_nums o) "m" k -> load_snapshot G rd d o filename None = Raise.
Proof.
  intros G rd d o fn f row w k F H W S. unfold load_snapshot, get_snapshot. rewrite (finds_file F). rewrite (loadtxt_ok H W).
  change (Nat.leb (length [row]) 1) with true. cbn [bind]. unfold build_snapshot, read_columns.
  destruct S as [pre [post [E [N M]]]]. unfold named at 1. rewrite E (index_of_name_split post N) M. reflexivity.
Qed.
Print Assumptions C44_single_star_refuted.
(* finding: energies cannot be written for stars without stellar types *)
Theorem C44_energies_without_types_refuted :
  forall (k : catalog) (kin pot etot : list R), p_m (c_ph (g_c k)) <> [] -> e_kw (g_sse k) = [] ->
    snapout (Some (kin, pot, etot)) None k = Raise.
Proof.
  intros k a b e M E. unfold snapout. cbn zeta. rewrite E. apply column_stack_raises with (p_m (c_ph (g_c k))) [].
  - apply in_app_iff. left. apply in_app_iff. left. now left.
  - apply in_app_iff. right. now left.
  - destruct (p_m (c_ph (g_c k))); [congruence|discriminate].
Qed.
Print Assumptions C44_energies_without_types_refuted.

(* C48: after loading snapshot n, m calls of advance_cluster bring snapshot n+m, whatever m *)
Theorem C48_advance_in_order :
  forall (G : galpy) (rd : reader) (d : disk) (o : load_opts) (a : adv_opts) (proj : bool) (rows : nat -> list (list R)) (w n m : nat),
    o_nsnap (l_set o) = n -> (forall j, (j <= m)%nat -> on_disk rd d (l_set o) (n + j) (rows (n + j)%nat) w) ->
    columns_fit (l_names o) (l_nums o) w -> l_units o <> Some Uradec -> l_units o <> Some Uamuse ->
    plain_advance a -> advance_columns a = (l_names o, l_nums o) ->
    exists v v', load_snapshot G rd d o None None = Ok v /\ advance_times G rd d a proj m v = Ok v' /\ o_nsnap (v_set v') = (n + m)%nat /\
      loaded_from (l_names o) (l_nums o) (rows (n + m)%nat) (l_units o) (l_origin o) (set_nsnap (l_set o) (n + m)) v'.
Proof.
  intros G rd d o a proj rows w n m En D CF U1 U2 A CO.
  destruct (D 0%nat) as [f [F [FH [W2 L2]]]]; [lia|]. rewrite Nat.add_0_r in F. rewrite -En set_same in F.
  destruct (snapshot_read G false F FH W2 L2 CF U1 U2) as [v [E [Rd [OF _]]]]. exists v. unfold load_snapshot. rewrite E.
  unfold reads in Rd. rewrite Nat.add_0_r in Rd.
  assert (Ev : v_set v = l_set o) by apply Rd. assert (Eu : v_units v = l_units o) by apply Rd. assert (Eo : v_origin v = l_origin o) by apply Rd.
  destruct (@advance_many G rd d a proj v (l_units o) (l_origin o) (l_names o) (l_nums o) w rows m) as [v' [E' [S' [_ [_ [_ R']]]]]]; try assumption.
  { intros j Hj. rewrite Ev En. apply D. lia. }
  exists v'. split; [reflexivity|]. split; [exact E'|]. rewrite Ev En in S'  R'. split; [now rewrite S'|].
  destruct m as [|m]; [|apply R'; lia]. cbn [advance_times] in E'. assert (v' = v) by congruence. subst v'.
  rewrite !Nat.add_0_r. rewrite -En set_same. rewrite En. exact Rd.
Qed.
Print Assumptions C48_advance_in_order.
(* C48: with an orbit file, line n+m goes with snapshot n+m *)
Theorem C48_advance_with_orbit :
  forall (G : galpy) (rd : reader) (d : disk) (o : load_opts) (a : adv_opts) (proj : bool) (rows : nat -> list (list R)) (w n m : nat)
    (u : usys) (og : osys) (f : text) (time : nat -> R) (point : nat -> six R),
    o_nsnap (l_set o) = n ->
    (forall j, (j <= m)%nat -> on_disk rd d (l_set o) (n + j) (rows (n + j)%nat) w /\
       orbit_at rd (q_cols (l_orbit o)) f (n + j) (time (n + j)%nat) (point (n + j)%nat)) ->
    columns_fit (l_names o) (l_nums o) w -> l_units o = Some u -> l_origin o = Some og -> u <> Uradec -> u <> Uamuse -> og <> Osky ->
    q_units (l_orbit o) = None \/ q_units (l_orbit o) = Some u -> w_orbit a = l_orbit o -> q_time (l_orbit o) = true ->
    plain_advance a -> advance_columns a = (l_names o, l_nums o) ->
    exists v v', load_snapshot G rd d o None (Some f) = Ok v /\ advance_times G rd d a proj m v = Ok v' /\ o_nsnap (v_set v') = (n + m)%nat /\
      loaded_from (l_names o) (l_nums o) (rows (n + m)%nat) (l_units o) (l_origin o) (set_nsnap (l_set o) (n + m)) v' /\
      p_g (c_ph (g_c (v_cat v'))) = point (n + m)%nat /\ p_t (c_ph (g_c (v_cat v'))) = time (n + m)%nat.
Proof.
  intros G rd d o a proj rows w n m u og f time point En D CF EU EO U1 U2 OS QU WO QT A CO.
  destruct (D 0%nat) as [[f0 [F [FH [W2 L2]]]] [l [NL OL]]]; [lia|]. rewrite Nat.add_0_r in F, NL, OL. rewrite -En set_same in F.
  assert (V1 : l_units o <> Some Uradec) by (rewrite EU; congruence). assert (V2 : l_units o <> Some Uamuse) by (rewrite EU; congruence).
  assert (NL' : nth_error f (line_number (o_nsnap (l_set o)) false) = Some l) by (rewrite En; exact NL).
  destruct (snapshot_read_orbit G F FH W2 L2 CF V1 V2 EO OS NL' OL) as [v [E [Rd [OF [c0 [C1 [C2 [C3 [C4 C5]]]]]]]]].
  exists v. unfold load_snapshot. rewrite E. unfold reads in Rd. rewrite Nat.add_0_r in Rd.
  assert (Ev : v_set v = l_set o) by apply Rd. assert (Eu : v_units v = l_units o) by apply Rd. assert (Eo : v_origin v = l_origin o) by apply Rd.
  rewrite EU in Eu. rewrite EO in Eo.
  destruct (@advance_many_orbit G rd d a proj v u og (l_names o) (l_nums o) w rows f time point m) as [v' [E' [S' [_ [_ [_ R']]]]]]; try assumption.
  { rewrite Ev. exact OF. }
  { rewrite WO. exact QU. }
  { intros j Hj. rewrite Ev En WO. apply D. lia. }
  exists v'. split; [reflexivity|]. split; [exact E'|]. rewrite Ev En in S'  R'. split; [now rewrite S'|].
  destruct m as [|m].
  - cbn [advance_times] in E'. assert (v' = v) by congruence. subst v'.
    rewrite !Nat.add_0_r. rewrite -En set_same. rewrite En. split; [exact Rd|]. rewrite C4 C5 QT. rewrite EU in C1.
    destruct QU as [Q|Q]; rewrite Q.
    + destruct (add_orbit_none G (point n) (Some (time n)) c0) as [Q1 Q2]. split; [exact Q1|]. now apply Q2.
    + destruct (@add_orbit_same G (point n) (Some (time n)) c0 u C1) as [Q1 Q2]. split; [exact Q1|]. now apply Q2.
  - destruct R' as [R1 [R2 R3]]; [lia|]. rewrite WO QT in R3. rewrite EU EO. split; [exact R1|]. split; [exact R2|exact R3].
Qed.
Print Assumptions C48_advance_with_orbit.
(* C48: different snapshot numbers mean different file names *)
Theorem C48_distinct_files :
  forall (o : settings) (n n' : nat) (l l' : list string) (j : nat),
    n <> n' -> search (set_nsnap o n) None l -> search (set_nsnap o n') None l' -> (j < 2)%nat -> nth j l "" <> nth j l' "".
Proof. exact names_differ. Qed.
Print Assumptions C48_distinct_files.
(* finding: advance_cluster forgets the columns given to load_cluster.  A cluster loaded with the masses in column 1 and the
   x coordinates in column 0 has its masses taken from column 0 after one advance *)
Theorem C48_columns_forgotten_refuted :
  forall (G : galpy) (rd : reader) (d : disk) (o : load_opts) (a : adv_opts) (proj : bool) (rows : nat -> list (list R)) (i : nat),
    l_names o = ["x"; "m"; "y"; "z"; "vx"; "vy"; "vz"] -> l_nums o = [0; 1; 2; 3; 4; 5; 6]%nat ->
    (forall j, (j <= 1)%nat -> on_disk rd d (l_set o) (o_nsnap (l_set o) + j) (rows j) 7) ->
    l_units o <> Some Uradec -> l_units o <> Some Uamuse -> plain_advance a -> w_cols a = None -> (i < length (rows 1%nat))%nat -> (i < length (rows 0%nat))%nat ->
    exists v v', load_snapshot G rd d o None None = Ok v /\ advance_snapshot G rd d a proj v = Ok v' /\
      w_m (star_at (v_cat v) i) = nth 1 (nth i (rows 0%nat) []) 0 /\ w_m (star_at (v_cat v') i) = nth 0 (nth i (rows 1%nat) []) 0.
Proof.
  intros G rd d o a proj rows i En Em D U1 U2 A WC Hi Hi0.
  assert (NX : forall j s, nth_error ["x"; "m"; "y"; "z"; "vx"; "vy"; "vz"] j = Some s -> stands_for (l_names o) (l_nums o) s j).
  { intros j s H. rewrite En Em. apply stands_snap; [repeat constructor; cbn; intuition discriminate|exact H|].
    assert (L : (j < 7)%nat) by (apply (nth_error_Some ["x"; "m"; "y"; "z"; "vx"; "vy"; "vz"]); congruence).
    do 7 (destruct j as [|j]; [reflexivity|]). lia. }
  assert (ND : forall j s, nth_error default_names j = Some s -> stands_for default_names default_nums s j).
  { intros j s H. apply stands_snap; [repeat constructor; cbn; intuition discriminate|exact H|].
    assert (L : (j < 7)%nat) by (apply (nth_error_Some default_names); congruence).
    do 7 (destruct j as [|j]; [reflexivity|]). lia. }
  assert (CF : columns_fit (l_names o) (l_nums o) 7).
  { rewrite En Em in NX |- *. apply snap_fit; [exact NX|cbn; lia|cbn; tauto]. }
  assert (CD : columns_fit default_names default_nums 7) by (apply snap_fit; [exact ND|cbn; lia|cbn; tauto]).
  destruct (D 0%nat) as [f [F [FH [W2 L2]]]]; [lia|]. rewrite Nat.add_0_r set_same in F.
  destruct (snapshot_read G false F FH W2 L2 CF U1 U2) as [v [E [Rd [OF _]]]]. exists v. unfold reads in Rd.
  assert (Ev : v_set v = l_set o) by apply Rd. assert (Eu : v_units v = l_units o) by apply Rd. assert (Eo : v_origin v = l_origin o) by apply Rd.
  assert (AC : advance_columns a = (default_names, default_nums)) by (unfold advance_columns; now rewrite WC).
  assert (D1 : on_disk rd d (v_set v) (o_nsnap (v_set v) + 1) (rows 1%nat) 7) by (rewrite Ev; apply D; lia).
  destruct (@advance_one G rd d a proj v _ _ default_names default_nums 7%nat (rows 1%nat) Eu Eo U1 U2 A OF AC CD D1) as [v' [E' [R' _]]].
  exists v'. split; [exact E|]. split; [exact E'|]. split.
  - destruct Rd as [[_ [_ [_ [RS _]]]] _]. destruct (RS i Hi0) as [Q _]. exact (quantity_stands Q (NX 1%nat "m" eq_refl)).
  - destruct R' as [[_ [_ [_ [RS _]]]] _]. destruct (RS i Hi) as [Q _]. exact (quantity_stands Q (ND 0%nat "m" eq_refl)).
Qed.
Print Assumptions C48_columns_forgotten_refuted.
(* finding: asking for a later snapshot (nsnap=j) reads snapshot j+1, with the orbit of snapshot n+1 *)
Theorem C48_jump_refuted :
  forall (G : galpy) (rd : reader) (d : disk) (a : adv_opts) (proj : bool) (v : loaded) (rows : list (list R)) (w n j : nat)
    (u : usys) (og : osys) (f : text) (time : R) (point : six R),
    v_units v = Some u -> v_origin v = Some og -> u <> Uradec -> u <> Uamuse -> og <> Osky -> o_nsnap (v_set v) = n -> (n <= j)%nat ->
    w_nsnap a = Some j -> w_filename a = None -> w_ofile a = None -> v_orbit v = Some (skipn (n + 1) f) ->
    q_units (w_orbit a) = None \/ q_units (w_orbit a) = Some u -> columns_fit (fst (advance_columns a)) (snd (advance_columns a)) w ->
    on_disk rd d (v_set v) (j + 1) rows w -> orbit_at rd (q_cols (w_orbit a)) f (n + 1) time point ->
    exists v', advance_snapshot G rd d a proj v = Ok v' /\ o_nsnap (v_set v') = (j + 1)%nat /\
      stars_are_rows (fst (advance_columns a)) (snd (advance_columns a)) rows (v_cat v') /\ p_g (c_ph (g_c (v_cat v'))) = point.
Proof.
  intros G rd d a proj v rows w n j u og f t p EU EO U1 U2 OS En Hj A1 A2 A3 OF QU CF D OA.
  assert (N : next_nsnap a v = (j + 1)%nat) by (unfold next_nsnap; rewrite A1 En; lia).
  destruct (@advance_to_orbit G rd d a proj v u og (fst (advance_columns a)) (snd (advance_columns a)) w rows f (n + 1)%nat t p (j + 1)%nat)
    as [v' [E [Rd [_ [P _]]]]]; try assumption; [now destruct (advance_columns a)|].
  exists v'. split; [exact E|]. destruct Rd as [R1 [_ [_ [R4 _]]]]. rewrite R4. split; [reflexivity|]. split; [exact R1|exact P].
Qed.
Print Assumptions C48_jump_refuted.
(* finding: continuing in the directory cont/ loses units and origin *)
Theorem C48_restart_refuted :
  forall (G : galpy) (rd : reader) (d : disk) (a : adv_opts) (proj : bool) (v : loaded) (rows : list (list R)) (w : nat),
    plain_advance a -> v_orbit v = None -> (7 <= w)%nat ->
    finds_none d (set_nsnap (v_set v) (o_nsnap (v_set v) + 1)) None -> dirs d (append (o_wdir (v_set v)) "cont/") = true ->
    on_disk rd d (set_wdir (v_set v) (append (o_wdir (v_set v)) "cont/")) (o_nsnap (v_set v) + 1) rows w ->
    exists v', advance_snapshot G rd d a proj v = Ok v' /\ c_units (g_c (v_cat v')) = None /\ c_origin (g_c (v_cat v')) = None /\
      g_ntot (v_cat v') = length rows.
Proof.
  intros G rd d a proj v rows w [A1 [A2 A3]] OF W7 FN DC [f [F [FH [W2 L2]]]].
  unfold advance_snapshot. cbn zeta. rewrite A2 A3 OF. set (o := adv_load_opts a v proj).
  assert (ES : l_set o = set_nsnap (v_set v) (o_nsnap (v_set v) + 1)) by (unfold o, adv_load_opts, next_nsnap; now rewrite A1).
  unfold get_snapshot at 1. rewrite ES (finds_no_file FN). cbn [bind v_cat init_catalog g_ntot Nat.eqb v_set].
  change (o_wdir (set_nsnap (v_set v) (o_nsnap (v_set v) + 1))) with (o_wdir (v_set v)). rewrite DC.
  set (o2 := restart_opts _ _).
  assert (E2 : l_set o2 = set_nsnap (set_wdir (v_set v) (append (o_wdir (v_set v)) "cont/")) (o_nsnap (v_set v) + 1)).
  { unfold o2, restart_opts. cbn [l_set]. rewrite ES. reflexivity. }
  assert (ND : forall j s, nth_error default_names j = Some s -> stands_for default_names default_nums s j).
  { intros j s H. apply stands_snap; [repeat constructor; cbn; intuition discriminate|exact H|].
    assert (L : (j < 7)%nat) by (apply (nth_error_Some default_names); congruence).
    do 7 (destruct j as [|j]; [reflexivity|]). lia. }
  assert (CF : columns_fit (l_names o2) (l_nums o2) w) by (apply snap_fit; [exact ND|cbn; lia|cbn; tauto]).
  assert (U1 : l_units o2 <> Some Uradec) by discriminate. assert (U2 : l_units o2 <> Some Uamuse) by discriminate.
  rewrite -E2 in F. assert (FH' : file_holds rd (o_skip (l_set o2)) f rows w) by (rewrite E2; exact FH).
  destruct (snapshot_read G false F FH' W2 L2 CF U1 U2) as [v' [E [Rd _]]]. exists v'. split; [exact E|].
  destruct Rd as [[_ [NT _]] [Q1 [Q2 _]]]. rewrite Q1 Q2 NT. now repeat split.
Qed.
Print Assumptions C48_restart_refuted.

(* C68: add_orbit: position and velocity given in one system are stored in the system of the cluster, for the systems that
   have a branch; so is the time, unless given in N-body units *)
Theorem C68_orbit_units_partial :
  forall (G : galpy) (p : six R) (t : option R) (c : cluster) (u v : usys),
    good_scales G (c_sc c) -> c_units c = Some v -> orbit_source u -> orbit_target v ->
    same_6 (unit_size G (c_sc c) u) (unit_size G (c_sc c) v) p (p_g (c_ph (add_orbit G p (Some u) t c))) /\
    (u <> Unbody -> forall t0, t = Some t0 ->
       same_q (in_Myr (unit_size G (c_sc c) u)) (in_Myr (unit_size G (c_sc c) v)) t0 (p_t (c_ph (add_orbit G p (Some u) t c)))).
Proof. exact add_orbit_point. Qed.
Print Assumptions C68_orbit_units_partial.
(* C68: add_orbit leaves the stars alone *)
Theorem C68_stars_kept :
  forall (G : galpy) (p : six R) (u : option usys) (t : option R) (c : cluster), c_units c <> Some Uradec ->
    let c1 := add_orbit G p u t c in
    p_m (c_ph c1) = p_m (c_ph c) /\ p_s (c_ph c1) = p_s (c_ph c) /\ c_id c1 = c_id c /\ c_units c1 = c_units c /\ c_origin c1 = c_origin c.
Proof. intros G p u t c U. destruct (add_orbit_plain G p u t U) as [A [B [C [_ [D [E _]]]]]]. now repeat split. Qed.
Print Assumptions C68_stars_kept.
(* finding: a cluster in pc/Myr gets the orbit in kpc and km/s: a point one parsec away in pc, km/s is stored as 1/1000 *)
Theorem C68_pcmyr_refuted :
  forall (G : galpy) (p : six R) (t : option R) (c : cluster), c_units c = Some Upcmyr ->
    sx (p_g (c_ph (add_orbit G p (Some Upckms) t c))) = sx p / 1000.
Proof. intros G p t c U. unfold add_orbit. rewrite U. cbn. reflexivity. Qed.
Print Assumptions C68_pcmyr_refuted.
(* finding: a time in N-body units is multiplied by 1000 *)
Theorem C68_nbody_time_refuted :
  forall (G : galpy) (p : six R) (t : R) (c : cluster), c_units c = Some Upckms ->
    p_t (c_ph (add_orbit G p (Some Unbody) (Some t) c)) = 1000 * (t * tbar (c_sc c)).
Proof. intros G p t c U. unfold add_orbit. rewrite U. cbn. ring. Qed.
Print Assumptions C68_nbody_time_refuted.

(* ------------------------------------------------------------------ non-vacuity *)
Definition demo_reader : reader :=
  mkReader (fun s => option_map INR (digits_value 0 s)) (fun s => option_map Z.of_nat (digits_value 0 s)).
Definition demo_lines (a : string) : text := [[a; "1"; "2"; "3"; "4"; "5"; "6"]; ["2"; "7"; "8"; "9"; "10"; "11"; a]].
Definition demo_orbit : text := [["0"; "100"; "5"]; ["1"; "101"; "6"]; ["2"; "102"; "7"]].
Definition demo_disk : disk := mkDisk (fun s =>
  if String.eqb s "run/snap00009.dat" then Some (demo_lines "1") else if String.eqb s "run/snap00010.dat" then Some (demo_lines "3") else None) (fun _ => false).
Definition demo_settings (n : nat) : settings := mkSet n 5 "run" "" "snap" ".dat" 0.
Definition demo_load : load_opts :=
  mkLO (demo_settings 9) default_names default_nums (Some Upckms) (Some Ocluster) 0 true true false 8 220 (mkOO [("t", 0%nat); ("x", 1%nat)] None true).
Definition demo_advance : adv_opts := mkAO None None None None true true (mkOO [("t", 0%nat); ("x", 1%nat)] None true) 0 (8, 220).
Definition demo_rows (a : R) : list (list R) := [[a; INR 1; INR 2; INR 3; INR 4; INR 5; INR 6]; [INR 2; INR 7; INR 8; INR 9; INR 10; INR 11; a]].
Lemma demo_found n num f : digits_value 0 num = Some n -> String.length num = 5%nat -> files demo_disk (append "run/snap" (append num ".dat")) = Some f ->
  finds demo_disk (demo_settings n) None f.
Proof.
  intros V L F. exists [append "run/" (append "" (append "snap" (append num ".dat"))); append "run/" (append "snap" (append num ".dat"))]. split.
  - exists "run/", "", num. split; [|split; [|split; [|reflexivity]]].
    + right. right. split; [discriminate|]. split; [|reflexivity]. intros u E. cbn in E.
      destruct u as [|a [|b [|c [|e u]]]]; cbn in E; inversion E.
    + now left.
    + unfold numeral. cbn [o_nsnap o_nzfill demo_settings]. rewrite L. split; [exact V|]. split; [lia|]. split; lia.
  - exists [], (append "run/snap" (append num ".dat")), [append "run/" (append "snap" (append num ".dat"))]. split; [reflexivity|]. split; [intros q []|exact F].
Qed.
Lemma demo_holds a v : float_of demo_reader a = Some v -> String.prefix "#" a = false -> file_holds demo_reader 0 (demo_lines a) (demo_rows v) 7.
Proof.
  intros F P. exists [], (demo_lines a). split; [reflexivity|]. split; [reflexivity|]. split; [|now repeat constructor].
  repeat constructor; try exact F; try exact P; reflexivity.
Qed.
Definition demo_tables (n : nat) : list (list R) := if Nat.eqb n 9 then demo_rows (INR 1) else demo_rows (INR 3).
Lemma demo_on_disk j : (j <= 1)%nat -> on_disk demo_reader demo_disk (demo_settings 9) (9 + j) (demo_tables (9 + j)) 7.
Proof.
  intros H. destruct j as [|[|j]]; [| |lia].
  - exists (demo_lines "1"). split; [apply (@demo_found 9 "00009"); reflexivity|]. split; [now apply demo_holds|]. split; [lia|cbn; lia].
  - exists (demo_lines "3"). split; [apply (@demo_found 10 "00010"); reflexivity|]. split; [now apply demo_holds|]. split; [lia|cbn; lia].
Qed.
Lemma demo_fit : columns_fit default_names default_nums 7.
Proof.
  apply snap_fit; [|cbn; lia|cbn; tauto]. intros j s H. apply stands_snap; [repeat constructor; cbn; intuition discriminate|exact H|].
  assert (L : (j < 7)%nat) by (apply (nth_error_Some default_names); congruence). do 7 (destruct j as [|j]; [reflexivity|]). lia.
Qed.
Example C44_hypotheses_met :
  finds demo_disk (l_set demo_load) None (demo_lines "1") /\ file_holds demo_reader (o_skip (l_set demo_load)) (demo_lines "1") (demo_rows (INR 1)) 7 /\
  (2 <= 7)%nat /\ (2 <= length (demo_rows (INR 1)))%nat /\ columns_fit (l_names demo_load) (l_nums demo_load) 7 /\
  l_units demo_load <> Some Uradec /\ l_units demo_load <> Some Uamuse.
Proof.
  split; [apply (@demo_found 9 "00009"); reflexivity|]. split; [now apply demo_holds|]. split; [lia|]. split; [cbn; lia|].
  split; [exact demo_fit|]. split; discriminate.
Qed.
Example C48_hypotheses_met :
  o_nsnap (l_set demo_load) = 9%nat /\ (forall j, (j <= 1)%nat -> on_disk demo_reader demo_disk (l_set demo_load) (9 + j) (demo_tables (9 + j)) 7) /\
  columns_fit (l_names demo_load) (l_nums demo_load) 7 /\ l_units demo_load <> Some Uradec /\ l_units demo_load <> Some Uamuse /\
  plain_advance demo_advance /\ advance_columns demo_advance = (l_names demo_load, l_nums demo_load).
Proof.
  split; [reflexivity|]. split; [exact demo_on_disk|]. split; [exact demo_fit|]. split; [discriminate|]. split; [discriminate|].
  split; [now repeat split|reflexivity].
Qed.
Example C48_orbit_hypotheses_met :
  orbit_at demo_reader (q_cols (w_orbit demo_advance)) (repeat [] 9 ++ demo_orbit) 10 (INR 1) (mk6 (INR 101) 0 0 0 0 0).
Proof.
  exists ["1"; "101"; "6"]. split; [reflexivity|]. split; [repeat constructor; cbn; intuition discriminate|].
  intros s I. cbn in I. destruct I as [<-|[<-|[<-|[<-|[<-|[<-|[<-|[]]]]]]]]; (split; [intros k K; cbn in K; intuition (try discriminate)|intros N; cbn in N |- *; try reflexivity; exfalso; tauto]).
  - inversion H; subst. exists "1". now split.
  - inversion H0; subst. exists "101". now split.
Qed.
Example C68_hypotheses_met :
  let c := init_cluster 0 (Some Upckms) (Some Ogalaxy) 8 220 in
  good_scales (mkG (fun _ _ => 1) (fun _ _ => 1) (fun _ _ => 1) (fun p => p) (fun p => p)) (c_sc c) /\ c_units c = Some Upckms /\ orbit_source Ugalpy /\ orbit_target Upckms.
Proof. cbn. unfold good_scales, orbit_source, orbit_target. cbn. intuition (try discriminate; try lra). Qed.
