(* C88: clusters from astropy tables. *)
From Coq Require Import String Ascii.
From Verif Require Import Base ModelCluster ModelOps ModelRecipes ModelCentre ModelStars ModelLoad ModelTable
  SpecUnits SpecStars SpecLoad SpecTable ProofsLoad ProofsLoad2 ProofsLoad3 ProofsTable ProofsTable2 ProofsGorbit PropGorbit.
Open Scope string_scope. Open Scope list_scope. Open Scope R_scope.

(* the names a coordinate may have, in order of preference *)
Definition sky_names : six (list string) :=
  mk6 ["right ascension"; "ra"] ["declination"; "dec"] ["distance"; "dist"; "d"]
      ["pm_ra_cosdec"; "pm_ra"; "pmra"] ["pm_dec"; "pmdec"] ["radial_velocity"; "rvel"; "v_los"; "vlos"].
Definition cartesian_names : six (list string) := mk6 ["x"] ["y"] ["z"] ["v_x"; "vx"] ["v_y"; "vy"] ["v_z"; "vz"].
Definition names_for (u : option usys) (o : option osys) (q : six (list string)) : Prop :=
  (u = Some Uradec /\ o = Some Osky /\ q = sky_names) \/ (~ (u = Some Uradec /\ o = Some Osky) /\ q = cartesian_names).
Definition found_or_not (t : atable) (vs : list string) (o : option tcol) : Prop :=
  match o with Some c => found t vs c | None => not_found t vs end.
Lemma names_candidates u o q : names_for u o q -> candidates u o = q.
Proof.
  intros [[-> [-> ->]]|[N ->]]; [reflexivity|]. unfold candidates. destruct u as [[]|]; try reflexivity. destruct o as [[]|]; try reflexivity. exfalso. apply N. now split.
Qed.

(* C88: without a mapper, columns are found by name, ignoring case, and the stars are the rows of the table, in the requested
   units and origin; about the Galaxy, the cluster is at the density centre of its stars *)
Theorem C88_table_by_names :
  forall (G : galpy) (rd : reader) (o : load_opts) (t : atable) (adv : bool) (n : nat) (q : six (list string)) (h : six tcol) (hm hid : option tcol)
    (s : six (list R)) (m : option (list R)) (id : option (list Z)),
    NoDup (map fst t) -> names_for (l_units o) (l_origin o) q ->
    found t (sx q) (sx h) -> found t (sy q) (sy h) -> found t (sz q) (sz h) ->
    found t (svx q) (svx h) -> found t (svy q) (svy h) -> found t (svz q) (svz h) ->
    found_or_not t ["m"; "mass"] hm -> found_or_not t ["id"] hid -> columns_are n h hm hid s m id -> (1 <= n)%nat ->
    (l_origin o = Some Ogalaxy -> l_units o <> Some Uradec /\ l_units o <> Some Uamuse) ->
    exists v, get_table G rd o t None None adv = (Ok v, None) /\ holds_columns (v_cat v) n s m id /\
      c_units (g_c (v_cat v)) = l_units o /\ c_origin (g_c (v_cat v)) = l_origin o /\
      (l_units o <> Some Uradec -> p_t (c_ph (g_c (v_cat v))) = 0) /\
      (l_origin o = Some Ogalaxy -> default_density_centre (p_m (c_ph (g_c (v_cat v)))) (p_s (c_ph (g_c (v_cat v)))) (p_g (c_ph (g_c (v_cat v))))).
Proof.
  intros G rd o t adv n q h hm hid s m id ND Q F1 F2 F3 F4 F5 F6 FM FI C Hn H.
  destruct (build_table_ok G rd adv C Hn H) as [v [E [HC [U [O [_ [_ [_ [T [D _]]]]]]]]]].
  exists v. split; [|split; [exact HC|]; split; [exact U|]; split; [exact O|]; split; [exact T|exact D]].
  unfold get_table. f_equal. unfold find_columns. rewrite (names_candidates _ _ _ Q).
  assert (FO : forall vs w, found_or_not t vs w -> helper t vs = Ok w).
  { intros vs w Hw. destruct w; [exact (helper_some ND Hw)|exact (helper_none Hw)]. }
  rewrite (FO _ _ FM) (FO _ _ FI). cbn [bind]. cbv zeta.
  rewrite (required_some ND F1) (required_some ND F2) (required_some ND F3) (required_some ND F4) (required_some ND F5) (required_some ND F6). cbn [bind].
  destruct h. exact E.
Qed.
Print Assumptions C88_table_by_names.
(* C88: a coordinate that cannot be found is an error *)
Theorem C88_missing_coordinate :
  forall (G : galpy) (rd : reader) (o : load_opts) (t : atable) (ofile : option text) (adv : bool) (q : six (list string)),
    NoDup (map fst t) -> names_for (l_units o) (l_origin o) q ->
    not_found t (sx q) \/ not_found t (sy q) \/ not_found t (sz q) \/ not_found t (svx q) \/ not_found t (svy q) \/ not_found t (svz q) ->
    get_table G rd o t None ofile adv = (Raise, None).
Proof.
  intros G rd o t ofile adv q ND Q H. unfold get_table. rewrite missing_column; [exact ND| |reflexivity]. rewrite (names_candidates _ _ _ Q).
  destruct H as [H|[H|[H|[H|[H|H]]]]]; [exists (@sx (list string))|exists (@sy (list string))|exists (@sz (list string))|exists (@svx (list string))|exists (@svy (list string))|exists (@svz (list string))];
    (split; [cbn; tauto|exact H]).
Qed.
Print Assumptions C88_missing_coordinate.
(* every search either finds one column or none *)
Theorem C88_search_total :
  forall (t : atable) (vs : list string), NoDup (map fst t) ->
    (not_found t vs /\ forall c, ~ found t vs c) \/ (exists c, found t vs c /\ forall c', found t vs c' -> c' = c).
Proof.
  intros t vs ND. destruct (search_total t vs) as [N|[c F]]; [left|right].
  - split; [exact N|]. intros c F. pose proof (helper_none N) as A. rewrite (helper_some ND F) in A. discriminate A.
  - exists c. split; [exact F|]. intros c' F'. pose proof (helper_some ND F) as A. rewrite (helper_some ND F') in A. now injection A.
Qed.
Print Assumptions C88_search_total.
(* C88: with a mapper, the columns are those it names, by their exact name *)
Theorem C88_table_by_mapper :
  forall (G : galpy) (rd : reader) (o : load_opts) (t : atable) (mp : mapper) (adv : bool) (n : nat) (h : six tcol) (hm hid : option tcol)
    (s : six (list R)) (m : option (list R)) (id : option (list Z)),
    NoDup (map fst t) -> NoDup (map fst mp) ->
    mapped t mp "x" (sx h) -> mapped t mp "y" (sy h) -> mapped t mp "z" (sz h) ->
    mapped t mp "vx" (svx h) -> mapped t mp "vy" (svy h) -> mapped t mp "vz" (svz h) ->
    match hm with Some c => mapped t mp "m" c | None => ~ In "m" (map fst mp) end ->
    match hid with Some c => mapped t mp "id" c | None => ~ In "id" (map fst mp) end ->
    columns_are n h hm hid s m id -> (1 <= n)%nat ->
    (l_origin o = Some Ogalaxy -> l_units o <> Some Uradec /\ l_units o <> Some Uamuse) ->
    exists v mp', get_table G rd o t (Some mp) None adv = (Ok v, Some mp') /\ holds_columns (v_cat v) n s m id /\
      c_units (g_c (v_cat v)) = l_units o /\ c_origin (g_c (v_cat v)) = l_origin o /\
      (l_units o <> Some Uradec -> p_t (c_ph (g_c (v_cat v))) = 0) /\
      (l_origin o = Some Ogalaxy -> default_density_centre (p_m (c_ph (g_c (v_cat v)))) (p_s (c_ph (g_c (v_cat v)))) (p_g (c_ph (g_c (v_cat v))))).
Proof.
  intros G rd o t mp adv n h hm hid s m id ND NM F1 F2 F3 F4 F5 F6 FM FI C Hn H.
  destruct (build_table_ok G rd adv C Hn H) as [v [E [HC [U [O [_ [_ [_ [T [D _]]]]]]]]]].
  destruct (@map_columns_ok t mp h hm hid ND NM F1 F2 F3 F4 F5 F6 FM FI) as [mp' [EM _]].
  exists v, mp'. split; [|split; [exact HC|]; split; [exact U|]; split; [exact O|]; split; [exact T|exact D]]. unfold get_table. rewrite EM. cbn [bind]. now rewrite E.
Qed.
Print Assumptions C88_table_by_mapper.
(* finding: the mapper of the caller loses the entries that were used, so a second call with it is an error *)
Theorem C88_mapper_spent_refuted :
  forall (G : galpy) (rd : reader) (o : load_opts) (t : atable) (mp : mapper) (adv : bool) (h : six tcol) (hm hid : option tcol),
    NoDup (map fst t) -> NoDup (map fst mp) ->
    mapped t mp "x" (sx h) -> mapped t mp "y" (sy h) -> mapped t mp "z" (sz h) ->
    mapped t mp "vx" (svx h) -> mapped t mp "vy" (svy h) -> mapped t mp "vz" (svz h) ->
    match hm with Some c => mapped t mp "m" c | None => ~ In "m" (map fst mp) end ->
    match hid with Some c => mapped t mp "id" c | None => ~ In "id" (map fst mp) end ->
    exists r mp', get_table G rd o t (Some mp) None adv = (r, Some mp') /\
      (forall p, In p mp' <-> In p mp /\ ~ In (fst p) ["x"; "y"; "z"; "vx"; "vy"; "vz"; "m"; "id"]) /\
      forall o' t' ofile' adv', get_table G rd o' t' (Some mp') ofile' adv' = (Raise, Some mp').
Proof.
  intros G rd o t mp adv h hm hid ND NM F1 F2 F3 F4 F5 F6 FM FI.
  destruct (@map_columns_ok t mp h hm hid ND NM F1 F2 F3 F4 F5 F6 FM FI) as [mp' [EM IM]].
  unfold get_table at 1. rewrite EM. do 2 eexists. split; [reflexivity|]. split; [exact IM|].
  intros o' t' ofile' adv'. unfold get_table. rewrite spent_mapper; [|reflexivity].
  intros K. apply in_map_iff in K. destruct K as [p [Ep Ip]]. apply IM in Ip. destruct Ip as [_ N]. apply N. rewrite Ep. now left.
Qed.
Print Assumptions C88_mapper_spent_refuted.
(* C88: a coordinate that the mapper does not name, or an entry that names no column, is an error.  (A mass or identifier column
   the mapper does not name is not read, even if it goes by the usual name: see C88_table_by_mapper.) *)
Theorem C88_mapper_incomplete :
  forall (G : galpy) (rd : reader) (o : load_opts) (t : atable) (mp : mapper) (ofile : option text) (adv : bool) (key : string),
    (forall n, In (key, n) mp -> forall c, ~ In (n, c) t) ->
    In key ["x"; "y"; "z"; "vx"; "vy"; "vz"] \/ (In key ["m"; "id"] /\ In key (map fst mp)) ->
    fst (get_table G rd o t (Some mp) ofile adv) = Raise.
Proof.
  intros G rd o t mp ofile adv key D K. unfold get_table.
  assert (E : fst (map_columns t mp) = Raise) by (destruct K as [K|[K1 K2]]; [exact (dangling_raises K D)|exact (dangling_optional K1 K2 D)]).
  destruct (map_columns t mp) as [r m']. cbn [fst] in E |- *. now rewrite E.
Qed.
Print Assumptions C88_mapper_incomplete.
(* C88: with an orbit file, the cluster is at the point of the line, in its own units *)
Theorem C88_table_with_orbit :
  forall (G : galpy) (rd : reader) (o : load_opts) (adv : bool) (n : nat) (h : six tcol) (hm hid : option tcol)
    (s : six (list R)) (m : option (list R)) (id : option (list Z)) (u : usys) (og : osys) (f : text) (tt : R) (p : six R),
    columns_are n h hm hid s m id -> (1 <= n)%nat -> l_units o = Some u -> u <> Uradec -> u <> Uamuse -> l_origin o = Some og -> og <> Osky ->
    q_units (l_orbit o) = None \/ q_units (l_orbit o) = Some u ->
    orbit_at rd (q_cols (l_orbit o)) f (if adv then 0%nat else o_nsnap (l_set o)) tt p ->
    exists v, build_table G rd o (Some f) adv (mkCC h hm hid) = Ok v /\ holds_columns (v_cat v) n s m id /\
      c_units (g_c (v_cat v)) = l_units o /\ c_origin (g_c (v_cat v)) = l_origin o /\ p_g (c_ph (g_c (v_cat v))) = p /\
      (q_time (l_orbit o) = true -> p_t (c_ph (g_c (v_cat v))) = tt).
Proof.
  intros G rd o adv n h hm hid s m id u og f tt p C Hn U NR NA O OS QU [l [NL OL]].
  unfold build_table; cbn [h_id h_s h_m]. rewrite (whole_ids C). cbn [bind].
  destruct (table_added (l_proj o) (l_units o) (l_origin o) (l_ro o) (l_vo o) C Hn) as [k [E [HC [Uk [Ok_ [P _]]]]]].
  unfold table_args in E. rewrite E. cbn [bind]. rewrite U in Uk.
  destruct (@centre_table_orbit G rd o adv (g_c k) f l tt p og u Uk NR NA Ok_ P O OS QU NL OL) as [c' [E2 [Q1 [Q2 [Q3 [Q4 [Q5 [Q6 [Q7 Q8]]]]]]]]].
  rewrite E2. cbn [bind fst snd]. eexists. split; [reflexivity|]. cbn [v_cat set_cluster g_c].
  split; [now apply holds_ext|]. split; [now rewrite Q5 Uk|]. split; [now rewrite Q6|]. now split.
Qed.
Print Assumptions C88_table_with_orbit.

(* ------------------------------------------------------------------ non-vacuity *)
Definition demo_table : atable :=
  [("X", Rcol [1; 2]); ("y", Rcol [3; 4]); ("Z", Zcol [5; 6]%Z); ("vx", Rcol [0; 0]); ("v_y", Rcol [7; 8]); ("VY", Rcol [9; 9]);
   ("vz", Rcol [1; 0]); ("Mass", Rcol [2; 3]); ("star", Zcol [10; 20]%Z)].
Definition demo_columns : six tcol := mk6 (Rcol [1; 2]) (Rcol [3; 4]) (Zcol [5; 6]%Z) (Rcol [0; 0]) (Rcol [7; 8]) (Rcol [1; 0]).
Definition demo_six : six (list R) := mk6 [1; 2] [3; 4] [5; 6] [0; 0] [7; 8] [1; 0].
Lemma unnamed_all t v : forallb (fun p : string * tcol => negb (String.eqb (lower (fst p)) v)) t = true -> unnamed t v.
Proof.
  intros H n c I S. rewrite forallb_forall in H. specialize (H (n, c) I). cbn [fst] in H. rewrite (small_is S) String.eqb_refl in H. discriminate H.
Qed.
Lemma demo_nodup : NoDup (map fst demo_table).
Proof. cbn. repeat constructor; cbn; intuition discriminate. Qed.
Lemma demo_are : columns_are 2 demo_columns (Some (Rcol [2; 3])) None demo_six (Some [2; 3]) None.
Proof. unfold columns_are, six_length. cbn. repeat split. Qed.
Example C88_hypotheses_met :
  NoDup (map fst demo_table) /\ names_for (Some Upckms) (Some Ogalaxy) cartesian_names /\
  found demo_table ["x"] (sx demo_columns) /\ found demo_table ["v_x"; "vx"] (svx demo_columns) /\ found demo_table ["v_y"; "vy"] (svy demo_columns) /\
  found_or_not demo_table ["m"; "mass"] (Some (Rcol [2; 3])) /\ found_or_not demo_table ["id"] None /\
  columns_are 2 demo_columns (Some (Rcol [2; 3])) None demo_six (Some [2; 3]) None.
Proof.
  assert (U : forall v, forallb (fun p : string * tcol => negb (String.eqb (lower (fst p)) v)) demo_table = true -> unnamed demo_table v) by (intros; now apply unnamed_all).
  split; [exact demo_nodup|]. split; [right; split; [intros [H _]; discriminate H|reflexivity]|].
  split. { exists [], "x", []. split; [reflexivity|]. split; [constructor|]. exists [], "X", (tl demo_table). split; [reflexivity|]. split; [now apply small_iff|now apply unnamed_all]. }
  split. { exists ["v_x"], "vx", []. split; [reflexivity|]. split; [constructor; [now apply U|constructor]|]. exists (firstn 3 demo_table), "vx", (skipn 4 demo_table). split; [reflexivity|]. split; [now apply small_iff|now apply unnamed_all]. }
  split. { exists [], "v_y", ["vy"]. split; [reflexivity|]. split; [constructor|]. exists (firstn 4 demo_table), "v_y", (skipn 5 demo_table). split; [reflexivity|]. split; [now apply small_iff|now apply unnamed_all]. }
  split. { exists ["m"], "mass", []. split; [reflexivity|]. split; [constructor; [now apply U|constructor]|]. exists (firstn 7 demo_table), "Mass", (skipn 8 demo_table). split; [reflexivity|]. split; [now apply small_iff|now apply unnamed_all]. }
  split; [constructor; [now apply U|constructor]|exact demo_are].
Qed.
Definition demo_mapper : mapper := [("x", "X"); ("y", "y"); ("z", "Z"); ("vx", "vx"); ("vy", "VY"); ("vz", "vz"); ("id", "star"); ("note", "none")].
Example C88_mapper_hypotheses_met :
  NoDup (map fst demo_mapper) /\ mapped demo_table demo_mapper "x" (Rcol [1; 2]) /\ mapped demo_table demo_mapper "vy" (Rcol [9; 9]) /\
  mapped demo_table demo_mapper "id" (Zcol [10; 20]%Z) /\ ~ In "m" (map fst demo_mapper).
Proof.
  split; [cbn; repeat constructor; cbn; intuition discriminate|].
  split; [exists "X"; cbn; tauto|]. split; [exists "VY"; cbn; tauto|]. split; [exists "star"; cbn; tauto|]. cbn. intuition discriminate.
Qed.
