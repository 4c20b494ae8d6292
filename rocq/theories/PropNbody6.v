(* C46, C47, C70: NBODY6 output files. *)
From Coq Require Import String Ascii.
From Coq Require Import Init.Byte.
From Verif Require Import Base ModelCluster ModelOps ModelRecipes ModelStars ModelLoad ModelNbody6
  SpecUnits SpecStars SpecLoad SpecNbody6 ProofsNbody6 ProofsNbody62 ProofsNbody63 ProofsNbody64 ProofsNbody65 ProofsLoad3 ProofsRecipes2 PropLoad.
Open Scope string_scope. Open Scope list_scope. Open Scope R_scope.

(* C46: an OUT3 record gives exactly the scalars, masses, positions, velocities and identifiers written in it, and the file is left
   at the byte after it *)
Theorem C46_out3 :
  forall (D : decoder) (scalars : list R) (ps : list particle) (f rest : bytes),
    out3_record D scalars ps f -> get_out3 D (f ++ rest) = Ok (read_record scalars ps, rest).
Proof. intros. now apply get_out3_ok. Qed.
Print Assumptions C46_out3.
(* C46: the same for OUT33; without binaries there is no data block, and no star is returned *)
Theorem C46_out33 :
  forall (D : decoder) (scalars : list R) (ps : list particle) (f rest : bytes),
    out33_record D scalars ps f ->
    exists o, get_out33 D (f ++ rest) = Ok (o, rest) /\ (ps <> [] -> o = read_record scalars ps) /\ (ps = [] -> o3_n o = 0%Z /\ o3_m o = []).
Proof.
  intros D sc ps f rest H. rewrite (get_out33_ok rest H). destruct ps; eexists; (split; [reflexivity|]); split; intros E; try easy.
Qed.
Print Assumptions C46_out33.
(* C46: a record cut anywhere after its first mark raises *)
Theorem C46_truncated :
  forall (D : decoder) (scalars : list R) (ps : list particle) (f f1 f2 : bytes),
    f = f1 ++ f2 -> f2 <> [] -> (4 <= length f1)%nat ->
    (out3_record D scalars ps f -> get_out3 D f1 = Raise) /\ (out33_record D scalars ps f -> get_out33 D f1 = Raise).
Proof. intros D sc ps f f1 f2 E N L. split; intros H; [eapply truncated_out3|eapply truncated_out33]; eassumption. Qed.
Print Assumptions C46_truncated.
(* C46: a header or a data block whose two marks differ raises *)
Theorem C46_marks :
  forall (D : decoder) (a b model nrun mark : Z) (scalars : list R) (ps : list particle) (h f rest : bytes), a <> b ->
    (ints D [a; count ps; model; nrun; count scalars; b] h -> get_out3 D (h ++ rest) = Raise) /\
    (ints D [mark; count ps; model; nrun; count scalars; mark] h -> marked_block D a b scalars ps f -> get_out3 D (h ++ f ++ rest) = Raise).
Proof.
  intros D a b model nrun mark sc ps h f rest NE. split; intros H.
  - eapply out3_marks; eassumption.
  - intros [b1 [b2 [b3 [b4 [b5 [b6 [b7 [-> [I1 [I2 [I3 [I4 [I5 [I6 I7]]]]]]]]]]]]]].
    rewrite (out3_header (f := h) _ H). now apply (@data_marks D sc ps a b).
Qed.
Print Assumptions C46_marks.
(* C46: after load_cluster, k calls of advance_cluster bring record k of every file: the stars of OUT33 then those of OUT3, with the
   scale factors, time and centre of that record, in N-body units with the cluster as origin, the orbit of OUT33 and the stellar
   evolution of fort.82 and fort.83 *)
Theorem C46_series :
  forall (G : galpy) (D : decoder) (rd : reader) (ol oa : n6_opts) (has33 hasse : bool) (snaps : nat -> n6_snap)
    (f3 f33 : nat -> bytes) (f82 f83 : nat -> text) (t3 t33 : bytes) (t82 t83 : text) (m k : nat),
    (forall j, (j <= m)%nat -> snap_records D rd has33 hasse (snaps j) (f3 j) (f33 j) (f82 j) (f83 j)) -> (k <= m)%nat ->
    exists v w, load_nbody6 G D rd ol (records f3 0 (S m) ++ t3) (given has33 (records f33 0 (S m) ++ t33))
        (given hasse (records f82 0 (S m) ++ t82)) (given hasse (records f83 0 (S m) ++ t83)) None = Ok v /\
      advance_nbody6_times G D rd oa k v = Ok w /\ snap_loaded hasse (snaps k) (x_cat w).
Proof.
  intros G D rd ol oa has33 hasse snaps f3 f33 f82 f83 t3 t33 t82 t83 m k H Hk.
  destruct (many_nbody6 G ol oa t3 t33 t82 t83 H Hk) as [v [w [E1 [E2 [L _]]]]]. now exists v, w.
Qed.
Print Assumptions C46_series.
(* C46: after the last record advance_cluster returns a cluster without stars *)
Theorem C46_end :
  forall (G : galpy) (D : decoder) (rd : reader) (ol oa : n6_opts) (has33 : bool) (snaps : nat -> n6_snap) (f3 f33 : nat -> bytes) (m : nat),
    (forall j, (j <= m)%nat -> snap_records D rd has33 false (snaps j) (f3 j) (f33 j) [] []) ->
    exists v w, load_nbody6 G D rd ol (records f3 0 (S m)) (given has33 (records f33 0 (S m))) None None None = Ok v /\
      advance_nbody6_times G D rd oa (S m) v = Ok w /\ g_ntot (x_cat w) = 0%nat /\ p_m (c_ph (g_c (x_cat w))) = [].
Proof.
  intros G D rd ol oa has33 snaps f3 f33 m H.
  destruct (@many_nbody6 G D rd ol oa has33 false snaps f3 f33 (fun _ => []) (fun _ => []) [] [] [] [] m H m (le_n m)) as [v [w [E1 [E2 [_ E3]]]]].
  rewrite !app_nil_r in E1. rewrite Nat.sub_diag !app_nil_r in E3. destruct (end_nbody6 G D rd oa true has33) as [w' [E4 L]].
  exists v, w'. split; [exact E1|]. split; [|exact L]. cbn [advance_nbody6_times]. rewrite E2. cbn [bind]. unfold advance_nbody6. rewrite E3. exact E4.
Qed.
Print Assumptions C46_end.
(* finding: with fort.82 and fort.83, advance_cluster after the last record raises instead of returning an empty cluster *)
Theorem C46_end_evolution_refuted :
  forall (G : galpy) (D : decoder) (rd : reader) (ol oa : n6_opts) (has33 : bool) (snaps : nat -> n6_snap)
    (f3 f33 : nat -> bytes) (f82 f83 : nat -> text) (m : nat),
    (forall j, (j <= m)%nat -> snap_records D rd has33 true (snaps j) (f3 j) (f33 j) (f82 j) (f83 j)) ->
    exists v, load_nbody6 G D rd ol (records f3 0 (S m)) (given has33 (records f33 0 (S m))) (Some (records f82 0 (S m))) (Some (records f83 0 (S m))) None = Ok v /\
      advance_nbody6_times G D rd oa (S m) v = Raise.
Proof.
  intros G D rd ol oa has33 snaps f3 f33 f82 f83 m H.
  destruct (@many_nbody6 G D rd ol oa has33 true snaps f3 f33 f82 f83 [] [] [] [] m H m (le_n m)) as [v [w [E1 [E2 [_ E3]]]]].
  rewrite !app_nil_r in E1. rewrite Nat.sub_diag !app_nil_r in E3.
  exists v. split; [exact E1|]. cbn [advance_nbody6_times]. rewrite E2. cbn [bind]. unfold advance_nbody6. rewrite E3. apply end_nbody6_se.
Qed.
Print Assumptions C46_end_evolution_refuted.
(* C46: an orbit file gives the orbit: line nsnap on load, the next unread line on advance; stars and scales are those read without it *)
Theorem C46_orbit_file :
  forall (G : galpy) (D : decoder) (rd : reader) (o : n6_opts) (advance : bool) (f3 : bytes) (f33 : option bytes) (f82 f83 : option text)
    (fo : text) (v : n6) (t : R) (p : six R),
    get_nbody6 G D rd o f3 f33 f82 f83 None advance = Ok v -> c_units (g_c (x_cat v)) = Some Unbody ->
    orbit_at rd (q_cols (j_orbit o)) fo (if advance then 0%nat else j_nsnap o) t p -> q_units (j_orbit o) = None \/ q_units (j_orbit o) = Some Unbody ->
    exists c, get_nbody6 G D rd o f3 f33 f82 f83 (Some fo) advance =
        Ok (mkN6 (set_cluster (x_cat v) c) (x_out3 v) (x_out33 v) (x_82 v) (x_83 v) (Some (skipn (S (if advance then 0%nat else j_nsnap o)) fo))) /\
      p_g (c_ph c) = p /\ p_t (c_ph c) = (if q_time (j_orbit o) then t else p_t (c_ph (g_c (x_cat v)))) /\
      p_m (c_ph c) = p_m (c_ph (g_c (x_cat v))) /\ p_s (c_ph c) = p_s (c_ph (g_c (x_cat v))) /\ c_id c = c_id (g_c (x_cat v)) /\
      c_sc c = c_sc (g_c (x_cat v)) /\ p_c (c_ph c) = p_c (c_ph (g_c (x_cat v))).
Proof.
  intros G D rd o adv f3 f33 f82 f83 fo v t p E U A Q. destruct (orbit_nbody6 E U A Q) as [c [E' H]]. exists c. split; [|exact H].
  rewrite E'. unfold line_number. now rewrite Nat.add_1_r.
Qed.
Print Assumptions C46_orbit_file.
(* C46: with an orbit file, snapshot k of a series has line nsnap + k of it as its orbit (and time, if asked), and otherwise exactly what
   the series without the orbit file has *)
Theorem C46_orbit_series :
  forall (G : galpy) (D : decoder) (rd : reader) (ol oa : n6_opts) (has33 hasse : bool) (snaps : nat -> n6_snap)
    (f3 f33 : nat -> bytes) (f82 f83 : nat -> text) (t3 t33 : bytes) (t82 t83 : text) (fo : text) (times : nat -> R) (points : nat -> six R) (m k : nat),
    (forall j, (j <= m)%nat -> snap_records D rd has33 hasse (snaps j) (f3 j) (f33 j) (f82 j) (f83 j)) ->
    orbit_at rd (q_cols (j_orbit ol)) fo (j_nsnap ol) (times 0%nat) (points 0%nat) ->
    (forall j, (1 <= j <= m)%nat -> orbit_at rd (q_cols (j_orbit oa)) fo (j_nsnap ol + j) (times j) (points j)) ->
    q_units (j_orbit ol) = None \/ q_units (j_orbit ol) = Some Unbody -> q_units (j_orbit oa) = None \/ q_units (j_orbit oa) = Some Unbody ->
    (k <= m)%nat ->
    let load file := load_nbody6 G D rd ol (records f3 0 (S m) ++ t3) (given has33 (records f33 0 (S m) ++ t33))
        (given hasse (records f82 0 (S m) ++ t82)) (given hasse (records f83 0 (S m) ++ t83)) file in
    exists v w v' w', load None = Ok v /\ advance_nbody6_times G D rd oa k v = Ok w /\ snap_loaded hasse (snaps k) (x_cat w) /\
      load (Some fo) = Ok v' /\ advance_nbody6_times G D rd oa k v' = Ok w' /\
      let c := g_c (x_cat w) in let c' := g_c (x_cat w') in
      p_g (c_ph c') = points k /\ p_t (c_ph c') = (if q_time (j_orbit (match k with O => ol | _ => oa end)) then times k else p_t (c_ph c)) /\
      p_m (c_ph c') = p_m (c_ph c) /\ p_s (c_ph c') = p_s (c_ph c) /\ c_id c' = c_id c /\ c_sc c' = c_sc c /\ p_c (c_ph c') = p_c (c_ph c) /\
      g_sse (x_cat w') = g_sse (x_cat w) /\ g_bse (x_cat w') = g_bse (x_cat w).
Proof.
  intros G D rd ol oa has33 hasse snaps f3 f33 f82 f83 t3 t33 t82 t83 fo times points m k H O0 OJ QL QA Hk load.
  destruct (orbit_series G t3 t33 t82 t83 H O0 OJ QL QA Hk) as [v [w [v' [w' [E1 [E2 [L [E3 [E4 [_ [_ [_ [_ [_ [_ [c [EC C]]]]]]]]]]]]]]]]].
  exists v, w, v', w'. split; [exact E1|]. split; [exact E2|]. split; [exact L|]. split; [exact E3|]. split; [exact E4|].
  cbn zeta. rewrite EC. destruct C as [C1 [C2 [C3 [C4 [C5 [C6 C7]]]]]]. cbn [set_cluster g_c g_sse g_bse].
  split; [exact C1|]. split; [exact C2|]. split; [exact C3|]. split; [exact C4|]. split; [exact C5|]. split; [exact C6|]. split; [exact C7|]. split; reflexivity.
Qed.
Print Assumptions C46_orbit_series.

(* C47, the part that holds: types, radii and binary arrays have one entry for each object, binaries first, and with at most one binary
   so do the luminosities, that of the binary being the sum.  Missing: two or more binaries, refuted below. *)
Theorem C47_aligned_partial :
  forall (G : galpy) (D : decoder) (rd : reader) (o : n6_opts) (has33 : bool) (s : n6_snap)
    (f3 f33 r3 r33 : bytes) (f82 f83 r82 r83 : text) (advance : bool),
    snap_records D rd has33 true s f3 f33 f82 f83 ->
    exists v, get_nbody6 G D rd o (f3 ++ r3) (given has33 (f33 ++ r33)) (Some (f82 ++ r82)) (Some (f83 ++ r83)) None advance = Ok v /\
      evolved s (x_cat v) /\ x_82 v = Some r82 /\ x_83 v = Some r83 /\
      ((length (z_bin s) <= 1)%nat ->
       length (e_logl (g_sse (x_cat v))) = (length (z_bin s) + length (z_sin s))%nat /\
       (forall i b, nth_error (z_bin s) i = Some b -> pair_luminosity b (nth i (e_logl (g_sse (x_cat v))) 0)) /\
       (forall i y, nth_error (z_sin s) i = Some y -> nth (length (z_bin s) + i) (e_logl (g_sse (x_cat v))) 0 = y_l y) /\
       e_lum (g_sse (x_cat v)) = map (Rpower 10) (e_logl (g_sse (x_cat v)))).
Proof.
  intros G D rd o has33 s f3 f33 r3 r33 f82 f83 r82 r83 adv H.
  destruct (get_nbody6_ok G o adv r3 r33 r82 r83 H) as [k [E [L X]]]. destruct (X eq_refl) as [X1 X2].
  eexists. split; [exact E|]. cbn [x_cat x_82 x_83]. split; [apply L|]. split; [reflexivity|]. split; [reflexivity|].
  intros N. rewrite X2 X1. destruct (z_bin s) as [|b [|b' bs]]; cbn [length] in N |- *; [| |lia].
  - cbn [map prefixes length seq concat app]. rewrite map_length. split; [reflexivity|]. split; [intros [|i] b; discriminate|].
    split; [|reflexivity]. intros i y Ny. now apply nth_of.
  - cbn. rewrite map_length. split; [reflexivity|]. split; [|split; [|reflexivity]].
    + intros [|i] b0 Nb; cbn in Nb; [|now destruct i]. injection Nb as <-. unfold pair_luminosity, pair_log, pow10. apply pow10_log10.
      apply Rplus_lt_0_compat; apply exp_pos.
    + intros i y Ny. now apply nth_of.
Qed.
Print Assumptions C47_aligned_partial.
(* finding: with two or more binaries the array of luminosities has too many entries (nb(nb+1)/2 for the nb binaries) *)
Theorem C47_luminosities_refuted :
  forall (G : galpy) (D : decoder) (rd : reader) (o : n6_opts) (has33 : bool) (s : n6_snap)
    (f3 f33 r3 r33 : bytes) (f82 f83 r82 r83 : text) (advance : bool),
    snap_records D rd has33 true s f3 f33 f82 f83 -> (2 <= length (z_bin s))%nat ->
    exists v, get_nbody6 G D rd o (f3 ++ r3) (given has33 (f33 ++ r33)) (Some (f82 ++ r82)) (Some (f83 ++ r83)) None advance = Ok v /\
      (2 * length (e_logl (g_sse (x_cat v))) = length (z_bin s) * (length (z_bin s) + 1) + 2 * length (z_sin s))%nat /\
      length (e_logl (g_sse (x_cat v))) <> length (e_kw (g_sse (x_cat v))).
Proof.
  intros G D rd o has33 s f3 f33 r3 r33 f82 f83 r82 r83 adv H N.
  destruct (get_nbody6_ok G o adv r3 r33 r82 r83 H) as [k [E [L X]]]. destruct (X eq_refl) as [X1 X2].
  eexists. split; [exact E|]. cbn [x_cat]. assert (K : e_kw (g_sse k) = joined (fun b => IZR (r_kwb b)) (fun y => IZR (y_kw y)) (z_bin s) (z_sin s)) by apply L.
  rewrite X1 K /joined !app_length !map_length. pose proof (prefixes_length (map pair_log (z_bin s))) as P. rewrite map_length in P. split; nia.
Qed.
Print Assumptions C47_luminosities_refuted.
(* finding: a section of fort.83 without single stars leaves its footer unread, so reading the next section raises *)
Theorem C47_no_singles_refuted :
  forall (rd : reader) (bins : list binrow) (f82 r82 r83 : text) (h e : line),
    section (binary_line rd) rd bins f82 -> header_line rd 0 h -> footer e -> (length e <= 2)%nat ->
    (exists s, get_nbody6se rd (f82 ++ r82) ([h; e] ++ r83) = Ok (r82, e :: r83, s)) /\
    get_nbody6se rd r82 (e :: r83) = Raise.
Proof.
  intros rd bs f82 r82 r83 h e A H F L. split.
  - assert (B : section (single_line rd) rd [] [h; e]) by (exists h, [], e; split; [reflexivity|]; split; [exact H|]; split; [constructor|exact F]).
    destruct (get_se_empty r82 r83 A B) as [e' [_ E]]. assert (e' = e) by (exact (se_left (rd := rd) (bs := bs) A H F E)). subst e'. eexists; exact E.
  - exact (se_header_raises r82 (short_header rd r83 L)).
Qed.
Print Assumptions C47_no_singles_refuted.
(* C70: the scale factors carry Kepler's third law from the units of fort.82 (log of solar radii, log of days, solar masses) to
   N-body units: a binary obeys it in the file if and only if it obeys it in the cluster, with period 2 pi-free: P^2 (m1+m2) = a^3 *)
Theorem C70_kepler :
  forall (s : n6_snap) (k : catalog) (i : nat) (b : binrow),
    snap_loaded true s k -> nth_error (z_bin s) i = Some b -> 0 < nth 2 (z_sc s) 0 -> 0 < nth 3 (z_sc s) 0 ->
    let q := c_bin (g_c k) in
    kepler (Rpower 10 (r_semi b) * 695700000 / 149597870700) (Rpower 10 (r_pb b) / 365.25) (r_m1 b) (r_m2 b) <->
    kepler (nth i (b_semi q) 0) (nth i (b_pb q) 0) (nth i (b_m1 q) 0) (nth i (b_m2 q) 0).
Proof.
  intros s k i b [_ [SC [_ [_ [_ EV]]]]] N P2 P3 q.
  destruct EV as [_ [_ [_ [_ [_ [_ [_ [_ [_ [_ [_ [_ [_ [V1 [V2 [V3 V4]]]]]]]]]]]]]]]].
  destruct SC as [_ [S1 [S2 [_ [_ [_ [_ [_ [S3 [S4 S5]]]]]]]]]].
  unfold q. rewrite V1 V2 V3 V4. rewrite !(nth_of _ _ N). rewrite S2 S3 (S5 P2 P3) S4. now apply kepler_scales.
Qed.
Print Assumptions C70_kepler.

(* ------------------------------------------------------------------ non-vacuity *)
(* little-endian words; a real is stored as an integer *)
Definition demo_word (a b c d : byte) : Z :=
  (Z.of_N (Byte.to_N a) + 256 * Z.of_N (Byte.to_N b) + 65536 * Z.of_N (Byte.to_N c) + 16777216 * Z.of_N (Byte.to_N d))%Z.
Definition demo_decoder : decoder := mkDec demo_word (fun a b c d => IZR (demo_word a b c d)).
Definition word (n : nat) : bytes := [match Byte.of_N (N.of_nat n) with Some b => b | None => x00 end; x00; x00; x00].
Definition words (l : list nat) : bytes := concat (map word l).
Lemma word_value n : (n < 256)%nat -> exists b, word n = [b; x00; x00; x00] /\ demo_word b x00 x00 x00 = Z.of_nat n.
Proof.
  intros H. unfold word. destruct (Byte.of_N (N.of_nat n)) as [b|] eqn:E.
  - exists b. split; [reflexivity|]. apply Byte.to_of_N in E. unfold demo_word. rewrite E. cbn. lia.
  - exfalso. assert (N.of_nat n <= 255)%N as L by lia. apply Byte.of_N_None_iff in E. lia.
Qed.
Lemma words_ints l : Forall (fun n => (n < 256)%nat) l -> ints demo_decoder (map Z.of_nat l) (words l).
Proof.
  intros F. induction F as [|n l H F IH]; [constructor|]. unfold words. cbn [map concat]. fold (words l).
  destruct (word_value n H) as [b [-> V]]. apply ints_cons; [exact V|exact IH].
Qed.
Lemma words_reals l : Forall (fun n => (n < 256)%nat) l -> reals demo_decoder (map (fun n => IZR (Z.of_nat n)) l) (words l).
Proof.
  intros F. induction F as [|n l H F IH]; [constructor|]. unfold words. cbn [map concat]. fold (words l).
  destruct (word_value n H) as [b [-> V]]. apply reals_cons; [cbn [demo_decoder d_real]; now rewrite V|exact IH].
Qed.

Definition demo_block (a : nat) : bytes :=
  words [100]%nat ++ words (seq a 18) ++ words [1; 2]%nat ++ words [10; 11; 12; 20; 21; 22]%nat ++ words [13; 14; 15; 23; 24; 25]%nat ++ words [7; 8]%nat ++ words [100]%nat.
Definition demo_out3 (a : nat) : bytes := words [16; 2; 1; 1; 18; 16]%nat ++ demo_block a.
Definition real_of (n : nat) : R := IZR (Z.of_nat n).
Definition demo_six (a : nat) : six R := mk6 (real_of a) (real_of (a + 1)) (real_of (a + 2)) (real_of (a + 3)) (real_of (a + 4)) (real_of (a + 5)).
Definition demo_stars : list particle := [mkPt (real_of 1) (demo_six 10) 7; mkPt (real_of 2) (demo_six 20) 8].
Ltac small := repeat (apply Forall_cons; [lia|]); apply Forall_nil.
Lemma demo_out3_record a : (a <= 100)%nat -> out3_record demo_decoder (map real_of (seq a 18)) demo_stars (demo_out3 a).
Proof.
  intros H. exists 16%Z, 1%Z, 1%Z, (words [16; 2; 1; 1; 18; 16]%nat), (demo_block a). split; [reflexivity|]. split; [apply (@words_ints [16; 2; 1; 1; 18; 16]%nat); small|].
  exists 100%Z, (words [100]%nat), (words (seq a 18)), (words [1; 2]%nat), (words [10; 11; 12; 20; 21; 22]%nat), (words [13; 14; 15; 23; 24; 25]%nat), (words [7; 8]%nat), (words [100]%nat).
  split; [reflexivity|]. split; [apply (@words_ints [100]%nat); small|]. split; [apply words_reals; cbn [seq]; small|].
  split; [apply (@words_reals [1; 2]%nat); small|]. split; [apply (@words_reals [10; 11; 12; 20; 21; 22]%nat); small|]. split; [apply (@words_reals [13; 14; 15; 23; 24; 25]%nat); small|].
  split; [apply (@words_ints [7; 8]%nat); small|apply (@words_ints [100]%nat); small].
Qed.
Definition demo_out33 : bytes :=
  words [12; 1; 1; 6; 12]%nat ++ words [40]%nat ++ words [31; 32; 33; 34; 35; 36]%nat ++ words [3]%nat ++ words [30; 31; 32]%nat ++ words [33; 34; 35]%nat ++ words [9]%nat ++ words [40]%nat.
Lemma demo_out33_record : out33_record demo_decoder (map real_of [31; 32; 33; 34; 35; 36]%nat) [mkPt (real_of 3) (demo_six 30) 9] demo_out33.
Proof.
  exists 12%Z, 1%Z, (words [12; 1; 1; 6; 12]%nat), (words [40]%nat ++ words [31; 32; 33; 34; 35; 36]%nat ++ words [3]%nat ++ words [30; 31; 32]%nat ++ words [33; 34; 35]%nat ++ words [9]%nat ++ words [40]%nat).
  split; [reflexivity|]. split; [apply (@words_ints [12; 1; 1; 6; 12]%nat); small|].
  exists 40%Z, (words [40]%nat), (words [31; 32; 33; 34; 35; 36]%nat), (words [3]%nat), (words [30; 31; 32]%nat), (words [33; 34; 35]%nat), (words [9]%nat), (words [40]%nat).
  split; [reflexivity|]. split; [apply (@words_ints [40]%nat); small|]. split; [apply (@words_reals [31; 32; 33; 34; 35; 36]%nat); small|].
  split; [apply (@words_reals [3]%nat); small|]. split; [apply (@words_reals [30; 31; 32]%nat); small|]. split; [apply (@words_reals [33; 34; 35]%nat); small|].
  split; [apply (@words_ints [9]%nat); small|apply (@words_ints [40]%nat); small].
Qed.
(* two binaries, the second without radii and luminosities, and one single star *)
Definition demo_82 : text :=
  [["##"; "BINARIES"; "2"; "1"]; ["1"; "2"; "0"; "1"; "14"; "3"; "0"; "4"; "2"; "5"; "6"; "1"; "2"; "3"; "2"; "1"; "1"];
   ["3"; "4"; "0"; "1"; "14"; "3"; "0"; "4"; "2"; "5"; "6"; "NaN"]; ["##"; "END"]].
Definition demo_83 : text := [["##"; "SINGLES"; "1"; "1"]; ["5"; "1"; "3"; "1"; "2"; "3"; "4"]; ["##"; "END"]].
Definition demo_binaries : list binrow :=
  [mkBR 1 2 0 1 14 (INR 3) (INR 0) (INR 4) (INR 2) (INR 5) (INR 6) (INR 1) (INR 2) (INR 3) (INR 2) (INR 1) (INR 1);
   mkBR 3 4 0 1 14 (INR 3) (INR 0) (INR 4) (INR 2) (INR 5) (INR 6) 0 0 0 0 0 0].
Definition demo_singles : list sinrow := [mkSR 5 1 (INR 3) (INR 1) (INR 2) (INR 3) (INR 4)].
Ltac words_of := match goal with
  | |- word_int _ _ _ _ => eexists; split; reflexivity
  | |- word_real _ _ _ _ => eexists; split; reflexivity end.
Lemma demo_82_section : section (binary_line demo_reader) demo_reader demo_binaries demo_82.
Proof.
  exists ["##"; "BINARIES"; "2"; "1"], [["1"; "2"; "0"; "1"; "14"; "3"; "0"; "4"; "2"; "5"; "6"; "1"; "2"; "3"; "2"; "1"; "1"]; ["3"; "4"; "0"; "1"; "14"; "3"; "0"; "4"; "2"; "5"; "6"; "NaN"]], ["##"; "END"].
  split; [reflexivity|]. split; [split; [words_of|eexists; words_of]|]. split; [|reflexivity]. constructor; [|constructor; [|constructor]].
  - split; [intros F; discriminate F|]. do 11 (split; [words_of|]). split; [now eexists|]. right. split; [discriminate|].
    intros j x N. do 6 (destruct j as [|j]; [injection N as <-; words_of|]). destruct j; discriminate N.
  - split; [intros F; discriminate F|]. do 11 (split; [words_of|]). split; [now eexists|]. left. now split.
Qed.
Lemma demo_83_section : section (single_line demo_reader) demo_reader demo_singles demo_83.
Proof.
  exists ["##"; "SINGLES"; "1"; "1"], [["5"; "1"; "3"; "1"; "2"; "3"; "4"]], ["##"; "END"].
  split; [reflexivity|]. split; [split; [words_of|eexists; words_of]|]. split; [|reflexivity]. constructor; [|constructor].
  split; [intros F; discriminate F|]. do 4 (split; [words_of|]). split; [now eexists|]. right. split; [discriminate|].
  intros j x N. do 3 (destruct j as [|j]; [injection N as <-; words_of|]). destruct j; discriminate N.
Qed.
Definition demo_snap (j : nat) : n6_snap :=
  mkSnap (map real_of (seq (1 + j) 18)) demo_stars (map real_of [31; 32; 33; 34; 35; 36]%nat) [mkPt (real_of 3) (demo_six 30) 9] demo_binaries demo_singles.
(* three records of the four files *)
Example C46_hypotheses_met :
  forall j, (j <= 2)%nat -> snap_records demo_decoder demo_reader true true (demo_snap j) (demo_out3 (1 + j)) demo_out33 demo_82 demo_83.
Proof.
  intros j H. split; [cbn [demo_snap z_sc]; rewrite map_length seq_length; lia|]. split; [discriminate|]. split; [apply demo_out3_record; lia|].
  split; [split; [exact demo_out33_record|intros _; cbn; lia]|]. split; [exact demo_82_section|]. split; [exact demo_83_section|discriminate].
Qed.
Example C46_truncated_hypotheses_met :
  demo_out3 1 = words [16; 2; 1]%nat ++ skipn 12 (demo_out3 1) /\ skipn 12 (demo_out3 1) <> [] /\ (4 <= length (words [16; 2; 1]%nat))%nat.
Proof. split; [reflexivity|]. split; [discriminate|cbn; lia]. Qed.
Example C46_marks_hypotheses_met :
  ints demo_decoder [16; count demo_stars; 1; 1; count (map real_of (seq 1 18)); 17]%Z (words [16; 2; 1; 1; 18; 17]%nat) /\
  marked_block demo_decoder 100 101 [] [] (words [100]%nat ++ words [101]%nat).
Proof.
  split; [apply (@words_ints [16; 2; 1; 1; 18; 17]%nat); small|]. exists (words [100]%nat), [], [], [], [], [], (words [101]%nat).
  split; [reflexivity|]. split; [apply (@words_ints [100]%nat); small|]. do 4 (split; [constructor|]). split; [constructor|apply (@words_ints [101]%nat); small].
Qed.
(* one binary *)
Example C47_partial_hypotheses_met :
  exists f82, snap_records demo_decoder demo_reader false true
    (mkSnap (map real_of (seq 1 18)) demo_stars [] [] [mkBR 3 4 0 1 14 (INR 3) (INR 0) (INR 4) (INR 2) (INR 5) (INR 6) 0 0 0 0 0 0] demo_singles) (demo_out3 1) [] f82 demo_83.
Proof.
  exists [["##"; "BINARIES"; "1"; "1"]; ["3"; "4"; "0"; "1"; "14"; "3"; "0"; "4"; "2"; "5"; "6"; "NaN"]; ["##"; "END"]].
  split; [cbn; lia|]. split; [discriminate|]. split; [apply demo_out3_record; lia|]. split; [reflexivity|]. split; [|split; [exact demo_83_section|discriminate]].
  exists ["##"; "BINARIES"; "1"; "1"], [["3"; "4"; "0"; "1"; "14"; "3"; "0"; "4"; "2"; "5"; "6"; "NaN"]], ["##"; "END"].
  split; [reflexivity|]. split; [split; [words_of|eexists; words_of]|]. split; [|reflexivity]. constructor; [|constructor].
  split; [intros F; discriminate F|]. do 11 (split; [words_of|]). split; [now eexists|]. left. now split.
Qed.
Example C47_no_singles_hypotheses_met :
  section (binary_line demo_reader) demo_reader demo_binaries demo_82 /\ header_line demo_reader 0 ["##"; "SINGLES"; "0"; "1"] /\ footer ["##"; "END"].
Proof. split; [exact demo_82_section|]. split; [split; [words_of|eexists; words_of]|reflexivity]. Qed.
(* a pair that obeys the law: one astronomical unit, one year, one solar mass *)
Example C70_hypotheses_met (G : galpy) : exists k, snap_loaded true (demo_snap 0) k /\ nth_error (z_bin (demo_snap 0)) 1 <> None /\
  0 < nth 2 (z_sc (demo_snap 0)) 0 /\ 0 < nth 3 (z_sc (demo_snap 0)) 0 /\ kepler 1 1 (1/2) (1/2).
Proof.
  destruct (@get_nbody6_ok G demo_decoder demo_reader (mkNO 0 (mkOO [] None false) true true 8 220) false true true _ _ _ _ _ [] [] [] [] (C46_hypotheses_met 0 (le_S _ _ (le_S _ _ (le_n 0))))) as [k [_ [L _]]].
  exists k. split; [exact L|]. split; [discriminate|]. split; [cbn; apply (IZR_lt 0); reflexivity|]. split; [cbn; apply (IZR_lt 0); reflexivity|]. unfold kepler; lra.
Qed.
