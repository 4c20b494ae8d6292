(* C94: NBODY6++ snapshots in HDF5 files. *)
From Coq Require Import String Ascii.
From Verif Require Import Base ModelCluster ModelOps ModelRecipes ModelEnergy ModelStars ModelLoad ModelDynamics ModelNbody6 ModelNbody6pp ModelHdf5.
From Verif Require Import SpecUnits SpecStars SpecRecipes SpecEnergy SpecDynamics SpecNbody6 SpecNbody6pp SpecHdf5.
From Verif Require Import ProofsUnits ProofsStars ProofsVR ProofsNbody6pp ProofsHdf5 ProofsHdf52 ProofsHdf53 ProofsHdf54 ProofsHdf55 PropNbody6 PropNbody6pp.
Open Scope list_scope. Open Scope R_scope.

Lemma header_read D l bs phi b h : conf3_record D l bs phi b -> bs <> [] -> header_of l h -> conf_scalars D b = Ok l.
Proof.
  intros [mark CM] NE HH. destruct (@conf3_marks_ok D mark mark l bs phi b [] CM NE) as [zs [_ [_ E]]]. rewrite app_nil_r in E. unfold conf_scalars. rewrite E Z.eqb_refl.
  cbn [bind]. unfold conf_read, read_record. cbn [v_out o3_n o3_a]. destruct bs as [|x bs]; [congruence|]. reflexivity.
Qed.

(* C94: with a conf.3 file beside the snapshot, load_cluster(..., hdf5=True) gives a cluster in N-body units whose stars, in the units of the header, are
   those of the first group: each pair once, at its centre of mass, then the single stars, with types, luminosities, radii and potentials; the scales, the
   centre and the radii are those of the header; the pairs have the semi-major axes, periods and masses of the file. *)
Theorem C94_header :
  forall (G : galpy) (D : decoder) (d : h5_disk) (o : h5_opts) (dtout name : number) (n : Z) (f : list hstep) (s : hstep) (b : bytes) (l : list R)
         (bs : list body) (phi : bytes) (h : header),
    name = (match dtout with Float _ => Float (IZR n) | Whole _ => Whole n end) -> q_snap d name = Some f -> q_conf d name = Some b ->
    conf3_record D l bs phi b -> bs <> [] -> header_of l h -> positive_header h -> nth_error f 0 = Some s -> luminous s ->
    exists v, load_h5 G D d o dtout n = Ok v /\ shows s v /\ scaled_by h v /\
      (the_pairs s <> [] -> shows_pairs s v (au_in_pc * hd_length h) (365.25 * sqrt ((au_in_pc * hd_length h) ^ 3 / hd_mass h))).
Proof.
  intros G D d o dt name n f s b l bs phi h E1 E2 E3 CR NE HH HP E4 LU. unfold load_h5. rewrite -E1. unfold open_h5, header_on. rewrite E2 E3. cbn [option_map].
  rewrite (header_read _ _ _ _ _ _ CR NE HH).
  destruct (@header_group G o l f 0%nat name false None s h E4 HH HP LU) as [v [EV [SH [SC [SP _]]]]]. exists v. split; [exact EV|]. split; [exact SH|]. split; [exact SC|exact SP].
Qed.
Print Assumptions C94_header.

(* C94: advance_cluster goes through the groups of the file one by one, in the same scales, with the same centre. *)
Theorem C94_every_group :
  forall (G : galpy) (D : decoder) (d : h5_disk) (o : h5_opts) (dtout name : number) (n : Z) (f : list hstep) (b : bytes) (l : list R)
         (bs : list body) (phi : bytes) (h : header),
    name = (match dtout with Float _ => Float (IZR n) | Whole _ => Whole n end) -> q_snap d name = Some f -> q_conf d name = Some b ->
    conf3_record D l bs phi b -> bs <> [] -> header_of l h -> positive_header h -> hd_core h <> 0 ->
    (forall s, In s f -> luminous s) -> (forall s, nth_error f 0 = Some s -> INR (n_single s) + hd_extra h <> 0) ->
    (forall s, In s f -> n_pairs s <> None) \/ (forall s, In s f -> n_pairs s = None) ->
    forall (m : nat) (s : hstep), nth_error f m = Some s ->
    exists v w, load_h5 G D d o dtout n = Ok v /\ advance_h5_times G D d o dtout m v = Ok w /\ shows s w /\ scaled_by h w /\
      h5_ngroup w = m /\ h5_ngroups w = length f /\
      (the_pairs s <> [] -> shows_pairs s w (au_in_pc * hd_length h) (365.25 * sqrt ((au_in_pc * hd_length h) ^ 3 / hd_mass h))).
Proof.
  intros G D d o dt name n f b l bs phi h E1 E2 E3 CR NE HH HP HC LU NP PR m s Em.
  destruct f as [|s0 f0]; [destruct m; discriminate|]. set (f := s0 :: f0) in *.
  pose (i := info_of_header h (n_single s0) (length (the_pairs s0))).
  destruct (@header_group G o l f 0%nat name false None s0 h eq_refl HH HP (LU s0 (or_introl eq_refl))) as [v [EV [SH [SC [SP [SI [F1 [F2 [F3 F4]]]]]]]]].
  exists v. assert (EL : load_h5 G D d o dt n = Ok v).
  { unfold load_h5. rewrite -E1. unfold open_h5, header_on. rewrite E2 E3. cbn [option_map]. now rewrite (header_read _ _ _ _ _ _ CR NE HH). }
  assert (Q : forall m s, nth_error f m = Some s -> exists w, advance_h5_times G D d o dt m v = Ok w /\ shows s w /\ in_scales i w /\ h5_ngroup w = m /\
              h5_ngroups w = length f /\ h5_file w = f /\ pairs_shown h s w).
  { clear m s Em. induction m as [|m IH]; intros s Em.
    - cbn in Em. injection Em as <-. exists v. split; [reflexivity|]. split; [exact SH|]. split; [exact SI|]. split; [exact F2|]. split; [exact F1|]. split; [exact F4|exact SP].
    - assert (exists s', nth_error f m = Some s') as [s' Es'].
      { destruct (nth_error f m) as [s'|] eqn:X; [now exists s'|]. apply nth_error_None in X.
        assert (S m < length f)%nat by (apply nth_error_Some; rewrite Em; discriminate). lia. }
      destruct (IH s' Es') as [w [EW [WS [WI [WG [WN [WF _]]]]]]].
      assert (Em' : nth_error f (S (h5_ngroup w)) = Some s) by now rewrite WG.
      assert (NPP : n_pairs s = None -> the_pairs s' = []).
      { intros X. destruct PR as [PR|PR]; [now destruct (PR s (nth_error_In _ _ Em))|]. unfold the_pairs. now rewrite (PR s' (nth_error_In _ _ Es')). }
      destruct (@advance_group G D d o dt w f s' s i WS WI (positive_of_header _ _ HP) HC (NP s0 eq_refl) WF WN Em' (LU s (nth_error_In _ _ Em)) NPP)
        as [w' [EW' [S' [I' [P' [G1 [G2 [G3 G4]]]]]]]].
      exists w'. cbn [advance_h5_times]. rewrite EW. cbn [bind]. split; [exact EW'|]. split; [exact S'|]. split; [exact I'|]. split; [now rewrite G2 WG|].
      split; [exact G1|]. split; [exact G4|exact P']. }
  destruct (Q m s Em) as [w [EW [WS [WI [WG [WN [WF WP]]]]]]]. exists w. split; [exact EL|]. split; [exact EW|]. split; [exact WS|].
  split; [exact (proj1 (in_scales_header WI))|]. split; [exact WG|]. split; [exact WN|exact WP].
Qed.
Print Assumptions C94_every_group.

(* C94: after the last group advance_cluster opens the snapshot whose number is dtout later, with the header that belongs to it. *)
Theorem C94_next_file :
  forall (G : galpy) (D : decoder) (d : h5_disk) (o : h5_opts) (dt : Z) (v : h5) (f : list hstep) (s : hstep) (b : bytes) (l : list R)
         (bs : list body) (phi : bytes) (h : header),
    S (h5_ngroup v) = h5_ngroups v -> (0 <= h5_nsnap v)%Z -> q_snap d (Whole (h5_nsnap v + dt)) = Some f -> q_conf d (Whole (h5_nsnap v + dt)) = Some b ->
    conf3_record D l bs phi b -> bs <> [] -> header_of l h -> positive_header h -> nth_error f 0 = Some s -> luminous s ->
    exists w, advance_h5 G D d o (Whole dt) v = Ok w /\ shows s w /\ scaled_by h w /\ h5_ngroup w = 0%nat /\ h5_nsnap w = (h5_nsnap v + dt)%Z /\
      (the_pairs s <> [] -> shows_pairs s w (au_in_pc * hd_length h) (365.25 * sqrt ((au_in_pc * hd_length h) ^ 3 / hd_mass h))).
Proof.
  intros G D d o dt v f s b l bs phi h EG EN E2 E3 CR NE HH HP E4 LU. unfold advance_h5. rewrite EG Nat.ltb_irrefl. cbn [plus_n].
  assert (EZ : (Z.max 0 (h5_nsnap v) + 1 + dt + -1 = h5_nsnap v + dt)%Z) by lia. rewrite EZ. unfold open_h5, header_on. rewrite E2 E3. cbn [option_map].
  rewrite (header_read _ _ _ _ _ _ CR NE HH).
  destruct (@header_group G o l f 0%nat (Whole (h5_nsnap v + dt)) true None s h E4 HH HP LU) as [w [EV [SH [SC [SP [SI [F1 [F2 [F3 F4]]]]]]]]].
  exists w. split; [exact EV|]. split; [exact SH|]. split; [exact SC|]. split; [exact F2|]. split; [exact F3|exact SP].
Qed.
Print Assumptions C94_next_file.

(* C94: without a conf.3 file the scales come from the stars: the mass scale is the total mass, the length scale the virial radius, and G = 1. *)
Theorem C94_alone :
  forall (G : galpy) (D : decoder) (d : h5_disk) (o : h5_opts) (dtout name : number) (n : Z) (f : list hstep) (s : hstep) (ps : list (nat * nat)),
    name = (match dtout with Float _ => Float (IZR n) | Whole _ => Whole n end) -> q_snap d name = Some f -> q_conf d name = None ->
    nth_error f 0 = Some s -> luminous s -> (2 <= length (entries s))%nat -> (forall e, In e (entries s) -> 0 < x_mass e) ->
    separated (file_bodies s) -> pair_set (length (entries s)) ps ->
    exists v, load_h5 G D d o dtout n = Ok v /\ shows s v /\
      let c := g_c (h5_cat v) in let sc := c_sc c in
      zmbar sc = sumR (map x_mass (entries s)) /\ rbar sc = virial_pc (file_bodies s) ps /\
      nbody_scales (zmbar sc) (rbar sc) (vbar sc) (tbar sc) /\ p_c (c_ph c) = zero6 /\ sumR (p_m (c_ph c)) = 1.
Proof.
  intros G D d o dt name n f s ps E1 E2 E3 E4 LU L2 PM SEP PS. unfold load_h5. rewrite -E1. unfold open_h5, header_on. rewrite E2 E3. cbn [option_map].
  destruct (@alone_group G o f 0%nat name s ps E4 LU L2 PM SEP PS) as [v [EV [SH [[A1 [A2 [A3 _]]] [A4 _]]]]].
  exists v. split; [exact EV|]. split; [exact SH|]. cbn zeta. split; [exact A1|]. split; [exact A2|]. split; [exact A3|]. split; [exact A4|].
  apply (shown_total SH A1). destruct A3 as [P _]. lra.
Qed.
Print Assumptions C94_alone.

(* finding: without a header the semi-major axes stay in AU and the periods in days, under the label of N-body units *)
Theorem C94_alone_pairs_refuted :
  forall (G : galpy) (D : decoder) (d : h5_disk) (o : h5_opts) (dtout name : number) (n : Z) (f : list hstep) (s : hstep) (ps : list (nat * nat)),
    name = (match dtout with Float _ => Float (IZR n) | Whole _ => Whole n end) -> q_snap d name = Some f -> q_conf d name = None ->
    nth_error f 0 = Some s -> luminous s -> (2 <= length (entries s))%nat -> (forall e, In e (entries s) -> 0 < x_mass e) ->
    separated (file_bodies s) -> pair_set (length (entries s)) ps -> the_pairs s <> [] ->
    exists v, load_h5 G D d o dtout n = Ok v /\ c_bunits (g_c (h5_cat v)) = Some (Bu Unbody) /\
      b_semi (c_bin (g_c (h5_cat v))) = map hb_a (the_pairs s) /\ b_pb (c_bin (g_c (h5_cat v))) = map hb_P (the_pairs s) /\
      rbar (c_sc (g_c (h5_cat v))) = virial_pc (file_bodies s) ps.
Proof.
  intros G D d o dt name n f s ps E1 E2 E3 E4 LU L2 PM SEP PS NE. unfold load_h5. rewrite -E1. unfold open_h5, header_on. rewrite E2 E3. cbn [option_map].
  destruct (@alone_group G o f 0%nat name s ps E4 LU L2 PM SEP PS) as [v [EV [SH [[A1 [A2 _]] [_ [B _]]]]]].
  exists v. split; [exact EV|]. destruct (B NE) as [B1 [B2 [B3 _]]]. split; [exact B1|].
  assert (M1 : forall l, map (Rmult 1) l = l) by (intros l; rewrite -{2}(map_id l); apply map_ext; intros a; ring).
  rewrite M1 in B2. rewrite M1 in B3. split; [exact B2|]. split; [exact B3|exact A2].
Qed.
Print Assumptions C94_alone_pairs_refuted.

(* finding: ns is not the number of single stars but that number less the number of pairs, which were counted twice; the masses of the components are
   ones, and their places about the centre of mass are left in the units of the file *)
Theorem C94_components_refuted :
  forall (G : galpy) (D : decoder) (d : h5_disk) (o : h5_opts) (dtout name : number) (n : Z) (f : list hstep) (s : hstep) (b : bytes) (l : list R)
         (bs : list body) (phi : bytes) (h : header) (ps : list hpair),
    name = (match dtout with Float _ => Float (IZR n) | Whole _ => Whole n end) -> q_snap d name = Some f -> q_conf d name = Some b ->
    conf3_record D l bs phi b -> bs <> [] -> header_of l h -> positive_header h -> nth_error f 0 = Some s -> luminous s -> n_pairs s = Some ps ->
    exists v, load_h5 G D d o dtout n = Ok v /\ g_ns (h5_cat v) = (Z.of_nat (length (n_alone s)) - Z.of_nat (length ps))%Z /\
      b_mb1 (g_b (h5_cat v)) = repeat 1 (length ps) /\ b_mb2 (g_b (h5_cat v)) = repeat 1 (length ps) /\
      sx (b_1 (g_b (h5_cat v))) = map (fun p => hb_m2 p / (hb_m1 p + hb_m2 p) * sx (hb_rel p)) ps /\
      sx (b_2 (g_b (h5_cat v))) = map (fun p => - hb_m1 p / (hb_m1 p + hb_m2 p) * sx (hb_rel p)) ps.
Proof.
  intros G D d o dt name n f s b l bs phi h ps E1 E2 E3 CR NE HH HP E4 LU EP. unfold load_h5. rewrite -E1. unfold open_h5, header_on. rewrite E2 E3. cbn [option_map].
  rewrite (header_read _ _ _ _ _ _ CR NE HH). pose (i := info_of_header h (n_single s) (length (the_pairs s))).
  assert (EI : info_of_file (Some (Ok l)) None s = Ok (Some i)) by (unfold info_of_file; cbn [bind]; now rewrite (info_header _ _ HH)).
  destruct (@given_group G o (Some (Ok l)) f 0%nat name false None s i E4 EI (positive_of_header _ _ HP) LU) as [v [EV [_ [_ [_ [_ [_ [_ [_ [EB EN]]]]]]]]]].
  { intros X. congruence. }
  exists v. split; [exact EV|]. rewrite EN EB. unfold twice_nb, components_in, entries, the_pairs. rewrite EP. cbn [b_mb1 b_mb2 b_1 b_2].
  rewrite app_length !map_length. split; [lia|]. split; [reflexivity|]. split; [reflexivity|]. unfold six_lists. cbn [sx]. rewrite !map_map. split; reflexivity.
Qed.
Print Assumptions C94_components_refuted.

(* finding: without a header the group that follows is left in pc, km/s and Msun, under the label of N-body units: its scales are one *)
Theorem C94_alone_next_refuted :
  forall (G : galpy) (D : decoder) (d : h5_disk) (o : h5_opts) (dtout name : number) (n : Z) (f : list hstep) (s s' : hstep) (ps : list (nat * nat)),
    name = (match dtout with Float _ => Float (IZR n) | Whole _ => Whole n end) -> q_snap d name = Some f -> q_conf d name = None ->
    nth_error f 0 = Some s -> luminous s -> (2 <= length (entries s))%nat -> (forall e, In e (entries s) -> 0 < x_mass e) ->
    separated (file_bodies s) -> pair_set (length (entries s)) ps -> nth_error f 1 = Some s' -> luminous s' ->
    exists v w, load_h5 G D d o dtout n = Ok v /\ advance_h5 G D d o dtout v = Ok w /\ c_units (g_c (h5_cat w)) = Some Unbody /\
      zmbar (c_sc (g_c (h5_cat w))) = 1 /\ rbar (c_sc (g_c (h5_cat w))) = 1 /\ vbar (c_sc (g_c (h5_cat w))) = 1 /\
      p_m (c_ph (g_c (h5_cat w))) = map x_mass (entries s').
Proof.
  intros G D d o dt name n f s s' ps E1 E2 E3 E4 LU L2 PM SEP PS E5 LU'.
  destruct (@alone_group G o f 0%nat name s ps E4 LU L2 PM SEP PS) as [v [EV [SH [_ [_ [_ [_ [_ [F1 [F2 [F3 [F4 F5]]]]]]]]]]]].
  destruct (@bare_group G o None f 1%nat (Whole (Z.max 0 (h5_nsnap v))) s' E5 LU' eq_refl) as [w [EW [SW [Z1 [Z2 [Z3 Z4]]]]]].
  exists v, w. split; [unfold load_h5; rewrite -E1; unfold open_h5, header_on; rewrite E2 E3; exact EV|].
  split. { unfold advance_h5. rewrite F1 F2 F4. assert (L : (1 < length f)%nat) by (apply nth_error_Some; rewrite E5; discriminate).
    apply Nat.ltb_lt in L. rewrite L. unfold list_of. rewrite F5. unfold Reqb. destruct (Req_EM_T 0 0) as [_|X]; [exact EW|congruence]. }
  split; [exact (proj1 SW)|]. split; [exact Z1|]. split; [exact Z2|]. split; [exact Z3|].
  rewrite -(shown_masses SW) Z1. symmetry. rewrite -{2}(map_id (p_m (c_ph (g_c (h5_cat w))))). apply map_ext. intros a. ring.
Qed.
Print Assumptions C94_alone_next_refuted.

(* finding: a group without pairs after one with pairs keeps its number of pairs *)
Theorem C94_pairs_gone_refuted :
  forall (G : galpy) (D : decoder) (d : h5_disk) (o : h5_opts) (dtout name : number) (n : Z) (f : list hstep) (s s' : hstep) (b : bytes) (l : list R)
         (bs : list body) (phi : bytes) (h : header),
    name = (match dtout with Float _ => Float (IZR n) | Whole _ => Whole n end) -> q_snap d name = Some f -> q_conf d name = Some b ->
    conf3_record D l bs phi b -> bs <> [] -> header_of l h -> positive_header h -> hd_core h <> 0 -> INR (n_single s) + hd_extra h <> 0 ->
    nth_error f 0 = Some s -> luminous s -> nth_error f 1 = Some s' -> n_pairs s' = None ->
    exists v w, load_h5 G D d o dtout n = Ok v /\ advance_h5 G D d o dtout v = Ok w /\ c_nb (g_c (h5_cat w)) = length (the_pairs s) /\
      g_ns (h5_cat w) = (Z.of_nat (length (n_alone s')) - Z.of_nat (length (the_pairs s)))%Z.
Proof.
  intros G D d o dt name n f s s' b l bs phi h E1 E2 E3 CR NE HH HP HC NP E4 LU E5 NP'.
  destruct (@header_group G o l f 0%nat name false None s h E4 HH HP LU) as [v [EV [SH [SC [SP [SI [F1 [F2 [F3 F4]]]]]]]]].
  destruct (@stale_pairs G D d o dt v f s s' _ SH SI (positive_of_header _ _ HP) HC NP F4 F1) as [w [EW [Q1 Q2]]]; [now rewrite F2|exact NP'|].
  exists v, w. split; [|split; [exact EW|split; [exact Q1|exact Q2]]].
  unfold load_h5. rewrite -E1. unfold open_h5, header_on. rewrite E2 E3. cbn [option_map]. now rewrite (header_read _ _ _ _ _ _ CR NE HH).
Qed.
Print Assumptions C94_pairs_gone_refuted.

(* ------------------------------------------------------------------ a file with two groups *)
Definition demo_p5 (a : R) : six R := mk6 a (2 * a) 0 1 0 a.
Definition demo_h5_pair : hpair := mkHP 11 12 (demo_p5 3) (demo_p5 1) 2 1 50 (1/10) 1000 1 1 14 5 7 1 2 (-3).
Definition demo_h5_star (i : Z) : hstar := mkHS i (demo_p5 (IZR i)) 1 1 2 1 (-1).
Definition demo_group (t : R) : hstep := mkStep t 2 [demo_h5_star 1; demo_h5_star 2] (Some [demo_h5_pair]).
Definition demo_singles (t : R) : hstep := mkStep t 2 [demo_h5_star 1; demo_h5_star 2] None.
Definition demo_h5_file : list hstep := [demo_group 0; demo_group 1].
Definition demo_header : header :=
  mkHd (half_of 6) (half_of 4) (half_of 22) (half_of 20) (half_of 12, half_of 14, half_of 16) (half_of 26) (half_of 8) (half_of 24) (half_of 34) (half_of 2).
Definition demo_h5_disk : h5_disk :=
  mkHD (fun n => match n with Whole 3%Z => Some (demo_conf 100) | _ => None end)
       (fun n => match n with Whole 3%Z => Some demo_h5_file | Whole 4%Z => Some demo_h5_file | _ => None end).
Lemma demo_luminous t : luminous (demo_group t).
Proof.
  split; [intros a [<-|[<-|[]]]; cbn; lra|intros b [<-|[]]; cbn; lra].
Qed.
Example C94_hypotheses_met :
  q_snap demo_h5_disk (Whole 3) = Some demo_h5_file /\ q_conf demo_h5_disk (Whole 3) = Some (demo_conf 100) /\
  conf3_record half_decoder (map half_of demo_scalars) (listed demo_pairs demo_alone) (words [81; 82; 83; 84]%nat) (demo_conf 100) /\ listed demo_pairs demo_alone <> [] /\
  header_of (map half_of demo_scalars) demo_header /\ positive_header demo_header /\ hd_core demo_header <> 0 /\
  (forall s, In s demo_h5_file -> luminous s) /\ (forall s, nth_error demo_h5_file 0 = Some s -> INR (n_single s) + hd_extra demo_header <> 0) /\
  (forall s, In s demo_h5_file -> n_pairs s <> None) /\ nth_error demo_h5_file 1 = Some (demo_group 1) /\ the_pairs (demo_group 1) <> [].
Proof.
  split; [reflexivity|]. split; [reflexivity|]. split; [exact demo_conf_record|]. split; [discriminate|].
  split; [repeat split; reflexivity|]. split; [unfold positive_header, demo_header, half_of; cbn; (split; [|split; [|split]]); lra|]. split; [unfold demo_header, half_of; cbn; intros X; lra|].
  split; [intros s [<-|[<-|[]]]; apply demo_luminous|]. split; [intros s X; injection X as <-; unfold demo_header, half_of; cbn; intros X; lra|].
  split; [intros s [<-|[<-|[]]]; discriminate|]. split; [reflexivity|discriminate].
Qed.
Lemma pairs_of_three : pair_set 3 [(0, 1); (0, 2); (1, 2)]%nat.
Proof.
  split.
  - repeat constructor; cbn; intuition congruence.
  - intros i j. split.
    + intros [E|[E|[E|[]]]]; injection E as <- <-; lia.
    + intros [H1 H2]. assert (j = 1 \/ j = 2)%nat as [->| ->] by lia; [assert (i = 0)%nat as -> by lia; now left|].
      assert (i = 0 \/ i = 1)%nat as [->| ->] by lia; [right; now left|right; right; now left].
Qed.
Example C94_alone_hypotheses_met : let s := demo_group 0 in
  q_snap demo_h5_disk (Whole 4) = Some demo_h5_file /\ q_conf demo_h5_disk (Whole 4) = None /\ nth_error demo_h5_file 0 = Some s /\ luminous s /\
  (2 <= length (entries s))%nat /\ (forall e, In e (entries s) -> 0 < x_mass e) /\ separated (file_bodies s) /\
  pair_set (length (entries s)) [(0, 1); (0, 2); (1, 2)]%nat /\ the_pairs s <> [] /\ nth_error demo_h5_file 1 = Some (demo_group 1) /\ luminous (demo_group 1).
Proof.
  cbv zeta. split; [reflexivity|]. split; [reflexivity|]. split; [reflexivity|]. split; [apply demo_luminous|]. split; [cbn; lia|].
  split; [intros e [<-|[<-|[<-|[]]]]; cbn; lra|]. split.
  { intros i j Hi Hj N. cbn in Hi, Hj.
    assert (i = 0 \/ i = 1 \/ i = 2)%nat as [->|[->| ->]] by lia; assert (j = 0 \/ j = 1 \/ j = 2)%nat as [->|[->| ->]] by lia; try congruence;
      unfold dist2; cbn; intros X; lra. }
  split; [exact pairs_of_three|]. split; [discriminate|]. split; [reflexivity|apply demo_luminous].
Qed.
Example C94_next_file_hypotheses_met (G : galpy) (o : h5_opts) :
  let d := mkHD (fun _ => Some (demo_conf 100)) (fun _ => Some [demo_group 0; demo_singles 1]) in
  exists v w, load_h5 G half_decoder d o (Whole 1) 3 = Ok v /\ advance_h5 G half_decoder d o (Whole 1) v = Ok w /\ c_nb (g_c (h5_cat w)) = 1%nat.
Proof.
  cbv zeta. set (d := mkHD _ _). destruct C94_hypotheses_met as [_ [_ [CR [NE [HH [HP [HC _]]]]]]].
  destruct (C94_pairs_gone_refuted G half_decoder d o (Whole 1) (Whole 3) 3 [demo_group 0; demo_singles 1] (demo_group 0) (demo_singles 1) _ _ _ _ _
    eq_refl eq_refl eq_refl CR NE HH HP HC) as [v [w [E1 [E2 [E3 _]]]]].
  - unfold demo_header, half_of; cbn; intros X; lra.
  - reflexivity.
  - apply demo_luminous.
  - reflexivity.
  - reflexivity.
  - exists v, w. split; [exact E1|]. split; [exact E2|exact E3].
Qed.
