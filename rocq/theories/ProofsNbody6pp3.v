(* Clusters made from conf.3 alone: one file, a series, no file. *)
From Coq Require Import String Ascii.
From Coq Require Import Init.Byte.
From Verif Require Import Base ModelCluster ModelOps ModelRecipes ModelEnergy ModelCoords ModelCentre ModelStars SpecStars ModelLoad SpecLoad
  ProofsRecipes ProofsRecipes2 ProofsRecipes3 ProofsStars ProofsStars2 ProofsUnits ProofsFrame ProofsEnergy ProofsLoad ProofsLoad2 ProofsLoad3 ProofsLoad4 ModelNbody6 SpecNbody6 ProofsNbody6 ProofsNbody62 ProofsNbody63
  ModelNbody6pp SpecNbody6pp ProofsNbody6pp ProofsNbody6pp2.
Set Implicit Arguments.
Unset Strict Implicit.
Open Scope string_scope. Open Scope list_scope. Open Scope R_scope.

Lemma conf_analyze sc pairs singles k s p : conf_cat sc pairs singles k -> conf_cat sc pairs singles (set_cluster k (analyze s p (g_c k))).
Proof.
  have K := skel_analyze s p (g_c k). have PH := f_equal c_ph K. have PI := f_equal c_id K. have PS := f_equal c_sc K.
  cbn [skel set_der c_ph c_id c_sc] in PH, PI, PS. have PU := f_equal c_units K. have PO := f_equal c_origin K. cbn [skel set_der c_units c_origin] in PU, PO.
  rewrite /conf_cat /aligned /pair_at /particle_at /star_at /scaled_by. cbn [set_cluster g_c g_m0 g_npop g_ntot]. by rewrite PH PI PS PU PO.
Qed.
Lemma kinetic_analyze k s p : kinetic (set_cluster k (analyze s p (g_c k))) = kinetic k.
Proof.
  have K := skel_analyze s p (g_c k). have PH := f_equal c_ph K. cbn [skel set_der c_ph] in PH. rewrite /kinetic; cbv zeta. cbn [set_cluster g_c]. by rewrite PH.
Qed.
Lemma nb_analyze k s p : c_nb (g_c (set_cluster k (analyze s p (g_c k)))) = c_nb (g_c k).
Proof. have K := skel_analyze s p (g_c k). have PH := f_equal c_nb K. by cbn [skel set_der c_nb] in PH. Qed.
Section WithGalpy.
Variable G : galpy.
(* the cluster, before an orbit is read *)
Lemma get_pp_ok D rd o ns wdir sc pairs singles phi f rest adv : conf3_record D sc (listed pairs singles) phi f -> (18 <= length sc)%nat ->
  nth 1 sc 0 = INR (length pairs) -> listed pairs singles <> [] ->
  exists v zs po, get_nbody6pp G D rd o ns wdir (Some (f ++ rest)) None None None adv = Ok v /\ conf_loaded sc pairs singles v /\
    u_nsnap v = int_n ns /\ u_wdir v = with_slash wdir /\ u_snapdir v = "" /\ u_ofile v = None /\
    ints D zs phi /\ pair_sums (length pairs) (map IZR zs) = Ok po /\ (forall e, u_energy v = Some e -> e_pot e = map Some po) /\
    c_nb (g_c (u_cat v)) = (2 * length pairs)%nat /\ g_ns (u_cat v) = (Z.of_nat (length pairs + length singles) - Z.of_nat (2 * length pairs))%Z /\
    g_sse (u_cat v) = init_sse /\ g_bse (u_cat v) = init_bse.
Proof.
  move=> [mark RC] L NB NE. have [zs [IZ [LZ EC]]] := conf3_marks_ok rest RC NE. rewrite Z.eqb_refl in EC.
  rewrite /get_nbody6pp EC. cbn [bind]. have A0 : al (o3_a (v_out (conf_read sc (listed pairs singles) zs))) 0 = Ok (nth 0 sc 0) by apply al_ok; cbn; lia.
  rewrite A0. cbn [bind].
  have [k2 [po [E [PO [CC [B2 [NS [F1 [F2 _]]]]]]]]] := @fill_pp_ok sc pairs singles zs (nth 0 sc 0) (h_ro o) (h_vo o) L NB NE eq_refl LZ.
  rewrite E. cbn [bind]. set k3 := (if (h_analyze o && Nat.ltb 0 (g_ntot k2))%bool then _ else _).
  have CC3 : conf_cat sc pairs singles k3 by rewrite /k3; destruct (h_analyze o && Nat.ltb 0 (g_ntot k2))%bool => //; apply conf_analyze.
  have KK : kinetic k2 = kinetic k3 by rewrite /k3; destruct (h_analyze o && Nat.ltb 0 (g_ntot k2))%bool => //; rewrite kinetic_analyze.
  have N3 : c_nb (g_c k3) = c_nb (g_c k2) by rewrite /k3; destruct (h_analyze o && Nat.ltb 0 (g_ntot k2))%bool => //; rewrite nb_analyze.
  have S3 : g_ns k3 = g_ns k2 /\ g_sse k3 = g_sse k2 /\ g_bse k3 = g_bse k2 by rewrite /k3; destruct (h_analyze o && Nat.ltb 0 (g_ntot k2))%bool.
  eexists. exists zs, po. split; [reflexivity|]. cbn [u_cat u_rhos u_energy u_nsnap u_wdir u_snapdir u_ofile]. have [S4 [S5 S6]] := S3.
  split. { have [AL [NT [PA [SI [SC [U [O PG]]]]]]] := CC3. rewrite /conf_loaded; cbn [u_cat u_rhos u_energy].
    split; [exact AL|]. split; [exact NT|]. split; [exact PA|]. split; [exact SI|]. split; [exact SC|]. split; [exact U|]. split; [exact O|]. split; [exact PG|].
    split; [reflexivity|]. eexists. split; [reflexivity|]. rewrite /add_energies; cbn [e_kin]. rewrite KK. exact (kinetic_rows AL). }
  do 5 (split; [by []|]). split; [exact PO|]. split; [by move=> e [<-]|]. by rewrite N3 S4 S5 S6.
Qed.
(* no file *)
Definition no_record (conf : option bytes) : Prop := match conf with None => True | Some f => (length f < 4)%nat end.
Lemma no_conf_file D conf : no_record conf -> get_conf3 D conf = Ok no_conf.
Proof. destruct conf as [f|] => //. by destruct f as [|? [|? [|? [|? ?]]]] => //= H; lia. Qed.
Lemma pp_no_file D rd o ns wdir conf f82 f83 adv : no_record conf -> get_nbody6pp G D rd o ns wdir conf f82 f83 None adv =
  match f82, f83 with Some _, Some _ => Raise
  | _, _ => Ok (mkPP (init_catalog (init_cluster 0 (Some Unbody) (Some Ocluster) (h_ro o) (h_vo o))) [] None (int_n ns) (with_slash wdir) "" None) end.
Proof.
  move=> H. rewrite /get_nbody6pp (no_conf_file D H). cbn [bind no_conf v_out no_out o3_a o3_n al repeat nth_error fill_pp Z.ltb Z.compare].
  by destruct f82 as [a|]; destruct f83 as [b|]; cbn [bind init_catalog g_ntot Nat.ltb Nat.leb]; rewrite ?andb_false_r.
Qed.
Lemma pp_marks D rd o ns wdir a b sc bs phi f rest f82 f83 fo adv : conf3_marked D a b sc bs phi f -> bs <> [] -> a <> b ->
  get_nbody6pp G D rd o ns wdir (Some (f ++ rest)) f82 f83 fo adv = Raise.
Proof. move=> M NE AB. have [zs [_ [_ E]]] := conf3_marks_ok rest M NE. rewrite /get_nbody6pp E. by destruct (Z.eqb_spec a b). Qed.

(* ------------------------------------------------------------------ series *)
Lemma slash_once w : with_slash (with_slash w) = with_slash w.
Proof.
  have E : last_char (with_slash w) = last_char w \/ last_char (with_slash w) = Some slash.
  { rewrite {2}/with_slash. rewrite /with_slash. destruct (last_char w) as [c|] eqn:E0; [|by left]. destruct (Ascii.eqb c slash); [by left|]. right. apply last_char_append. }
  rewrite {1}/with_slash. destruct E as [E|E]; rewrite E; [|by rewrite Ascii.eqb_refl].
  destruct (last_char w) as [c|] eqn:E0 => //. destruct (Ascii.eqb c slash) eqn:Q => //. move: E. rewrite /with_slash E0 Q last_char_append => -[C]. by rewrite -C Ascii.eqb_refl in Q.
Qed.
Lemma slashed_unique w w' : slashed w w' -> w' = with_slash w.
Proof.
  move=> [[-> ->]|[[u [-> ->]]|[NE [H ->]]]] //; rewrite /with_slash.
  - by rewrite last_char_append.
  - destruct (last_char w) as [c|] eqn:E; [|by rewrite (last_char_none E) in NE]. destruct (Ascii.eqb_spec c slash) as [C|C] => //.
    have [u U] := last_char_some E. rewrite C in U. by case: (H u).
Qed.
Lemma truncate_IZR z : truncate (IZR z) = z.
Proof.
  rewrite /truncate. destruct (Rleb 0 (IZR z)); [apply int_part_Z|]. by rewrite -opp_IZR int_part_Z Z.opp_involutive.
Qed.
Lemma int_numbered dt z : int_n (numbered dt z) = z.
Proof. destruct dt; [by []|]. exact (truncate_IZR z). Qed.
Lemma next_number dt d v : amount dt = IZR d -> (0 <= v)%Z -> plus_n (plus_n (Whole (Z.max 0 v + 1)) dt) (Whole (-1)) = numbered dt (v + d).
Proof.
  move=> A H. have -> : Z.max 0 v = v by lia. destruct dt as [z|x]; cbn [plus_n amount numbered] in *.
  - apply eq_IZR in A. f_equal. lia.
  - rewrite A. f_equal. rewrite -!plus_IZR. f_equal. lia.
Qed.
Lemma many_pp D rd d o a dt wdir snapdir scs ps ss phis fs rest m :
  (0 <= a)%Z -> (0 <= dt)%Z -> amount (h_dtout o) = IZR dt ->
  (forall j, (j <= m)%nat -> conf3_record D (scs j) (listed (ps j) (ss j)) (phis j) (fs j) /\ (18 <= length (scs j))%nat /\ nth 1 (scs j) 0 = INR (length (ps j)) /\ listed (ps j) (ss j) <> [] /\
     let n := numbered (h_dtout o) (a + Z.of_nat j * dt) in let w := place wdir snapdir in
     k_conf d w n = Some (fs j ++ rest j) /\ k_82 d w n = None /\ k_83 d w n = None) ->
  forall k, (k <= m)%nat ->
  exists v w, load_pp G D rd d o a wdir snapdir None = Ok v /\ advance_pp_times G D rd d o (Some snapdir) k v = Ok w /\
    conf_loaded (scs k) (ps k) (ss k) w /\ u_nsnap w = (a + Z.of_nat k * dt)%Z /\ u_wdir w = with_slash wdir /\ u_snapdir w = "" /\ u_ofile w = None.
Proof.
  move=> Ha Hd HT H. have WW := slash_once wdir. elim=> [|k IH] Hk.
  - have [RC [L [NB [NE [E1 [E2 E3]]]]]] := H 0%nat Hk. rewrite Z.mul_0_l Z.add_0_r in E1 E2 E3 |- *.
    rewrite /load_pp. have -> : match h_dtout o with Float _ => Float (IZR a) | Whole _ => Whole a end = numbered (h_dtout o) a by destruct (h_dtout o).
    rewrite E1 E2 E3. have [v [zs [po [E [CL [N [W [SD [OF _]]]]]]]]] := get_pp_ok rd o (Whole a) wdir (rest 0%nat) false RC L NB NE.
    exists v, v. split; [exact E|]. split; [reflexivity|]. split; [exact CL|]. by rewrite N.
  - have [v [w [E1 [E2 [_ [N [W [SD OF]]]]]]]] := IH ltac:(lia). have [RC [L [NB [NE [F1 [F2 F3]]]]]] := H (S k) Hk.
    have Q : plus_n (plus_n (Whole (Z.max 0 (u_nsnap w) + 1)) (h_dtout o)) (Whole (-1)) = numbered (h_dtout o) (a + Z.of_nat (S k) * dt).
    { rewrite (next_number HT) N; [nia|]. f_equal. lia. }
    have [x [zs [po [E [CL [N' [W' [SD' [OF' _]]]]]]]]] := get_pp_ok rd o (numbered (h_dtout o) (a + Z.of_nat (S k) * dt)) (u_wdir w) (rest (S k)) true RC L NB NE.
    exists v, x. split; [exact E1|]. split.
    { cbn [advance_pp_times]. rewrite E2. cbn [bind]. rewrite /advance_pp Q OF. cbv zeta. rewrite W.
      have -> : place (with_slash wdir) snapdir = place wdir snapdir by rewrite /place WW. rewrite F1 F2 F3. rewrite W in E. exact E. }
    split; [exact CL|]. by rewrite N' int_numbered W' W WW SD' OF'.
Qed.
(* an interval below one *)
Lemma truncate_frac z x : (0 <= z)%Z -> 0 < x < 1 -> truncate (IZR z + x) = z.
Proof.
  move=> Hz [X0 X1]. rewrite /truncate. have Z0 := IZR_le _ _ Hz. have -> : Rleb 0 (IZR z + x) = true by apply Rleb_spec; lra.
  have [B1 B2] := base_Int_part (IZR z + x). have B3 : IZR (Int_part (IZR z + x)) < IZR (z + 1) by rewrite plus_IZR; lra.
  have B4 : IZR (z - 1) < IZR (Int_part (IZR z + x)) by rewrite minus_IZR; lra. apply lt_IZR in B3. apply lt_IZR in B4. lia.
Qed.
Lemma fractional_pp D rd d o x snapdir v w : h_dtout o = Float x -> 0 < x < 1 -> (0 <= u_nsnap v)%Z -> u_ofile v = None -> with_slash (u_wdir v) = u_wdir v -> u_snapdir v = "" ->
  advance_pp G D rd d o snapdir v = Ok w -> u_nsnap w = u_nsnap v /\ advance_pp G D rd d o snapdir w = Ok w.
Proof.
  move=> HX X Hn OF WW SV E.
  have SH : forall ns wd cf a b adv, get_nbody6pp G D rd o ns wd cf a b None adv = Ok w -> u_nsnap w = int_n ns /\ u_wdir w = with_slash wd /\ u_ofile w = None /\ u_snapdir w = "".
  { move=> ns wd cf a b adv. rewrite /get_nbody6pp. destruct (get_conf3 D cf) as [c|] => //; cbn [bind]. destruct (al _ 0) => //; cbn [bind].
    destruct (fill_pp c _) as [[[k rh] en]|] => //; cbn [bind]. match goal with |- bind ?y _ = _ -> _ => destruct y as [k1|] => // end. cbn [bind].
    move=> Q. match type of Q with Ok ?y = _ => have Q' : y = w by congruence end. by rewrite -Q'. }
  rewrite /advance_pp OF in E. have [N [W [O SW]]] := SH _ _ _ _ _ _ E.
  have NV : u_nsnap w = u_nsnap v.
  { rewrite N HX. cbn [plus_n amount int_n]. have -> : Z.max 0 (u_nsnap v) = u_nsnap v by lia. apply (eq_trans (y := truncate (IZR (u_nsnap v) + x))); [|exact (truncate_frac Hn X)]. f_equal. rewrite plus_IZR. lra. }
  split; [exact NV|]. rewrite /advance_pp O NV W WW SW. by rewrite SV in E.
Qed.
End WithGalpy.
