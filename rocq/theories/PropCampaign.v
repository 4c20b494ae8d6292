(* C102: working through the snapshots of a simulation. *)
From Coq Require Import String Ascii.
From Verif Require Import Base ModelCluster ModelOps ModelConv ModelEnergy ModelRecipes ModelStars ModelSubset ModelLagrange ModelProfiles ModelLoad ModelGyr ModelNbody6 ModelNbody6pp ModelHdf5 ModelHistory ModelSurvey ModelCampaign.
From Verif Require Import SpecUnits SpecFrame SpecEnergy SpecStars SpecLoad SpecHistory SpecSurvey SpecNbody6pp SpecHdf5 SpecCampaign.
From Verif Require Import ProofsUnits ProofsFrame ProofsSees ProofsSurvey2 ProofsHdf5 ProofsHdf52 ProofsHdf53 ProofsHdf54 ProofsCampaign ProofsCampaign2 PropUnits PropFrame PropDynamics PropProfiles PropLoad PropNbody6pp PropHdf5 PropSurvey.
Open Scope string_scope. Open Scope list_scope. Open Scope R_scope.

(* C102: whatever sessions are made on the snapshots (changes of units and origin, analyses, profiles, ...), each of them finds what it finds when the
   snapshots before it are only passed over, and the campaign fails only where one of its sessions, or reading its snapshot, fails by itself *)
Theorem C102_snapshots :
  forall (G : galpy) (rd : reader) (d : disk) (a : adv_opts) (proj : bool) (l : list (list act * masks)) (v : loaded),
    l <> [] -> independent G v_cat (advance_snapshot G rd d a proj) l v (campaign G v_cat put_snapshot (advance_snapshot G rd d a proj) l v).
Proof. intros G rd d a proj l v H. apply campaign_gen; [exact (advance_snapshot_put G rd d a proj)|reflexivity|exact H]. Qed.
Print Assumptions C102_snapshots.
(* the same for the two readers of NEMO files *)
Theorem C102_streams :
  forall (G : galpy) (rd : reader) (d : disk) (a : adv_opts) (g : gives) (proj : bool) (l : list (list act * masks)), l <> [] ->
    (forall v : nemo, independent G (fun v => v_cat (n_v v)) (advance_gyrfalcon G rd d a g proj) l v
        (campaign G (fun v => v_cat (n_v v)) put_gyr (advance_gyrfalcon G rd d a g proj) l v)) /\
    (forall v : new_nemo, independent G (fun v => v_cat (z_v v)) (advance_new_gyrfalcon G rd d a g proj) l v
        (campaign G (fun v => v_cat (z_v v)) put_new (advance_new_gyrfalcon G rd d a g proj) l v)).
Proof.
  intros G rd d a g proj l H. split; intros v; (apply campaign_gen; [|reflexivity|exact H]).
  - exact (advance_gyr_put G rd d a g proj).
  - exact (advance_new_put G rd d a g proj).
Qed.
Print Assumptions C102_streams.
(* when advance_cluster is given the keywords of load_cluster, session i finds what it finds on snapshot n + i opened by itself, in the units and about the
   origin asked for when the first one was loaded *)
Theorem C102_opened_alone :
  forall (G : galpy) (rd : reader) (d : disk) (o : load_opts) (a : adv_opts) (proj : bool) (rows : nat -> list (list R)) (w n : nat)
         (l : list (list act * masks)),
    o_nsnap (l_set o) = n -> same_keywords o a proj -> plain_advance a -> l <> [] ->
    (forall j, (j < length l)%nat -> on_disk rd d (l_set o) (n + j) (rows (n + j)%nat) w) ->
    columns_fit (l_names o) (l_nums o) w -> l_units o <> Some Uradec -> l_units o <> Some Uamuse ->
    exists v, load_snapshot G rd d o None None = Ok v /\
      (forall fs v', campaign G v_cat put_snapshot (advance_snapshot G rd d a proj) l v = Ok (fs, v') -> length fs = length l /\
        forall i, (i < length l)%nat -> exists vi s e, load_snapshot G rd d (open_at o (n + i)) None None = Ok vi /\
          work G (fst (nth i l ([], fun _ => []))) (unmeasured (v_cat vi)) (snd (nth i l ([], fun _ => []))) = Ok (nth i fs [], s, e)) /\
      (campaign G v_cat put_snapshot (advance_snapshot G rd d a proj) l v = Raise ->
        exists i vi, (i < length l)%nat /\ load_snapshot G rd d (open_at o (n + i)) None None = Ok vi /\
          work G (fst (nth i l ([], fun _ => []))) (unmeasured (v_cat vi)) (snd (nth i l ([], fun _ => []))) = Raise).
Proof.
  intros G rd d o a proj rows w n l En SK PA NE D CF U1 U2.
  assert (O : forall i, (i < length l)%nat -> exists v v', load_snapshot G rd d o None None = Ok v /\ load_snapshot G rd d (open_at o (n + i)) None None = Ok v' /\
    advance_times G rd d a proj i v = Ok v').
  { intros i Hi. destruct (@opened G rd d o a proj rows w n i En SK PA ltac:(intros j Hj; apply D; lia) CF U1 U2) as [v [v' [E1 [E2 [E3 _]]]]]. now exists v, v'. }
  destruct (O 0%nat) as [v [v0 [E0 _]]]; [destruct l; [congruence|cbn; lia]|]. exists v. split; [exact E0|].
  assert (A : forall i, (i < length l)%nat -> exists vi, load_snapshot G rd d (open_at o (n + i)) None None = Ok vi /\
    alone_on G v_cat (advance_snapshot G rd d a proj) l v i = work G (fst (nth i l ([], fun _ => []))) (unmeasured (v_cat vi)) (snd (nth i l ([], fun _ => [])))).
  { intros i Hi. destruct (O i Hi) as [v1 [vi [E1 [E2 E3]]]]. assert (v1 = v) by congruence. subst v1. exists vi. split; [exact E2|].
    unfold alone_on. rewrite onwards_times E3. reflexivity. }
  pose proof (C102_snapshots G rd d a proj l v NE) as K. split.
  - intros fs v' E. rewrite E in K. destruct K as [K1 K2]. split; [exact K1|]. intros i Hi. destruct (K2 i Hi) as [s [e [K3 _]]]. destruct (A i Hi) as [vi [A1 A2]].
    exists vi, s, e. split; [exact A1|]. congruence.
  - intros E. rewrite E in K. destruct K as [i [Hi K]]. destruct (A i Hi) as [vi [A1 A2]]. exists i, vi. split; [exact Hi|]. split; [exact A1|]. congruence.
Qed.
Print Assumptions C102_opened_alone.
(* what is left by a call that failed and was caught does not matter either: advancing looks at no star of the cluster it is given *)
Theorem C102_after_anything :
  forall (G : galpy) (rd : reader) (d : disk) (a : adv_opts) (proj : bool) (m : nat) (h : nat -> catalog -> catalog) (v : loaded),
    let step i w := bind w (fun w => advance_snapshot G rd d a proj (put_snapshot w (h i (v_cat w)))) in
    nat_rect (fun _ => result loaded) (Ok v) step m = advance_times G rd d a proj m v.
Proof.
  intros G rd d a proj m h v step. induction m as [|m IH]; [reflexivity|]. cbn [nat_rect advance_times]. rewrite IH. unfold step.
  destruct (advance_times G rd d a proj m v) as [w|]; [|reflexivity]. cbn [bind]. apply advance_snapshot_put.
Qed.
Print Assumptions C102_after_anything.
(* a group of an HDF5 file is read with the scales and the centre of the group before it: the next group is the same whatever units and origin that one was
   taken to, and, when its order is up to date, whatever was measured on it *)
Theorem C102_groups :
  forall (G : galpy) (D : decoder) (d : h5_disk) (o : h5_opts) (dt : number) (v : h5) (u : usys) (q : osys) (l : list act) (e : masks)
         (f : list (option finding)) (s : system) (e' : masks),
    ready G (g_c (h5_cat v)) u q -> Forall manageable l ->
    (forall x, In x l -> match x with Unit_change _ | Origin_change _ => True | _ => False end) \/
      analyze true true (g_c (h5_cat v)) = g_c (h5_cat v) ->
    work G l (unmeasured (h5_cat v)) e = Ok (f, s, e') ->
    advance_h5 G D d o dt (put_group v (y_k s)) = advance_h5 G D d o dt v.
Proof.
  intros G D d o dt v u q l e f s e' HR HM HC W.
  assert (FO : Forall flat_op (changes l)). { clear -HM. induction HM as [|x l H _ IH]; [constructor|]. destruct x; cbn [changes]; [constructor; [exact H|exact IH]|constructor; [exact H|exact IH]|exact IH|exact IH]. }
  assert (X : exists c', s = sys_with (unmeasured (h5_cat v)) c' /\ restored (run G (changes l) (g_c (h5_cat v))) c').
  { destruct HC as [HC|HA].
    - assert (Y : forall l s0 f s e', (forall x, In x l -> match x with Unit_change _ | Origin_change _ => True | _ => False end) -> work G l s0 e = Ok (f, s, e') ->
        s = sys_with s0 (run G (changes l) (g_c (y_k s0)))).
      { clear. induction l as [|x l IH]; intros s0 f s e' HC W.
        - cbn [work] in W. assert (s = s0) by congruence. subst s. symmetry. exact (with_self s0).
        - cbn [work] in W. pose proof (HC x ltac:(now left)) as X. destruct x as [u|q|a|a q m]; try contradiction; cbn [do_act bind] in W;
            (destruct (work G l _ e) as [[[fs s2] e2]|] eqn:E; [|discriminate]); cbn [bind] in W; assert (s = s2) by congruence; subst s2;
            rewrite (IH _ _ _ _ ltac:(intros y Hy; apply HC; now right) E); reflexivity. }
      exists (run G (changes l) (g_c (h5_cat v))). split; [exact (Y l _ f s e' HC W)|]. repeat split.
    - pose proof (C100_session G l (unmeasured (h5_cat v)) e u q HR HA HM) as K. rewrite W in K. destruct K as [K1 [K2 _]]. eexists. split; [exact K1|exact K2]. }
  destruct X as [c' [-> [X1 [X2 [X3 [X4 [X5 [X6 [X7 X8]]]]]]]]].
  pose proof (run_view HR FO) as V. cbv zeta in V. revert X1 X2 X3 X5 X8 V. generalize (run G (changes l) (g_c (h5_cat v))). intros r X1 X2 X3 X5 X8 [V1 [V2 [V3 [V4 [V5 V6]]]]].
  apply (@advance_h5_put G D d o dt v (y_k (sys_with (unmeasured (h5_cat v)) c')) u q (last_units (changes l) u) (last_origin (changes l) q) HR).
  - cbn. destruct V2 as [R1 [R2 [R3 [R4 R5]]]]. unfold ready. rewrite X5 X2 X3. exact (conj R1 (conj R2 (conj R3 (conj R4 R5)))).
  - cbn. rewrite -V1. unfold galactic_view, origin_shift. now rewrite X1 X2 X3 X5.
  - cbn. congruence.
  - cbn. congruence.
  - reflexivity.
Qed.
Print Assumptions C102_groups.

(* every group of a file with a header: whatever changes of units and origin are made on the groups before, group m shows its stars in the scales of the header
   (C94), and is the one reached without those changes *)
Theorem C102_all_groups :
  forall (G : galpy) (D : decoder) (d : h5_disk) (o : h5_opts) (dtout name : number) (n : Z) (f : list hstep) (b : bytes) (l : list R)
         (bs : list body) (phi : bytes) (h : header) (g : nat -> list op),
    name = (match dtout with Float _ => Float (IZR n) | Whole _ => Whole n end) -> q_snap d name = Some f -> q_conf d name = Some b ->
    conf3_record D l bs phi b -> bs <> [] -> header_of l h -> positive_header h -> hd_core h <> 0 ->
    (forall s, In s f -> luminous s) -> (forall s, nth_error f 0 = Some s -> INR (n_single s) + hd_extra h <> 0) ->
    (forall s, In s f -> n_pairs s <> None) \/ (forall s, In s f -> n_pairs s = None) ->
    galactic_constants G o -> (forall k, Forall flat_op (g k)) ->
    forall (m : nat) (s : hstep), nth_error f m = Some s ->
    exists v w, load_h5 G D d o dtout n = Ok v /\ worked G D d o dtout g m v = Ok w /\ advance_h5_times G D d o dtout m v = Ok w /\ shows s w /\ scaled_by h w.
Proof.
  intros G D d o dt name n f b l bs phi h g E1 E2 E3 CR NE HH HP HC LU NP PR GC FO m s Em.
  destruct f as [|s0 f0]; [destruct m; discriminate|]. set (f := s0 :: f0) in *.
  pose (i := info_of_header h (n_single s0) (length (the_pairs s0))).
  destruct (@header_group G o l f 0%nat name false None s0 h eq_refl HH HP (LU s0 (or_introl eq_refl))) as [v [EV [SH [SC [SP [SI [F1 [F2 [F3 F4]]]]]]]]].
  assert (EL : load_h5 G D d o dt n = Ok v).
  { unfold load_h5. rewrite -E1. unfold open_h5, header_on. rewrite E2 E3. cbn [option_map]. now rewrite (PropHdf5.header_read _ _ _ _ _ _ CR NE HH). }
  assert (S0 : c_sc (g_c (h5_cat v)) = info_scales i (y_ro o) (y_vo o)).
  { refine (@group_scales G o (Some (Ok l)) f 0 name false None s0 i v eq_refl _ (positive_of_header _ _ HP) (LU s0 (or_introl eq_refl)) _ EV).
    - unfold info_of_file. cbn [bind]. now rewrite (info_header _ _ HH).
    - intros X. unfold i, the_pairs. now rewrite X. }
  destruct (@worked_same G D d o dt g f s0 i v GC FO eq_refl SH SI (positive_of_header _ _ HP) HC (NP s0 eq_refl)
    (ex_intro _ i (conj (positive_of_header _ _ HP) S0)) F4 F1 F2 LU PR m s Em) as [w [W1 [W2 [W3 [W4 _]]]]].
  exists v, w. split; [exact EL|]. split; [exact W1|]. split; [exact W2|]. split; [exact W3|]. exact (proj1 (in_scales_header W4)).
Qed.
Print Assumptions C102_all_groups.

(* two snapshots on disk; the first is looked at in kpc from the galaxy before the second is opened.  An HDF5 cluster of five stars *)
Definition demo_campaign : list (list act * masks) :=
  [([Unit_change Ukpckms; Origin_change Ogalaxy], fun _ => []); ([Origin_change Ocentre], fun _ => [])].
Example C102_hypotheses_met : forall G : galpy,
  o_nsnap (l_set demo_load) = 9%nat /\ same_keywords demo_load demo_advance false /\ plain_advance demo_advance /\ demo_campaign <> [] /\
  (forall j, (j < length demo_campaign)%nat -> on_disk demo_reader demo_disk (l_set demo_load) (9 + j) (demo_tables (9 + j)) 7) /\
  columns_fit (l_names demo_load) (l_nums demo_load) 7 /\ l_units demo_load <> Some Uradec /\ l_units demo_load <> Some Uamuse /\
  exists v fs v', load_snapshot G demo_reader demo_disk demo_load None None = Ok v /\
    campaign G v_cat put_snapshot (advance_snapshot G demo_reader demo_disk demo_advance false) demo_campaign v = Ok (fs, v').
Proof.
  intros G. destruct C48_hypotheses_met as [H1 [H2 [H3 [H4 [H5 [H6 H7]]]]]].
  assert (SK : same_keywords demo_load demo_advance false) by (split; [exact H7|]; repeat split).
  assert (D : forall j, (j < length demo_campaign)%nat -> on_disk demo_reader demo_disk (l_set demo_load) (9 + j) (demo_tables (9 + j)) 7) by (intros j Hj; apply H2; cbn in Hj; lia).
  split; [exact H1|]. split; [exact SK|]. split; [exact H6|]. split; [discriminate|]. split; [exact D|]. split; [exact H3|]. split; [exact H4|]. split; [exact H5|].
  destruct (C102_opened_alone G demo_reader demo_disk demo_load demo_advance false demo_tables 7 9 demo_campaign H1 SK H6 ltac:(discriminate) D H3 H4 H5) as [v [E [_ K]]].
  assert (Z : forall r : result (list (list (option finding)) * loaded), (r = Raise -> False) -> exists fs v', r = Ok (fs, v')).
  { intros [[fs v']|] X; [now exists fs, v'|]. destruct (X eq_refl). }
  assert (NR : campaign G v_cat put_snapshot (advance_snapshot G demo_reader demo_disk demo_advance false) demo_campaign v = Raise -> False).
  { intros X. destruct (K X) as [i [vi [Hi [_ W]]]]. clear -Hi W. revert W. generalize (unmeasured (v_cat vi)). intros s W.
    destruct i as [|[|i]]; [| |cbn in Hi; lia]; cbn [nth demo_campaign fst snd work do_act bind] in W; discriminate W. }
  destruct (Z _ NR) as [fs [v' X]]. exists v, fs, v'. exact (conj E X).
Qed.
Print Assumptions C102_hypotheses_met.
Definition demo_group_cluster : h5 := mkH5 (y_k (prof_system Ocluster 0)) [] 1 1 1 1 1 2 0 3 [].
Example C102_groups_hypotheses_met :
  let v := demo_group_cluster in let l := [Unit_change Unbody; Origin_change Ogalaxy; Unit_change Ugalpy] in
  ready demo_galpy (g_c (h5_cat v)) Upckms Ocluster /\ Forall manageable l /\
  (forall x, In x l -> match x with Unit_change _ | Origin_change _ => True | _ => False end) /\ analyze true true (g_c (h5_cat v)) = g_c (h5_cat v) /\
  exists f s e', work demo_galpy l (unmeasured (h5_cat v)) (fun _ => []) = Ok (f, s, e').
Proof.
  cbv zeta. split; [exact (five_ready Ocluster 0 ltac:(discriminate))|]. split; [repeat constructor; discriminate|].
  split; [intros x [<-|[<-|[<-|[]]]]; exact Logic.I|]. split; [exact (analyze_idem (prof_raw Ocluster 0))|]. cbn [work do_act bind]. do 3 eexists. reflexivity.
Qed.
Print Assumptions C102_groups_hypotheses_met.
(* the file of C94, its first group taken to galactic coordinates in galpy's units *)
Example C102_all_groups_hypotheses_met :
  let o := mkH5o true true 8 220 in let g : nat -> list op := fun _ => [OpUnits Upckms; OpOrigin Ogalaxy true; OpUnits Ugalpy] in
  galactic_constants demo_galpy o /\ (forall k, Forall flat_op (g k)) /\
  exists v w, load_h5 demo_galpy half_decoder demo_h5_disk o (Whole 1) 3 = Ok v /\ worked demo_galpy half_decoder demo_h5_disk o (Whole 1) g 1 v = Ok w /\ shows (demo_group 1) w.
Proof.
  cbv zeta. assert (GC : galactic_constants demo_galpy (mkH5o true true 8 220)).
  { unfold galactic_constants. cbn. repeat split; lra. }
  assert (FO : forall k : nat, Forall flat_op [OpUnits Upckms; OpOrigin Ogalaxy true; OpUnits Ugalpy]) by (intros k; repeat constructor; discriminate).
  split; [exact GC|]. split; [exact FO|].
  destruct C94_hypotheses_met as [H1 [H2 [H3 [H4 [H5 [H6 [H7 [H8 [H9 [H10 [H11 _]]]]]]]]]]].
  destruct (C102_all_groups demo_galpy half_decoder demo_h5_disk (mkH5o true true 8 220) (Whole 1) (Whole 3) 3 demo_h5_file _ _ _ _ _ _ eq_refl H1 H2 H3 H4 H5 H6 H7 H8 H9
    (or_introl H10) GC FO 1%nat (demo_group 1) H11) as [v [w [K1 [K2 [_ [K3 _]]]]]].
  exists v, w. exact (conj K1 (conj K2 K3)).
Qed.
Print Assumptions C102_all_groups_hypotheses_met.
