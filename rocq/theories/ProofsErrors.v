(* Proofs: interactive sessions. *)
From Verif Require Import Base ModelCluster ModelOps ModelConv ModelEnergy ModelRecipes ModelLagrange ModelProfiles ModelDynamics ModelStars ModelOrbit ModelRadii ModelTail ModelCentre ModelHistory ModelErrors.
From Verif Require Import SpecUnits SpecFrame SpecEnergy SpecHistory SpecErrors ProofsUnits ProofsFrame ProofsFrame2 ProofsSees ProofsSort ProofsEnergy ProofsEnergy2 ProofsLagrange ProofsDynamics4 ProofsOrbit ProofsRadii9.
From Verif Require Import ProofsHistory ProofsHistory2 ProofsHistory3.
Set Implicit Arguments. Unset Strict Implicit.
Open Scope list_scope. Open Scope R_scope.

Definition good G c u o := ready G c u o /\ analyze true true c = c.
Definition sorting (op : op) := flat_op op /\ forall o s, op = OpOrigin o s -> s = true.
Section WithGalpy.
Variable G : galpy.
Lemma good_run1 op c u o : good G c u o -> sorting op -> good G (run1 G c op) (last_units [op] u) (last_origin [op] o).
Proof.
  move=> [H A] [F S]. have [_ A1] := run1_good H A F S. split; [|exact A1].
  have FF : Forall flat_op [op] by repeat constructor.
  have [_ [R1 _]] := run_view H FF. exact R1.
Qed.
Lemma last_units_app l m u : last_units (l ++ m) u = last_units m (last_units l u).
Proof. elim: l u => [|a l IH] u //=. destruct a; apply IH. Qed.
Lemma last_origin_app l m o : last_origin (l ++ m) o = last_origin m (last_origin l o).
Proof. elim: l o => [|a l IH] o //=. destruct a; apply IH. Qed.
Lemma good_run ops c u o : good G c u o -> Forall sorting ops -> good G (run G ops c) (last_units ops u) (last_origin ops o).
Proof.
  elim: ops c u o => [|op ops IH] c u o H F; [exact H|]. inversion F; subst. have K := IH _ _ _ (good_run1 H H2) H3.
  cbn [run fold_left]. by destruct op.
Qed.
Lemma run_app l m c : run G (l ++ m) c = run G m (run G l c). Proof. by rewrite /run fold_left_app. Qed.
Lemma run_same ops c d : restored c d -> restored (run G ops c) (run G ops d).
Proof. elim: ops c d => [|op ops IH] c d H; [exact H|]. cbn [run fold_left]. apply IH. exact (run1_same G op H). Qed.
Lemma good_same c d u o : restored c d -> good G c u o -> good G d u o.
Proof. move=> H [A B]. split; [exact (same_ready H A)|exact (restored_settled H B)]. Qed.

Lemma pckms_step1 c u o : ready G c u o -> to_pckms G c = run1 G c (OpUnits Upckms).
Proof. move=> [_ [Hu _]]. by rewrite /run1 /to_units Hu. Qed.
Lemma centre_step1 c u o : good G c u o -> o <> Ocentre -> to_centre true c = run1 G c (OpOrigin Ocentre true).
Proof.
  move=> [H A] N. have [_ [Hu [_ [Ho Hf]]]] := H. rewrite /run1 /to_origin Ho.
  have E : exists d, to_centre true c = analyze true true d.
  { rewrite /to_centre Ho Hu. cbv zeta. destruct o => //; destruct u; eexists; reflexivity. }
  destruct E as [d ->]. by rewrite analyze_idem.
Qed.
Lemma unamuse_run c u o : ready G c u o -> (match c_units c with Some Uamuse => to_pckms G c | _ => c end) = run G (match u with Uamuse => [OpUnits Upckms] | _ => [] end) c.
Proof. move=> H. have [_ [Hu _]] := H. rewrite Hu. destruct u => //. exact (pckms_step1 H). Qed.
Lemma amuse_sorting u : Forall sorting (match u with Uamuse => [OpUnits Upckms] | _ => [] end).
Proof. by destruct u; repeat constructor. Qed.
Lemma centre_sorting o : Forall sorting (match o with Ocluster | Ocentre => [] | _ => [OpOrigin Ocentre true] end).
Proof. destruct o; repeat constructor => //; move=> ? ? E; by injection E. Qed.
Lemma amuse_origin u o : last_origin (match u with Uamuse => [OpUnits Upckms] | _ => [] end) o = o. Proof. by destruct u. Qed.
Lemma lagrange_detour c u o : good G c u o -> lagrange_frame G c = run G (detour (Lagrange 0 false) u o) c.
Proof.
  move=> H. have [HR HA] := H. have [_ [Hu [_ [Ho Hf]]]] := HR. rewrite /lagrange_frame /detour run_app -(unamuse_run HR) Ho. cbv zeta.
  have K := good_run H (amuse_sorting u). rewrite -(unamuse_run HR) amuse_origin in K.
  move: (match c_units c with Some Uamuse => to_pckms G c | _ => c end) K => d K. destruct o; cbn [run fold_left];
    first [by rewrite sortstars_settled; [exact (proj2 K)|]|exact (centre_step1 K ltac:(discriminate))|reflexivity].
Qed.
Lemma relax_detour c u o : good G c u o -> relax_frame G c = run G (detour (HalfMassRelaxation 0 false) u o) c.
Proof.
  move=> H. have [HR HA] := H. have [_ [Hu [_ [Ho Hf]]]] := HR. rewrite relax_frame_eq // /detour run_app.
  have E : (if off_centre c then to_centre true c else c) = run G (match o with Ocluster | Ocentre => [] | _ => [OpOrigin Ocentre true] end) c.
  { rewrite /off_centre Ho. destruct o => //; exact (centre_step1 H ltac:(discriminate)). }
  rewrite -E. have K := good_run H (centre_sorting o). rewrite -E in K. move: (if off_centre c then to_centre true c else c) K => d K. exact (pckms_step1 (proj1 K)).
Qed.
Lemma detour_sorting a u o : Forall sorting (detour a u o).
Proof.
  have P : Forall sorting [OpUnits Upckms] by repeat constructor.
  destruct a; cbn [detour]; first [exact (Forall_nil _)|apply amuse_sorting|(apply Forall_app; split; [apply amuse_sorting|apply centre_sorting])|(apply Forall_app; split; [apply centre_sorting|exact P])].
Qed.
Lemma detour_ok a c u o : good G c u o -> measure G a c = Raise -> restored (run G (detour a u o) c) (left_behind G a c).
Proof.
  move=> H. have [HR HA] := H. destruct a; cbn [left_behind detour] => E.
  - rewrite (lagrange_detour H). exact (restored_refl _).
  - rewrite (lagrange_detour H). exact (restored_refl _).
  - rewrite (relax_detour H). exact (restored_refl _).
  - rewrite (relax_detour H). exact (restored_refl _).
  - exact (restored_refl _).
  - exact (restored_refl _).
  - exact (restored_refl _).
  - rewrite (relax_detour H). exact (restored_refl _).
  - exact (restored_refl _).
  - exact (restored_refl _).
  - cbn [run fold_left]. rewrite /initialize_orbit. cbv zeta. cbn [snd]. exact (bracket HR HA (proj1 (ready_galpy HR))).
  - rewrite (unamuse_run HR). exact (restored_refl _).
Qed.
Lemma made_sorting q r u o : allowed q -> Forall sorting (made q r u o).
Proof.
  move=> A. destruct q as [a|rad k p|w|w]; cbn [made].
  - destruct r; [constructor|apply detour_sorting|constructor].
  - exact (detour_sorting (Relaxation k p) u o).
  - destruct r; (constructor; [split; [exact A|discriminate]|constructor]).
  - destruct r; (constructor; [split; [exact A|move=> ? ? E; by injection E]|constructor]).
Qed.
Lemma attempt_ok q c d u o : good G c u o -> restored c d -> allowed q -> let '(r, d') := attempt G q d in
  r = reply_alone G q c /\ restored (run G (made q r u o) c) d'.
Proof.
  move=> H S A. have H2 := good_same S H. destruct q as [a|rad k p|w|w]; cbn [attempt reply_alone].
  - have M := measure_same G a S. rewrite M /alone. destruct (measure G a d) as [[x e]|] eqn:E; cbn [fst made].
    + split => //. cbn [run fold_left]. exact (restored_trans S (measure_restores (proj1 H2) (proj2 H2) E)).
    + split => //. exact (restored_trans (run_same _ S) (detour_ok H2 E)).
  - rewrite /relaxation_time. cbv zeta. split => //. cbn [made]. rewrite (relax_detour H2). exact (run_same _ S).
  - split => //. exact (run1_same G (OpUnits w) S).
  - split => //. exact (run1_same G (OpOrigin w true) S).
Qed.
Theorem interactive_ok l c d u o : good G c u o -> restored c d -> Forall allowed l ->
  let '(rs, d') := interactive G l d in
  List.length rs = List.length l /\ restored (run G (itinerary (combine l rs) u o) c) d' /\ Forall sorting (itinerary (combine l rs) u o) /\
  forall i, (i < List.length l)%nat -> nth i rs Done = reply_alone G (nth i l (Ask Tail)) (run G (itinerary (firstn i (combine l rs)) u o) c).
Proof.
  elim: l c d u o => [|q l IH] c d u o H S F.
  - cbn. split => //. split => //. split; [constructor|]. move=> i Hi. lia.
  - inversion F; subst. cbn [interactive]. have K := attempt_ok H S H2. destruct (attempt G q d) as [r e] eqn:E. destruct K as [K1 K2].
    have MS := made_sorting r u o H2. have H4 := good_run H MS. have J := IH _ _ _ _ H4 K2 H3. destruct (interactive G l e) as [rs f].
    destruct J as [J1 [J2 [J3 J4]]]. cbn [List.length combine itinerary]. split; [by rewrite J1|]. rewrite run_app. split; [exact J2|].
    split; [apply Forall_app; by split|]. move=> [|i] Hi; [by cbn|]. cbn [nth firstn itinerary]. rewrite run_app. apply J4. lia.
Qed.
End WithGalpy.
