(* C100: sessions with profiles and mass functions. *)
From Verif Require Import Base ModelCluster ModelOps ModelConv ModelEnergy ModelRecipes ModelStars ModelSubset ModelCoords ModelLagrange ModelProfiles ModelMassFunction ModelDynamics.
From Verif Require Import ModelOrbit ModelTail ModelCentre ModelRadii ModelMeqProf ModelHistory ModelSurvey.
From Verif Require Import SpecUnits SpecFrame SpecEnergy SpecHistory SpecSubset SpecSurvey SpecStars ProofsUnits ProofsFrame ProofsSubset ProofsEnergy2 ProofsRadii9 ProofsHistory ProofsHistory2 ProofsHistory3 ProofsSurvey ProofsSurvey2 ProofsSurvey3.
From Verif Require Import PropUnits PropFrame PropLagrange PropProfiles PropDynamics.
From Coq Require Import Permutation.
Open Scope list_scope. Open Scope R_scope.

(* C100: in a session of profiles, mass functions, analyses and changes of units and origin, every step finds what it finds alone on the catalogue after the
   changes made before it, with the masks as the earlier steps alone would leave them; at the end only the changes have been made *)
Theorem C100_session :
  forall (G : galpy) (l : list act) (s : system) (e : masks) (u : usys) (o : osys),
    ready G (g_c (y_k s)) u o -> analyze true true (g_c (y_k s)) = g_c (y_k s) -> Forall manageable l ->
    match work G l s e with
    | Ok (found, s', e') =>
        s' = sys_with s (g_c (y_k s')) /\ restored (run G (changes l) (g_c (y_k s))) (g_c (y_k s')) /\ e' = narrowed G l s e /\ length found = length l /\
        forall i, (i < length l)%nat -> by_itself G (nth i l (Simple Tail)) (standing G (firstn i l) s) (narrowed G (firstn i l) s e) = Ok (nth i found None)
    | Raise =>
        exists i, (i < length l)%nat /\ by_itself G (nth i l (Simple Tail)) (standing G (firstn i l) s) (narrowed G (firstn i l) s e) = Raise
    end.
Proof.
  intros G l s e u o HR HA HF.
  pose proof (@work_gen G l s s e HF (conj (ex_intro _ u (ex_intro _ o HR)) HA) (kept_refl s)) as K.
  destruct (work G l s e) as [[[fs t] e']|]; [|exact K]. destruct K as [[K1 K2] [K3 [K4 K5]]].
  split; [exact K1|]. split; [exact K2|]. split; [exact K3|]. split; [exact K4|exact K5].
Qed.
Print Assumptions C100_session.

(* C100: when no mask is named twice, no step notices the others: it finds what it finds alone with the masks of the start *)
Theorem C100_unshared_masks :
  forall (G : galpy) (l : list act) (s : system) (e : masks) (u : usys) (o : osys),
    ready G (g_c (y_k s)) u o -> analyze true true (g_c (y_k s)) = g_c (y_k s) -> Forall manageable l -> NoDup (named l) ->
    match work G l s e with
    | Ok (found, _, _) => forall i, (i < length l)%nat -> by_itself G (nth i l (Simple Tail)) (standing G (firstn i l) s) e = Ok (nth i found None)
    | Raise => exists i, (i < length l)%nat /\ by_itself G (nth i l (Simple Tail)) (standing G (firstn i l) s) e = Raise
    end.
Proof.
  intros G l s e u o HR HA HF HN. pose proof (C100_session G l s e u o HR HA HF) as K.
  assert (Q : forall i, (i < length l)%nat -> by_itself G (nth i l (Simple Tail)) (standing G (firstn i l) s) (narrowed G (firstn i l) s e) =
    by_itself G (nth i l (Simple Tail)) (standing G (firstn i l) s) e).
  { intros i Hi. apply by_itself_mask. intros k Hk. apply narrowed_other. exact (apart HN Hi Hk). }
  destruct (work G l s e) as [[[fs t] e']|].
  - destruct K as [_ [_ [_ [_ K]]]]. intros i Hi. rewrite <- (Q i Hi). exact (K i Hi).
  - destruct K as [i [Hi K]]. exists i. split; [exact Hi|]. rewrite <- (Q i Hi). exact K.
Qed.
Print Assumptions C100_unshared_masks.

(* C100: a mask the session does not name is untouched; one it names keeps its length and can only lose stars *)
Theorem C100_masks_only_narrow :
  forall (G : galpy) (l : list act) (s : system) (e : masks) (u : usys) (o : osys),
    ready G (g_c (y_k s)) u o -> analyze true true (g_c (y_k s)) = g_c (y_k s) -> Forall manageable l ->
    match work G l s e with
    | Ok (_, _, e') => forall k, (~ In k (named l) -> e' k = e k) /\ length (e' k) = length (e k) /\ forall j, nth j (e' k) false = true -> nth j (e k) false = true
    | Raise => True
    end.
Proof.
  intros G l s e u o HR HA HF. pose proof (C100_session G l s e u o HR HA HF) as K.
  destruct (work G l s e) as [[[fs t] e']|]; [|exact Logic.I]. destruct K as [_ [_ [E _]]]. rewrite E. intros k.
  split; [apply narrowed_other|]. exact (narrowed_narrower G l s e k).
Qed.
Print Assumptions C100_masks_only_narrow.

(* C100: between changes of units and origin the order does not matter: the same surveys in another order find the same things *)
Theorem C100_any_order :
  forall (G : galpy) (l l' : list act) (s : system) (e : masks) (u : usys) (o : osys),
    ready G (g_c (y_k s)) u o -> analyze true true (g_c (y_k s)) = g_c (y_k s) -> changes l = [] -> NoDup (named l) -> NoDup (named l') -> Permutation l l' ->
    match work G l s e, work G l' s e with
    | Ok (found, s1, _), Ok (found', s1', _) =>
        restored (g_c (y_k s)) (g_c (y_k s1)) /\ restored (g_c (y_k s)) (g_c (y_k s1')) /\
        forall i j, (i < length l)%nat -> (j < length l')%nat -> nth i l (Simple Tail) = nth j l' (Simple Tail) -> nth i found None = nth j found' None
    | Raise, Raise => True
    | _, _ => False
    end.
Proof.
  intros G l l' s e u o HR HA HC N1 N2 HP.
  assert (A0 : forall x, In x l -> changes [x] = []).
  { clear -HC. induction l as [|y l IH]; intros x X; [destruct X|]. destruct y; try discriminate HC; destruct X as [<-|X]; try reflexivity; exact (IH HC x X). }
  assert (A1 : forall m, (forall x, In x m -> In x l) -> changes m = [] /\ Forall manageable m).
  { induction m as [|x m IH]; intros Q; [split; [reflexivity|constructor]|]. destruct (IH (fun y Y => Q y (or_intror Y))) as [I1 I2].
    pose proof (A0 x (Q x (or_introl eq_refl))) as X. destruct x; try discriminate X; (split; [exact I1|constructor; [exact Logic.I|exact I2]]). }
  assert (A2 : forall m, (forall x, In x m -> In x l) -> forall i, standing G (firstn i m) s = s).
  { intros m Q i. assert (X : changes (firstn i m) = []). { apply A1. intros x Hx. apply Q. rewrite <- (firstn_skipn i m). apply in_or_app. now left. }
    unfold standing. rewrite X. exact (with_self s). }
  assert (Q1 : forall x, In x l -> In x l) by tauto.
  assert (Q2 : forall x, In x l' -> In x l) by (intros x; apply Permutation_in; apply Permutation_sym; exact HP).
  pose proof (C100_unshared_masks G l s e u o HR HA (proj2 (A1 l Q1)) N1) as K1. pose proof (C100_unshared_masks G l' s e u o HR HA (proj2 (A1 l' Q2)) N2) as K2.
  pose proof (C100_session G l s e u o HR HA (proj2 (A1 l Q1))) as R1. pose proof (C100_session G l' s e u o HR HA (proj2 (A1 l' Q2))) as R2.
  rewrite (proj1 (A1 l Q1)) in R1. rewrite (proj1 (A1 l' Q2)) in R2. cbn [run fold_left] in R1, R2.
  destruct (work G l s e) as [[[f1 t1] e1]|], (work G l' s e) as [[[f2 t2] e2]|].
  - split; [exact (proj1 (proj2 R1))|]. split; [exact (proj1 (proj2 R2))|]. intros i j Hi Hj E. pose proof (K1 i Hi) as X. pose proof (K2 j Hj) as Y.
    rewrite (A2 l Q1) in X. rewrite (A2 l' Q2) in Y. rewrite E Y in X. congruence.
  - destruct K2 as [j [Hj K2]]. rewrite (A2 l' Q2) in K2. pose proof (Q2 _ (nth_In l' (Simple Tail) Hj)) as X. destruct (In_nth l _ (Simple Tail) X) as [i [Hi E]].
    pose proof (K1 i Hi) as Y. rewrite (A2 l Q1) in Y. rewrite E K2 in Y. discriminate Y.
  - destruct K1 as [j [Hj K1]]. rewrite (A2 l Q1) in K1. pose proof (Permutation_in _ HP (nth_In l (Simple Tail) Hj)) as X. destruct (In_nth l' _ (Simple Tail) X) as [i [Hi E]].
    pose proof (K2 i Hi) as Y. rewrite (A2 l' Q2) in Y. rewrite E K1 in Y. discriminate Y.
  - exact Logic.I.
Qed.
Print Assumptions C100_any_order.

(* finding: surveys that share a mask do notice one another.  A mass function of stars that do not exist empties the mask that selected every star, and the
   mass function of all stars asked for next with that mask finds none *)
Theorem C100_shared_mask_refuted :
  forall (G : galpy) (q : selection) (nmass : nat) (bt : bintype) (s : system) (e : masks) (k n : nat) (u : usys) (o : osys),
    ready G (g_c (y_k s)) u o -> analyze true true (g_c (y_k s)) = g_c (y_k s) -> u <> Uamuse ->
    measured s n -> (1 <= n)%nat -> (1 <= nmass)%nat -> energies_known q s n -> (forall i, (i < n)%nat -> ~ satisfies q s i) ->
    e k = repeat true n ->
    exists found1 t s' e',
      work G [Survey (MassFunction nmass bt None) q (Some k); Survey (MassFunction nmass bt None) select_default (Some k)] s e = Ok ([found1; Some (Ftable t)], s', e') /\
      mt_hist t = repeat 0%nat nmass /\ e' k = repeat false n.
Proof.
  intros G q nmass bt s e k n u o HR HA HU HM H1 H2 HE HS HK.
  assert (F : mass_frame G (g_c (y_k s)) = g_c (y_k s)).
  { unfold mass_frame. destruct HR as [_ [X _]]. rewrite X. destruct u; try reflexivity. now destruct HU. }
  assert (Z0 : forall m, length m = n -> (forall i, (i < n)%nat -> nth i m false <> true) -> m = repeat false n).
  { intros m L X. subst n. clear -X. induction m as [|b m IH]; [reflexivity|]. cbn [length repeat]. rewrite <- IH.
    - pose proof (X 0%nat ltac:(cbn; lia)) as Y. cbn in Y. destruct b; [now destruct Y|reflexivity].
    - intros i Hi. exact (X (S i) ltac:(cbn; lia)). }
  assert (C0 : count (repeat false n) = 0%nat). { unfold count. clear. induction n as [|n IH]; [reflexivity|exact IH]. }
  assert (B : forall q0 m0, energies_known q0 s n -> length m0 = n -> (forall i, (i < n)%nat -> nth i m0 false = true -> ~ satisfies q0 s i) ->
     exists t s2, look G (MassFunction nmass bt None) q0 (Some m0) s = Ok (Ftable t, s2, Some (repeat false n)) /\ mt_hist t = repeat 0%nat nmass).
  { intros q0 m0 E0 L0 X0. destruct (@subset_mask q0 (Some m0) s n HM H1 E0 L0) as [m [Q1 [Q2 Q3]]].
    assert (M : m = repeat false n). { apply Z0; [exact Q2|]. intros i Hi Y. destruct (proj1 (Q3 i Hi) Y) as [Y1 Y2]. exact (X0 i Hi Y1 Y2). }
    subst m. cbn [look]. unfold mass_function. cbv zeta. rewrite F. rewrite with_self. rewrite Q1. cbn [bind fst snd].
    generalize (return_cluster G (save_cluster (g_c (y_k s))) (g_c (y_k s))). intros d. rewrite C0.
    replace (Nat.leb nmass 0) with false by (symmetry; apply Nat.leb_gt; lia). cbn [bind]. do 2 eexists. split; reflexivity. }
  destruct (B q (e k) HE ltac:(rewrite HK; apply repeat_length) (fun i Hi _ => HS i Hi)) as [t1 [s1 [W1 _]]].
  destruct (B select_default (repeat false n) ltac:(left; split; reflexivity) (repeat_length _ _)) as [t2 [s2 [W2 T2]]].
  { intros i _ X. rewrite nth_repeat in X. discriminate X. }
  pose proof (@work_gen G [Survey (MassFunction nmass bt None) q (Some k); Survey (MassFunction nmass bt None) select_default (Some k)] s s e
    ltac:(repeat constructor) (conj (ex_intro _ u (ex_intro _ o HR)) HA) (kept_refl s)) as K.
  assert (L1 : leaves G (Survey (MassFunction nmass bt None) q (Some k)) s e = write k (Some (repeat false n)) e).
  { unfold leaves. cbn [do_act]. rewrite W1. reflexivity. }
  assert (SS : standing G [Survey (MassFunction nmass bt None) q (Some k)] s = s) by exact (with_self s).
  assert (WK : write k (Some (repeat false n)) e k = repeat false n) by (unfold write; now rewrite Nat.eqb_refl).
  assert (I0 : by_itself G (Survey (MassFunction nmass bt None) q (Some k)) s e = Ok (Some (Ftable t1))).
  { unfold by_itself. cbn [do_act]. rewrite W1. reflexivity. }
  assert (I1 : by_itself G (Survey (MassFunction nmass bt None) select_default (Some k)) s (write k (Some (repeat false n)) e) = Ok (Some (Ftable t2))).
  { unfold by_itself. cbn [do_act]. rewrite WK W2. reflexivity. }
  destruct (work G _ s e) as [[[fs t] e']|].
  - destruct K as [_ [K2 [K3 K4]]]. pose proof (K4 1%nat ltac:(cbn; lia)) as X. cbn [nth firstn narrowed] in X. rewrite SS L1 I1 in X.
    destruct fs as [|f1 [|f2 [|? ?]]]; try discriminate K3. cbn [nth] in X. injection X as <-. exists f1, t2, t, e'. split; [reflexivity|]. split; [exact T2|].
    rewrite K2. cbn [narrowed]. rewrite SS L1. unfold leaves. cbn [do_act]. rewrite WK W2. cbn [bind snd]. unfold write. now rewrite Nat.eqb_refl.
  - destruct K as [i [Hi K]]. destruct i as [|[|i]]; [| |cbn in Hi; lia]; cbn [nth firstn narrowed] in K.
    + assert (S0 : standing G [] s = s) by exact (with_self s). rewrite S0 I0 in K. discriminate K.
    + rewrite SS L1 I1 in K. discriminate K.
Qed.
Print Assumptions C100_shared_mask_refuted.

(* ---- the hypotheses are met by five stars and a session that succeeds; no star is heavier than 100 Msun *)
Definition heavy : selection := mkSel None None (Some 100) None None None None None 0 15 None false.
Definition survey_session : list act :=
  [Survey (MassFunction 10 ModelRecipes.Num None) heavy None; Simple Tail; Survey (Equipartition 4) select_default (Some 0%nat); Survey (MassFunction 8 ModelRecipes.Fix None) select_default (Some 1%nat)].
Example C100_hypotheses_met : let s := prof_system Ocluster 0 in let c := g_c (y_k s) in let e : masks := fun _ => repeat true 5 in
  ready demo_galpy c Upckms Ocluster /\ analyze true true c = c /\ Forall manageable survey_session /\ NoDup (named survey_session) /\ changes survey_session = [] /\
  (exists found s' e', work demo_galpy survey_session s e = Ok (found, s', e')) /\
  measured s 5 /\ energies_known heavy s 5 /\ (forall i, (i < 5)%nat -> ~ satisfies heavy s i).
Proof.
  pose proof (five_ready Ocluster 0 ltac:(discriminate)) as R0.
  assert (A0 : analyze true true (g_c (y_k (prof_system Ocluster 0))) = g_c (y_k (prof_system Ocluster 0))) by exact (analyze_idem (prof_raw Ocluster 0)).
  assert (M0 := prof_measured Ocluster 0).
  cbv zeta. split; [exact R0|]. split; [exact A0|]. split; [repeat constructor|]. split; [repeat constructor; cbn; intuition discriminate|]. split; [reflexivity|].
  assert (F : mass_frame demo_galpy (g_c (y_k (prof_system Ocluster 0))) = g_c (y_k (prof_system Ocluster 0))).
  { unfold mass_frame. destruct R0 as [_ [X _]]. unfold five in X. now rewrite X. }
  split.
  - pose proof (C100_unshared_masks demo_galpy survey_session (prof_system Ocluster 0) (fun _ => repeat true 5) Upckms Ocluster R0 A0 ltac:(repeat constructor)
      ltac:(repeat constructor; cbn; intuition discriminate)) as K.
    destruct (work demo_galpy survey_session (prof_system Ocluster 0) (fun _ => repeat true 5)) as [[[fs t] e']|]; [now exists fs, t, e'|]. exfalso.
    destruct K as [i [Hi K]].
    assert (S0 : standing demo_galpy (firstn i survey_session) (prof_system Ocluster 0) = prof_system Ocluster 0).
    { destruct i as [|[|[|[|i]]]]; try exact (with_self _). cbn in Hi. lia. }
    rewrite S0 in K. clear S0.
    assert (CC : forall m : list bool, length m = 5%nat -> (count m <= 5)%nat). { intros m L. unfold count. rewrite <- L. clear. induction m as [|b m IH]; [exact (le_n 0)|]. cbn [filter length]. destruct b; cbn [length]; lia. }
    assert (MF : forall q idx n bt, (6 <= n)%nat -> energies_known q (prof_system Ocluster 0) 5 -> mask_fits idx 5 ->
       exists y, look demo_galpy (MassFunction n bt None) q idx (prof_system Ocluster 0) = Ok y).
    { intros q idx n bt Hn E L. destruct (@subset_mask q idx _ 5 M0 ltac:(lia) E L) as [m [Q1 [Q2 _]]]. cbn [look]. unfold mass_function. cbv zeta.
      rewrite F with_self Q1. cbn [bind fst snd]. generalize (return_cluster demo_galpy (save_cluster (g_c (y_k (prof_system Ocluster 0)))) (g_c (y_k (prof_system Ocluster 0)))). intros d.
      replace (Nat.leb n (count m)) with false by (symmetry; apply Nat.leb_gt; specialize (CC m Q2); lia). cbn [bind]. now eexists. }
    assert (EF : forall q idx n, (3 <= n)%nat -> energies_known q (prof_system Ocluster 0) 5 -> mask_fits idx 5 ->
       exists y, look demo_galpy (Equipartition n) q idx (prof_system Ocluster 0) = Ok y).
    { intros q idx n Hn E L. destruct (@subset_mask q idx _ 5 M0 ltac:(lia) E L) as [m [Q1 [Q2 _]]]. cbn [look]. unfold eta_function. cbv zeta.
      rewrite F with_self Q1. cbn [bind fst snd]. generalize (return_cluster demo_galpy (save_cluster (g_c (y_k (prof_system Ocluster 0)))) (g_c (y_k (prof_system Ocluster 0)))). intros d.
      replace (Nat.leb (2 * n) (count m)) with false by (symmetry; apply Nat.leb_gt; specialize (CC m Q2); lia). cbn [bind]. now eexists. }
    destruct i as [|[|[|[|i]]]]; [| | | |cbn in Hi; lia]; cbn [nth survey_session] in K; unfold by_itself in K; cbn [do_act] in K.
    + destruct (MF heavy None 10%nat ModelRecipes.Num ltac:(lia) ltac:(left; split; reflexivity) Logic.I) as [[[f t] j] Q]. rewrite Q in K. discriminate K.
    + cbn [measure bind] in K. discriminate K.
    + destruct (EF select_default (Some (repeat true 5)) 4%nat ltac:(lia) ltac:(left; split; reflexivity) ltac:(reflexivity)) as [[[f t] j] Q]. rewrite Q in K. discriminate K.
    + destruct (MF select_default (Some (repeat true 5)) 8%nat ModelRecipes.Fix ltac:(lia) ltac:(left; split; reflexivity) ltac:(reflexivity)) as [[[f t] j] Q]. rewrite Q in K. discriminate K.
  - split; [exact M0|]. split; [left; split; reflexivity|]. intros i Hi [_ [_ [[X _] _]]]. specialize (X 100 eq_refl).
    unfold row_mass, star_at in X. cbn [w_m] in X.
    assert (P : p_m (c_ph (g_c (y_k (prof_system Ocluster 0)))) = p_m (c_ph (prof_raw Ocluster 0))) by (pose proof (five_ph Ocluster 0) as Y; unfold five in Y; now rewrite Y).
    rewrite ?P in X. destruct i as [|[|[|[|[|i]]]]]; [| | | | |lia]; cbn in X; lra.
Qed.
Print Assumptions C100_hypotheses_met.
