(* C101: profiles that fail. *)
From Verif Require Import Base ModelCluster ModelOps ModelConv ModelEnergy ModelRecipes ModelStars ModelSubset ModelCoords ModelLagrange ModelProfiles ModelAbandon.
From Verif Require Import ModelOrbit ModelTail ModelCentre ModelRadii ModelHistory.
From Verif Require Import SpecUnits SpecFrame SpecOrder SpecRecipes SpecEnergy SpecStars SpecSubset SpecLagrange SpecProfiles.
From Verif Require Import ProofsUnits ProofsFrame ProofsSees ProofsSubset ProofsProfiles ProofsProfiles4 ProofsHistory3 ProofsSurvey2 ProofsLagrange PropUnits PropFrame PropLagrange PropProfiles PropDynamics PropSurvey.
Open Scope list_scope. Open Scope R_scope.

(* C101: a profile that fails leaves the same stars: their places, velocities and masses seen from the Galaxy, ids and scales are as before, in units and
   about an origin that can be worked with; nothing else of the catalogue changes, and the mask passed keeps its length and can only lose stars *)
Theorem C101_failed_profile :
  forall (G : galpy) (a : profile) (q : selection) (indx : option (list bool)) (s : system) (u : usys) (o : osys),
    ready G (g_c (y_k s)) u o -> analyze true true (g_c (y_k s)) = g_c (y_k s) -> fails G a q indx s ->
    let '(s', j) := abandoned G a q indx s in let c := g_c (y_k s) in let c' := g_c (y_k s') in
    s' = sys_with s c' /\ galactic_view G c' = galactic_view G c /\ (exists u' o', ready G c' u' o') /\ c_sc c' = c_sc c /\ c_id c' = c_id c /\
    match indx, j with
    | None, None => True
    | Some l, Some l' => length l' = length l /\ forall k, nth k l' false = true -> nth k l false = true
    | _, _ => False
    end.
Proof.
  intros G a q indx s u o HR HA _.
  assert (S0 : forall n, sees G (g_c (y_k s)) (profile_frame G n (g_c (y_k s)))) by (intros n; exact (sees_profile n HR HA)).
  assert (X1 : exists d norm, abandoned G a q indx s = (sys_with s d, mask_left q indx (sys_with s (profile_frame G norm (g_c (y_k s))))) /\ sees G (g_c (y_k s)) d).
  { assert (L : forall n bt norm, exists d, late G q indx n bt norm s = sys_with s d /\ sees G (g_c (y_k s)) d).
    { intros n bt norm. unfold late. cbv zeta. pose proof (sees_back (sees_refl HR) (S0 norm)) as B. revert B.
      generalize (return_cluster G (save_cluster (g_c (y_k s))) (profile_frame G norm (g_c (y_k s)))). intros e B.
      destruct (profile_rows _ _ _ _ _ _ _); eexists; (split; [reflexivity|]); [exact B|exact (S0 norm)]. }
    assert (E : forall t norm, exists d, early G t q indx norm s = sys_with s d /\ sees G (g_c (y_k s)) d).
    { intros t norm. unfold early. cbv zeta. destruct (get_subset _ _ _); [|eexists; split; [reflexivity|exact (S0 norm)]].
      destruct (t && negb (l_projected q)); [|eexists; split; [reflexivity|exact (S0 norm)]].
      pose proof (@sees_sphere G (g_c (y_k s)) (profile_frame G norm (g_c (y_k s)))) as K.
      destruct (sphere_coords G (profile_frame G norm (g_c (y_k s)))) as [[l e]|]; eexists; (split; [reflexivity|]); [exact (K l e (S0 norm) eq_refl)|exact (S0 norm)]. }
    destruct a as [n bt norm cum|n bt norm|w k n bt norm|n bt norm]; cbn [abandoned].
    - destruct (L n bt norm) as [d [-> D]]. exists d, norm. split; [reflexivity|exact D].
    - destruct (L n bt norm) as [d [-> D]]. exists d, norm. split; [reflexivity|exact D].
    - destruct (E (match k with None => false | Some _ => true end) norm) as [d [-> D]]. exists d, norm. split; [reflexivity|exact D].
    - destruct (E true norm) as [d [-> D]]. exists d, norm. split; [reflexivity|exact D]. }
  destruct X1 as [d [norm [-> D]]]. destruct D as [D1 [D2 [D3 [D4 _]]]]. cbv zeta.
  split; [reflexivity|]. split; [exact D1|]. split; [exact D2|]. split; [exact D3|]. split; [exact D4|].
  unfold mask_left. destruct indx as [l|].
  - pose proof (@subset_narrower q l (sys_with s (profile_frame G norm (g_c (y_k s))))) as K.
    destruct (get_subset _ _ _) as [[y j]|]; [|split; [reflexivity|intros k X; exact X]]. cbn [snd]. destruct (K y j eq_refl) as [l' [-> Q]]. exact Q.
  - assert (K : forall y j t, get_subset q None t = Ok (y, j) -> j = None).
    { intros y j t. unfold get_subset. cbv zeta. do 6 (destruct (limit _ _); [cbn [bind]|discriminate]).
      destruct (match l_emin q with Some _ => _ | None => _ end); [cbn [bind]|discriminate]. destruct (if Nat.ltb _ _ then _ else _); [cbn [bind]|discriminate].
      intros E. congruence. }
    pose proof (fun y j => K y j (sys_with s (profile_frame G norm (g_c (y_k s))))) as K1. destruct (get_subset _ _ _) as [[y j]|]; [|exact Logic.I]. cbn [snd].
    rewrite (K1 y j eq_refl). exact Logic.I.
Qed.
Print Assumptions C101_failed_profile.

(* the profile bins the stored radii *)
Definition radial (a : profile) : bool := match a with Pmass _ _ _ _ | Pdensity _ _ _ => true | _ => false end.

(* finding (C101): a profile of no star fails, and leaves the mask it was given emptied for good: the caller's next call with that array sees no star
   either.  The mass and density profiles leave a catalogue that was seen from the Galaxy centred on the cluster. *)
Theorem C101_empty_profile_refuted :
  forall (G : galpy) (a : profile) (q : selection) (l : list bool) (s : system) (u : usys) (o : osys) (n : nat),
    ready G (g_c (y_k s)) u o -> analyze true true (g_c (y_k s)) = g_c (y_k s) -> measured s n -> (1 <= n)%nat -> energies_known q s n ->
    length l = n -> (forall i, (i < n)%nat -> ~ SpecProfiles.asked q (Some l) s i) ->
    fails G a q (Some l) s /\ snd (abandoned G a q (Some l) s) = Some (repeat false n) /\
    (radial a = true -> c_origin (g_c (y_k (fst (abandoned G a q (Some l) s)))) = Some (match o with Ogalaxy => Ocentre | _ => o end)).
Proof.
  intros G a q l s u o n HR HA HM Hn EK HL HN.
  assert (F : forall norm, own_framed G (g_c (y_k s)) (profile_frame G norm (g_c (y_k s))) n) by (intros norm; exact (profile_frame_ok norm HR HA (proj1 (proj1 HM)))).
  assert (Q : forall norm, get_subset q (Some l) (sys_with s (profile_frame G norm (g_c (y_k s)))) = Ok (Some (repeat false n), Some (repeat false n))).
  { intros norm. destruct (@subset_mask q (Some l) (sys_with s (profile_frame G norm (g_c (y_k s)))) n (framed_measured (F norm) HM) Hn EK HL) as [m [E [Lm Hm]]].
    rewrite E. assert (X : m = repeat false n); [|now rewrite X].
    apply (nth_ext _ _ false false); [now rewrite repeat_length|]. intros i Hi. rewrite Lm in Hi. rewrite nth_repeat. destruct (nth i m false) eqn:B; [|reflexivity].
    exfalso. destruct (proj1 (Hm i Hi) B) as [B1 B2]. apply (HN i Hi). split; [exact B1|].
    exact (proj1 (@framed_satisfies G s _ n i q (F norm) (proj1 (proj2 (proj1 HM))) Hi) B2). }
  assert (Z0 : forall (A : Type) (r : list A) k, select (repeat false k) r = []).
  { intros A r k. revert r. induction k as [|k IH]; intros [|x r]; cbn; [reflexivity|reflexivity|reflexivity|]. exact (IH r). }
  assert (P0 : forall norm r k bt, profile_rows q (Some l) None k bt r (sys_with s (profile_frame G norm (g_c (y_k s)))) = Raise).
  { intros norm r k bt. unfold profile_rows. rewrite Q. cbn [bind fst]. rewrite Z0. unfold profile_bins. destruct bt; reflexivity. }
  assert (O0 : forall norm, c_origin (profile_frame G norm (g_c (y_k s))) = Some (match o with Ogalaxy => Ocentre | _ => o end)).
  { intros norm. destruct (amuse_ok HR HA) as [A0 [S0 [_ [Oc _]]]]. cbv zeta in A0, S0, Oc. unfold profile_frame. destruct HR as [HS [Hu [Hl [Ho Hf]]]].
    revert A0 S0 Oc. generalize (match c_units (g_c (y_k s)) with Some Uamuse => to_pckms G (g_c (y_k s)) | _ => g_c (y_k s) end). intros c0 A0 S0 Oc. rewrite Ho in Oc. rewrite Ho.
    destruct o; [| | |now destruct Hf].
    - destruct norm; [rewrite sortstars_settled; [exact A0|]|]; exact Oc.
    - destruct norm; [rewrite sortstars_settled; [exact A0|]|]; exact Oc.
    - destruct (sees_ready S0) as [u0 [o0 [T1 [T2 [T3 [T4 T5]]]]]].
      pose proof (skel_eq_fields (to_centre_flat norm T2 T3 T4 T5)) as K. destruct K as [K1 [K2 K3]]. first [exact K1|exact K2|exact (proj1 K3)]. }
  assert (M0 : forall norm, mask_left q (Some l) (sys_with s (profile_frame G norm (g_c (y_k s)))) = Some (repeat false n)) by (intros norm; unfold mask_left; now rewrite Q).
  destruct a as [k bt norm cum|k bt norm|w j k bt norm|k bt norm]; cbn [fails abandoned fst snd radial]; (split; [|split; [exact (M0 norm)|]]); try discriminate.
  - unfold m_prof. cbv zeta. now rewrite P0.
  - intros _. unfold late. cbv zeta. rewrite P0. exact (O0 norm).
  - unfold rho_prof. cbv zeta. now rewrite P0.
  - intros _. unfold late. cbv zeta. rewrite P0. exact (O0 norm).
  - unfold velocity_prof. cbv zeta. destruct (velocity_column _ _ _ _ _) as [[[r v] c2]|]; [|reflexivity]. cbn [bind]. now rewrite P0.
  - unfold beta_prof. cbv zeta. destruct (three_velocities _ _ _) as [[[[[r v1] v2] v3] c2]|]; [|reflexivity]. cbn [bind]. now rewrite P0.
Qed.
Print Assumptions C101_empty_profile_refuted.

(* five stars of a few solar masses, none of them above 100: all hypotheses are met, seen from the cluster or from the Galaxy *)
Definition none_heavy : selection := PropSurvey.heavy.
Example C101_hypotheses_met :
  let s := prof_system Ocluster 0 in let c := g_c (y_k s) in
  ready demo_galpy c Upckms Ocluster /\ analyze true true c = c /\ measured s 5 /\ energies_known none_heavy s 5 /\
  (forall i, (i < 5)%nat -> ~ SpecProfiles.asked none_heavy (Some (repeat true 5)) s i) /\
  fails demo_galpy (Pmass 3 ModelRecipes.Num true false) none_heavy (Some (repeat true 5)) s.
Proof.
  cbv zeta. split; [exact (five_ready Ocluster 0 ltac:(discriminate))|]. split; [exact (analyze_idem (prof_raw Ocluster 0))|].
  split; [exact (prof_measured Ocluster 0)|]. split; [left; split; reflexivity|].
  assert (X : forall i, (i < 5)%nat -> ~ SpecProfiles.asked none_heavy (Some (repeat true 5)) (prof_system Ocluster 0) i).
  { intros i Hi [_ [_ [_ [[X _] _]]]]. specialize (X 100 eq_refl).
    unfold row_mass, star_at in X. cbn [w_m] in X.
    assert (P : p_m (c_ph (g_c (y_k (own_system (prof_system Ocluster 0))))) = p_m (c_ph (prof_raw Ocluster 0))) by (pose proof (five_ph Ocluster 0) as Y; unfold five in Y; cbn; now rewrite ?Y).
    rewrite ?P in X. destruct i as [|[|[|[|[|i]]]]]; [| | | | |lia]; cbn in X; lra. }
  split; [exact X|].
  exact (proj1 (C101_empty_profile_refuted demo_galpy (Pmass 3 ModelRecipes.Num true false) none_heavy (repeat true 5) (prof_system Ocluster 0) Upckms Ocluster 5
    (five_ready Ocluster 0 ltac:(discriminate)) (analyze_idem (prof_raw Ocluster 0)) (prof_measured Ocluster 0) ltac:(lia) ltac:(left; split; reflexivity) eq_refl X)).
Qed.
Print Assumptions C101_hypotheses_met.
