(* C84: radial profile of the equipartition mass. *)
From Verif Require Import Base ModelCluster ModelOps ModelConv ModelEnergy ModelRecipes ModelStars ModelSubset ModelCoords ModelLagrange ModelProfiles ModelMassFunction ModelDynamics.
From Verif Require Import ModelTail ModelCentre ModelRadii ModelMeqProf.
From Verif Require Import SpecUnits SpecFrame SpecOrder SpecRecipes SpecEnergy SpecStars SpecSubset SpecLagrange SpecProfiles SpecRadii SpecMassFunction.
From Verif Require Import ProofsUnits ProofsFrame ProofsStars ProofsEnergy2 ProofsSubset3 ProofsSubset4 ProofsLagrange ProofsLagrange2 ProofsProfiles ProofsProfiles3 ProofsProfiles4 ProofsProfiles5 ProofsProfiles6 ProofsProfiles7 ProofsMassFunction4 ProofsMassFunction6 ProofsMeqProf.
From Verif Require Import PropUnits PropSubset PropProfiles PropMassFunction.

(* meq_prof: consecutive radial bins from the nearest to the farthest star asked for; row k is the equipartition mass fitted to the stars between its two edges (both
   included) within the limits on speed, mass and type, if above -100; the cluster as before.  It raises only if the dispersions of some row cannot be fitted.
   Partial: the mask and the limits on energy and population shape the bins only, and a row with fewer than 2 nmass stars is reported as 0. *)
Theorem C84_equipartition_profile_partial :
  forall (G : galpy) (fit : R -> R -> list R -> list R -> result line_fit) (q : selection) (indx : option (list bool)) (s : system) (n nrad nmass : nat) (bt : bintype) (normalize : bool),
    let c := g_c (y_k s) in let p := l_projected q in let speed (i : nat) := seen_speed p (y_k (own_system s)) i in
    profile_input G q indx s n -> (0 < nrad)%nat -> mass_spread (asked q indx s) (radius3 s) n -> (1 <= nmass)%nat -> mixed (limited q s) (mass c) n (2 * nmass) ->
    (normalize = true -> weighed G p c /\ (p = true -> c_origin c <> Some Ogalaxy)) ->
    exists lo mid hi rows, adjacent lo hi /\ (exists l, members n (asked q indx s) l /\ spans (map (radius3 s) l) lo hi) /\ (length lo <= nrad)%nat /\ length mid = length lo /\
      (forall k, (k < length lo)%nat -> nth k lo 0 < nth k hi 0 /\ nth k lo 0 <= nth k mid 0 <= nth k hi 0 /\ members n (in_shell q s (nth k lo 0) (nth k hi 0)) (nth k rows [])) /\
      match meq_prof G fit q indx nrad bt nmass normalize s with
      | Ok (r, a, g, s', caller) => length a = length lo /\ system_restored s s' /\
          (if normalize then exists h, is_fraction_radius (1/2) (own_distances p c) (p_m (c_ph c)) h /\ r = map (fun x => x / h) mid /\ gradient_of h mid (map (@Some R) a) g else r = mid) /\
          forall k, (k < length lo)%nat -> exists f, equipartition fit (mass c) speed n (nth k rows []) nmass f /\ (-100 < t_slope f -> nth k a 0 = t_slope f) /\ (t_slope f <= -100 -> nth k a 0 = 0)
      | Raise => exists k, (k < length lo)%nat /\ unfitted fit (mass c) speed n (nth k rows []) nmass
      end.
Proof.
  cbn zeta. intros G fit q indx s n nrad nmass bt normalize [[u [o HR]] [HA [HM [EK MF]]]] Hr PR H1 MX HN.
  assert (HL := aligned_measured HM).
  assert (HF : normalize = true -> exists h, half_mass (l_projected q) (profile_frame G true (g_c (y_k s))) = Some h /\
    is_fraction_radius (1/2) (own_distances (l_projected q) (g_c (y_k s))) (p_m (c_ph (g_c (y_k s)))) h).
  { intros E. destruct (HN E) as [[HP [HW [Hm Hs]]] Hp]. exact (frame_half HR HP HL HW Hp Hm Hs). }
  destruct (@meq_prof_rows G fit q indx s n nrad u o HR HA HM EK MF Hr PR bt nmass normalize H1 MX) as [lo [mid [hi [rows [A1 [A2 [A3 [A4 [A5 [A6 [_ A8]]]]]]]]]]].
  { intros E. destruct (HF E) as [h [-> _]]. discriminate. }
  exists lo, mid, hi, rows. do 5 (split; [assumption|]).
  destruct (meq_prof G fit q indx nrad bt nmass normalize s) as [[[[[r a] g] s'] caller]|]; [|exact A8].
  destruct A8 as [B1 [B2 [B3 [B4 B5]]]]. split; [exact B1|]. split; [exact B5|]. split.
  - destruct normalize; cbn in B2; [|exact B2]. destruct B2 as [x [Ex Er]]. destruct (HF eq_refl) as [h [D1 D2]].
    rewrite D1 in Ex. injection Ex as Ex. exists h. split; [exact D2|]. split; [now rewrite Ex|]. rewrite B4 D1. apply gradient_ok. rewrite map_length. congruence.
  - intros k Hk. destruct (B3 k Hk) as [f [E K]]. exists f. split; [exact E|]. exact (kept_mass_ok K).
Qed.
Print Assumptions C84_equipartition_profile_partial.

(* finding: a row with too few stars to fit is reported as an equipartition mass of zero *)
Theorem C84_few_stars_refuted :
  forall (G : galpy) (fit : R -> R -> list R -> list R -> result line_fit) (q : selection) (indx : option (list bool)) (s : system) (n nrad nmass : nat) (bt : bintype),
    profile_input G q indx s n -> (0 < nrad)%nat -> mass_spread (asked q indx s) (radius3 s) n -> (n < 2 * nmass)%nat ->
    exists r a g s' caller, meq_prof G fit q indx nrad bt nmass false s = Ok (r, a, g, s', caller) /\ a <> [] /\ Forall (fun x => x = 0) a.
Proof.
  intros G fit q indx s n nrad nmass bt [[u [o HR]] [HA [HM [EK MF]]]] Hr PR Hn.
  assert (MX : mixed (limited q s) (mass (g_c (y_k s))) n (2 * nmass)).
  { intros l N I H. exfalso. assert (X : (length l <= length (seq 0 n))%nat); [|rewrite seq_length in X; lia]. apply NoDup_incl_length; [exact N|]. intros i Hi. apply in_seq. destruct (I i Hi). lia. }
  destruct (@meq_prof_rows G fit q indx s n nrad u o HR HA HM EK MF Hr PR bt nmass false ltac:(lia) MX ltac:(discriminate)) as [lo [mid [hi [rows [A1 [_ [_ [_ [_ [A6 [_ A8]]]]]]]]]]].
  assert (SH : forall k, (k < length lo)%nat -> (length (nth k rows []) < 2 * nmass)%nat).
  { intros k Hk. destruct (A6 k Hk) as [_ [_ [N I]]]. assert (X : (length (nth k rows []) <= length (seq 0 n))%nat); [|rewrite seq_length in X; lia]. apply NoDup_incl_length; [exact N|].
    intros i Hi. apply in_seq. apply I in Hi. lia. }
  destruct (meq_prof G fit q indx nrad bt nmass false s) as [[[[[r a] g] s'] caller]|].
  - destruct A8 as [B1 [_ [B3 _]]]. exists r, a, g, s', caller. split; [reflexivity|]. split.
    + intros X. rewrite X in B1. destruct A1 as [_ [N _]]. destruct lo; [now apply N|discriminate].
    + apply Forall_forall. intros x Hx. destruct (In_nth _ _ 0 Hx) as [k [Hk <-]]. rewrite B1 in Hk. destruct (B3 k Hk) as [f [[E _] K]]. rewrite (E (SH k Hk)) in K.
      rewrite <- K. unfold kept_mass. cbn [t_slope]. assert (X : Rltb (-100) (-1000) = false) by (apply Rltb_false; lra). now rewrite X.
  - exfalso. destruct A8 as [k [Hk [H _]]]. specialize (SH k Hk). lia.
Qed.
Print Assumptions C84_few_stars_refuted.

(* finding: with bins of equal numbers every inner edge is the distance of a star, which is used in two rows *)
Theorem C84_shared_stars_refuted :
  forall (G : galpy) (fit : R -> R -> list R -> list R -> result line_fit) (q : selection) (indx : option (list bool)) (s : system) (n nrad nmass : nat),
    profile_input G q indx s n -> (0 < nrad)%nat -> mass_spread (asked q indx s) (radius3 s) n -> (1 <= nmass)%nat -> mixed (limited q s) (mass (g_c (y_k s))) n (2 * nmass) -> l_projected q = false ->
    exists lo hi rows, adjacent lo hi /\ (forall k, (S k < length lo)%nat -> exists i, In i (nth k rows []) /\ In i (nth (S k) rows [])) /\
      match meq_prof G fit q indx nrad Num nmass false s with
      | Ok (r, a, g, s', caller) => length a = length lo /\ forall k, (k < length lo)%nat -> exists f,
          equipartition fit (mass (g_c (y_k s))) (fun i => seen_speed false (y_k (own_system s)) i) n (nth k rows []) nmass f /\ (-100 < t_slope f -> nth k a 0 = t_slope f)
      | Raise => exists k, (k < length lo)%nat /\ unfitted fit (mass (g_c (y_k s))) (fun i => seen_speed false (y_k (own_system s)) i) n (nth k rows []) nmass
      end.
Proof.
  intros G fit q indx s n nrad nmass [[u [o HR]] [HA [HM [EK MF]]]] Hr PR H1 MX Ep.
  destruct (@meq_prof_rows G fit q indx s n nrad u o HR HA HM EK MF Hr PR Num nmass false H1 MX ltac:(discriminate)) as [lo [mid [hi [rows [A1 [_ [_ [_ [_ [A6 [A7 A8]]]]]]]]]]].
  exists lo, hi, rows. split; [exact A1|]. split.
  - intros k Hk. destruct (A7 eq_refl (S k) Hk) as [i [Hi [[_ Ai] Ri]]]. exists i.
    assert (LM : limited q s i) by (destruct Ai as [_ [B1 [B2 [_ [_ B3]]]]]; split; [exact B1|]; split; [exact B2|exact B3]).
    assert (Er : radius_of q s i = radius3 s i) by (unfold radius_of, radius3; now rewrite Ep).
    destruct (A6 k ltac:(lia)) as [W1 [_ M1]]. destruct (A6 (S k) Hk) as [W2 [_ M2]]. destruct A1 as [_ [_ [_ Ad]]]. specialize (Ad k Hk).
    split; [apply M1|apply M2]; split; try exact Hi; split; try exact LM; rewrite Er Ri; lra.
  - rewrite Ep in A8. destruct (meq_prof G fit q indx nrad Num nmass false s) as [[[[[r a] g] s'] caller]|]; [|exact A8].
    destruct A8 as [B1 [_ [B3 _]]]. split; [exact B1|]. intros k Hk. destruct (B3 k Hk) as [f [E K]]. exists f. split; [exact E|]. exact (proj1 (kept_mass_ok K)).
Qed.
Print Assumptions C84_shared_stars_refuted.

(* the hypotheses are met: the five stars of PropProfiles *)
Example C84_hypotheses_met : let s := prof_system Ocluster 0 in let c := g_c (y_k s) in
  profile_input demo_galpy select_default None s 5 /\ mass_spread (asked select_default None s) (radius3 s) 5 /\ mixed (limited select_default s) (mass c) 5 (2 * 2) /\ weighed demo_galpy false c /\
  (5 < 2 * 3)%nat /\ l_projected select_default = false.
Proof.
  cbv zeta. destruct C39_hypotheses_met as [[PI [_ [_ [_ [_ [MX [MS [HW _]]]]]]]] _]. split; [exact PI|]. split; [exact MS|]. split; [exact MX|]. split; [exact HW|]. split; [lia|reflexivity].
Qed.
