(* C97: results kept by the cluster. *)
From Coq Require Import String Ascii.
From Verif Require Import Base ModelCluster ModelOps ModelConv ModelEnergy ModelRecipes ModelLagrange ModelProfiles ModelDynamics ModelStars ModelOrbit ModelSkyPath ModelKept.
From Verif Require Import SpecUnits SpecFrame SpecOrder SpecRecipes SpecEnergy SpecLagrange SpecProfiles SpecDynamics SpecKept.
From Verif Require Import ProofsUnits ProofsFrame ProofsStars ProofsEnergy ProofsLagrange ProofsDynamics4 ProofsRecipes ProofsSort ProofsKept ProofsKept2 PropUnits PropEnergy PropLagrange PropProfiles PropDynamics.
Open Scope string_scope. Open Scope list_scope. Open Scope R_scope.

(* C97: after any history of calls, interleaved with changes of units, each of rn, trh and rv is the answer to the last call of its kind in the units of
   that call (None when there was none), and the stars are those of the start in the current units *)
Theorem C97_kept :
  forall (G : galpy) (c : cluster) (u : usys) (o : osys) (b default : bool) (l : list call) (pairs : list (nat * nat)),
    ready G c u o -> positive_scales G (c_sc c) -> SpecFrame.aligned c -> well_sorted b c -> (b = true -> c_origin c <> Some Ogalaxy) ->
    (forall k, (k < nstars c)%nat -> 0 < mass c k) -> (0 < nstars c)%nat ->
    (forall q, (q = true -> b = true) -> separated (bodies_seen q c)) -> pair_set (nstars c) pairs ->
    Forall (proper b default (nstars c)) l ->
  let size v := unit_size G (c_sc c) v in
  exists h, do_calls G l (holding c default) = Ok h /\
    (ready G (h_c h) (units_after u l) o /\ c_sc (h_c h) = c_sc c /\ c_ph (h_c h) = rescale (size u) (size (units_after u l)) (c_ph c)) /\
    (no_call is_lagrange l -> h_rn h = None) /\ (no_call is_relaxation l -> h_trh h = None) /\ (no_call is_virial l -> h_rv h = None) /\
    (forall n p v, last_call is_lagrange u l (Rlagrange n p) v -> exists rn, h_rn h = Some rn /\
       lagrange_table n (map (pc_distance G (flag_of default p) c) (stars c)) (map (sun_mass G c) (stars c)) (map (fun a => a * in_pc (size v)) rn)) /\
    (forall k p v, last_call is_relaxation u l (Relaxation k p) v -> exists t r, h_trh h = Some (Some t) /\
       is_fraction_radius (1/2) (map (pc_distance G (flag_of default p) c) (stars c)) (map (sun_mass G c) (stars c)) r /\
       t * in_Myr (size v) = spitzer_half_mass k (INR (nstars c)) (total_mass G c) r) /\
    (forall m full p v, last_call is_virial u l (Virial m full p) v -> exists rv, h_rv h = Some rv /\
       rv * in_pc (size v) = sumR (p_m (c_ph c)) ^ 2 / (2 * inverse_distance (bodies_seen (flag_of default p) c) pairs) * in_pc (size u)).
Proof.
  intros G c u o b default l pairs HR HP HL HW HB HM HN HS HPS HF size.
  destruct (calls_ok HR HP HL HW HB HM HN HPS HF) as [h [E [_ [[F1 [F2 [_ F4]]] [[N1 V1] [[N2 V2] [N3 V3]]]]]]].
  exists h. split; [exact E|]. split; [split; [exact F1|split; [exact F2|exact F4]]|]. split; [exact N1|]. split; [exact N2|]. split; [exact N3|].
  split; [exact V1|]. split; [exact V2|]. intros m full p v L. exact (V3 m full p v pairs L HPS).
Qed.
Print Assumptions C97_kept.

(* finding: a change of units does not convert what is kept *)
Theorem C97_stale_refuted :
  forall (G : galpy) (c : cluster) (u : usys) (o : osys) (b default : bool) (n : nat) (p : option bool) (w : usys) (pairs : list (nat * nat)),
    ready G c u o -> positive_scales G (c_sc c) -> SpecFrame.aligned c -> well_sorted b c -> (b = true -> c_origin c <> Some Ogalaxy) ->
    (forall k, (k < nstars c)%nat -> 0 < mass c k) -> (0 < nstars c)%nat -> pair_set (nstars c) pairs ->
    proper b default (nstars c) (Rlagrange n p) -> w <> Uradec ->
    in_pc (unit_size G (c_sc c) w) <> in_pc (unit_size G (c_sc c) u) ->
    (exists i, (i < nstars c)%nat /\ pc_distance G (flag_of default p) c i <> 0) ->
  exists h rn, do_calls G [Rlagrange n p; Units w] (holding c default) = Ok h /\ c_units (h_c h) = Some w /\ h_rn h = Some rn /\
    ~ lagrange_table n (map (pc_distance G (flag_of default p) c) (stars c)) (map (sun_mass G c) (stars c))
        (map (fun a => a * in_pc (unit_size G (c_sc c) w)) rn).
Proof.
  intros G c u o b default n p w pairs HR HP HL HW HB HM HN HPS HA Hw D [i [Hi Di]].
  assert (HF : Forall (proper b default (nstars c)) [Rlagrange n p; Units w]) by (constructor; [exact HA|constructor; [exact Hw|constructor]]).
  destruct (calls_ok HR HP HL HW HB HM HN HPS HF) as [h [E [_ [[F1 _] [[_ V1] _]]]]].
  destruct (V1 n p u) as [rn [Q T]].
  { exists [], [Units w]. split; [reflexivity|]. split; [reflexivity|]. split; [|reflexivity]. intros a [<-|[]]. reflexivity. }
  exists h, rn. split; [exact E|]. split; [destruct F1 as [_ [F1 _]]; exact F1|]. split; [exact Q|]. intros T2.
  destruct HA as [Hn _].
  assert (SZ : sizes G c = unit_size G (c_sc c) u) by (destruct HR as [_ [X _]]; unfold sizes; now rewrite X).
  assert (L : length (map (pc_distance G (flag_of default p) c) (stars c)) = length (map (sun_mass G c) (stars c))) by now rewrite !map_length.
  assert (PS : forall k, (k < nstars c)%nat -> 0 < sun_mass G c k).
  { intros k Hk. unfold sun_mass. apply Rmult_lt_0_compat; [now apply HM|]. rewrite SZ. exact (positive_mass _ HP). }
  assert (NM : nonneg (map (sun_mass G c) (stars c))).
  { intros x X. apply in_map_iff in X. destruct X as [k [<- K]]. apply Rlt_le, PS. apply in_seq in K. lia. }
  assert (SM : 0 <= sumR (map (sun_mass G c) (stars c))) by now apply sumR_nonneg.
  pose proof (C37_table_is_unique _ _ _ _ _ L NM SM T T2) as U.
  destruct T as [TL [_ [[_ TG] TM]]].
  assert (Z : nth (n - 1) (map (fun a => a * in_pc (unit_size G (c_sc c) u)) rn) 0 = 0).
  { pose proof (f_equal (fun x => nth (n - 1) x 0) U) as U1. cbn beta in U1. rewrite map_length in TL.
    assert (B : (n - 1 < List.length rn)%nat) by lia. rewrite !(nth_map' _ 0 0 B) in U1. rewrite (nth_map' _ 0 0 B).
    assert (nth (n - 1) rn 0 * (in_pc (unit_size G (c_sc c) u) - in_pc (unit_size G (c_sc c) w)) = 0) as X by (rewrite Rmult_minus_distr_l U1; ring).
    apply Rmult_integral in X. destruct X as [-> | X]; [ring|]. exfalso. apply D. lra. }
  rewrite Z in TG. apply Di. apply Rle_antisym.
  - apply TG. apply in_map_iff. exists i. split; [reflexivity|]. apply in_seq. lia.
  - unfold pc_distance. apply Rmult_le_pos; [unfold own_distance; destruct (own_centre c) as [[x y] z]; apply sqrt_pos|]. rewrite SZ. apply Rlt_le. exact (positive_size _ HP).
Qed.
Print Assumptions C97_stale_refuted.

(* any method of the virial radius but the two it knows leaves no answer *)
Theorem C97_unknown_method :
  forall (G : galpy) (m : string) (full : bool) (p : option bool) (h : holder),
    m <> "inverse_distance" -> m <> "critical_density" -> do_call G (Virial m full p) h = Raise.
Proof. intros G m full p h H _. cbn [do_call]. unfold virial_dispatch. apply String.eqb_neq in H. now rewrite H. Qed.
Print Assumptions C97_unknown_method.

(* finding: the method tapered_mass_function of a cluster never answers *)
Theorem C97_tapered_refuted : forall (T : Type) (found : T), tapered_method found = Raise.
Proof. reflexivity. Qed.
Print Assumptions C97_tapered_refuted.

(* ---- the hypotheses are met by five stars and a history of seven calls in three systems of units *)
Definition kept_history : list call :=
  [Rlagrange 10 None; Units Ukpckms; Relaxation 1 (Some false); Rlagrange 4 (Some false); Units Unbody; Virial "inverse_distance" true None; Units Upckms].
Example C97_hypotheses_met : let c := five Ocluster 0 in
  ready demo_galpy c Upckms Ocluster /\ positive_scales demo_galpy (c_sc c) /\ SpecFrame.aligned c /\ well_sorted false c /\
  (forall k, (k < nstars c)%nat -> 0 < mass c k) /\ (0 < nstars c)%nat /\ (forall q, (q = true -> false = true) -> separated (bodies_seen q c)) /\
  pair_set (nstars c) [(0,1);(0,2);(0,3);(0,4);(1,2);(1,3);(1,4);(2,3);(2,4);(3,4)]%nat /\ Forall (proper false false (nstars c)) kept_history /\
  last_call is_lagrange Upckms kept_history (Rlagrange 4 (Some false)) Ukpckms /\ last_call is_relaxation Upckms kept_history (Relaxation 1 (Some false)) Ukpckms /\
  last_call is_virial Upckms kept_history (Virial "inverse_distance" true None) Unbody /\
  in_pc (unit_size demo_galpy (c_sc c) Ukpckms) <> in_pc (unit_size demo_galpy (c_sc c) Upckms) /\
  (exists i, (i < nstars c)%nat /\ pc_distance demo_galpy false c i <> 0).
Proof.
  destruct (C42_hypotheses_met Ocluster (or_introl eq_refl)) as [A1 [A2 [A3 [A4 [_ [_ [_ [_ [A8 [A9 [A10 [A11 [A12 A13]]]]]]]]]]]]].
  cbn zeta in *. cbn [oosys_eqb] in *.
  split; [exact A1|]. split; [exact A2|]. split; [exact A3|]. split; [exact A8|].
  split; [intros k Hk; apply A11; unfold mass; apply nth_In; exact Hk|]. split; [rewrite A10; lia|].
  split; [intros q _; apply five_separated|]. split; [exact A13|].
  split.
  { rewrite A10 in A9 |- *. unfold kept_history. repeat constructor; try lia; try discriminate.
    rewrite Rmult_1_l. exact A9. }
  split; [exists [Rlagrange 10 None; Units Ukpckms; Relaxation 1 (Some false)], [Units Unbody; Virial "inverse_distance" true None; Units Upckms]; split; [reflexivity|];
    split; [reflexivity|]; split; [|reflexivity]; cbn; intros a X; repeat destruct X as [<-|X]; try reflexivity; contradiction|].
  split; [exists [Rlagrange 10 None; Units Ukpckms], [Rlagrange 4 (Some false); Units Unbody; Virial "inverse_distance" true None; Units Upckms]; split; [reflexivity|];
    split; [reflexivity|]; split; [|reflexivity]; cbn; intros a X; repeat destruct X as [<-|X]; try reflexivity; contradiction|].
  split; [exists [Rlagrange 10 None; Units Ukpckms; Relaxation 1 (Some false); Rlagrange 4 (Some false); Units Unbody], [Units Upckms]; split; [reflexivity|];
    split; [reflexivity|]; split; [|reflexivity]; cbn; intros a X; repeat destruct X as [<-|X]; try reflexivity; contradiction|].
  split; [cbv [unit_size in_pc]; lra|].
  exists 0%nat. split; [rewrite A10; lia|]. unfold pc_distance. apply Rmult_integral_contrapositive_currified.
  - apply Rgt_not_eq. unfold own_distance, own_star, star_row. apply sqrt_lt_R0. rewrite five_ph. cbn. lra.
  - unfold sizes. destruct A1 as [_ [X _]]. rewrite X. cbv [unit_size in_pc]. lra.
Qed.
Print Assumptions C97_hypotheses_met.
