(* Proofs: histories of calls. *)
From Coq Require Import String Ascii.
From Verif Require Import Base ModelCluster ModelOps ModelConv ModelEnergy ModelRecipes ModelLagrange ModelProfiles ModelDynamics ModelStars ModelOrbit ModelSkyPath ModelKept.
From Verif Require Import SpecUnits SpecFrame SpecOrder SpecRecipes SpecEnergy SpecLagrange SpecProfiles SpecDynamics SpecKept.
From Verif Require Import ProofsUnits ProofsFrame ProofsOrder ProofsSort ProofsSees ProofsEnergy ProofsEnergy2 ProofsRecipes ProofsRecipes2 ProofsLagrange ProofsVR ProofsDynamics4 ProofsRadii9 ProofsKept.
Set Implicit Arguments. Unset Strict Implicit.
Open Scope list_scope. Open Scope R_scope.

Lemma units_snoc u l a : units_after u (l ++ [a]) = match a with Units v => v | _ => units_after u l end.
Proof. by rewrite /units_after fold_left_app. Qed.
Lemma last_snoc kind u l a x v : last_call kind u (l ++ [a]) x v ->
  (kind a = true /\ x = a /\ v = units_after u l) \/ (kind a = false /\ last_call kind u l x v).
Proof.
  move=> [l1 [l2 [E [K [H ->]]]]]. destruct l2 as [|y l2] using rev_ind.
  - apply app_inj_tail in E. destruct E as [-> ->]. by left.
  - clear IHl2. rewrite app_comm_cons app_assoc in E. apply app_inj_tail in E. destruct E as [-> ->]. right.
    split; [apply H; rewrite in_app_iff; right; by left|]. exists l1, l2. split; [by []|]. split; [by []|]. split; [|by []]. move=> b I. apply H. rewrite in_app_iff. by left.
Qed.
Lemma none_snoc kind l a : no_call kind (l ++ [a]) -> kind a = false /\ no_call kind l.
Proof. move=> H. split; [apply H; rewrite in_app_iff; right; by left|]. move=> b I. apply H. rewrite in_app_iff. by left. Qed.
Section WithGalpy.
Variable G : galpy.
Lemma calls_snoc l a h : do_calls G (l ++ [a]) h = bind (do_calls G l h) (do_call G a).
Proof. elim: l h => [|x l IH] h /=; [by destruct (do_call G a h)|]. by destruct (do_call G x h) => /=. Qed.

Variables (c : cluster) (u : usys) (o : osys) (b dflt : bool).
Hypothesis HR : ready G c u o.
Hypothesis HP : positive_scales G (c_sc c).
Hypothesis HL : SpecFrame.aligned c.
Hypothesis HW : well_sorted b c.
Hypothesis HB : b = true -> c_origin c <> Some Ogalaxy.
Hypothesis HM : forall k, (k < nstars c)%nat -> 0 < mass c k.
Hypothesis HN : (0 < nstars c)%nat.
Let z (v : usys) : usize := unit_size G (c_sc c) v.
Definition rn_ok (l : list call) (h : holder) : Prop :=
  (no_call is_lagrange l -> h_rn h = None) /\
  forall n p v, last_call is_lagrange u l (Rlagrange n p) v -> exists rn, h_rn h = Some rn /\
    lagrange_table n (map (pc_distance G (flag_of dflt p) c) (stars c)) (map (sun_mass G c) (stars c)) (map (fun a => a * in_pc (z v)) rn).
Definition trh_ok (l : list call) (h : holder) : Prop :=
  (no_call is_relaxation l -> h_trh h = None) /\
  forall k p v, last_call is_relaxation u l (Relaxation k p) v -> exists t r, h_trh h = Some (Some t) /\
    is_fraction_radius (1/2) (map (pc_distance G (flag_of dflt p) c) (stars c)) (map (sun_mass G c) (stars c)) r /\
    t * in_Myr (z v) = spitzer_half_mass k (INR (nstars c)) (total_mass G c) r.
Definition rv_ok (l : list call) (h : holder) : Prop :=
  (no_call is_virial l -> h_rv h = None) /\
  forall m full p v ps, last_call is_virial u l (Virial m full p) v -> pair_set (nstars c) ps -> exists rv, h_rv h = Some rv /\
    rv * in_pc (z v) = sumR (p_m (c_ph c)) ^ 2 / (2 * inverse_distance (bodies_seen (flag_of dflt p) c) ps) * in_pc (z u).
Theorem calls_ok ps0 l : pair_set (nstars c) ps0 -> Forall (proper b dflt (nstars c)) l ->
  exists h, do_calls G l (holding c dflt) = Ok h /\ h_projected h = dflt /\ fit G c u o b (h_c h) (units_after u l) /\ rn_ok l h /\ trh_ok l h /\ rv_ok l h.
Proof.
  move=> HPS. induction l as [|a l IH] using rev_ind => HF.
  - exists (holding c dflt). split; [reflexivity|]. split; [reflexivity|]. split; [exact (fit_start HR HW)|].
    have N : forall k a v, last_call k u [] a v -> False by move=> k a v [l1 [l2 [E _]]]; destruct l1.
    split; [|split]; (split; [by []|]); [move=> n p v|move=> k p v|move=> m full p v ps] => /N [].
  - apply Forall_app in HF. destruct HF as [HF HA]. inversion HA as [|? ? PA _]; subst. have [h [E [D [F [I1 [I2 I3]]]]]] := IH HF.
    rewrite calls_snoc E. cbn [bind].
    have K1 : forall h', is_lagrange a = false -> h_rn h' = h_rn h -> rn_ok (l ++ [a]) h'.
    { move=> h' K Q. split; [move=> /none_snoc [_ X]; rewrite Q; by apply I1|]. move=> n p v /last_snoc [[X _]|[_ X]]; [by rewrite K in X|]. rewrite Q. exact (proj2 I1 _ _ _ X). }
    have K2 : forall h', is_relaxation a = false -> h_trh h' = h_trh h -> trh_ok (l ++ [a]) h'.
    { move=> h' K Q. split; [move=> /none_snoc [_ X]; rewrite Q; by apply I2|]. move=> n p v /last_snoc [[X _]|[_ X]]; [by rewrite K in X|]. rewrite Q. exact (proj2 I2 _ _ _ X). }
    have K3 : forall h', is_virial a = false -> h_rv h' = h_rv h -> rv_ok (l ++ [a]) h'.
    { move=> h' K Q. split; [move=> /none_snoc [_ X]; rewrite Q; by apply I3|]. move=> m n p v ps /last_snoc [[X _]|[_ X]]; [by rewrite K in X|]. rewrite Q. exact (proj2 I3 _ _ _ _ _ X). }
    destruct a as [n p|k p|m full p|w]; cbn [proper] in PA; cbn [do_call].
    + destruct PA as [Hn Hq]. have [rn [d' [A1 [A2 A3]]]] := fit_lagrange HR HP HL HW HB HM HN F Hn Hq.
      have -> : opt p (h_projected h) = flag_of dflt p by rewrite D; destruct p. rewrite A1. cbn [bind fst snd].
      eexists. split; [reflexivity|]. cbn [h_projected h_c h_rn h_trh h_rv]. split; [exact D|]. split; [rewrite units_snoc; exact (fit_restored F A2)|].
      split; [|split; [by apply K2|by apply K3]]. split; [move=> /none_snoc [X _]; discriminate X|].
      move=> n' p' v /last_snoc [[_ [X ->]]|[X _]]; [|discriminate X]. injection X as -> ->. exists rn. by split.
    + destruct PA as [Hk Hq]. have [r [t [d' [A1 [A2 [A3 A4]]]]]] := fit_relaxation HR HP HL HW HB HM HN F Hk Hq.
      have -> : opt p (h_projected h) = flag_of dflt p by rewrite D; destruct p. rewrite A1. cbn [bind fst snd].
      eexists. split; [reflexivity|]. cbn [h_projected h_c h_rn h_trh h_rv]. split; [exact D|]. split; [rewrite units_snoc; exact (fit_restored F A2)|].
      split; [by apply K1|]. split; [|by apply K3]. split; [move=> /none_snoc [X _]; discriminate X|].
      move=> n' p' v /last_snoc [[_ [X ->]]|[X _]]; [|discriminate X]. injection X as -> ->. exists t, r. by split.
    + destruct PA as [-> Hq]. have [rv0 [d0 [A1 [A2 _]]]] := @fit_virial G c u o b HR HP HL HW HM _ _ full (flag_of dflt p) _ F HPS.
      have -> : opt p (h_projected h) = flag_of dflt p by rewrite D; destruct p. rewrite /virial_dispatch A1. cbn [String.eqb Ascii.eqb Bool.eqb bind fst snd].
      eexists. split; [reflexivity|]. cbn [h_projected h_c h_rn h_trh h_rv]. split; [exact D|]. split; [rewrite units_snoc; exact (fit_restored F A2)|].
      split; [by apply K1|]. split; [by apply K2|]. split; [move=> /none_snoc [X _]; discriminate X|].
      move=> m' f' p' v ps /last_snoc [[_ [X ->]]|[X _]]; [|discriminate X]. injection X as -> -> ->. move=> HPS'. exists rv0. split; [reflexivity|].
      have [rv1 [d1 [B1 [_ B3]]]] := @fit_virial G c u o b HR HP HL HW HM _ _ full (flag_of dflt p) _ F HPS'. rewrite A1 in B1. have -> : rv0 = rv1 by congruence. exact B3.
    + eexists. split; [reflexivity|]. cbn [h_projected h_c h_rn h_trh h_rv]. split; [exact D|]. split; [rewrite units_snoc; exact (fit_units HR HP HL HB F PA)|].
      split; [by apply K1|]. split; [by apply K2|by apply K3].
Qed.
End WithGalpy.
