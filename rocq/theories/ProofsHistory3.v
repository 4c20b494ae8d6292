(* Proofs: sessions. *)
From Verif Require Import Base ModelCluster ModelOps ModelConv ModelEnergy ModelRecipes ModelLagrange ModelProfiles ModelDynamics ModelStars ModelOrbit ModelRadii ModelTail ModelCentre ModelHistory.
From Verif Require Import SpecUnits SpecFrame SpecEnergy SpecHistory ProofsUnits ProofsFrame ProofsFrame2 ProofsSees ProofsEnergy ProofsEnergy2 ProofsSort ProofsLagrange ProofsDynamics4 ProofsOrbit ProofsRadii9 ProofsHistory ProofsHistory2.
Set Implicit Arguments. Unset Strict Implicit.
Open Scope list_scope. Open Scope R_scope.

Section WithGalpy.
Variable G : galpy.
Lemma unamuse c u o : ready G c u o -> (match c_units c with Some Uamuse => to_pckms G c | _ => c end) = c \/ (match c_units c with Some Uamuse => to_pckms G c | _ => c end) = to_pckms G c.
Proof. move=> [_ [-> _]]. destruct u; by [left|right]. Qed.
Lemma sees_unamuse c u o : ready G c u o -> sees G c (match c_units c with Some Uamuse => to_pckms G c | _ => c end).
Proof. move=> H. destruct (unamuse H) as [-> | ->]; [exact (sees_refl H)|exact (sees_pckms (sees_refl H))]. Qed.
Lemma settled_pckms c : analyze true true c = c -> analyze true true (to_pckms G c) = to_pckms G c.
Proof. move=> A. rewrite /to_pckms /analyze_if_units. destruct (c_units c) as [u|] eqn:E; [by rewrite analyze_idem|]. by rewrite /to_pckms0 E /pckms_step E. Qed.
Lemma settled_unamuse c : analyze true true c = c -> let d := (match c_units c with Some Uamuse => to_pckms G c | _ => c end) in analyze true true d = d.
Proof. move=> A. cbv zeta. destruct (c_units c) as [[]|] => //. by apply settled_pckms. Qed.
Lemma sees_lagrange c u o : ready G c u o -> analyze true true c = c -> sees G c (lagrange_frame G c).
Proof.
  move=> H A. have S1 := sees_unamuse H. have A1 := settled_unamuse A. rewrite /lagrange_frame. cbv zeta in A1 |- *.
  move: (match c_units c with Some Uamuse => to_pckms G c | _ => c end) S1 A1 => d S1 A1. destruct (c_origin c) as [[]|]; first [by rewrite sortstars_settled|by apply sees_centre].
Qed.
Lemma sees_energy c u o : ready G c u o -> sees G c (energy_frame G c).
Proof.
  move=> H. rewrite /energy_frame. cbv zeta.
  have S1 : sees G c (if off_centre c then to_cluster false c else c) by destruct (off_centre c); [apply sees_cluster|]; exact (sees_refl H).
  move: (if off_centre c then to_cluster false c else c) S1 => d S1. destruct (c_units d) as [[]|] => //. by apply sees_pckms.
Qed.
Lemma sees_tidal c u o : ready G c u o -> sees G c (tidal_frame G c).
Proof.
  move=> H. rewrite /tidal_frame. cbv zeta. have S1 := sees_unamuse H. move: (match c_units c with Some Uamuse => to_pckms G c | _ => c end) S1 => d S1.
  have S2 : sees G c (if off_centre c then to_centre false d else d) by destruct (off_centre c) => //; apply sees_centre.
  move: (if off_centre c then to_centre false d else d) S2 => e S2. have [u1 [o1 R1]] := sees_ready S2. exact (sees_trans S2 (proj1 (ready_galpy R1))).
Qed.
Lemma sees_relax c u o : ready G c u o -> analyze true true c = c -> sees G c (relax_frame G c).
Proof.
  move=> H A. rewrite relax_frame_eq //. apply sees_pckms. destruct (off_centre c); [apply sees_centre|]; exact (sees_refl H).
Qed.
Lemma sees_virial c u o : ready G c u o -> sees G c (if off_centre c then to_centre false (match c_units c with Some Uamuse => to_pckms G c | _ => c end) else match c_units c with Some Uamuse => to_pckms G c | _ => c end).
Proof. move=> H. have S1 := sees_unamuse H. destruct (off_centre c) => //. by apply sees_centre. Qed.
Lemma sees_off c u o : ready G c u o -> sees G c (if off_centre c then to_centre false c else c).
Proof. move=> H. have S1 := sees_refl H. destruct (off_centre c) => //. by apply sees_centre. Qed.
Lemma bracket c d u o : ready G c u o -> analyze true true c = c -> sees G c d -> restored c (return_cluster G (save_cluster c) d).
Proof. move=> H A S1. exact (bracket_sees H S1 A). Qed.

Theorem measure_restores a c u o x d : ready G c u o -> analyze true true c = c -> measure G a c = Ok (x, d) -> restored c d.
Proof.
  move=> H A. destruct a; cbn [measure].
  - rewrite /rlagrange. cbv zeta. have B := bracket H A (sees_lagrange H A). move: (return_cluster G (save_cluster c) (lagrange_frame G c)) B => e B.
    destruct (lagrange_order _ _) => //. destruct (lagrange_list _ _ _ _) => //. cbn [bind fst snd] => E. by injection E as _ <-.
  - rewrite /rlagrange_frac. cbv zeta. have B := bracket H A (sees_lagrange H A). move: (return_cluster G (save_cluster c) (lagrange_frame G c)) B => e B.
    destruct (lagrange_order _ _) => //. destruct (frac_radius _ _ _ _ _) => //. cbn [bind fst snd] => E. by injection E as _ <-.
  - rewrite /half_mass_relaxation_time. cbv zeta. have B := bracket H A (sees_relax H A). move: (return_cluster G (save_cluster c) (relax_frame G c)) B => e B.
    destruct (if projected then _ else _) => //. cbn [bind fst snd] => E. by injection E as _ <-.
  - rewrite /relaxation_time. cbv zeta. have B := bracket H A (sees_relax H A). move: (return_cluster G (save_cluster c) (relax_frame G c)) B => e B.
    destruct (if projected then d_rmpro _ else _) => //. cbn [bind fst snd] => E. by injection E as _ <-.
  - rewrite /energies. cbv zeta. cbn [fst snd]. have B := bracket H A (sees_energy H). move: (return_cluster G (save_cluster c) (energy_frame G c)) B => e B E. by injection E as _ <-.
  - rewrite /energies_ids. cbv zeta. cbn [fst snd]. have B := bracket H A (sees_energy H). move: (return_cluster G (save_cluster c) (energy_frame G c)) B => e B E. by injection E as _ <-.
  - rewrite /virial_radius. cbv zeta. cbn [fst snd]. have B := bracket H A (sees_virial H). move: (return_cluster G (save_cluster c) _) B => e B E. by injection E as _ <-.
  - rewrite /virial_radius_critical_density. cbv zeta. have B := bracket H A (sees_relax H A). move: (return_cluster G (save_cluster c) (relax_frame G c)) B => e B.
    destruct (lagrange_order _ _) as [[|i l]|] => //. cbn [bind fst snd] => E. by injection E as _ <-.
  - rewrite /rtidal. cbv zeta. have B := bracket H A (sees_tidal H). move: (return_cluster G (save_cluster c) (tidal_frame G c)) B => e B.
    destruct (tidal_place _ _ _ _) as [y z]. destruct (tide_loop _ _ _ _ _ _ _) as [rt msk]. cbn [fst snd] => E. by injection E as _ <-.
  - rewrite /to_tail. cbv zeta. cbn [fst snd]. have B := bracket H A (sees_off H). move: (return_cluster G (save_cluster c) _) B => e B E. by injection E as _ <-.
  - rewrite /orbital_path /initialize_orbit. cbv zeta. have B := bracket H A (proj1 (ready_galpy H)). move: (return_cluster G (save_cluster c) _) B => e B.
    destruct nt => //. cbn [bind fst snd] => E. by injection E as _ <-.
  - rewrite /find_centre_of_density. cbv zeta. have B := bracket H A (sees_unamuse H). move: (return_cluster G (save_cluster c) _) B => e B.
    destruct (ca_method a) => //.
    + destruct (pick_rows _ _ _) => //. destruct (harfst _ _ _ _ _ _) => //. cbn [bind fst snd] => E. by injection E as _ <-.
    + destruct (casertano _ _) => //. cbn [bind fst snd] => E. by injection E as _ <-.
Qed.

(* same but for the binaries: same answer *)
Lemma measure_same a c d : restored c d -> alone G a c = alone G a d.
Proof.
  move=> /bare_restored E. rewrite /alone.
  have M : forall e, match measure G a (bare e) with Ok q => Ok (fst q) | Raise => Raise end = match measure G a e with Ok q => Ok (fst q) | Raise => Raise end.
  { move=> e. rewrite bare_measure. by destruct (measure G a e) as [[x f]|]. }
  by rewrite -(M c) -(M d) E.
Qed.
Lemma run1_same op c d : restored c d -> restored (run1 G c op) (run1 G d op).
Proof. move=> /bare_restored E. apply bare_restored. destruct op as [u|o s]; cbn [run1]; rewrite ?bare_to_units ?bare_to_origin; by rewrite E. Qed.
Lemma run1_good op c u o : ready G c u o -> analyze true true c = c -> flat_op op -> (forall o' s, op = OpOrigin o' s -> s = true) ->
  (exists u' o', ready G (run1 G c op) u' o') /\ analyze true true (run1 G c op) = run1 G c op.
Proof.
  move=> H A F Hs. split.
  - have S1 : sees G c (run1 G c op) by destruct op; [apply sees_units|apply sees_origin] => //; exact (sees_refl H).
    exact (sees_ready S1).
  - have [HS [Hu [Hl [Ho Hf]]]] := H. destruct op as [w|w s]; cbn [run1].
    + destruct (to_units_full_eq HS Hu Hl F) as [-> | ->] => //. by rewrite analyze_idem.
    + rewrite (Hs w s eq_refl) /to_origin Ho. by rewrite analyze_idem.
Qed.
Lemma same_ready c d u o : restored c d -> ready G c u o -> ready G d u o.
Proof. move=> [_ [U [O [_ [Sc _]]]]] H. by rewrite /ready Sc U O. Qed.

Lemma session_gen l : Forall plain l -> forall c d u o, ready G c u o -> analyze true true c = c -> restored c d ->
  match session G l d with
  | Ok (ans, d') => restored (run G (moves l) c) d' /\ List.length ans = measured l /\ forall before a after, l = before ++ Measure a :: after -> alone G a (run G (moves before) c) = Ok (nth (measured before) ans (Aone 0))
  | Raise => exists before a after, l = before ++ Measure a :: after /\ alone G a (run G (moves before) c) = Raise
  end.
Proof.
  induction l as [|x l IH] => HF c d u o HR HA HS.
  - cbn. split => //. split => //. move=> [|? ?] ? ? ? //.
  - inversion HF as [|? ? P1 P2]; subst. destruct x as [w|w|a]; cbn [session moves].
    + have [[u' [o' R1]] A1] := run1_good (op := OpUnits w) HR HA P1 (fun o' s E => ltac:(discriminate E)).
      have H := IH P2 _ _ _ _ R1 A1 (run1_same (OpUnits w) HS). cbn [run1] in H.
      destruct (session G l (to_units G (Ureq w) d)) as [[ans d']|].
      * destruct H as [H1 [H2 H3]]. split; [exact H1|]. split; [exact H2|]. move=> [|y before] a after E; [discriminate E|]. injection E as <- E. exact (H3 _ _ _ E).
      * destruct H as [before [a [after [-> H]]]]. by exists (ToUnits w :: before), a, after.
    + have [[u' [o' R1]] A1] := run1_good (op := OpOrigin w true) HR HA P1 (fun o' s E => ltac:(by injection E)).
      have H := IH P2 _ _ _ _ R1 A1 (run1_same (OpOrigin w true) HS). cbn [run1] in H.
      destruct (session G l (to_origin G (Oreq w) true d)) as [[ans d']|].
      * destruct H as [H1 [H2 H3]]. split; [exact H1|]. split; [exact H2|]. move=> [|y before] a after E; [discriminate E|]. injection E as <- E. exact (H3 _ _ _ E).
      * destruct H as [before [a [after [-> H]]]]. by exists (ToOrigin w :: before), a, after.
    + have M := measure_same a HS. have Rs := measure_restores (a := a) (same_ready HS HR) (restored_settled HS HA). rewrite /alone in M.
      destruct (measure G a d) as [[y e]|]; cbn [bind fst snd].
      * have H := IH P2 _ _ _ _ HR HA (restored_trans HS (Rs _ _ eq_refl)).
        destruct (session G l e) as [[ans d']|]; cbn [bind fst snd].
        -- destruct H as [H1 [H2 H3]]. split; [exact H1|]. split; [cbn; by rewrite H2|]. move=> [|z before] b after E.
           ++ injection E as <- _. cbn. exact M.
           ++ injection E as <- E. exact (H3 _ _ _ E).
        -- destruct H as [before [b [after [-> H]]]]. by exists (Measure a :: before), b, after.
      * exists [], a, l. split => //.
Qed.
End WithGalpy.
