(* Proofs: the tidal radius. *)
From Verif Require Import Base ModelCluster ModelOps ModelConv ModelEnergy ModelRecipes ModelLagrange ModelDynamics.
From Verif Require Import SpecUnits SpecFrame SpecOrder SpecRecipes SpecEnergy SpecLagrange SpecSubset SpecProfiles SpecDynamics.
From Verif Require Import ProofsUnits ProofsConv ProofsFrame ProofsSort ProofsSees ProofsEnergy ProofsEnergyUnits ProofsRecipes ProofsRecipes2 ProofsLagrange ProofsSubset2 ProofsProfiles ProofsProfiles5 ProofsDynamics.
Set Implicit Arguments. Unset Strict Implicit.

(* ---------------------------------------------------------------- the iteration *)
Section Loop.
Variables (tide : R -> R) (conv : R) (r m : list R).
Hypothesis L : length r = length m.
Hypothesis NN : nonneg m.
Hypothesis T0 : tide 0 = 0.
Hypothesis TM : forall a b, 0 <= a <= b -> tide a <= tide b.

Definition cut (msk : list bool) (d : R) : list bool := zip_with andb msk (map (fun a => Rltb a d) r).
Definition inside (msk : list bool) (d : R) : R := sumR (select (cut msk d) m).

Lemma cut_length msk d : length msk = length m -> length (cut msk d) = length m.
Proof. move=> H. by rewrite /cut zip_with_length map_length H L Nat.min_id. Qed.
Lemma cut_nth msk d i : length msk = length m -> (i < length m)%nat -> nth i (cut msk d) false = nth i msk false && Rltb (nth i r 0) d.
Proof.
  move=> H Hi. rewrite /cut (@nth_zip_with _ _ _ andb msk _ i false false false) ?map_length ?H ?L //.
  by rewrite (@nth_map' _ _ _ r i false 0) // L.
Qed.
Lemma mask_ext (a b : list bool) : length a = length m -> length b = length m ->
  (forall i, (i < length m)%nat -> nth i a false = nth i b false) -> a = b.
Proof. move=> A B H. apply (nth_ext _ _ false false); [congruence|]. by rewrite A. Qed.
Lemma cut_cut msk d e : length msk = length m -> e <= d -> cut (cut msk d) e = cut msk e.
Proof.
  move=> H E. apply mask_ext; [by rewrite !cut_length|by rewrite cut_length|]. move=> i Hi.
  rewrite cut_nth ?cut_length // !cut_nth //. destruct (nth i msk false) => //=.
  destruct (Rltb (nth i r 0) e) eqn:Q; [|by rewrite andb_false_r].
  move/Rltb_spec: Q => Q. have -> : Rltb (nth i r 0) d = true by apply Rltb_spec; lra. done.
Qed.
Lemma select_nonneg msk : 0 <= sumR (select msk m).
Proof.
  clear L T0 TM. revert msk. induction m as [|a l IH]; move=> [|b k] /=; try lra.
  have Na : 0 <= a by apply NN; left. have IH' := IH (fun x H => NN (or_intror H)) k. destruct b => /=; lra.
Qed.
Lemma cut_mass msk d : 0 <= inside msk d <= sumR (select msk m).
Proof.
  split; [exact: select_nonneg|]. rewrite /inside /cut. clear T0 TM. revert msk L NN. generalize r.
  induction m as [|a l IH]; move=> [|b k] [|q t] //= LL N; try lra; try (destruct q; cbn; lra).
  have Na : 0 <= a by apply N; left. have IH' := IH k t ltac:(lia) (fun x H => N x (or_intror H)).
  destruct q; cbn; [|exact IH']. destruct (Rltb b d); cbn; lra.
Qed.
Lemma inside_zero msk : nonneg r -> inside msk 0 = 0.
Proof.
  move=> H. rewrite /inside /cut. clear NN T0 TM. revert msk L H. generalize r.
  induction m as [|a l IH]; move=> [|b k] [|q t] //= LL N.
  have -> : Rltb b 0 = false by apply Rltb_false, N; left. rewrite andb_false_r. apply IH; [lia|]. by move=> x I; apply N; right.
Qed.

Lemma tide_loop_ok n : forall msk rt, length msk = length m -> rt = tide (sumR (select msk m)) ->
  exists (k : nat) (t : nat -> R), (k <= n)%nat /\ t 0%nat = rt /\
    (forall j, (j < k)%nat -> t (S j) = tide (inside msk (t j)) /\ 0 < t (S j) < conv * t j /\ t (S j) <= t j) /\
    (let '(res, msk') := tide_loop tide conv r m n msk rt in
     (res = t k /\ (k = n \/ 0 < tide (inside msk (t k)) <= t k /\ conv * t k <= tide (inside msk (t k))) \/
      res = 0 /\ (k < n)%nat /\ tide (inside msk (t k)) = 0) /\
     msk' = if Nat.eqb n 0 then msk else cut msk (t (Nat.min k (n - 1)))).
Proof.
  induction n as [|n IH]; move=> msk rt Lm E.
  - exists 0%nat, (fun _ => rt). split; [lia|]. split=> //. split; [lia|]. cbn. split=> //. left. split=> //. by left.
  - cbn [tide_loop]. rewrite -/(cut msk rt). set new := tide (sumR (select (cut msk rt) m)).
    have B := cut_mass msk rt. rewrite -/(inside msk rt) in B. have N0 : 0 <= new by rewrite -T0; apply TM; rewrite -/(inside msk rt); lra.
    have N1 : new <= rt by rewrite E; apply TM; exact B.
    destruct (Reqb new 0) eqn:Q.
    + move/Reqb_spec: Q => Q. exists 0%nat, (fun _ => rt). split; [lia|]. split=> //. split; [lia|].
      cbn. split=> //. right. split=> //. split; [lia|exact Q].
    + move/Reqb_false: Q => Q. have P : 0 < new by lra. have P' : 0 < rt by lra.
      destruct (Rleb conv (new / rt)) eqn:W.
      * move/Rleb_spec: W => W. exists 0%nat, (fun _ => rt). split; [lia|]. split=> //. split; [lia|]. cbn. split=> //.
        left. split=> //. right. split; [rewrite /inside -/new; lra|].
        rewrite /inside -/new. apply (Rmult_le_compat_r rt) in W; [|lra].
        have X : new / rt * rt = new by field; lra. by rewrite X in W.
      * move/Rleb_false: W => W.
        have W' : new < conv * rt. { apply (Rmult_lt_compat_r rt) in W; [|lra]. have X : new / rt * rt = new by field; lra. by rewrite X in W. }
        have [k [t [K [T [ST RES]]]]] := IH (cut msk rt) new (cut_length rt Lm) eq_refl.
        have LE : forall j, (j <= k)%nat -> t j <= rt.
        { induction j as [|j IHj]; [by rewrite T|]. move=> Hj. have [_ [_ ?]] := ST j ltac:(lia). have := IHj ltac:(lia). lra. }
        have IN : forall j, (j <= k)%nat -> inside (cut msk rt) (t j) = inside msk (t j).
        { move=> j Hj. by rewrite /inside cut_cut // ; apply LE. }
        exists (S k), (fun j => match j with O => rt | S i => t i end). split; [lia|]. split=> //. split.
        { move=> [|j] Hj; [by rewrite T|]. have [S1 S2] := ST j ltac:(lia). rewrite -IN //; lia. }
        destruct (tide_loop tide conv r m n (cut msk rt) new) as [res msk'].
        rewrite IN // in RES. destruct RES as [RES MS]. split.
        { destruct RES as [[R1 [R2|R2]]|[R1 [R2 R3]]]; [left; split=> //; left; lia|left; split=> //; by right|right; split=> //; split=> //; lia]. }
        rewrite MS. destruct n as [|n]; [done|]. cbn [Nat.eqb]. rewrite cut_cut //; [apply LE; lia|].
        f_equal. have -> : (S n - 1 = n)%nat by lia. have -> : (S (S n) - 1 = S n)%nat by lia. done.
Qed.
End Loop.

(* ---------------------------------------------------------------- frames *)
Section WithGalpy.
Variable G : galpy.

Lemma centred s c u o : ready G c u o -> let X := if off_centre c then to_centre s c else c in
  sees G c X /\ ready G X u (work_origin o).
Proof.
  move=> HR. have [HS [Hu [Hl [Ho Hf]]]] := HR. cbn zeta. rewrite /off_centre Ho.
  destruct o; try (by case: Hf); try (by split; [exact (sees_refl HR)|exact HR]).
  split; [exact (sees_centre s (sees_refl HR))|].
  have [K1 [K2 [K3 [K4 [K5 [K6 _]]]]]] := skel_eq_fields (to_centre_flat s Hu Hl Ho Hf).
  cbn in K1, K2, K6. rewrite /ready K1 K2 K6. by repeat split => //; apply HS.
Qed.
Lemma to_units_norms U c u : c_units c = Some u -> linear u -> In U [Ugalpy; Upckms] -> norms (to_units G (Ureq U) c).
Proof.
  move=> Hu Hl. rewrite /to_units Hu. move=> [<-|[<-|[]]].
  - rewrite /to_galpy Hu. exact: norms_analyze.
  - rewrite /to_pckms /analyze_if_units Hu. exact: norms_analyze.
Qed.
Lemma in_units c X u o U : ready G c u o -> sees G c X -> (exists u', ready G X u' (work_origin o)) -> In U [Ugalpy; Upckms] ->
  let c1 := to_units G (Ureq U) X in sees G c c1 /\ ready G c1 U (work_origin o) /\ norms c1 /\
    viewed c c1 (unit_size G (c_sc c) u) (unit_size G (c_sc c) U).
Proof.
  move=> HR HX [u' RX] I. have Hl : linear U by destruct I as [<-|[<-|[]]]; discriminate. cbn zeta.
  have [_ [R2 _]] := to_units_view RX Hl. have S1 := sees_units HX Hl.
  split=> //. split=> //. split.
  - have [_ [Hu [Hl' _]]] := RX. exact (to_units_norms Hu Hl' I).
  - exact (seen_viewed HR S1 R2 eq_refl).
Qed.
Lemma tidal_frame_ok c u o : ready G c u o -> let c1 := tidal_frame G c in
  sees G c c1 /\ ready G c1 Ugalpy (work_origin o) /\ norms c1 /\
    viewed c c1 (unit_size G (c_sc c) u) (unit_size G (c_sc c) Ugalpy).
Proof.
  move=> HR. have [HS [Hu [Hl [Ho Hf]]]] := HR. cbn zeta. rewrite /tidal_frame.
  have [c0 [E0 [S0 R0]]] : exists c0, (match c_units c with Some Uamuse => to_pckms G c | _ => c end) = c0 /\ sees G c c0 /\ exists u0, ready G c0 u0 o.
  { rewrite Hu. destruct u; try (by exists c; split; [done|split; [exact (sees_refl HR)|by eexists; exact HR]]).
    exists (to_pckms G c). split=> //. split; [exact (sees_pckms (sees_refl HR))|].
    have E : to_units G (Ureq Upckms) c = to_pckms G c by rewrite /to_units Hu.
    have [_ [R2 _]] := to_units_view HR (u' := Upckms) ltac:(discriminate). rewrite E in R2. by exists Upckms. }
  rewrite E0. have [u0 R0'] := R0. have [_ [Hu0 [Hl0 [Ho0 _]]]] := R0'.
  have Eoff : off_centre c = off_centre c0 by rewrite /off_centre Ho Ho0. rewrite Eoff.
  have [S1 R1] := centred false R0'. cbn zeta in S1, R1.
  have [_ [Hu1 _]] := R1.
  have E : forall X, c_units X = Some u0 -> to_units G (Ureq Ugalpy) X = to_galpy G X by move=> X HX; rewrite /to_units HX.
  rewrite -E //. apply (in_units HR (sees_trans S0 S1)); [by eexists; exact R1|by left].
Qed.
End WithGalpy.
