(* Proofs: sessions with surveys. *)
From Verif Require Import Base ModelCluster ModelOps ModelConv ModelEnergy ModelRecipes ModelStars ModelSubset ModelCoords ModelLagrange ModelProfiles ModelMassFunction ModelDynamics.
From Verif Require Import ModelOrbit ModelTail ModelCentre ModelRadii ModelMeqProf ModelHistory ModelSurvey.
From Verif Require Import SpecUnits SpecFrame SpecEnergy SpecHistory SpecSurvey ProofsUnits ProofsFrame ProofsSees ProofsEnergy2 ProofsRadii9 ProofsHistory ProofsHistory2 ProofsHistory3 ProofsSurvey ProofsSurvey2.
Set Implicit Arguments. Unset Strict Implicit.
Open Scope list_scope. Open Scope R_scope.

Section WithGalpy.
Variable G : galpy.
Definition usable (s : system) := (exists u o, ready G (g_c (y_k s)) u o) /\ analyze true true (g_c (y_k s)) = g_c (y_k s).
Lemma usable_kept s s' : kept s s' -> usable s -> usable s'.
Proof. move=> [_ K] [[u [o H]] A]. split; [exists u, o; exact (same_ready K H)|exact (restored_settled K A)]. Qed.
Lemma kept_trans a b c : kept a b -> kept b c -> kept a c.
Proof. move=> /kept_barel A /kept_barel B. apply kept_barel. by rewrite A. Qed.
Lemma kept_sym a b : kept a b -> kept b a.
Proof. move=> /kept_barel A. by apply kept_barel. Qed.
Lemma kept_fields s s' : kept s s' -> restored (g_c (y_k s)) (g_c (y_k s')). Proof. by case. Qed.
Lemma kept_change s s' c d : kept s s' -> restored c d -> kept (sys_with s c) (sys_with s' d).
Proof. move=> [-> _] H. exact (@kept_with (sys_with s c) d H). Qed.
Lemma standing_nil s : standing G [] s = s. Proof. exact (with_self s). Qed.
Lemma standing_cons x l s : standing G (x :: l) s = standing G l (standing G [x] s).
Proof. by destruct x. Qed.
Lemma standing_kept l s s' : kept s s' -> kept (standing G l s) (standing G l s').
Proof.
  elim: l s s' => [|x l IH] s s' K; [by rewrite !standing_nil|]. rewrite (standing_cons x l s) (standing_cons x l s'). apply IH.
  rewrite /standing. apply kept_change => //. have K1 := kept_fields K. destruct x; cbn [changes run fold_left] => //; exact (run1_same G _ K1).
Qed.
Lemma standing_usable x s : manageable x -> usable s -> usable (standing G [x] s).
Proof.
  move=> M [[u [o H]] A]. destruct x as [w|w|a|a q k].
  - exact (@run1_good G (OpUnits w) _ u o H A M (fun o' s' E => ltac:(discriminate E))).
  - exact (@run1_good G (OpOrigin w true) _ u o H A M (fun o' s' E => ltac:(by injection E))).
  - split; [by exists u, o|exact A].
  - split; [by exists u, o|exact A].
Qed.
(* one step on the catalogue as the session left it, and on the catalogue after the changes alone *)
Lemma step_same x s s' e : manageable x -> usable s -> kept s s' ->
  match do_act G x s e, do_act G x s' e with
  | Ok (f, t, e1), Ok (f', t', e1') => f = f' /\ e1 = e1' /\ kept (standing G [x] s) t'
  | Raise, Raise => True
  | _, _ => False
  end.
Proof.
  move=> M U K. have U' := usable_kept K U. have [[u' [o' H']] A'] := U'. have K0 := kept_fields K.
  have K1 : kept (standing G [x] s) (standing G [x] s') by apply standing_kept.
  destruct x as [w|w|a|a q [k|]]; cbn [do_act].
  - split; [by []|]. split; [by []|exact K1].
  - split; [by []|]. split; [by []|exact K1].
  - have Q := measure_same G a K0. have P := fun y d => @measure_restores G a _ _ _ y d H' A'. rewrite /alone in Q.
    destruct (measure G a (g_c (y_k s))) as [[y c]|], (measure G a (g_c (y_k s'))) as [[y' c']|] => //. cbn [bind fst snd] in Q |- *.
    injection Q as ->. split; [by []|]. split; [by []|]. exact (kept_trans K1 (@kept_with (standing G [Simple a] s') c' (P _ _ eq_refl))).
  - have Q := survey_same G a q (Some (e k)) K. have P := fun f t j => @survey_kept G a q (Some (e k)) s' _ _ f t j H' A'.
    destruct (look G a q (Some (e k)) s) as [[[f t] j]|], (look G a q (Some (e k)) s') as [[[f' t'] j']|] => //. cbn [bind]. destruct Q as [-> [-> _]].
    split; [by []|]. split; [by []|]. have P1 := P _ _ _ eq_refl. apply (kept_trans K1). rewrite /standing. cbn [changes run fold_left]. by rewrite with_self.
  - have Q := survey_same G a q None K. have P := fun f t j => @survey_kept G a q None s' _ _ f t j H' A'.
    destruct (look G a q None s) as [[[f t] j]|], (look G a q None s') as [[[f' t'] j']|] => //. cbn [bind]. destruct Q as [-> [-> _]].
    split; [by []|]. split; [by []|]. have P1 := P _ _ _ eq_refl. apply (kept_trans K1). rewrite /standing. cbn [changes run fold_left]. by rewrite with_self.
Qed.
Lemma work_gen l : forall s s' e, Forall manageable l -> usable s -> kept s s' ->
  match work G l s' e with
  | Ok (fs, t, e') => kept (standing G l s) t /\ e' = narrowed G l s e /\ length fs = length l /\
      forall i, (i < length l)%nat -> by_itself G (nth i l (Simple Tail)) (standing G (firstn i l) s) (narrowed G (firstn i l) s e) = Ok (nth i fs None)
  | Raise => exists i, (i < length l)%nat /\ by_itself G (nth i l (Simple Tail)) (standing G (firstn i l) s) (narrowed G (firstn i l) s e) = Raise
  end.
Proof.
  induction l as [|x l IH] => s s' e HF U K.
  - cbn [work]. split; [by rewrite standing_nil|]. split; [by []|]. split; [by []|]. cbn. lia.
  - inversion HF as [|? ? M1 M2]; subst. have Q := @step_same x s s' e M1 U K. cbn [work].
    have B : by_itself G x s e = match do_act G x s e with Ok y => Ok (fst (fst y)) | Raise => Raise end by [].
    have L : leaves G x s e = match do_act G x s e with Ok y => snd y | Raise => e end by [].
    destruct (do_act G x s e) as [[[f t] e1]|], (do_act G x s' e) as [[[f' t'] e1']|] => //; cbn [bind fst snd] in Q, B, L |- *.
    + destruct Q as [<- [<- K1]]. have H := IH _ _ e1 M2 (standing_usable M1 U) K1. destruct (work G l t' e1) as [[[fs t2] e2]|]; cbn [bind].
      * destruct H as [H1 [H2 [H3 H4]]]. split; [by rewrite standing_cons|]. split; [cbn [narrowed]; by rewrite L|]. split; [cbn [length]; by rewrite H3|].
        move=> [|i] Hi; cbn [nth firstn narrowed]; [by rewrite standing_nil|]. rewrite standing_cons L. apply H4. cbn [length] in Hi. lia.
      * destruct H as [i [Hi H]]. exists (S i). split; [cbn [length]; lia|]. cbn [nth firstn narrowed]. by rewrite standing_cons L.
    + exists 0%nat. split; [cbn [length]; lia|]. cbn [nth firstn narrowed]. by rewrite standing_nil.
Qed.

(* masks *)
Lemma leaves_other x s e k : ~ In k (named [x]) -> leaves G x s e k = e k.
Proof.
  move=> N. rewrite /leaves. destruct x as [w|w|a|a q [j|]]; cbn [do_act].
  - by [].
  - by [].
  - by destruct (measure _ _ _).
  - destruct (look _ _ _ _ _) as [[[f t] i]|] => //. cbn [bind snd]. rewrite /write. destruct (Nat.eqb_spec k j) as [E|] => //. exfalso. apply N. subst. by left.
  - by destruct (look _ _ _ _ _) as [[[f t] i]|].
Qed.
Lemma named_cons x l : named (x :: l) = named [x] ++ named l. Proof. by destruct x as [w|w|a|a q [j|]]. Qed.
Lemma narrowed_other l : forall s e k, ~ In k (named l) -> narrowed G l s e k = e k.
Proof.
  induction l as [|x l IH] => s e k N; [by []|]. cbn [narrowed]. rewrite named_cons in_app_iff in N. rewrite IH; [tauto|]. apply leaves_other. tauto.
Qed.
Lemma leaves_narrower x s e k : narrower (leaves G x s e k) (e k).
Proof.
  rewrite /leaves. have N := narrower_refl (e k). destruct x as [w|w|a|a q [j|]]; cbn [do_act] => //.
  - by destruct (measure _ _ _).
  - have L := @look_subset G a q (Some (e j)) s. destruct (look _ _ _ _ _) as [[[f t] i]|] => //. cbn [bind snd]. rewrite /write. destruct (Nat.eqb_spec k j) as [->|] => //.
    have [d [y W]] := L _ _ _ eq_refl. have [l' [-> Q]] := subset_narrower W. exact Q.
  - by destruct (look _ _ _ _ _) as [[[f t] i]|].
Qed.
Lemma narrowed_narrower l : forall s e k, narrower (narrowed G l s e k) (e k).
Proof.
  induction l as [|x l IH] => s e k; [exact (narrower_refl _)|]. cbn [narrowed]. exact (narrower_trans (IH _ _ _) (leaves_narrower _ _ _ _)).
Qed.
(* a step looks only at the mask it names *)
Lemma by_itself_mask x s e e' : (forall k, In k (named [x]) -> e k = e' k) -> by_itself G x s e = by_itself G x s e'.
Proof.
  move=> H. rewrite /by_itself. destruct x as [w|w|a|a q [j|]]; cbn [do_act] => //.
  - by destruct (measure _ _ _).
  - rewrite (H j); [by left|]. by destruct (look _ _ _ _ _) as [[[f t] i]|].
  - by destruct (look _ _ _ _ _) as [[[f t] i]|].
Qed.
Lemma named_app l m : named (l ++ m) = named l ++ named m.
Proof. elim: l => [|x l IH] //. change ((x :: l) ++ m) with (x :: (l ++ m)). rewrite (named_cons x l) (named_cons x (l ++ m)) IH. by rewrite app_assoc. Qed.
Lemma apart l i k : NoDup (named l) -> (i < length l)%nat -> In k (named [nth i l (Simple Tail)]) -> ~ In k (named (firstn i l)).
Proof.
  move=> N Hi Q X. have E : l = firstn i l ++ nth i l (Simple Tail) :: skipn (S i) l.
  { rewrite -{1}(firstn_skipn i l). f_equal. clear -Hi. elim: l i Hi => [|a l IH] [|i] /= Hi; [lia|lia|by []|]. apply IH. lia. }
  rewrite E named_app (named_cons (nth i l (Simple Tail))) in N. move: N Q X. move: (named (firstn i l)) (named [nth i l (Simple Tail)]) (named (skipn (S i) l)) => a b c N Q X.
  clear -N Q X. elim: a N X => [|y a IH] N X; [by []|]. inversion N; subst. destruct X as [->|X]; [|by apply IH]. apply H1. rewrite !in_app_iff. tauto.
Qed.
End WithGalpy.
