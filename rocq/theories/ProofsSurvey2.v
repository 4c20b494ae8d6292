(* Proofs: surveys restore the catalogue, and only narrow the masks; sessions. *)
From Verif Require Import Base ModelCluster ModelOps ModelConv ModelEnergy ModelRecipes ModelStars ModelSubset ModelCoords ModelLagrange ModelProfiles ModelMassFunction ModelDynamics.
From Verif Require Import ModelOrbit ModelTail ModelCentre ModelRadii ModelMeqProf ModelHistory ModelSurvey.
From Verif Require Import SpecUnits SpecFrame SpecEnergy SpecHistory SpecSurvey ProofsUnits ProofsFrame ProofsFrame2 ProofsSees ProofsSort ProofsEnergy ProofsEnergy2 ProofsLagrange ProofsRadii9 ProofsHistory ProofsHistory2 ProofsHistory3 ProofsSurvey.
Set Implicit Arguments. Unset Strict Implicit.
Open Scope list_scope. Open Scope R_scope.

Section WithGalpy.
Variable G : galpy.
(* a catalogue of which only the binaries of the cluster may differ *)
Definition kept (s s' : system) := s' = sys_with s (g_c (y_k s')) /\ restored (g_c (y_k s)) (g_c (y_k s')).
Lemma kept_with s c : restored (g_c (y_k s)) c -> kept s (sys_with s c). Proof. by []. Qed.
Lemma with_self s : sys_with s (g_c (y_k s)) = s. Proof. by destruct s as [[] ? ? ?]. Qed.
Lemma kept_refl s : kept s s. Proof. split; [by rewrite with_self|exact (restored_refl _)]. Qed.
Lemma kept_barel s s' : kept s s' <-> barel s = barel s'.
Proof.
  split.
  - move=> [-> /bare_restored E]. by rewrite /barel E.
  - move=> E. split.
    + destruct s as [[] ? ? ?], s' as [[] ? ? ?]. rewrite /barel /sys_with /set_cluster in E. cbn in E. injection E => *. subst. by [].
    + apply bare_restored. exact (f_equal (fun x => g_c (y_k x)) E).
Qed.
Lemma sees_unamuse2 c d : sees G c d -> sees G c (match c_units d with Some Uamuse => to_pckms G d | _ => d end).
Proof. move=> S1. have [u [o R1]] := sees_ready S1. exact (sees_trans S1 (sees_unamuse R1)). Qed.
Lemma sees_profile n c u o : ready G c u o -> analyze true true c = c -> sees G c (profile_frame G n c).
Proof.
  move=> H A. have S1 := sees_unamuse H. have A1 := settled_unamuse G A. rewrite /profile_frame. cbv zeta in A1 |- *.
  move: (match c_units c with Some Uamuse => to_pckms G c | _ => c end) S1 A1 => d S1 A1.
  destruct (c_origin c) as [[]|]; first [by destruct n => //; rewrite sortstars_settled|by apply sees_centre].
Qed.
Lemma sees_vcirc n c u o : ready G c u o -> analyze true true c = c -> sees G c (vcirc_frame G n c).
Proof.
  move=> H A. have S1 := sees_unamuse H. have A1 := settled_unamuse G A. rewrite /vcirc_frame. cbv zeta in A1 |- *.
  move: (match c_units c with Some Uamuse => to_pckms G c | _ => c end) S1 A1 => d S1 A1.
  destruct (c_origin c) as [[]|]; first [by rewrite sortstars_settled|by apply sees_centre].
Qed.
Lemma sees_mass c u o : ready G c u o -> sees G c (mass_frame G c). Proof. exact (@sees_unamuse G c u o). Qed.
Lemma sees_back c d e : sees G c d -> sees G c e -> sees G c (return_cluster G (save_cluster d) e).
Proof.
  move=> S1 S2. have [u [o [_ [Hu [Hl [Ho Hf]]]]]] := sees_ready S1. exact (@sees_return G c e (save_cluster d) u o S2 Hu Hl Ho Hf).
Qed.
Lemma sees_sphere c d l e : sees G c d -> sphere_coords G d = Ok (l, e) -> sees G c e.
Proof.
  move=> S1. rewrite /sphere_coords /with_cartesian. cbv zeta. have K := sees_back S1 (sees_unamuse2 S1).
  move: (return_cluster G (save_cluster d) _) K => f K. destruct (c_origin d) as [[]|] => // E; by injection E as _ <-.
Qed.
Lemma sees_column c d w k p r v e : sees G c d -> velocity_column G w k p d = Ok (r, v, e) -> sees G c e.
Proof.
  move=> S1. rewrite /velocity_column. cbv zeta. destruct k as [k|]; [|move=> E; by injection E as _ _ <-].
  destruct p; [destruct k => // E; by injection E as _ _ <-|]. have K := @sees_sphere c d. destruct (sphere_coords G d) as [[l f]|] => //.
  have K1 := K l f S1 eq_refl. cbn [bind]. destruct k; try destruct w => //; move=> E; by injection E as _ _ <-.
Qed.
Lemma sees_three c d p r a b v e : sees G c d -> three_velocities G p d = Ok (r, a, b, v, e) -> sees G c e.
Proof.
  move=> S1. rewrite /three_velocities. cbv zeta. destruct p; [move=> E; by injection E as _ _ _ _ <-|]. have K := @sees_sphere c d.
  destruct (sphere_coords G d) as [[l f]|] => //. have K1 := K l f S1 eq_refl. cbn [bind]. move=> E; by injection E as _ _ _ _ <-.
Qed.

Theorem survey_kept a q i s u o f s' j : ready G (g_c (y_k s)) u o -> analyze true true (g_c (y_k s)) = g_c (y_k s) -> look G a q i s = Ok (f, s', j) -> kept s s'.
Proof.
  move=> H A. have B := @bracket G _ _ _ _ H A.
  have P := fun n => B _ (sees_profile n H A). have PS := fun n => sees_profile n H A. have M := B _ (sees_mass H). have MS := sees_mass H.
  destruct a; cbn [look].
  - rewrite /m_prof. cbv zeta. move: (return_cluster G _ _) (P normalize) => e K. destruct (profile_rows _ _ _ _ _ _ _) => //. cbn [bind].
    destruct (radii_over _ _ _) => //. cbn [bind]. move=> E. injection E as _ <- _. exact (kept_with K).
  - rewrite /rho_prof. cbv zeta. move: (return_cluster G _ _) (P normalize) => e K. destruct (profile_rows _ _ _ _ _ _ _) => //. cbn [bind].
    destruct (radii_over _ _ _) => //. cbn [bind]. move=> E. injection E as _ <- _. exact (kept_with K).
  - rewrite /velocity_prof. cbv zeta. have V := @sees_column (g_c (y_k s)) (profile_frame G normalize (g_c (y_k s))) w coord (l_projected q).
    destruct (velocity_column _ _ _ _ _) as [[[r v] d2]|] => //. cbn [bind]. have K := B _ (V _ _ _ (PS _) eq_refl).
    move: (return_cluster G _ _) K => e K. destruct (profile_rows _ _ _ _ _ _ _) => //. cbn [bind].
    destruct (radii_over _ _ _) => //. cbn [bind]. move=> E. injection E as _ <- _. exact (kept_with K).
  - rewrite /beta_prof. cbv zeta. have V := @sees_three (g_c (y_k s)) (profile_frame G normalize (g_c (y_k s))) (l_projected q).
    destruct (three_velocities _ _ _) as [[[[[r a] b] v] d2]|] => //. cbn [bind]. have K := B _ (V _ _ _ _ _ (PS _) eq_refl).
    move: (return_cluster G _ _) K => e K. destruct (profile_rows _ _ _ _ _ _ _) => //. cbn [bind].
    destruct (radii_over _ _ _) => //. cbn [bind]. move=> E. injection E as _ <- _. exact (kept_with K).
  - rewrite /vcirc_prof. cbv zeta. move: (return_cluster G _ _) (B _ (sees_vcirc normalize H A)) => e K.
    destruct (if l_projected q then d_rproorder _ else _) => //. destruct (get_subset _ _ _) as [[[x|] y]|] => //. cbn [bind fst snd].
    destruct (masked _ _) => //. cbn [bind]. destruct (masked _ _) => //. cbn [bind]. destruct (all_some _) => //. destruct (amax _) => //.
    destruct (match user with Some (_, _) => _ | None => _ end) as [[args|]|] => //. cbn [bind]. destruct (radii_over _ _ _) => //. cbn [bind].
    move=> E. injection E as _ <- _. exact (kept_with K).
  - rewrite /mass_function. cbv zeta. move: (return_cluster G _ _) M => e K. destruct (get_subset _ _ _) as [[[x|] y]|] => //; cbn [bind fst snd]; last first.
    { move=> E. injection E as _ <- _. exact (kept_with K). }
    destruct (Nat.leb _ _); cbn [bind]; last first. { move=> E. injection E as _ <- _. exact (kept_with K). }
    destruct (Nat.eqb _ _) => //. destruct (rows_of _ _ _ _ _) => //. cbn [bind]. move=> E. injection E as _ <- _. exact (kept_with K).
  - rewrite /alpha_prof. cbv zeta. move: (return_cluster G _ _) (P normalize) => e K. destruct (profile_rows _ _ _ _ _ _ _) => //. cbn [bind].
    destruct (radii_over _ _ _) => //. cbn [bind]. destruct (over_rows _ _) => //. cbn [bind]. move=> E. injection E as _ <- _. exact (kept_with K).
  - rewrite /eta_function. cbv zeta. move: (return_cluster G _ _) M => e K. destruct (get_subset _ _ _) as [[[x|] y]|] => //; cbn [bind fst snd]; last first.
    { move=> E. injection E as _ <- _. exact (kept_with K). }
    destruct (Nat.leb _ _); cbn [bind]; last first. { move=> E. injection E as _ <- _. exact (kept_with K). }
    destruct (rows_of _ _ _ _ _) => //. cbn [bind]. move=> E. injection E as _ <- _. exact (kept_with K).
  - rewrite /eta_prof. cbv zeta. move: (return_cluster G _ _) (P normalize) => e K. destruct (profile_rows _ _ _ _ _ _ _) => //. cbn [bind].
    destruct (radii_over _ _ _) => //. cbn [bind]. destruct (over_rows _ _) => //. cbn [bind]. move=> E. injection E as _ <- _. exact (kept_with K).
  - rewrite /meq_function. cbv zeta. have L : forall t s2 y, eta_meq G fit q i nmass (sys_with s (mass_frame G (g_c (y_k s)))) = Ok (t, s2, y) -> sees G (g_c (y_k s)) (g_c (y_k s2)).
    { move: (mass_frame G (g_c (y_k s))) MS => d MS t s2 y. rewrite /eta_meq. cbv zeta. cbn [g_c y_k sys_with set_cluster].
      have K := sees_back MS (sees_unamuse2 MS : sees G (g_c (y_k s)) (mass_frame G d)). move: (return_cluster G _ _) K => e K.
      destruct (get_subset _ _ _) as [[[x|] z]|] => //; cbn [bind fst snd]; last first. { move=> E. by injection E as _ <- _. }
      destruct (Nat.leb _ _); cbn [bind]; last first. { move=> E. by injection E as _ <- _. }
      destruct (rows_of _ _ _ _ _) => //. cbn [bind]. destruct (all_some _) => //. destruct (amin _) => //. destruct (amax _) => //.
      destruct (fit _ _ _ _) => //. cbn [bind]. move=> E. by injection E as _ <- _. }
    destruct (eta_meq _ _ _ _ _ _) as [[[[[t1 t2] t3] s2] y]|] => //. cbn [bind]. have K := B _ (L _ _ _ eq_refl). move: (return_cluster G _ _) K => e K.
    move=> E. injection E as _ <- _. exact (kept_with K).
  - rewrite /meq_prof. cbv zeta. move: (return_cluster G _ _) (P normalize) => e K. destruct (profile_rows _ _ _ _ _ _ _) => //. cbn [bind].
    destruct (radii_over _ _ _) => //. cbn [bind]. destruct (over_rows _ _) => //. cbn [bind]. move=> E. injection E as _ <- _. exact (kept_with K).
Qed.

Lemma survey_same a q i s s' : kept s s' -> 
  match look G a q i s, look G a q i s' with
  | Ok (f, t, j), Ok (f', t', j') => f = f' /\ j = j' /\ barel t = barel t'
  | Raise, Raise => True
  | _, _ => False
  end.
Proof.
  move=> /kept_barel E. have E1 := bare_survey G a q i s. have E2 := bare_survey G a q i s'. rewrite E E2 in E1.
  destruct (look G a q i s) as [[[f t] j]|], (look G a q i s') as [[[f' t'] j']|] => //. cbn [bare_look] in E1. move: (barel t) (barel t') E1 => x y E1. by injection E1 as -> -> ->.
Qed.

(* masks *)
Definition narrower (j l : list bool) := length j = length l /\ forall k, nth k j false = true -> nth k l false = true.
Lemma narrower_refl l : narrower l l. Proof. by []. Qed.
Lemma narrower_trans a b c : narrower a b -> narrower b c -> narrower a c.
Proof. move=> [A1 A2] [B1 B2]. split; [by rewrite A1|]. move=> k H. exact (B2 _ (A2 _ H)). Qed.
Lemma in_place_narrower l x a : in_place_and l x = Some a -> narrower a l.
Proof.
  rewrite /in_place_and. destruct (Nat.eqb_spec (length x) (length l)) as [E|_].
  - move=> H. injection H as <-. clear -E. elim: l x E => [|b l IH] [|y x] //= E. injection E as E. have [I1 I2] := IH x E.
    split; [cbn; by rewrite I1|]. move=> [|k] /=; [by destruct b|exact (I2 k)].
  - destruct x as [|b [|? ?]] => // H. injection H as <-. split; [by rewrite map_length|]. move=> k. elim: l k => [|c l IH] [|k] //=; [by destruct c|exact (IH k)].
Qed.
Lemma subset_narrower q l s y j : get_subset q (Some l) s = Ok (y, j) -> exists l', j = Some l' /\ narrower l' l.
Proof.
  rewrite /get_subset. cbv zeta. do 6 (destruct (limit _ _) => //; cbn [bind]).
  destruct (match l_emin q with Some _ => _ | None => _ end) => //. cbn [bind]. destruct (if Nat.ltb _ _ then _ else _) => //. cbn [bind].
  destruct (bands_all _ _) as [x|].
  - have K := @in_place_narrower l x. destruct (in_place_and l x) as [b|] => E; injection E as _ <-; [by exists b; split; [|exact (K b eq_refl)]|].
    exists l. split; [by []|exact (narrower_refl l)].
  - move=> E; injection E as _ <-. exists l. split; [by []|exact (narrower_refl l)].
Qed.
Lemma rows_subset q i user n bt r s w : profile_rows q i user n bt r s = Ok w -> exists y, get_subset q i s = Ok (y, w_caller w).
Proof.
  rewrite /profile_rows. destruct (get_subset q i s) as [[[m|] j]|] => //. cbn [bind fst snd]. destruct (profile_bins _ _ _ _) as [[[a b] c]|] => //. cbn [bind].
  move=> E. injection E as <-. by exists (Some m).
Qed.
Lemma eta_meq_subset fit q i n s t s2 j : eta_meq G fit q i n s = Ok (t, s2, j) -> exists y, get_subset q i (sys_with s (mass_frame G (g_c (y_k s)))) = Ok (y, j).
Proof.
  rewrite /eta_meq. cbv zeta. move: (return_cluster G _ _) => e.
  destruct (get_subset _ _ _) as [[[x|] y]|] => //; cbn [bind fst snd]; last first.
  { move=> E. injection E as _ _ <-. by eexists. }
  destruct (Nat.leb _ _); cbn [bind]; last first. { move=> E. injection E as _ _ <-. by eexists. }
  destruct (rows_of _ _ _ _ _) => //. cbn [bind]. destruct (all_some _) => //. destruct (amin _) => //. destruct (amax _) => //.
  destruct (fit _ _ _ _) => //. cbn [bind]. move=> E. injection E as _ _ <-. by eexists.
Qed.
Lemma look_subset a q i s f s' j : look G a q i s = Ok (f, s', j) -> exists d y, get_subset q i (sys_with s d) = Ok (y, j).
Proof.
  destruct a; cbn [look].
  - rewrite /m_prof. cbv zeta. move: (return_cluster G _ _) => e. have K := @rows_subset q i user nrad bt. destruct (profile_rows _ _ _ _ _ _ _) as [w|] eqn:W => //. cbn [bind].
    destruct (radii_over _ _ _) => //. cbn [bind]. move=> E. injection E as _ _ <-. by exists (profile_frame G normalize (g_c (y_k s))); exact (K _ _ _ W).
  - rewrite /rho_prof. cbv zeta. move: (return_cluster G _ _) => e. have K := @rows_subset q i user nrad bt. destruct (profile_rows _ _ _ _ _ _ _) as [w|] eqn:W => //. cbn [bind].
    destruct (radii_over _ _ _) => //. cbn [bind]. move=> E. injection E as _ _ <-. by exists (profile_frame G normalize (g_c (y_k s))); exact (K _ _ _ W).
  - rewrite /velocity_prof. cbv zeta. destruct (velocity_column _ _ _ _ _) as [[[r v] d2]|] => //. cbn [bind]. move: (return_cluster G _ _) => e. have K := @rows_subset q i user nrad bt.
    destruct (profile_rows _ _ _ _ _ _ _) as [w2|] eqn:W => //. cbn [bind].
    destruct (radii_over _ _ _) => //. cbn [bind]. move=> E. injection E as _ _ <-. by exists (profile_frame G normalize (g_c (y_k s))); exact (K _ _ _ W).
  - rewrite /beta_prof. cbv zeta. destruct (three_velocities _ _ _) as [[[[[r a] b] v] d2]|] => //. cbn [bind]. move: (return_cluster G _ _) => e. have K := @rows_subset q i user nrad bt.
    destruct (profile_rows _ _ _ _ _ _ _) as [w2|] eqn:W => //. cbn [bind].
    destruct (radii_over _ _ _) => //. cbn [bind]. move=> E. injection E as _ _ <-. by exists (profile_frame G normalize (g_c (y_k s))); exact (K _ _ _ W).
  - rewrite /vcirc_prof. cbv zeta. move: (return_cluster G _ _) => e. destruct (if l_projected q then d_rproorder _ else _) => //. destruct (get_subset _ _ _) as [[[x|] y]|] eqn:W => //. cbn [bind fst snd].
    destruct (masked _ _) => //. cbn [bind]. destruct (masked _ _) => //. cbn [bind]. destruct (all_some _) => //. destruct (amax _) => //.
    destruct (match user with Some (_, _) => _ | None => _ end) as [[args|]|] => //. cbn [bind]. destruct (radii_over _ _ _) => //. cbn [bind].
    move=> E. injection E as _ _ <-. do 2 eexists. exact W.
  - rewrite /mass_function. cbv zeta. move: (return_cluster G _ _) => e. destruct (get_subset _ _ _) as [[[x|] y]|] eqn:W => //; cbn [bind fst snd]; last first.
    { move=> E. injection E as _ _ <-. do 2 eexists. exact W. }
    destruct (Nat.leb _ _); cbn [bind]; last first. { move=> E. injection E as _ _ <-. do 2 eexists. exact W. }
    destruct (Nat.eqb _ _) => //. destruct (rows_of _ _ _ _ _) => //. cbn [bind]. move=> E. injection E as _ _ <-. do 2 eexists. exact W.
  - rewrite /alpha_prof. cbv zeta. move: (return_cluster G _ _) => e. have K := @rows_subset q i None nrad bt. destruct (profile_rows _ _ _ _ _ _ _) as [w|] eqn:W => //. cbn [bind].
    destruct (radii_over _ _ _) => //. cbn [bind]. destruct (over_rows _ _) => //. cbn [bind]. move=> E. injection E as _ _ <-.
    by exists (profile_frame G normalize (g_c (y_k s))); exact (K _ _ _ W).
  - rewrite /eta_function. cbv zeta. move: (return_cluster G _ _) => e. destruct (get_subset _ _ _) as [[[x|] y]|] eqn:W => //; cbn [bind fst snd]; last first.
    { move=> E. injection E as _ _ <-. do 2 eexists. exact W. }
    destruct (Nat.leb _ _); cbn [bind]; last first. { move=> E. injection E as _ _ <-. do 2 eexists. exact W. }
    destruct (rows_of _ _ _ _ _) => //. cbn [bind]. move=> E. injection E as _ _ <-. do 2 eexists. exact W.
  - rewrite /eta_prof. cbv zeta. move: (return_cluster G _ _) => e. have K := @rows_subset q i None nrad bt. destruct (profile_rows _ _ _ _ _ _ _) as [w|] eqn:W => //. cbn [bind].
    destruct (radii_over _ _ _) => //. cbn [bind]. destruct (over_rows _ _) => //. cbn [bind]. move=> E. injection E as _ _ <-.
    by exists (profile_frame G normalize (g_c (y_k s))); exact (K _ _ _ W).
  - rewrite /meq_function. cbv zeta. move: (mass_frame G (g_c (y_k s))) => d. have K := @eta_meq_subset fit q i nmass (sys_with s d).
    destruct (eta_meq _ _ _ _ _ _) as [[[[[m v] t] s2] y]|] => //. cbn [bind]. have [y' W] := K _ _ _ eq_refl. move: (return_cluster G _ _) => e E. injection E as _ _ <-.
    exists (mass_frame G d), y'. exact W.
  - rewrite /meq_prof. cbv zeta. move: (return_cluster G _ _) => e. have K := @rows_subset q i None nrad bt. destruct (profile_rows _ _ _ _ _ _ _) as [w|] eqn:W => //. cbn [bind].
    destruct (radii_over _ _ _) => //. cbn [bind]. destruct (over_rows _ _) => //. cbn [bind]. move=> E. injection E as _ _ <-.
    by exists (profile_frame G normalize (g_c (y_k s))); exact (K _ _ _ W).
Qed.
End WithGalpy.
