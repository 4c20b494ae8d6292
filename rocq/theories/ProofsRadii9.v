(* Proofs: the equipartition mass and the kinematic concentration. *)
From Coq Require Import Sorted.
From Verif Require Import Base ModelCluster ModelOps ModelConv ModelEnergy ModelRecipes ModelStars ModelSubset ModelCoords ModelLagrange ModelProfiles ModelMassFunction ModelDynamics.
From Verif Require Import ModelTail ModelCentre ModelRadii.
From Verif Require Import SpecUnits SpecFrame SpecConv SpecOrder SpecRecipes SpecEnergy SpecStars SpecSubset SpecLagrange SpecProfiles SpecDynamics SpecRadii SpecMassFunction.
From Verif Require Import ProofsUnits ProofsFrame ProofsConv ProofsOrder ProofsSort ProofsSees ProofsEnergy ProofsEnergyUnits ProofsVR ProofsRecipes ProofsRecipes2 ProofsLagrange ProofsSubset ProofsSubset2 ProofsSubset4 ProofsProfiles ProofsProfiles2 ProofsProfiles3 ProofsMassFunction2 ProofsMassFunction3 ProofsSky ProofsRadii7 ProofsProfiles7.
Set Implicit Arguments. Unset Strict Implicit.

Lemma restored_refl c : restored c c. Proof. by []. Qed.
Lemma restored_trans a b c : restored a b -> restored b c -> restored a c.
Proof. move=> [A1 [A2 [A3 [A4 [A5 [A6 [A7 A8]]]]]]] [B1 [B2 [B3 [B4 [B5 [B6 [B7 B8]]]]]]]. rewrite /restored. by rewrite B1 B2 B3 B4 B5 B6 B7 B8. Qed.
Lemma sort_ph p c : c_ph (sortstars p c) = c_ph c.
Proof. rewrite /sortstars /set_der. repeat match goal with |- context [match ?x with _ => _ end] => destruct x end; reflexivity. Qed.
Lemma analyze_der c c' : c_ph c' = c_ph c -> c_origin c' = c_origin c -> c_der c' = c_der c -> c_der (analyze true true c') = c_der (analyze true true c).
Proof.
  destruct c as [u o b nb ph sc bi sk de id], c' as [u' o' b' nb' ph' sc' bi' sk' de' id']. cbn [c_ph c_origin c_der]. move=> -> -> ->.
  rewrite /analyze. set r1 := analyze_radii _. set r2 := analyze_radii _.
  have E1 : c_der r1 = c_der r2 by []. have E2 : c_origin r1 = c_origin r2 by []. have E3 : c_ph r1 = c_ph r2 by [].
  have F1 : c_der (sortstars true r1) = c_der (sortstars true r2).
  { rewrite /sortstars E1 E2. by destruct (match d_rorder (c_der r2) with Some _ => _ | None => _ end). }
  have F3 : c_ph (sortstars true r1) = c_ph (sortstars true r2) by rewrite !sort_ph.
  rewrite /analyze_fracs F1 F3. destruct (match d_rorder _ with Some _ => _ | None => _ end) as [rm r10]. by destruct (match d_rproorder _ with Some _ => _ | None => _ end).
Qed.
Lemma cluster_ext a b : skel a = skel b -> c_der a = c_der b -> a = b.
Proof. destruct a, b. rewrite /skel. cbn. move=> E. injection E => *. by subst. Qed.
Lemma restored_settled c c' : restored c c' -> analyze true true c = c -> analyze true true c' = c'.
Proof.
  move=> [P [U [O [D _]]]] HA. apply cluster_ext; [apply skel_analyze|]. rewrite (analyze_der P O D) HA. by symmetry.
Qed.

(* the outcome of a fit *)
Section WithGalpy.
Variables (G : galpy) (fit : R -> R -> list R -> list R -> result line_fit).

Lemma input_restored q indx s n c' : profile_input G q indx s n -> restored (g_c (y_k s)) c' -> profile_input G q indx (sys_with s c') n.
Proof.
  move=> [[u [o HR]] [HA [HM [EK MF]]]] RE. have RE0 := RE. destruct RE0 as [P [U [O [D [Sc [Id [K N]]]]]]].
  have HA' := restored_settled RE HA. split; [exists u, o; by move: HR; rewrite /ready /sys_with /set_cluster; cbn [y_k g_c]; rewrite U O Sc|].
  split; [exact HA'|]. split; [|by split]. apply same_measured => //. exact: norms_settled.
Qed.
Lemma picked_same q indx s c' i : c_ph c' = c_ph (g_c (y_k s)) -> c_id c' = c_id (g_c (y_k s)) ->
  picked q indx (sys_with s c') i <-> picked q indx s i.
Proof. move=> E1 E2. by rewrite /picked same_satisfies. Qed.

Section OneSystem.
Variables (q : selection) (indx : option (list bool)) (s : system) (n nmass : nat).
Let c := g_c (y_k s). Let c1 := mass_frame G c.
Let speed (i : nat) : R := seen_speed (l_projected q) (y_k s) i.

Theorem eta_meq_ok l : profile_input G q indx s n -> (0 < n)%nat -> members n (picked q indx s) l -> (0 < nmass)%nat ->
  ((2 * nmass <= length l)%nat -> mass_spread (picked q indx s) (mass c) n) ->
  match eta_meq G fit q indx nmass s with
  | Ok ((mean, sig, f), s', caller) => equipartition fit (mass c) speed n l nmass f /\ system_restored s s' /\ mask_after q indx s n caller /\
      s' = sys_with s (g_c (y_k s')) /\
      ((2 * nmass <= length l)%nat -> dispersions_of (mass c) speed l nmass mean sig)
  | Raise => unfitted fit (mass c) speed n l nmass
  end.
Proof.
  move=> [[u [o HR]] [HA [HM [EK MF]]]] Hn ML H0 SP.
  have [S0 [E1 [E2 NO]]] := mass_frame_ok HR HA.
  have [msk [Q [L W]]] := the_mask E1 E2 NO HM EK MF Hn.
  have ME : members n (picked q indx s) (chosen msk) by apply chosen_members.
  have PE := members_perm ME ML. have Cn : count msk = length l by rewrite -chosen_count (Permutation_length PE).
  have SR := sys_restored HR HA S0.
  have MA : mask_after q indx s n (match indx with None => None | Some _ => Some msk end).
  { rewrite /mask_after. destruct indx => //. exists msk. by split. }
  destruct (Nat.lt_ge_cases (length l) (2 * nmass)) as [Hl|Hl].
  - rewrite /eta_meq -/c -/c1. rewrite -/c -/c1 in Q. rewrite Q. cbn [bind fst snd].
    have -> : Nat.leb (2 * nmass) (count msk) = false by apply Nat.leb_gt; rewrite Cn.
    split; [split; [by []|lia]|]. split; [exact SR|]. split; [exact MA|]. split; [by []|lia].
  - have [t [caller [E [A1 [A2 A3]]]]] := eta_function_gen E1 E2 NO HM EK MF Hn ML H0 Hl (SP Hl).
    move: E. rewrite /eta_function /eta_meq -/c -/c1. rewrite -/c -/c1 in Q. rewrite Q. cbn [bind fst snd].
    have -> : Nat.leb (2 * nmass) (count msk) = true by apply Nat.leb_le; rewrite Cn.
    destruct (rows_of _ _ _ _ _) as [w|] => //. cbn [bind].
    set sg := map _ (seq 0 nmass). move=> E.
    have [Et Es] : w_mid w = et_mean t /\ sg = et_sigma t.
    { have X := f_equal (fun z => match z with Ok ((a, _), _) => (et_mean a, et_sigma a) | Raise => ([], []) end) E. cbn [et_mean et_sigma] in X. by split; [exact (f_equal fst X)|exact (f_equal snd X)]. }
    rewrite Et Es. clear E Et Es sg w. rewrite E1 -/c.
    have LM : length (p_m (c_ph c)) = n by exact (proj1 (proj2 (proj1 HM))).
    have EM : map (mass c) (seq 0 n) = p_m (c_ph c).
    { apply (nth_ext _ _ 0 0); [by rewrite map_length seq_length|]. rewrite map_length seq_length => i Hi. by rewrite nth_map_seq. }
    destruct (amin (p_m (c_ph c))) as [lo|] eqn:Elo; [|by destruct (p_m (c_ph c)) => //; cbn in LM; lia].
    destruct (amax (p_m (c_ph c))) as [hi|] eqn:Ehi; [|by destruct (p_m (c_ph c)) => //; cbn in LM; lia].
    have Glo := amin_least Elo. have Ghi := amax_greatest Ehi. rewrite -EM in Glo Ghi.
    destruct (all_some (et_sigma t)) as [k|] eqn:Ek.
    + have Es := all_some_inv Ek. destruct (fit lo hi (et_mean t) k) as [f|] eqn:Ef; cbn [bind].
      * split; [split; [lia|]|split; [exact SR|split; [exact MA|by []]]].
        move=> _. exists lo, hi, (et_mean t), k. rewrite -Es. by split.
      * split=> //. exists lo, hi, (et_mean t), (et_sigma t). do 3 (split=> //). right. by exists k.
    + split=> //. exists lo, hi, (et_mean t), (et_sigma t). do 3 (split=> //). left.
      destruct A1 as [lo' [hi' [_ [_ [Le [Lm [Ls [Rw Be]]]]]]]]. rewrite Lm.
      destruct (Nat.lt_ge_cases (length lo') nmass) as [?|Ge] => //. exfalso.
      have X : exists k, et_sigma t = map (@Some R) k.
      { exists (map (fun x => match x with Some a => a | None => 0 end) (et_sigma t)). rewrite map_map. rewrite -[LHS]map_id. apply map_ext_in => x Hx.
        destruct (In_nth _ _ None Hx) as [j [Hj Ej]]. have Hj2 : (j < length lo')%nat by move: Hj; rewrite Ls; lia. have [_ [_ [lk [_ [_ [_ Ex]]]]]] := Rw j Hj2. by rewrite -Ej Ex. }
      destruct X as [k Ek']. rewrite Ek' in Ek. have Y : forall z : list R, all_some (map (@Some R) z) = Some z by elim=> [|a z IH] //=; rewrite IH.
      by rewrite Y in Ek.
Qed.
End OneSystem.

Lemma members_exist (n : nat) (P : nat -> Prop) : (forall i, P i \/ ~ P i) -> exists l, members n P l.
Proof.
  move=> D. induction n as [|n [l [N H]]]; [exists []; split; [constructor|]; move=> i; split=> //; move=> [? _]; lia|].
  destruct (D n) as [Y|Y].
  - exists (n :: l). split; [constructor => //; move=> /H [? _]; lia|]. move=> i. cbn [In]. rewrite H. split; [move=> [<-|[? ?]]; split=> //; lia|].
    move=> [? ?]. destruct (Nat.eq_dec n i) as [E|E]; [by left|right; split=> //; lia].
  - exists l. split=> // i. rewrite H. split; move=> [? ?]; split=> //; [lia|]. destruct (Nat.eq_dec n i) as [E|E]; [by subst|lia].
Qed.
Lemma mask_members (n : nat) (P : nat -> Prop) (msk : list bool) : length msk = n -> (forall i, (i < n)%nat -> nth i msk false = true <-> P i) -> exists l, members n P l.
Proof. move=> L W. exists (chosen msk). by apply chosen_members. Qed.

Lemma mixed_spread P (Q : nat -> Prop) val n k l : mixed P val n k -> (forall i, Q i -> P i) -> members n Q l -> (k <= length l)%nat -> mass_spread Q val n.
Proof.
  move=> M I [N H] Hk. have [i [j [Ii [Ij D]]]] := M l N (fun i X => conj (proj1 (proj1 (H i) X)) (I i (proj2 (proj1 (H i) X)))) Hk.
  apply H in Ii. apply H in Ij. exists i, j. tauto.
Qed.
Lemma drop_radii a b q indx s i : picked (with_radii a b q) indx s i -> picked (within_radii None None q) indx s i.
Proof. move=> [M [_ S]]. by split. Qed.

Lemma mass_well p c u o : ready G c u o -> positive_scales G (c_sc c) -> well_sorted p c -> well_sorted p (mass_frame G c).
Proof.
  move=> HR HP HW. have [A1 [A2 [A3 [A4 A5]]]] := amuse_frame HR HP HW. rewrite -/(mass_frame G c) in A1 A2 A3 A4 A5.
  have Ho : c_origin (mass_frame G c) = Some o by rewrite A4; have [_ [_ [_ [? _]]]] := HR.
  have [W1 [W3 _]] := vord_well Ho A1 A5. split=> //. split=> // Hpt. have [_ [_ HW2]] := HW. have [rp [P1 P2]] := HW2 Hpt.
  have [_ [_ [_ [_ [_ [_ K]]]]]] := A2.
  have [|K1 K2] := K _ P1.
  { rewrite /proorder_ok -distances_2d_eq. destruct P2 as [P2 _]. by rewrite (Permutation_length P2) seq_length. }
  exists rp. split=> //. by rewrite /distances_2d A3.
Qed.

Theorem ckin_ok q indx s n nmass : let c := g_c (y_k s) in let p := l_projected q in
  let speed (i : nat) := seen_speed p (y_k s) i in
  profile_input G q indx s n -> weighed G p c -> (p = true -> c_origin c <> Some Ogalaxy) -> (0 < nmass)%nat ->
  mixed (picked (within_radii None None q) indx s) (mass c) n (2 * nmass) ->
  exists rn l1 l2, lagrange_table 10 (own_distances p c) (p_m (c_ph c)) rn /\
    members n (picked (within_radii (Some (nth 3 rn 0)) (Some (nth 5 rn 0)) q) indx s) l1 /\
    members n (fun i => picked (within_radii (Some 0) (Some (nth 4 rn 0)) q) indx s i /\ (indx <> None -> In i l1)) l2 /\
    match ckin G fit q indx nmass s with
    | Ok (x, s', caller) => system_restored s s' /\
        (exists f1 f2, equipartition fit (mass c) speed n l1 nmass f1 /\ equipartition fit (mass c) speed n l2 nmass f2 /\ quotient (t_slope f2) (t_slope f1) x) /\
        match indx with
        | None => caller = None
        | Some _ => exists m, caller = Some m /\ length m = n /\ forall i, (i < n)%nat -> nth i m false = true <-> In i l2
        end
    | Raise => unfitted fit (mass c) speed n l1 nmass \/ unfitted fit (mass c) speed n l2 nmass
    end.
Proof.
  cbn zeta. set c := g_c (y_k s). set p := l_projected q. move=> PI [HP [HW [Hm Hs]]] Hp H0 MX.
  have PI0 := PI. destruct PI0 as [[u [o HR]] [HA [HM [EK MF]]]].
  have LM : length (p_m (c_ph c)) = n by exact (proj1 (proj2 (proj1 HM))).
  have Hn : (0 < n)%nat. { rewrite -LM. destruct (p_m (c_ph c)); [cbn in Hs; lra|cbn; lia]. }
  have [S0 [E1 [E2 NO]]] := mass_frame_ok HR HA. rewrite -/c in S0 E1 E2 NO.
  have AL := aligned_measured HM. rewrite -/c in AL.
  have HW1 := mass_well HR HP HW. rewrite -/c in HW1.
  have [A1 [A2 [A3 [A4 A5]]]] := amuse_frame HR HP HW. rewrite -/c -/(mass_frame G c) in A1 A2 A3 A4 A5.
  have [u1 [o1 R1]] := sees_ready S0.
  have PI1 : profile_input G q indx (sys_with s (mass_frame G c)) n.
  { split; [by exists u1, o1|]. split; [exact A1|]. split; [exact (same_measured E1 E2 NO HM)|by split]. }
  have SC : c_sc (mass_frame G c) = c_sc c by have [_ [_ [? _]]] := S0.
  rewrite /ckin -/c. move: (mass_frame G c) S0 E1 E2 NO HW1 A1 A2 A3 A4 A5 R1 PI1 SC => c1 S0 E1 E2 NO HW1 A1 A2 A3 A4 A5 R1 PI1 SC.
  have AL1 : SpecFrame.aligned c1 by rewrite /SpecFrame.aligned E1.
  have OD : own_distances p c1 = own_distances p c.
  { by rewrite /own_distances /own_distance /own_centre /nstars E1 A4. }
  have [rn [c2 [L1 [L2 L3]]]] := @rlagrange_correct G 10 p c1 u1 o1 R1 ltac:(by rewrite SC) AL1 HW1 ltac:(by rewrite A4) ltac:(lia) ltac:(by rewrite E1) ltac:(by rewrite E1).
  rewrite OD E1 in L2.
  rewrite L1. cbn [bind].
  have P2 : c_ph c2 = c_ph c by have [-> _] := L3. have I2 : c_id c2 = c_id c by have [_ [_ [_ [_ [_ [-> _]]]]]] := L3.
  have PI2 := input_restored PI1 L3. change (sys_with (sys_with s c1) c2) with (sys_with s c2) in PI2.
  set qa := with_radii (nth 3 rn 0) (nth 5 rn 0) q. set qb := with_radii 0 (nth 4 rn 0) q.
  have PIa : profile_input G qa indx (sys_with s c2) n by destruct PI2 as [Q1 [Q2 [Q3 [Q4 Q5]]]]; do 3 (split=> //).
  have SAT : forall q' k c' i, c_ph c' = c_ph c -> c_id c' = c_id c -> picked q' k (sys_with s c') i <-> picked q' k s i by move=> q' k c' i *; apply picked_same.
  have [l1 M1] : exists l, members n (picked qa indx s) l.
  { have [[u2 [o2 R2]] [B1 [B2 [B3 B4]]]] := PIa. have [_ [F1 [F2 F3]]] := mass_frame_ok R2 B1.
    have [msk [_ [Lk W]]] := the_mask F1 F2 F3 B2 B3 B4 Hn. apply (mask_members Lk) => i Hi. by rewrite W // SAT. }
  have M1' : members n (picked qa indx (sys_with s c2)) l1 by destruct M1 as [N1 H1]; split=> // i; rewrite H1 SAT.
  have SP1 : (2 * nmass <= length l1)%nat -> mass_spread (picked qa indx (sys_with s c2)) (mass c2) n.
  { move=> H. rewrite /mass P2. apply (mixed_spread MX (fun i X => drop_radii (proj1 (@SAT _ _ _ i P2 I2) X)) M1' H). }
  have T1 := @eta_meq_ok qa indx (sys_with s c2) n nmass l1 PIa Hn M1' H0 SP1.
  have MS : forall c', c_ph c' = c_ph c -> mass (g_c (y_k (sys_with s c'))) = mass c by move=> c' E; rewrite /mass; cbn [sys_with y_k set_cluster g_c]; rewrite E.
  have SS : forall c', c_ph c' = c_ph c -> c_id c' = c_id c -> (fun i => seen_speed p (y_k (sys_with s c')) i) = (fun i => seen_speed p (y_k s) i).
  { move=> c' Ea Eb. have E : forall i, star_at (y_k (sys_with s c')) i = star_at (y_k s) i; [|by rewrite /seen_speed; f_equal; apply FunctionalExtensionality.functional_extensionality => i; rewrite E].
    move=> i. by rewrite /star_at /sys_with /set_cluster; cbn [y_k g_c g_m0 g_npop]; rewrite Ea Eb. }
  rewrite (MS _ P2) in T1. change (l_projected qa) with p in T1. rewrite (SS _ P2 I2) in T1.
  have DEC : forall indx' (c' : cluster), profile_input G qb indx' (sys_with s c') n -> c_ph c' = c_ph c -> c_id c' = c_id c -> exists l, members n (picked qb indx' s) l.
  { move=> k c' PK X1 X2. have [[u2 [o2 R2]] [B1 [B2 [B3 B4]]]] := PK. have [_ [F1 [F2 F3]]] := mass_frame_ok R2 B1.
    have [msk [_ [Lk W]]] := the_mask F1 F2 F3 B2 B3 B4 Hn. apply (mask_members Lk) => i Hi. by rewrite W // SAT. }
  (* the mask of the second call *)
  set P := fun i => picked qb indx s i /\ (indx <> None -> In i l1).
  have [l2 M2] : exists l, members n P l.
  { have PIb : profile_input G qb indx (sys_with s c2) n by destruct PI2 as [Q1 [Q2 [Q3 [Q4 Q5]]]]; do 3 (split=> //).
    have [l [N1 H1]] := DEC indx c2 PIb P2 I2. rewrite /P. destruct indx as [k0|].
    2: { exists l. split; [exact N1|]. move=> i. rewrite H1. split; [move=> [X1 X2]; split; [exact X1|split; [exact X2|by []]]|move=> [X1 [X2 _]]; by split]. }
    exists (filter (fun i => existsb (Nat.eqb i) l1) l). split; [by apply NoDup_filter|]. move=> i. rewrite filter_In H1 existsb_exists. split.
    - move=> [[X1 X2] [j [X3 X4]]]. apply Nat.eqb_eq in X4. subst j. split; [exact X1|]. split; [exact X2|]. by move=> _.
    - move=> [X1 [X2 X3]]. split; [by split|]. exists i. split; [by apply X3|by apply Nat.eqb_refl]. }
  exists rn, l1, l2. split; [exact L2|]. split; [exact M1|]. split; [exact M2|].
  destruct (eta_meq G fit qa indx nmass (sys_with s c2)) as [[[[[mean1 sig1] f1] s3] indx1]|]; cbn [bind]; [|by left].
  destruct T1 as [EQ1 [RS1 [MA1 [ES1 _]]]].
  have R3 : restored c1 (g_c (y_k s3)). { apply (restored_trans L3). exact (proj1 RS1). }
  have P3 : c_ph (g_c (y_k s3)) = c_ph c by have [-> _] := R3. have I3 : c_id (g_c (y_k s3)) = c_id c by have [_ [_ [_ [_ [_ [-> _]]]]]] := R3.
  have ES : s3 = sys_with s (g_c (y_k s3)) by [].
  move: (g_c (y_k s3)) R3 P3 I3 ES => c3 R3 P3 I3 ES. subst s3. clear RS1 ES1.
  have PI3 := input_restored PI1 R3. change (sys_with (sys_with s c1) c3) with (sys_with s c3) in PI3.
  have MF1 : mask_fits indx1 n. { rewrite /mask_after in MA1. destruct indx as [k0|]; [by destruct MA1 as [m [-> [? _]]]|by rewrite MA1]. }
  have PIb : profile_input G qb indx1 (sys_with s c3) n by destruct PI3 as [Q1 [Q2 [Q3 [Q4 Q5]]]]; do 3 (split=> //); split.
  have EP : forall i, (i < n)%nat -> picked qb indx1 (sys_with s c3) i <-> P i.
  { move=> i Hi. rewrite SAT // /P. rewrite /mask_after in MA1. destruct indx as [k0|].
    - destruct MA1 as [m [-> [Lm Wm]]]. rewrite /picked {1}/in_mask. have W := Wm i Hi. rewrite SAT // in W.
      have J : In i l1 <-> picked qa (Some k0) s i by rewrite (proj2 M1); tauto.
      split; [move=> [X1 X2]; have Y := proj1 W X1; split; [split=> //; exact (proj1 Y)|by move=> _; apply J]|].
      move=> [[X1 X2] X3]. split=> //. apply W, J, X3. discriminate.
    - rewrite MA1. tauto. }
  have M2' : members n (picked qb indx1 (sys_with s c3)) l2.
  { destruct M2 as [N2 H2]. split=> // i. rewrite H2. split; move=> [X1 X2]; split=> //; by apply EP. }
  have SP2 : (2 * nmass <= length l2)%nat -> mass_spread (picked qb indx1 (sys_with s c3)) (mass c3) n.
  { move=> H. rewrite /mass P3. have [i [j [Hi [Hj [Pi [Pj D]]]]]] := @mixed_spread _ P (mass c) n (2 * nmass) l2 MX (fun i X => drop_radii (proj1 X)) M2 H.
    exists i, j. do 2 (split=> //). split; [by apply EP|]. split=> //. by apply EP. }
  have T2 := @eta_meq_ok qb indx1 (sys_with s c3) n nmass l2 PIb Hn M2' H0 SP2.
  rewrite (MS _ P3) in T2. change (l_projected qb) with p in T2. rewrite (SS _ P3 I3) in T2.
  destruct (eta_meq G fit qb indx1 nmass (sys_with s c3)) as [[[[[mean2 sig2] f2] s4] indx2]|]; cbn [bind]; [|by right].
  destruct T2 as [EQ2 [RS2 [MA2 [ES2 _]]]].
  have R4 : restored c1 (g_c (y_k s4)). { apply (restored_trans R3). exact (proj1 RS2). }
  have SA4 : sees G c (g_c (y_k s4)) := sees_trans S0 (ProofsRadii7.restored_sees R1 R4).
  split; [exact (sys_restored HR HA SA4)|]. split.
  - exists f1, f2. split=> //. split=> //. rewrite /nratio. split; move=> E; [by have -> : Reqb (t_slope f1) 0 = false by apply Reqb_false|by have -> : Reqb (t_slope f1) 0 = true by apply Reqb_spec].
  - rewrite /mask_after in MA1 MA2. destruct indx as [k0|]; [|by rewrite MA1 in MA2]. destruct MA1 as [m1 [X1 [X2 X3]]]. rewrite X1 in MA2 EP.
    destruct MA2 as [m2 [Y1 [Y2 Y3]]]. exists m2. do 2 (split=> //). move=> i Hi. rewrite Y3 // EP // (proj2 M2). tauto.
Qed.

Theorem meq_function_ok q indx s n nmass l : let c := g_c (y_k s) in let speed (i : nat) := seen_speed (l_projected q) (y_k s) i in
  profile_input G q indx s n -> (0 < n)%nat -> members n (picked q indx s) l -> (0 < nmass)%nat ->
  ((2 * nmass <= length l)%nat -> mass_spread (picked q indx s) (mass c) n) ->
  match meq_function G fit q indx nmass s with
  | Ok ((mean, sig, f), s', caller) => equipartition fit (mass c) speed n l nmass f /\ system_restored s s' /\ mask_after q indx s n caller /\
      ((2 * nmass <= length l)%nat -> dispersions_of (mass c) speed l nmass mean sig)
  | Raise => unfitted fit (mass c) speed n l nmass
  end.
Proof.
  cbn zeta. set c := g_c (y_k s). move=> PI Hn ML H0 SP.
  have PI0 := PI. destruct PI0 as [[u [o HR]] [HA [HM [EK MF]]]].
  have [S0 [E1 [E2 NO]]] := mass_frame_ok HR HA. rewrite -/c in S0 E1 E2 NO.
  have [A1 _] := amuse_ok HR HA. rewrite -/c -/(mass_frame G c) in A1.
  have [u1 [o1 R1]] := sees_ready S0.
  rewrite /meq_function -/c. move: (mass_frame G c) S0 E1 E2 NO A1 R1 => c1 S0 E1 E2 NO A1 R1.
  have PI1 : profile_input G q indx (sys_with s c1) n.
  { split; [by exists u1, o1|]. split; [exact A1|]. split; [exact (same_measured E1 E2 NO HM)|by split]. }
  have SAT : forall i, picked q indx (sys_with s c1) i <-> picked q indx s i by move=> i; apply picked_same.
  have ML' : members n (picked q indx (sys_with s c1)) l by destruct ML as [N1 H1]; split=> // i; rewrite H1 SAT.
  have MC : mass c1 = mass c by rewrite /mass E1.
  have SP' : (2 * nmass <= length l)%nat -> mass_spread (picked q indx (sys_with s c1)) (mass (g_c (y_k (sys_with s c1)))) n.
  { move=> H. cbn [sys_with y_k set_cluster g_c]. rewrite MC. have [i [j X]] := SP H. exists i, j. by rewrite !SAT. }
  have T := @eta_meq_ok q indx (sys_with s c1) n nmass l PI1 Hn ML' H0 SP'.
  have SS : (fun i => seen_speed (l_projected q) (y_k (sys_with s c1)) i) = (fun i => seen_speed (l_projected q) (y_k s) i).
  { have E : forall i, star_at (y_k (sys_with s c1)) i = star_at (y_k s) i; [|by rewrite /seen_speed; f_equal; apply FunctionalExtensionality.functional_extensionality => i; rewrite E].
    move=> i. by rewrite /star_at /sys_with /set_cluster; cbn [y_k g_c g_m0 g_npop]; rewrite E1 E2. }
  rewrite SS in T. cbn [sys_with y_k set_cluster g_c] in T. rewrite MC in T. fold (set_cluster (y_k s) c1) in T. fold (sys_with s c1) in T.
  destruct (eta_meq G fit q indx nmass (sys_with s c1)) as [[[[[mean sig] f] s2] k]|]; cbn [bind]; [|exact T].
  destruct T as [T1 [T2 [T3 [T4 T5]]]]. split; [exact T1|]. split.
  { have SA : sees G c (g_c (y_k s2)) := sees_trans S0 (ProofsRadii7.restored_sees R1 (proj1 T2)). exact (sys_restored HR HA SA). }
  split; [|exact T5]. move: T3. rewrite /mask_after. destruct indx as [k0|] => //. move=> [m [-> [Lm W]]]. exists m. do 2 (split=> //). move=> i Hi. by rewrite W // SAT.
Qed.

(* stars stored at large distances from the origin *)
Theorem ckin_far q indx s n nmass : let c := g_c (y_k s) in let p := l_projected q in
  profile_input G q indx s n -> weighed G p c -> (p = true -> c_origin c <> Some Ogalaxy) -> (0 < nmass)%nat ->
  mixed (picked (within_radii None None q) indx s) (mass c) n (2 * nmass) ->
  (forall i j, (i < n)%nat -> (j < n)%nat -> own_distance p c i < seen_distance p (y_k s) j) ->
  exists s' caller, ckin G fit q indx nmass s = Ok (Some 1, s', caller) /\ system_restored s s'.
Proof.
  cbn zeta. move=> PI HW Hp H0 MX Far. have LM : length (p_m (c_ph (g_c (y_k s)))) = n by have [_ [_ [[[_ [? _]] _] _]]] := PI.
  have [rn [l1 [l2 [LT [M1 [M2 T]]]]]] := ckin_ok PI HW Hp H0 MX.
  destruct LT as [Lr [_ [[Gi Ge] Mo]]]. apply in_map_iff in Gi. destruct Gi as [i0 [Ei Hi]]. apply in_seq in Hi. rewrite /nstars LM in Hi.
  have out : forall k a i, (k <= 9)%nat -> (i < n)%nat -> ~ picked (within_radii a (Some (nth k rn 0)) q) indx s i.
  { move=> k a i Hk Hi2 [_ [[_ W] _]]. have := W _ eq_refl. have := Mo k 9%nat ltac:(lia). have := Far i0 i ltac:(lia) Hi2. rewrite Ei /=. cbn [within_radii l_projected]. lra. }
  have Z1 : l1 = []. { destruct l1 as [|i l1] => //. have [X1 X2] := proj1 (proj2 M1 i) ltac:(by left). by apply (out 5%nat) in X2; [|lia|]. }
  have Z2 : l2 = []. { destruct l2 as [|i l2] => //. have [X1 [X2 _]] := proj1 (proj2 M2 i) ltac:(by left). by apply (out 4%nat) in X2; [|lia|]. }
  subst l1 l2. destruct (ckin G fit q indx nmass s) as [[[x s'] k]|]; [|by exfalso; destruct T as [[X _]|[X _]]; cbn in X; lia].
  destruct T as [T1 [[f1 [f2 [Q1 [Q2 [Q3 _]]]]] _]]. exists s', k. split=> //.
  have F1 := proj1 Q1 ltac:(cbn; lia). have F2 := proj1 Q2 ltac:(cbn; lia). rewrite F1 F2 in Q3. cbn in Q3. rewrite Q3; [lra|]. do 4 f_equal. field. 
Qed.
End WithGalpy.
