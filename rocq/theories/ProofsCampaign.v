(* Campaigns. *)
From Coq Require Import String Ascii.
From Verif Require Import Base ModelCluster ModelOps ModelConv ModelEnergy ModelRecipes ModelStars ModelSubset ModelLoad ModelGyr ModelHdf5 ModelHistory ModelSurvey ModelCampaign.
From Verif Require Import SpecUnits SpecFrame SpecStars SpecLoad SpecCampaign ProofsUnits ProofsFrame ProofsSees ProofsOutput ProofsLoad ProofsLoad2 ProofsLoad3 ProofsLoad4 ProofsLoad5.
Set Implicit Arguments.
Unset Strict Implicit.
Open Scope string_scope. Open Scope list_scope. Open Scope R_scope.

Section Any.
Variable G : galpy.
Variable V : Type.
Variable cat : V -> catalog.
Variable put : V -> catalog -> V.
Variable next : V -> result V.
Lemma onwards_front n v : onwards next (S n) v = bind (next v) (onwards next n).
Proof.
  induction n as [|n IH]; [cbn; by destruct (next v)|]. change (bind (onwards next (S n) v) next = bind (next v) (onwards next (S n))). rewrite IH. by destruct (next v).
Qed.
Lemma alone_front x l v i : alone_on G cat next (x :: l) v (S i) = bind (next v) (fun w => alone_on G cat next l w i).
Proof. rewrite /alone_on onwards_front. by destruct (next v). Qed.
Lemma campaign_gen : (forall v k, next (put v k) = next v) -> (forall v k, cat (put v k) = k) ->
  forall l v, l <> [] -> independent G cat next l v (campaign G cat put next l v).
Proof.
  move=> HN HC. induction l as [|x l IH]; [done|]. move=> v _. cbn [campaign].
  have A0 : alone_on G cat next (x :: l) v 0 = work G (fst x) (unmeasured (cat v)) (snd x) by [].
  destruct (work G (fst x) (unmeasured (cat v)) (snd x)) as [[[f s] e]|]; cbn [bind]; [|exists 0%nat; split; [cbn; lia|exact A0]].
  destruct l as [|y l].
  - split; [done|]. move=> i Hi. have -> : i = 0%nat by cbn in Hi; lia. exists s, e. split; [exact A0|]. by rewrite HC.
  - rewrite HN. destruct (next v) as [w|] eqn:W; cbn [bind].
    + have K := IH w ltac:(done). destruct (campaign G cat put next (y :: l) w) as [[fs v']|]; cbn [bind fst snd].
      * destruct K as [K1 K2]. split; [cbn [length] in K1 |- *; lia|]. move=> [|i] Hi; [exists s, e; split; [exact A0|cbn; lia]|].
        have [s' [e' [E1 E2]]] := K2 i ltac:(cbn [length] in Hi |- *; lia). exists s', e'. split; [by rewrite alone_front W|]. move=> E. apply E2. cbn [length] in E |- *; lia.
      * destruct K as [i [Hi K]]. exists (S i). split; [cbn [length] in Hi |- *; lia|]. by rewrite alone_front W.
    + exists 1%nat. split; [cbn; lia|]. by rewrite alone_front W.
Qed.
End Any.

Section Snapshots.
Variable G : galpy.
Lemma advance_snapshot_put rd d a proj v k : advance_snapshot G rd d a proj (put_snapshot v k) = advance_snapshot G rd d a proj v.
Proof. by destruct v. Qed.
Lemma advance_gyr_put rd d a g proj v k : advance_gyrfalcon G rd d a g proj (put_gyr v k) = advance_gyrfalcon G rd d a g proj v.
Proof. by destruct v as [[]]. Qed.
Lemma advance_new_put rd d a g proj v k : advance_new_gyrfalcon G rd d a g proj (put_new v k) = advance_new_gyrfalcon G rd d a g proj v.
Proof. by destruct v as [[]]. Qed.
Lemma onwards_times rd d a proj n v : onwards (advance_snapshot G rd d a proj) n v = advance_times G rd d a proj n v.
Proof. induction n as [|n IH]; [done|]. cbn [onwards advance_times]. by rewrite IH. Qed.
(* without an orbit file the flag `advance` is not looked at *)
Lemma get_snapshot_flag rd d o fn : get_snapshot G rd d o fn None true = get_snapshot G rd d o fn None false.
Proof.
  rewrite /get_snapshot. destruct (match snapshot_file d (l_set o) fn with Some p => files d p | None => None end) as [f|]; [|done].
  destruct (loadtxt rd (o_skip (l_set o)) None f) as [t|]; [|done]. cbn [bind]. rewrite /build_snapshot. destruct (read_columns _ _ _) as [q|]; [|done]. cbn [bind].
  destruct (add_stars _ _ _ _ _ _) as [k|]; [|done]. cbn [bind]. have E : centre_snapshot G rd o None true = centre_snapshot G rd o None false by [].
  by rewrite E.
Qed.
Lemma opened rd d o a proj rows w n m : o_nsnap (l_set o) = n -> same_keywords o a proj -> plain_advance a ->
  (forall j, (j <= m)%nat -> on_disk rd d (l_set o) (n + j) (rows (n + j)%nat) w) ->
  columns_fit (l_names o) (l_nums o) w -> l_units o <> Some Uradec -> l_units o <> Some Uamuse ->
  exists v v', load_snapshot G rd d o None None = Ok v /\ load_snapshot G rd d (open_at o (n + m)) None None = Ok v' /\
    advance_times G rd d a proj m v = Ok v' /\ v_set v' = set_nsnap (l_set o) (n + m) /\ v_units v' = l_units o /\ v_origin v' = l_origin o /\ v_orbit v' = None.
Proof.
  move=> En SK PA D CF U1 U2.
  have L : forall j, (j <= m)%nat -> exists v, load_snapshot G rd d (open_at o (n + j)) None None = Ok v /\ reads (open_at o (n + j)) (rows (n + j)%nat) v /\ v_orbit v = None /\ (2 <= length (rows (n + j)%nat))%nat.
  { move=> j Hj. have [f [F [FH [W2 L2]]]] := D j Hj. have [v [E [Rd [OF _]]]] := @snapshot_read G rd d (open_at o (n + j)) None f (rows (n + j)%nat) w false F FH W2 L2 CF U1 U2.
    exists v. by split. }
  have E0 : open_at o (n + 0) = o. { rewrite Nat.add_0_r -En. rewrite /open_at set_same. by destruct o. }
  induction m as [|m IH].
  - have [v [E [Rd [OF _]]]] := L 0%nat ltac:(lia). exists v, v. rewrite E0 in E Rd |- *. split; [done|]. split; [done|]. split; [done|].
    have [_ [_ [_ [K1 [K2 K3]]]]] := Rd. rewrite K1 K2 K3 Nat.add_0_r -En set_same. by [].
  - have [v [vm [E1 [E2 [E3 [S1 [S2 [S3 S4]]]]]]]] := IH ltac:(move=> j Hj; apply D; lia) ltac:(move=> j Hj; apply L; lia).
    have [v' [E [Rd [OF L2]]]] := L (S m) ltac:(lia). exists v, v'. split; [done|]. split; [done|]. cbn [advance_times]. rewrite E3; cbn [bind].
    have AO : adv_load_opts a vm proj = open_at o (n + S m).
    { destruct SK as [C1 [C2 [C3 [C4 [C5 [C6 C7]]]]]]. destruct PA as [P1 [P2 P3]]. rewrite /adv_load_opts /open_at /next_nsnap P1 S1 S2 S3 C2 C3 C4 C5 C6 C7.
      have -> : match w_cols a with Some q => q | None => (default_names, default_nums) end = (l_names o, l_nums o) by rewrite -C1 /advance_columns; destruct (w_cols a).
      cbn [fst snd set_nsnap o_nsnap o_nzfill o_wdir o_snapdir o_snapbase o_snapend o_skip]. f_equal. rewrite /set_nsnap. f_equal. cbn. lia. }
    have X : advance_snapshot G rd d a proj vm = Ok v'.
    { rewrite /advance_snapshot S4 AO. destruct PA as [P1 [P2 P3]]. rewrite P3 P2 get_snapshot_flag. move: E. rewrite /load_snapshot => ->. cbn [bind].
      have [[_ [N _]] _] := Rd. have -> // : Nat.eqb (g_ntot (v_cat v')) 0 = false by apply Nat.eqb_neq; rewrite N; lia. }
    rewrite X. split; [done|]. have [_ [_ [_ [K1 [K2 K3]]]]] := Rd. by rewrite K1 K2 K3.
Qed.
End Snapshots.

Section Groups.
Variable G : galpy.
Lemma view6_inj z a b : in_pc z <> 0 -> in_kms z <> 0 -> view6 z a = view6 z b -> a = b.
Proof.
  move=> N1 N2. destruct a as [a1 a2 a3 a4 a5 a6], b as [b1 b2 b3 b4 b5 b6]. rewrite /view6; cbn. case=> *. f_equal; eapply Rmult_eq_reg_r; eassumption.
Qed.
Lemma nbody_centre c d u o u' o' : ready G c u o -> ready G d u' o' -> galactic_view G d = galactic_view G c -> c_sc d = c_sc c ->
  let x := match c_units c with Some Unbody => c | _ => to_nbody G c end in let y := match c_units d with Some Unbody => d | _ => to_nbody G d end in
  c_sc x = c_sc c /\ c_sc y = c_sc c /\ p_c (c_ph y) = p_c (c_ph x).
Proof.
  move=> R1 R2 V S. cbv zeta.
  have K : forall e v q, ready G e v q -> exists q', let x := match c_units e with Some Unbody => e | _ => to_nbody G e end in
    ready G x Unbody q' /\ galactic_view G x = galactic_view G e /\ c_sc x = c_sc e.
  { move=> e v q R. have E : c_units e = Some v by apply R. destruct (usys_eq_dec v Unbody) as [->|N].
    - exists q. rewrite E. by split.
    - have X : match c_units e with Some Unbody => e | _ => to_nbody G e end = to_units G (Ureq Unbody) e by rewrite E -(nbody_units R); destruct v.
      rewrite X. have [W1 [W2 [W3 _]]] := to_units_view R (u' := Unbody) ltac:(done). exists q. by split. }
  have [q1 [A1 [A2 A3]]] := K c u o R1. have [q2 [B1 [B2 B3]]] := K d u' o' R2. cbv zeta in A1, A2, A3, B1, B2, B3.
  move: (match c_units c with Some Unbody => c | _ => to_nbody G c end) A1 A2 A3 => x A1 A2 A3.
  move: (match c_units d with Some Unbody => d | _ => to_nbody G d end) B1 B2 B3 => y B1 B2 B3.
  have SY : c_sc y = c_sc c by rewrite B3. do 2 (split; [done|]).
  have E : galactic_view G y = galactic_view G x by rewrite B2 A2.
  have [[Z1 [Z2 [Z3 _]]] [UX _]] := A1. have [_ [UY _]] := B1.
  have := f_equal p_c E. rewrite /galactic_view UX UY SY A3. cbn [p_c]. apply: view6_inj; rewrite -A3; [exact Z2|exact Z3].
Qed.
Lemma list_of_same v k u o u' o' : ready G (g_c (h5_cat v)) u o -> ready G (g_c k) u' o' -> galactic_view G (g_c k) = galactic_view G (g_c (h5_cat v)) ->
  c_sc (g_c k) = c_sc (g_c (h5_cat v)) -> c_nb (g_c k) = c_nb (g_c (h5_cat v)) -> g_ns k = g_ns (h5_cat v) -> list_of G (put_group v k) = list_of G v.
Proof.
  move=> R1 R2 V S N NS.
  rewrite /list_of /put_group; cbn [h5_nc h5_np h5_cat h5_rc h5_rtide h5_rscale]. destruct (_ || _); [done|]. cbv zeta.
  have [X1 [X2 X3]] := nbody_centre R1 R2 V S. cbv zeta in X1, X2, X3.
  have M : forall e v q, ready G e v q -> c_nb (match c_units e with Some Unbody => e | _ => to_nbody G e end) = c_nb e.
  { move=> e w q R. have E : c_units e = Some w by apply R. rewrite E. have [_ [_ [_ [_ [_ W]]]]] := to_units_view R (u' := Unbody) ltac:(done).
    rewrite -(nbody_units R) in W. by destruct w. }
  have M1 := M _ _ _ R1. have M2 := M _ _ _ R2.
  move: (match c_units (g_c (h5_cat v)) with Some Unbody => _ | _ => _ end) X1 X3 M1 => x X1 X3 M1.
  move: (match c_units (g_c k) with Some Unbody => _ | _ => _ end) X2 X3 M2 => y X2 X3 M2.
  by rewrite X1 X2 X3 M1 M2 N NS.
Qed.
Lemma advance_h5_put D d o dt v k u q u' q' : ready G (g_c (h5_cat v)) u q -> ready G (g_c k) u' q' -> galactic_view G (g_c k) = galactic_view G (g_c (h5_cat v)) ->
  c_sc (g_c k) = c_sc (g_c (h5_cat v)) -> c_nb (g_c k) = c_nb (g_c (h5_cat v)) -> g_ns k = g_ns (h5_cat v) ->
  advance_h5 G D d o dt (put_group v k) = advance_h5 G D d o dt v.
Proof.
  move=> R1 R2 V S N NS. have E := list_of_same R1 R2 V S N NS. rewrite /advance_h5. rewrite /put_group in E |- *.
  cbn [h5_ngroup h5_ngroups h5_file h5_nsnap] in E |- *. rewrite E. by [].
Qed.
End Groups.
