(* Proofs: tail paths. *)
From Verif Require Import Base ModelCluster ModelOps ModelConv ModelEnergy ModelRecipes ModelCoords ModelLagrange ModelProfiles ModelStars ModelSubset ModelLoad ModelTail ModelOrbit.
From Verif Require Import SpecUnits SpecFrame SpecConv SpecOrder SpecRecipes SpecEnergy SpecLagrange SpecSubset SpecProfiles SpecDynamics SpecTail SpecOrbit.
From Verif Require Import ProofsUnits ProofsFrame ProofsConv ProofsCoords ProofsSees ProofsEnergy ProofsEnergy2 ProofsRecipes ProofsRecipes2 ProofsSubset2 ProofsCentre5 ProofsDynamics ProofsDynamics2 ProofsDynamics6 ProofsTail ProofsTail2 ProofsTail3 ProofsTail4 ProofsTail5 ProofsOrbit ProofsOrbit2 ProofsOrbit3.
From Verif Require ProofsMassFunction5.
Set Implicit Arguments. Unset Strict Implicit.

Definition rising (l : list R) := forall i j, (i <= j)%nat -> (j < length l)%nat -> nth i l 0 <= nth j l 0.
Lemma cell_iff hi v k : rising hi -> hi <> [] -> Z.eqb (bin_index1 hi v) (Z.of_nat k) = true <-> cell hi k v.
Proof.
  move=> HS HN. have H := @ss_prefix hi v HS. have L := ss_le hi v. have L0 : (0 < length hi)%nat by destruct hi => //=; lia.
  rewrite Z.eqb_eq /bin_index1 /cell. set n := searchsorted_right hi v in H L *. split.
  - move=> E. have Ek : k = Nat.min n (length hi - 1) by lia. split; [lia|]. split.
    + destruct k; [by left|right]. apply H; lia.
    + destruct (Nat.eq_dec (S k) (length hi)); [by right|left]. apply Rnot_le_lt => H'. apply H in H'; lia.
  - move=> [H1 [H2 H3]]. have K1 : (k <= n)%nat by destruct H2 as [->|H2]; [lia|]; destruct k; [lia|]; apply H in H2; lia.
    have K2 : (n <= k \/ S k = length hi)%nat by destruct H3 as [H3|H3]; [left|by right]; destruct (le_lt_dec n k) => //; have := proj2 (H k H1) l; lra.
    lia.
Qed.
Lemma in_cell lo hi k v : adjacent lo hi -> nth 0 lo 0 <= v <= nth (length hi - 1) hi 0 -> cell hi k v <-> in_bin lo hi k v.
Proof.
  move=> AD SP. have [L [N [W A]]] := AD. have NH : hi <> [] by destruct hi => //; destruct lo.
  have RS : rising hi by move=> i j H1 H2; apply (adj_hi AD) => //; by rewrite L.
  rewrite -(cell_iff _ _ RS NH). have [j [E B]] := bin_index_correct AD SP. rewrite E Z.eqb_eq. split.
  - move=> /Nat2Z.inj <- //.
  - move=> B'. by rewrite (in_bin_unique AD B B').
Qed.
Lemma select_combined {A B} sel (l : list A) (k : list B) : select sel (combine l k) = combine (select sel l) (select sel k).
Proof.
  revert l k; induction sel as [|b sel IH] => l k; [by destruct l, k|]. destruct l as [|x l]; [by destruct k, b|]. destruct k as [|y k]; [|by destruct b; cbn; rewrite IH].
  destruct b; cbn; [|by destruct (select sel l)]. reflexivity.
Qed.
Lemma mine_rows n (rows : list (six R)) sel (bi : list Z) b : length rows = n -> length sel = n -> length bi = n ->
  map snd (filter (fun q => Z.eqb (fst q) b) (combine (select sel bi) (select sel rows))) =
  map (fun i => nth i rows zero6) (filter (fun i => nth i sel false && Z.eqb (nth i bi 0%Z) b)%bool (seq 0 n)).
Proof.
  move=> L1 L2 L3. rewrite -select_combined.
  elim: n rows sel bi L1 L2 L3 => [|n IH] [|x rows] [|s sel] [|y bi] //= L1 L2 L3.
  rewrite -seq_shift filter_map_swap. cbn [nth].
  have E : filter (fun a => nth (S a) (s :: sel) false && Z.eqb (nth (S a) (y :: bi) 0%Z) b)%bool (seq 0 n) = filter (fun i => nth i sel false && Z.eqb (nth i bi 0%Z) b)%bool (seq 0 n) by [].
  destruct s; cbn [select andb].
  - cbn [filter fst]. destruct (Z.eqb y b); cbn [map snd]; rewrite map_map; [f_equal|]; apply IH; lia.
  - rewrite map_map. apply IH; lia.
Qed.
Lemma concat_one {A} (f : nat -> list A) (g : nat -> A) (ne : nat -> bool) l : (forall j, In j l -> f j = if ne j then [g j] else []) ->
  concat (map f l) = map g (filter ne l).
Proof.
  elim: l => [|j l IH] H //=. rewrite (H j (or_introl eq_refl)) IH; [move=> k Hk; apply H; by right|]. by destruct (ne j).
Qed.
Lemma filter_rising (p : nat -> bool) s m : forall a b, (a < b)%nat -> (b < length (filter p (seq s m)))%nat -> (nth a (filter p (seq s m)) 0 < nth b (filter p (seq s m)) 0)%nat.
Proof.
  elim: m s => [|m IH] s a b Hab Hb; [cbn in Hb; lia|]. cbn [seq filter] in Hb |- *.
  destruct (p s); [|by apply IH]. destruct b; [lia|]. cbn [length] in Hb. destruct a; cbn [nth].
  - have H := nth_In (filter p (seq (S s) m)) 0%nat (n := b) ltac:(lia). apply filter_In in H. destruct H as [H _]. apply in_seq in H. lia.
  - apply IH; lia.
Qed.

Section WithGalpy.
Variable G : galpy.
Theorem tail_ok ev tfinal no nt ntail dmax bt fc tp b c u o : lawful ev -> ready G c u o -> SpecFrame.aligned c -> (2 <= no)%nat ->
  let z := unit_size G (c_sc c) u in let zk := unit_size G (c_sc c) Ukpckms in
  exists pth, own_path G ev c fc (gyr tfinal) no pth /\
  forall bn, tail_bins bt (map fst pth) nt ntail = Ok bn -> rising (b_hi bn) -> b_hi bn <> [] -> length (b_mid bn) = length (b_hi bn) ->
  exists ms p D c3 out, tail_path G ev tfinal no nt ntail dmax bt fc tp false b None None c = Ok (out, return_cluster G (save_cluster c) c3) /\ sees G c c3 /\
    now (map fst pth) p /\ (forall j k, (j <= k)%nat -> (k < length pth)%nat -> 0 <= D k - D j <= arc b (map snd pth) j k) /\ length ms = nstars c /\
    (forall i, (i < nstars c)%nat -> star_match b tp zk (map fst pth) (map snd pth) D p (star_kpc G c i) (nth i ms (0, 0, None))) /\
    tail_points (nstars c) (fun j i => cell (b_hi bn) j (fst (fst (nth i ms (0, 0, None)))) /\ near zk z dmax (snd (nth i ms (0, 0, None))))
      (b_mid bn) (star_kpc G c) z (vel_system u /\ ~ factor_forgotten Ukpckms u) out.
Proof.
  move=> HE HR HL NO z zk. have [S1 R1] := frame_ok HR. have [V [_ [SC _]]] := S1. have [HS [Hu [Hl [Ho Hf]]]] := HR.
  have [pth [orb [E1 E2]]] := @own_path_ok G ev tfinal no fc c (match_frame G c) Ogalaxy HE R1 V SC NO None None eq_refl eq_refl.
  exists pth. split; [exact E2|]. move=> bn B1 B2 B3 B4.
  set c1 := match_frame G c in S1 R1 V SC E1 *.
  have [S2' [R2 SC2]] := returned R1 (proj1 (ready_galpy R1)). set c2 := return_cluster G (save_cluster c1) (to_galpy G c1) in E1 S2' R2 SC2 *.
  have S2 := sees_trans S1 S2'. have LP : length pth = no by case: E2. have NP : pth <> [] by move=> E; rewrite E /= in LP; lia.
  have [V2 _] := S2. have [AL2 N2] := view_aligned V2 HL.
  have [ms [p [D [M1 [M2 [M3 [_ [M5 M6]]]]]]]] := @match_ok G pth tp b c2 Ukpckms Ogalaxy R2 AL2 NP ltac:(move=> _; lia).
  have [S3'' R3''] := frame_ok R2. have [S3' [R3 SC3]] := returned R2 S3''. set c3 := return_cluster G (save_cluster c2) (match_frame G c2) in M1 S3' R3 SC3.
  have S3 := sees_trans S2 S3'. rewrite N2 in M5 M6. rewrite SC2 SC in M6.
  have [_ [_ [LN ST]]] := kpc_rows S3 R3 HL (ex_intro _ u (ex_intro _ o HR)).
  have [RC0 [RC1 RC2]] := returned HR S3. set c' := return_cluster G (save_cluster c) c3 in RC0 RC1 RC2.
  set rows := rows6 (p_s (c_ph c3)) in LN ST.
  set dm := match dmax, c_units c with Some d, Some u => Some (convert_length d u c1) | _, _ => dmax end.
  set sel := match dm with None => map (fun _ => true) ms
             | Some d => map (fun a : R * R * num => match snd a with None => false | Some x => Rleb (Rabs x) d end) ms end.
  set bi := bin_index (map (fun a => fst (fst a)) ms) (b_lo bn) (b_hi bn).
  have LS : length sel = nstars c by rewrite /sel; destruct dm; rewrite map_length.
  have LB : length bi = nstars c by rewrite /bi /bin_index !map_length.
  have SEL : forall i, (i < nstars c)%nat -> nth i sel false = true <-> near zk z dmax (snd (nth i ms (0, 0, None))).
  { move=> i Hi. rewrite /sel /dm Hu. destruct dmax as [d|]; cbn [near].
    - have ED : convert_length d u c1 = d * in_pc z / 1000.
      { have [N1 _] := R1. have [_ [Hu1 [Hl1 _]]] := R1. rewrite (@length_correct G c1 u Ukpckms d) // /rsc SC -/z. have -> : in_pc (unit_size G (c_sc c) Ukpckms) = 1000 by []. field. }
      rewrite (@nth_map' _ _ _ ms i false (0, 0, None)); [by rewrite M5|]. destruct (snd (nth i ms (0, 0, None))) as [x|]; [|by split].
      rewrite Rleb_spec ED. have -> : in_pc zk = 1000 by []. split => H; lra.
    - rewrite (@nth_map' _ _ _ ms i false (0, 0, None)); [by rewrite M5|]. by split. }
  have BI : forall i, (i < nstars c)%nat -> nth i bi 0%Z = bin_index1 (b_hi bn) (fst (fst (nth i ms (0, 0, None)))).
  { move=> i Hi. rewrite /bi /bin_index (@nth_map' _ _ _ (map (fun a => fst (fst a)) ms) i 0%Z 0); [by rewrite map_length M5|]. f_equal.
    rewrite (@nth_map' _ _ _ ms i 0 (0, 0, None)); [by rewrite M5|]. by []. }
  set mem := fun j i => (nth i sel false && Z.eqb (nth i bi 0%Z) (Z.of_nat j))%bool.
  have MEM : forall j i, (i < nstars c)%nat -> mem j i = true <-> cell (b_hi bn) j (fst (fst (nth i ms (0, 0, None)))) /\ near zk z dmax (snd (nth i ms (0, 0, None))).
  { move=> j i Hi. rewrite /mem BI // andb_true_iff SEL // (cell_iff _ _ B2 B3). tauto. }
  set ne := fun j => negb (Nat.eqb (length (filter (mem j) (seq 0 (nstars c)))) 0).
  set g := fun j => (nth j (b_mid bn) 0, mean6 (map (fun i => star_kpc G c i) (filter (mem j) (seq 0 (nstars c))))).
  have TP : forall j, tail_point rows sel bi (nth j (b_mid bn) 0) j = if ne j then [g j] else [].
  { move=> j. rewrite /tail_point (mine_rows (Z.of_nat j) LN LS LB) -/(mem j).
    have EM : map (fun i => nth i rows zero6) (filter (mem j) (seq 0 (nstars c))) = map (fun i => star_kpc G c i) (filter (mem j) (seq 0 (nstars c))).
    { apply map_ext_in => i /filter_In [/in_seq Hi _]. apply ST. lia. }
    rewrite EM /ne /g. destruct (filter (mem j) (seq 0 (nstars c))) as [|i l]; [by []|]. cbn [map length Nat.eqb negb]. reflexivity. }
  set js := filter ne (seq 0 (length (b_mid bn))).
  have EC : concat (map (fun j => tail_point rows sel bi (nth j (b_mid bn) 0) j) (seq 0 (length (b_mid bn)))) = map g js.
  { apply concat_one => j _. exact (TP j). }
  set conv := fun a : R * six R => (convert_time G (fst a) Ukpckms c', convert6 (snd a) Ukpckms c').
  exists ms, p, D, c3, (map conv (map g js)).
  split.
  { rewrite /tail_path -/c1 -/dm E1. cbn [bind]. rewrite B1. cbn [bind]. rewrite M1. cbn [bind]. rewrite -/sel -/bi.
    have -> : existsb (fun i => Z.ltb i 0) (select sel bi) = false.
    { apply not_true_is_false => /existsb_exists [i [I /Z.ltb_lt H]]. apply ProofsMassFunction5.select_In in I. rewrite /bi /bin_index in I. apply in_map_iff in I. destruct I as [w [<- _]].
      rewrite /bin_index1 in H. have : (0 < length (b_hi bn))%nat by destruct (b_hi bn) => //=; lia. lia. }
    rewrite -/rows EC. reflexivity. }
  split; [exact S3|]. split; [exact M2|]. split; [exact M3|]. split; [exact M5|]. split.
  { move=> i Hi. have H := M6 i Hi. have ES : star_kpc G c2 i = star_kpc G c i by rewrite /star_kpc V2. by rewrite ES in H. }
  exists js. split; [by apply filter_rising|]. split; [|split; [by rewrite !map_length|]].
  - move=> j. rewrite /js filter_In in_seq /ne. split.
    + move=> [H1 H2]. split; [lia|]. destruct (filter (mem j) (seq 0 (nstars c))) as [|i l] eqn:EF; [by []|].
      have I : In i (filter (mem j) (seq 0 (nstars c))) by rewrite EF; left. apply filter_In in I. move: I => [/in_seq I1 I2]. exists i. split; [lia|]. apply MEM => //. lia.
    + move=> [H1 [i [H2 H3]]]. split; [lia|]. apply MEM in H3 => //.
      have I : In i (filter (mem j) (seq 0 (nstars c))) by apply filter_In; split => //; apply in_seq; lia.
      by destruct (filter (mem j) (seq 0 (nstars c))).
  - move=> k Hk j. set sl := filter (mem j) (seq 0 (nstars c)).
    exists sl, (filter (fun i => negb (mem j i)) (seq 0 (nstars c))).
    have EK : nth k (map conv (map g js)) (0, zero6) = conv (g j).
    { rewrite (@nth_map' _ _ conv (map g js) k (0, zero6) (0, zero6)); [by rewrite map_length|]. by rewrite (@nth_map' _ _ g js k (0, zero6) 0%nat). }
    rewrite EK. cbn [conv fst snd]. rewrite /g. cbn [fst snd]. rewrite -/sl.
    split; [apply filter_split|]. split; [|split; [|split; [|split]]].
    + apply Forall_forall => i /filter_In [/in_seq Hi H]. apply MEM => //. lia.
    + apply Forall_forall => i /filter_In [/in_seq Hi H] H'. apply MEM in H'; [|lia]. by rewrite H' in H.
    + rewrite /z -RC2. exact (time_kpc _ RC1).
    + rewrite /z -RC2. exact (convert6_place _ RC1).
    + move=> [V3 V4]. rewrite /z -RC2. exact (convert6_motion _ RC1 V3 V4).
Qed.
End WithGalpy.
