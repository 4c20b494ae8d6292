(* Proofs: circular velocity profiles. *)
From Coq Require Import Sorted.
From Verif Require Import Base ModelCluster ModelOps ModelConv ModelEnergy ModelRecipes ModelStars ModelSubset ModelCoords ModelLagrange ModelProfiles.
From Verif Require Import SpecUnits SpecFrame SpecOrder SpecRecipes SpecEnergy SpecStars SpecSubset SpecLagrange SpecProfiles.
From Verif Require Import ProofsUnits ProofsFrame ProofsOrder ProofsSort ProofsSees ProofsEnergy ProofsVR ProofsRecipes ProofsRecipes2 ProofsRecipes4 ProofsCoords ProofsLagrange ProofsSubset ProofsSubset2 ProofsSubset4 ProofsProfiles ProofsProfiles2 ProofsProfiles3 ProofsCentre ProofsCentre4 ProofsProfiles4 ProofsProfiles5.
Set Implicit Arguments. Unset Strict Implicit.

Lemma nth_take {A} (d : A) l o k : (k < length o)%nat -> nth k (take d l o) d = nth (nth k o 0%nat) l d.
Proof. move=> H. rewrite /take. by rewrite (@nth_map' _ _ (fun i => nth i l d) o k d 0%nat). Qed.
Lemma take_length {A} (d : A) l o : length (take d l o) = length o. Proof. by rewrite /take map_length. Qed.

Lemma sorted_values d o : StronglySorted (fun i j => nth i d 0 <= nth j d 0) o -> StronglySorted Rle (take 0 d o).
Proof.
  rewrite /take => S. induction S as [|i l S IH Fa]; cbn; constructor => //.
  apply Forall_forall => x /in_map_iff [j [<- I]]. move: Fa; rewrite Forall_forall => Fa. by apply Fa.
Qed.

(* the curve over the sorted stars *)
Lemma curve_ok grav d m o : length d = length m -> nonneg m -> sorted_order o d -> (forall r, In r d -> r <> 0) -> d <> [] ->
  exists vc vmax, all_some (zip_with (circular_speed grav) (cumsum (take 0 m o)) (take 0 d o)) = Some vc /\ length vc = length d /\
    amax vc = Some vmax /\ greatest vc vmax /\
    (forall k, (k < length d)%nat -> rotation_point grav d m (nth k (take 0 d o) 0) (nth k vc 0)) /\
    forall r, In r d -> exists k, (k < length d)%nat /\ nth k (take 0 d o) 0 = r /\ nth k vc 0 = sqrt (grav * weight_within d m r / r).
Proof.
  move=> L Hn HO Hz Hne. have Lo : length o = length d by have [P _] := HO; rewrite (Permutation_length P) seq_length.
  have Lz : length (zip_with (circular_speed grav) (cumsum (take 0 m o)) (take 0 d o)) = length d.
  { rewrite zip_with_length /cumsum cumsum_length !take_length Lo. lia. }
  have En : forall k, (k < length d)%nat -> nth k (zip_with (circular_speed grav) (cumsum (take 0 m o)) (take 0 d o)) None =
     circular_speed grav (nth k (cumsum (take 0 m o)) 0) (nth (nth k o 0%nat) d 0).
  { move=> k Hk. rewrite (@nth_zip_with _ _ _ _ _ _ k 0 0 None); rewrite ?/cumsum ?cumsum_length ?take_length ?Lo //. by rewrite nth_take ?Lo. }
  have Cs : forall k, (k < length d)%nat -> circular_speed grav (nth k (cumsum (take 0 m o)) 0) (nth (nth k o 0%nat) d 0) =
     Some (sqrt (grav * nth k (cumsum (take 0 m o)) 0 / nth (nth k o 0%nat) d 0)).
  { move=> k Hk. have [Hi _] := prefix_weight L Hn HO Hk. rewrite /circular_speed.
    destruct (Reqb (nth (nth k o 0%nat) d 0) 0) eqn:E0 => //. apply Reqb_spec in E0. case: (Hz _ (nth_In _ 0 Hi)). exact E0. }
  have [|vc [V1 [V2 V3]]] := @all_some_spec R (zip_with (circular_speed grav) (cumsum (take 0 m o)) (take 0 d o)) 0.
  { move=> a /(In_nth _ _ None) [k [Hk <-]]. rewrite Lz in Hk. by rewrite En // Cs. }
  rewrite Lz in V2 V3. have [vmax Em] : exists v, amax vc = Some v.
  { destruct vc; [destruct d => //|cbn; by eexists]. }
  exists vc, vmax. split; [exact V1|]. split=> //. split=> //. split; [exact: amax_greatest|].
  split.
  - move=> k Hk. have := V3 k Hk. rewrite En // Cs //. case=> <-. rewrite nth_take ?Lo //.
    have [Hi [B E]] := prefix_weight L Hn HO Hk. split; [exact: nth_In|]. exists (nth k (cumsum (take 0 m o)) 0).
    split=> //. split=> //. move=> ND. apply E => k' Hk' Ek. have [Hi' _] := prefix_weight L Hn HO (k := k') ltac:(lia).
    move/NoDup_nth: ND => ND. have X := ND 0 _ _ Hi' Hi Ek.
    have NO : NoDup o by have [P _] := HO; apply (Permutation_NoDup (Permutation_sym P)), seq_NoDup.
    move/NoDup_nth: NO => NO. have := NO 0%nat k' k ltac:(lia) ltac:(lia) X. lia.
  - move=> r I. have [P _] := HO. have [i [Hi Ei]] := In_nth _ _ 0 I.
    have Io : In i o by apply (Permutation_in _ (Permutation_sym P)), in_seq; lia.
    have [k [Hk Ek]] := In_nth _ _ 0%nat Io. rewrite Lo in Hk.
    have [k' [A [B C]]] := last_at HO Hk. rewrite Ek Ei in B. exists k'. split; [lia|]. rewrite nth_take ?Lo //; [lia|]. split=> //.
    have [Hi' [_ E]] := prefix_weight L Hn HO (k := k') ltac:(lia). have := V3 k' ltac:(lia). rewrite En; [lia|]. rewrite Cs; [lia|]. case=> <-.
    rewrite (E C) B //.
Qed.

Lemma sorted_counts l i : StronglySorted Rle l -> (i < length l)%nat ->
  (length (filter (fun y => Rltb y (nth i l 0%R)) l) <= i)%nat /\ (i < length (filter (fun y => Rleb y (nth i l 0%R)) l))%nat.
Proof.
  move=> SS Hi. have [l1 [l2 [E L1]]] := nth_split l 0 Hi. set x := nth i l 0 in E *. move: x E => x E. subst l.
  have [F1 F2] := SS_app_r SS. rewrite !filter_app !app_length.
  have X1 : filter (fun y => Rltb y x) (x :: l2) = [].
  { apply filter_none => y [<-|I]; apply Rltb_false; [lra|]. move: F2; rewrite Forall_forall => F2. by apply F2. }
  have X2 : filter (fun y => Rleb y x) l1 = l1.
  { apply filter_all => y I. apply Rleb_spec. move: F1; rewrite Forall_forall => F1. by apply F1. }
  rewrite X1 X2. cbn [filter]. have -> : Rleb x x = true by apply Rleb_spec; lra. cbn [length].
  have := filter_length_le (fun y => Rltb y x) l1. lia.
Qed.

Section WithGalpy.
Variable G : galpy.

Lemma grav_frame c u o norm : ready G c u o -> get_grav (vcirc_frame G norm c) = get_grav c.
Proof.
  move=> HR. have [HS [Hu [Hl [Ho Hf]]]] := HR. rewrite /vcirc_frame.
  have [u0 [L0 [N0 [O0 E0]]]] : exists u0, linear u0 /\ c_units (match c_units c with Some Uamuse => to_pckms G c | _ => c end) = Some u0 /\
     c_origin (match c_units c with Some Uamuse => to_pckms G c | _ => c end) = Some o /\
     get_grav (match c_units c with Some Uamuse => to_pckms G c | _ => c end) = get_grav c.
  { rewrite Hu. destruct u; try (by eexists; split; [exact Hl|split; [exact Hu|split]]).
    have E : to_units G (Ureq Upckms) c = to_pckms G c by rewrite /to_units Hu.
    have L : linear Upckms by [].
    have F := skel_eq_fields (to_units_lin HS Hu Hl L). rewrite E in F. destruct F as [F1 [F2 _]]. exists Upckms. cbn in F1, F2.
    split=> //. split=> //. split; [by rewrite F2|]. by rewrite /get_grav F1 Hu. }
  move: (match c_units c with Some Uamuse => to_pckms G c | _ => c end) N0 O0 E0 => c0 N0 O0 E0. rewrite -E0.
  have SO := sortstars_same true c0. destruct SO as [_ [SU _]].
  rewrite Ho. destruct o; [by rewrite /get_grav SU|by rewrite /get_grav SU| |by case: Hf].
  have [K1 _] := skel_eq_fields (to_centre_flat norm N0 L0 O0 Hf). by rewrite /get_grav K1.
Qed.

Lemma grav_pos c : 0 <= get_grav c.
Proof. rewrite /get_grav. destruct (c_units c) as [[]|]; rewrite ?/kms; try lra; apply Rmult_le_pos; try lra; apply pow2_ge_0. Qed.
Section OneSystem.
Variables (q : selection) (indx : option (list bool)) (s : system) (n : nat) (bt : bintype) (u : usys) (o : osys).
Let c := g_c (y_k s).
Let d := own_distances (l_projected q) c.
Let m := p_m (c_ph c).
Hypotheses (HR : ready G c u o) (HP : positive_scales G (c_sc c)) (HM : measured s n) (EK : energies_known q s n)
  (MF : mask_fits indx n) (HL : SpecFrame.aligned c) (HW : well_sorted (l_projected q) c)
  (Hp : l_projected q = true -> c_origin c <> Some Ogalaxy) (Hm : nonneg m) (Hs : 0 < sumR m).
Let HA : analyze true true c = c. Proof. exact (proj1 HW). Qed.
Let Ld : length d = n. Proof. by rewrite /d (own_radius q HM) map_length seq_length. Qed.
Let Lm : length m = n. Proof. exact (proj1 (proj2 (proj1 HM))). Qed.
Let Hn : (1 <= n)%nat. Proof. rewrite -Lm. destruct m; cbn in *; [lra|lia]. Qed.
Let L6 : six_length (p_s (c_ph c)) n. Proof. exact (proj1 (proj1 HM)). Qed.

(* what the routine works on *)
Lemma vcirc_setup norm : c_origin c <> Some Ogalaxy \/ norm = true ->
  exists c1 ord msk caller, vcirc_frame G norm c = c1 /\ own_framed G c c1 n /\
    (if l_projected q then d_rproorder (c_der c1) else d_rorder (c_der c1)) = Some ord /\
    (if l_projected q then d_rpro (c_der c1) else d_r (c_der c1)) = d /\ p_m (c_ph c1) = m /\ sorted_order ord d /\
    get_subset q indx (sys_with s c1) = Ok (Some msk, caller) /\ length msk = n /\
    (forall i, (i < n)%nat -> nth i msk false = true <-> asked q indx s i) /\
    (exists h, half_mass (l_projected q) c1 = Some h /\ is_fraction_radius (1/2) d m h) /\
    d_r (c_der c1) = own_distances false c.
Proof.
  move=> Hn'. have FO := vcirc_frame_ok norm HR HA L6. have F := frame_ok HR HP HL HW.
  have [h [H1 H2]] := frame_half HR HP HL HW Hp Hm Hs. rewrite -(vcirc_lagrange HR Hn') in F H1.
  have [u1 [o1 [R1 [R2 [R3 [R4 R5]]]]]] := sees_ready (fr_sees F).
  have [ord [O1 [O2 [O3 O4]]]] := frame_order F (ex_intro _ o1 R4) HW Hp.
  have M1 := framed_measured FO HM.
  have [msk [Q [L W]]] := @subset_mask q indx (sys_with s (vcirc_frame G norm c)) n M1 Hn EK MF.
  exists (vcirc_frame G norm c), ord, msk. eexists. split; [reflexivity|]. split; [exact FO|]. split; [exact O1|]. split; [exact O2|].
  split; [exact (fr_m F)|]. split; [exact O3|]. split; [exact Q|]. split; [exact L|]. split.
  - move=> i Hi. rewrite W // /asked. by rewrite (@framed_satisfies G s _ n i q FO Lm Hi).
  - split; [exists h; by split|]. rewrite -(fr_dist F) distances_eq. have [ro [rp [E _]]] := vord_settled R4 (fr_settled F) (fr_vord F). by rewrite E.
Qed.

Theorem vcirc_prof_all norm nrad : c_origin c <> Some Ogalaxy \/ norm = true ->
  (forall i, (i < n)%nat -> asked q indx s i) -> (forall i, (i < n)%nat -> radius_of q s i <> 0) ->
  match nrad with Some k => (0 < k)%nat /\ ~ constant (own_distances false c) | None => True end ->
  exists r v rvmax vmax s' caller h rad,
    vcirc_prof G q indx None nrad bt norm s = Ok (r, v, rvmax, vmax, s', caller) /\
    scaled norm (Some h) rad r /\ is_fraction_radius (1/2) d m h /\ length v = length rad /\
    (forall k, (k < length rad)%nat -> rotation_point (get_grav c) d m (nth k rad 0) (nth k v 0)) /\
    match nrad with
    | None => Permutation rad d /\ StronglySorted Rle rad
    | Some k => (length rad <= k)%nat
    end /\
    (In rvmax d /\ vmax = sqrt (get_grav c * weight_within d m rvmax / rvmax) /\
     forall x, In x d -> sqrt (get_grav c * weight_within d m x / x) <= vmax) /\
    system_restored s s'.
Proof.
  move=> Ho HS HZ Hk. have [c1 [ord [msk [caller [E1 [F [E2 [E3 [E4 [E5 [E6 [E7 [E8 [[h [E9 E10]] ED]]]]]]]]]]]]]] := vcirc_setup Ho.
  have Hz : forall r, In r d -> r <> 0.
  { rewrite /d (own_radius q HM) => r /in_map_iff [i [<- /in_seq Hi]]. apply HZ. lia. }
  have Hpos : forall r, In r d -> 0 < r.
  { move=> r I. have := Hz r I. move: I. rewrite /d (own_radius q HM) => /in_map_iff [i [<- _]]. have := radius_nonneg q s i. lra. }
  have Lo : length ord = n by have [P _] := E5; rewrite (Permutation_length P) seq_length Ld.
  have Hne : d <> [] by move=> E; have X := Ld; rewrite E in X; cbn in X; lia.
  have Ldm : length d = length m by rewrite Ld Lm.
  have [vc [vmax [V1 [V2 [V3 [V4 [V5 V6]]]]]]] := curve_ok (get_grav c) Ldm Hm E5 Hz Hne.
  rewrite /vcirc_prof -/c. cbn zeta. rewrite E1 E2 E3 E4 E6. cbn [bind fst snd].
  have FT : Forall (fun b => b = true) msk.
  { apply Forall_forall => b /(In_nth _ _ false) [i [Hi <-]]. apply E8; [by rewrite -E7|]. apply HS. by rewrite -E7. }
  rewrite !masked_ok ?E7 ?take_length ?Lo //. cbn [bind]. rewrite (@select_all _ msk (take 0 d ord)) ?(@select_all _ msk (take 0 m ord)) ?E7 ?take_length ?Lo //.
  have EG : get_grav c1 = get_grav c by rewrite -E1; apply (grav_frame norm HR).
  rewrite EG V1 V3.
  have PD : Permutation (take 0 d ord) d.
  { have [P _] := E5. rewrite {2}(_ : d = take 0 d (seq 0 (length d))); [|by rewrite /take; apply Permutation_map].
    rewrite /take. apply (nth_ext _ _ 0 0); [by rewrite map_length seq_length|]. move=> i Hi. by rewrite nth_map_seq. }
  have SD : StronglySorted Rle (take 0 d ord).
  { have [_ S] := E5. exact (sorted_values S). }
  have Lt : length (take 0 d ord) = n by rewrite take_length.
  have [args [A1 [A2 A3]]] : exists args, (match nrad with
                | Some k => bind (profile_bins None (select msk (d_r (c_der c1))) k bt)
                                       (fun e => let '(_, mid, _) := e in Ok (all_some (map (nearest_index (take 0 d ord)) mid)))
                | None => Ok (Some (seq 0 n))
                end) = Ok (Some args) /\ (forall a, In a args -> (a < n)%nat) /\
      match nrad with Some k => (length args <= k)%nat | None => args = seq 0 n end.
  { destruct nrad as [k|].
    2:{ exists (seq 0 n). split=> //. split=> // a /in_seq. lia. }
    have Nx : select msk (d_r (c_der c1)) <> [].
    { have [_ [_ [Lr _]]] := framed_measured F HM. cbn in Lr. rewrite select_all ?E7 //. move=> E0; rewrite E0 in Lr; cbn in Lr; lia. }
    have [Hk0 NC] := Hk.
    have NC' : bt = Num -> ~ constant (select msk (d_r (c_der c1))).
    { move=> _. have [_ [_ [Lr _]]] := framed_measured F HM. cbn in Lr. rewrite select_all ?E7 // ED. exact NC. }
    have [b [Eb [Ad [Sp [_ Lb]]]]] := @own_bins_ok (select msk (d_r (c_der c1))) k bt Linear Nx Hk0 NC' ltac:(by []).
    have Lmid : length (b_mid b) = length (b_lo b) by apply (own_bins_mid Eb); destruct Ad.
    rewrite /profile_bins Eb. cbn [bind].
    have Nt : take 0 d ord <> [] by move=> E0; rewrite E0 in Lt; cbn in Lt; lia.
    have [|ks [K1 [K2 K3]]] := @all_some_spec nat (map (nearest_index (take 0 d ord)) (b_mid b)) 0%nat.
    { move=> a /in_map_iff [x [<- _]]. have [i [-> _]] := nearest_ok x Nt. by []. }
    rewrite K1. exists ks. split=> //. rewrite map_length in K2 K3. split; [|rewrite K2; lia].
    move=> a /(In_nth _ _ 0%nat) [i [Hi <-]]. rewrite K2 in Hi. have X := K3 i Hi.
    rewrite (@nth_map' _ _ (nearest_index (take 0 d ord)) (b_mid b) i None 0) // in X.
    have [j [J1 [J2 _]]] := nearest_ok (nth i (b_mid b) 0) Nt. rewrite J1 in X. case: X => <-. by rewrite -Lt. }
  cbv iota. rewrite A1. cbn [bind].
  rewrite E9. have [r' [R1 R2]] : exists r', radii_over norm (Some h) (take 0 (take 0 d ord) args) = Ok r' /\
     scaled norm (Some h) (take 0 (take 0 d ord) args) r'.
  { by apply (@radii_over_ok norm). }
  rewrite R1. cbn [bind].
  exists r', (take 0 vc args). do 4 eexists. exists h, (take 0 (take 0 d ord) args). split; [reflexivity|]. split; [exact R2|]. split; [exact E10|].
  split; [by rewrite !take_length|]. split.
  { rewrite take_length => k Hk'. rewrite (@nth_take _ 0 (take 0 d ord)) // (@nth_take _ 0 vc) //. apply V5. rewrite Ld. apply A2. by apply nth_In. }
  split.
  { destruct nrad as [k|]; [by rewrite take_length|]. subst args. rewrite (_ : take 0 (take 0 d ord) (seq 0 n) = take 0 d ord) //.
    rewrite -Lt. apply (nth_ext _ _ 0 0); [by rewrite take_length seq_length|]. move=> i. rewrite take_length seq_length => Hi.
    rewrite (@nth_take _ 0 (take 0 d ord)) ?seq_length // seq_nth //. }
  split.
  - have [[IM LM] [X1 X2]] := (V4, index_of_nth (proj1 V4)). rewrite V2 in X1.
    have [Ir [M [EM [BM _]]]] := V5 _ X1. rewrite X2 in EM. split; [exact Ir|].
    have UP : forall x, In x d -> sqrt (get_grav c * weight_within d m x / x) <= vmax.
    { move=> x Ix. have [k [Hk1 [_ <-]]] := V6 x Ix. apply LM, nth_In. by rewrite V2. }
    split; [|exact UP]. apply Rle_antisym; [|exact (UP _ Ir)]. rewrite {1}EM. apply sqrt_le_1_alt.
    have PR := Hpos _ Ir. have GP := grav_pos c. apply Rmult_le_compat_r; [left; by apply Rinv_0_lt_compat|]. nra.
  - apply (sys_restored HR HA). exact (of_sees F).
Qed.

(* only one star is asked for: the answer describes the star whose rank by distance is that star's index *)
Theorem vcirc_prof_single i norm : c_origin c <> Some Ogalaxy \/ norm = true -> norm = false ->
  (i < n)%nat -> (forall j, (j < n)%nat -> asked q indx s j <-> j = i) -> (forall j, (j < n)%nat -> radius_of q s j <> 0) ->
  exists x v rvmax vmax s' caller, vcirc_prof G q indx None None bt norm s = Ok ([x], v, rvmax, vmax, s', caller) /\
    In x d /\ (length (filter (fun y => Rltb y x) d) <= i)%nat /\ (i < length (filter (fun y => Rleb y x) d))%nat.
Proof.
  move=> Ho EN Hi HS HZ. have [c1 [ord [msk [caller [E1 [F [E2 [E3 [E4 [E5 [E6 [E7 [E8 [[h [E9 E10]] ED]]]]]]]]]]]]]] := vcirc_setup Ho.
  have Hz : forall r, In r d -> r <> 0.
  { rewrite /d (own_radius q HM) => r /in_map_iff [j [<- /in_seq Hj]]. apply HZ. lia. }
  have Lo : length ord = n by have [P _] := E5; rewrite (Permutation_length P) seq_length Ld.
  have CH : chosen msk = [i].
  { have [ND CI] : members n (fun j => j = i) (chosen msk).
    { apply chosen_members => // j Hj. rewrite E8 //. by apply HS. }
    have Ii : In i (chosen msk) by apply CI. 
    destruct (chosen msk) as [|a [|b l]] => //.
    - have [_ ->] : (a < n)%nat /\ a = i by apply CI; left. by [].
    - have [_ Ea] : (a < n)%nat /\ a = i by apply CI; left. have [_ Eb] : (b < n)%nat /\ b = i by apply CI; right; left.
      subst. inversion ND as [|? ? N]. case: N. by left. }
  have SE : forall l, length l = n -> select msk l = [nth i l 0] by move=> l Ll; rewrite (@select_row _ 0) ?E7 ?CH.
  rewrite /vcirc_prof -/c. cbn zeta. rewrite E1 E2 E3 E4 E6. cbn [bind fst snd].
  rewrite !masked_ok ?E7 ?take_length ?Lo //. cbn [bind].
  rewrite (SE (take 0 d ord)) ?(SE (take 0 m ord)) ?take_length //.
  have PD : Permutation (take 0 d ord) d.
  { have [P _] := E5. rewrite {2}(_ : d = take 0 d (seq 0 (length d))); [|by rewrite /take; apply Permutation_map].
    rewrite /take. apply (nth_ext _ _ 0 0); [by rewrite map_length seq_length|]. move=> j Hj. by rewrite nth_map_seq. }
  have SD : StronglySorted Rle (take 0 d ord) by have [_ S] := E5; exact (sorted_values S).
  have Lt : length (take 0 d ord) = n by rewrite take_length.
  have Ix : In (nth i (take 0 d ord) 0) d by apply (Permutation_in _ PD), nth_In; rewrite Lt.
  cbn [cumsum cumsum_from zip_with]. rewrite /circular_speed.
  destruct (Reqb (nth i (take 0 d ord) 0) 0) eqn:E0; [apply Reqb_spec in E0; by case: (Hz _ Ix)|].
  cbn [all_some option_map amax fold_left bind length seq]. rewrite EN. cbn [radii_over bind].
  do 6 eexists. split; [reflexivity|]. split; [exact Ix|].
  have [C1 C2] := sorted_counts SD (i := i) ltac:(by rewrite Lt).
  rewrite (Permutation_length (filter_perm _ PD)) in C1. rewrite (Permutation_length (filter_perm _ PD)) in C2. by split.
Qed.
End OneSystem.
End WithGalpy.
