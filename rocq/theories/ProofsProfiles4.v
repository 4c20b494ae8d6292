(* Proofs: velocity profiles. *)
From Coq Require Import Sorted.
From Verif Require Import Base ModelCluster ModelOps ModelConv ModelEnergy ModelRecipes ModelStars ModelSubset ModelCoords ModelLagrange ModelProfiles.
From Verif Require Import SpecUnits SpecFrame SpecOrder SpecRecipes SpecEnergy SpecStars SpecSubset SpecLagrange SpecProfiles.
From Verif Require Import ProofsUnits ProofsFrame ProofsOrder ProofsSort ProofsSees ProofsEnergy ProofsVR ProofsRecipes ProofsRecipes2 ProofsRecipes4 ProofsCoords ProofsLagrange ProofsSubset ProofsSubset2 ProofsSubset4 ProofsProfiles ProofsProfiles2 ProofsProfiles3.
Set Implicit Arguments. Unset Strict Implicit.

(* ---------------------------------------------------------------- components *)
Lemma cyl_components p : radius6 true p <> 0 ->
  sx (cart_to_cyl p) = radius6 true p /\ svx (cart_to_cyl p) = radial_velocity true p /\ svy (cart_to_cyl p) = azimuthal_velocity p.
Proof.
  move=> H. have [_ [A [_ [_ [B [C _]]]]]] := cyl_round_trip p. rewrite /radial_velocity /azimuthal_velocity.
  have E : cylrad p = radius6 true p by [].
  split; [exact A|]. rewrite E in B C. split; apply (Rmult_eq_reg_l (radius6 true p)) => //; [rewrite B|rewrite C]; field; exact H.
Qed.
Lemma cyl_radius p : sx (cart_to_cyl p) = radius6 true p /\ svz (cart_to_cyl p) = svz p.
Proof. have [_ [A [_ [_ [_ [_ [B _]]]]]]] := cyl_round_trip p. by split. Qed.
Lemma sphere_radius p : h_r (cart_to_sphere p) = radius6 false p. Proof. done. Qed.
Lemma axis_zero p : radius6 true p <> 0 -> radius6 false p <> 0.
Proof.
  rewrite /radius6 => H E. apply H. have E2 := @sqrt_eq_0 (sx p ^ 2 + sy p ^ 2 + sz p ^ 2).
  have P1 := pow2_ge_0 (sx p). have P2 := pow2_ge_0 (sy p). have P3 := pow2_ge_0 (sz p).
  have {}E2 := E2 ltac:(lra) E. have -> : sx p ^ 2 + sy p ^ 2 = 0 by lra. exact sqrt_0.
Qed.
Lemma sphere_components p : radius6 false p <> 0 ->
  h_vr (cart_to_sphere p) = Some (radial_velocity false p) /\
  (radius6 true p <> 0 -> h_vphi (cart_to_sphere p) = azimuthal_velocity p /\ h_vtheta (cart_to_sphere p) = Some (polar_velocity p)).
Proof.
  move=> H. have [th [vr [vth [_ [A1 [A2 [_ [_ [_ [_ [B1 [B2 [B3 _]]]]]]]]]]]]] := @sphere_round_trip p H.
  have E : cylrad p = radius6 true p by []. have E' : rad p = radius6 false p by []. rewrite E E' in B1 B2 B3.
  split; [rewrite A1; f_equal; rewrite /radial_velocity; apply (Rmult_eq_reg_l (radius6 false p)) => //; rewrite B1; field; exact H|].
  move=> H'. split.
  - rewrite /azimuthal_velocity. apply (Rmult_eq_reg_l (radius6 true p)) => //. rewrite B2. field. exact H'.
  - rewrite A2. f_equal. rewrite /polar_velocity.
    apply (Rmult_eq_reg_l (radius6 false p * radius6 true p)); [|exact: Rmult_integral_contrapositive_currified].
    rewrite Rmult_assoc B3. field. by split.
Qed.

Lemma all_some_map {A} (l : list nat) (f : nat -> option A) (g : nat -> A) : (forall i, In i l -> f i = Some (g i)) ->
  all_some (map f l) = Some (map g l).
Proof.
  induction l as [|i l IH] => H //=. rewrite (H i); [by left|]. rewrite IH //. by move=> j I; apply H; right.
Qed.

Section WithGalpy.
Variable G : galpy.

Lemma frame_units (b n' : bool) c u o : ready G c u o -> 
  let c0 := match c_units c with Some Uamuse => to_pckms G c | _ => c end in
  let c1 := match c_origin c with
    | Some Ocluster | Some Ocentre => if b then sortstars true c0 else c0
    | _ => to_centre n' c0 end in
  c_units c1 <> Some Uamuse /\ c_origin c1 <> Some Osky.
Proof.
  move=> HR. have [HS [Hu [Hl [Ho Hf]]]] := HR. cbn zeta.
  have [u0 [L0 [N0 [S0 O0]]]] : exists u0, linear u0 /\ c_units (match c_units c with Some Uamuse => to_pckms G c | _ => c end) = Some u0 /\ u0 <> Uamuse /\
     c_origin (match c_units c with Some Uamuse => to_pckms G c | _ => c end) = Some o.
  { rewrite Hu. destruct u; try (by eexists; split; [exact Hl|split; [exact Hu|split]]).
    have E : to_units G (Ureq Upckms) c = to_pckms G c by rewrite /to_units Hu.
    have L : linear Upckms by [].
    have F := skel_eq_fields (to_units_lin HS Hu Hl L). rewrite E in F. destruct F as [F1 [F2 _]]. exists Upckms. cbn in F1, F2.
    split=> //. split=> //. split=> //. by rewrite F2. }
  move: (match c_units c with Some Uamuse => to_pckms G c | _ => c end) N0 O0 => c0 N0 O0.
  have SO := sortstars_same true c0. destruct SO as [_ [SU [SO _]]].
  rewrite Ho. destruct o; [| | | by case: Hf].
  - destruct b; rewrite ?SU ?SO N0 O0; split; congruence.
  - destruct b; rewrite ?SU ?SO N0 O0; split; congruence.
  - have [K1 [K2 _]] := skel_eq_fields (to_centre_flat n' N0 L0 O0 Hf). rewrite K1 K2. cbn. rewrite N0. split; congruence.
Qed.

Lemma rows6_nth {A} (f : six R -> A) c c1 n i d : own_framed G c c1 n -> (i < n)%nat ->
  nth i (map f (rows6 (p_s (c_ph c1)))) d = f (own_star c i).
Proof.
  move=> F Hi. have [L _] := of_six F. rewrite /rows6 map_map L nth_map_seq //. by rewrite (of_star F Hi).
Qed.
Lemma rows6_len {A} (f : six R -> A) c c1 n : own_framed G c c1 n -> length (map f (rows6 (p_s (c_ph c1)))) = n.
Proof. move=> F. have [L _] := of_six F. by rewrite /rows6 !map_length seq_length. Qed.
Lemma own_framed_analyze c c1 n : own_framed G c c1 n -> own_framed G c (analyze true true c1) n.
Proof.
  move=> [F1 F2 F3 F4 F5 F6]. have [_ [_ [_ [_ [E1 [_ [_ [_ E2]]]]]]]] := skel_eq_fields (skel_analyze true true c1).
  constructor; rewrite ?E1 ?E2 //; [exact: sees_analyze|exact: norms_analyze].
Qed.
Lemma sphere_coords_ok c1 : c_units c1 <> Some Uamuse -> c_origin c1 <> Some Osky ->
  sphere_coords G c1 = Ok (map cart_to_sphere (rows6 (p_s (c_ph c1))), analyze true true c1).
Proof.
  move=> H1 H2. rewrite /sphere_coords /with_cartesian.
  have -> : (match c_units c1 with Some Uamuse => to_pckms G c1 | _ => c1 end) = c1 by destruct (c_units c1) as [[]|].
  rewrite return_same. destruct (c_origin c1) as [[]|] => //.
Qed.

Lemma speed_nth c c1 n (p : bool) i : own_framed G c c1 n -> (i < n)%nat ->
  nth i (map Some (if p then d_vpro (c_der c1) else d_v (c_der c1))) None = Some (speed6 p (own_star c i)).
Proof.
  move=> F Hi. have [_ [_ [N3 N4]]] := of_norms F. have [X [Y [Z [U [V W]]]]] := of_six F. rewrite -(of_star F Hi) /speed6 /map6.
  cbn [svx svy svz].
  rewrite (@nth_map' _ _ (@Some R) _ i None 0).
  { destruct p; [rewrite N4 /norm2 zip_with_length U V Nat.min_id //|rewrite N3 norm3_length ?U ?V ?W //]. }
  destruct p; [rewrite N4|rewrite N3]; [rewrite norm2_nth ?U ?V //|rewrite norm3_nth ?U ?V ?W //].
Qed.
Lemma speed_len c c1 n (p : bool) : own_framed G c c1 n -> length (map (@Some R) (if p then d_vpro (c_der c1) else d_v (c_der c1))) = n.
Proof.
  move=> F. have [_ [_ [N3 N4]]] := of_norms F. have [X [Y [Z [U [V W]]]]] := of_six F. rewrite map_length.
  destruct p; [rewrite N4 /norm2 zip_with_length U V Nat.min_id //|rewrite N3 norm3_length ?U ?V ?W //].
Qed.

Lemma column_nth (f : forall A, six A -> A) c c1 n i : (forall A B (g : A -> B) x, f _ (map6 g x) = g (f _ x)) -> own_framed G c c1 n -> (i < n)%nat ->
  length (f _ (p_s (c_ph c1))) = n -> nth i (map Some (f _ (p_s (c_ph c1)))) None = Some (f _ (own_star c i)).
Proof.
  move=> H F Hi L. rewrite (@nth_map' _ _ (@Some R) _ i None 0) ?L //. by rewrite -(of_star F Hi) H.
Qed.

Lemma velocity_column_ok w coord p c c1 n : own_framed G c c1 n -> c_units c1 <> Some Uamuse -> c_origin c1 <> Some Osky ->
  supported w coord p -> exists r v c2, velocity_column G w coord p c1 = Ok (r, v, c2) /\ length r = n /\ length v = n /\
    (forall i, (i < n)%nat -> nth i r 0 = radius6 p (own_star c i)) /\
    (forall i, (i < n)%nat -> resolved coord p (own_star c i) -> nth i v None = Some (component coord p (own_star c i))) /\
    own_framed G c c2 n /\ (c2 = c1 \/ c2 = analyze true true c1).
Proof.
  move=> F HU HO SU. have FA := own_framed_analyze F.
  have [N1 [N2 [N3 N4]]] := of_norms F. have [X [Y [Z [U [V W]]]]] := of_six F. have [X' [Y' [Z' [U' [V' W']]]]] := of_six FA.
  have R0 : forall i, (i < n)%nat -> nth i (if p then d_rpro (c_der c1) else d_r (c_der c1)) 0 = radius6 p (own_star c i).
  { move=> i Hi. rewrite -(of_star F Hi) /radius6 /map6. cbn [sx sy sz].
    destruct p; [rewrite N2 norm2_nth ?X ?Y //|rewrite N1 norm3_nth ?X ?Y ?Z //]. }
  have L0 : length (if p then d_rpro (c_der c1) else d_r (c_der c1)) = n.
  { destruct p; [rewrite N2 /norm2 zip_with_length X Y Nat.min_id //|rewrite N1 norm3_length ?X ?Y ?Z //]. }
  rewrite /velocity_column. destruct coord as [k|].
  2:{ do 3 eexists. split; [reflexivity|]. split; [exact L0|]. split; [exact (speed_len p F)|]. split; [exact R0|].
      split; [move=> i Hi _; exact (speed_nth p F Hi)|]. split; [exact F|by left]. }
  destruct p.
  - have RC : forall i, (i < n)%nat -> nth i (map (@sx R) (map cart_to_cyl (rows6 (p_s (c_ph c1))))) 0 = radius6 true (own_star c i).
    { move=> i Hi. rewrite map_map (rows6_nth _ _ F Hi). exact (proj1 (cyl_radius _)). }
    have LC : length (map (@sx R) (map cart_to_cyl (rows6 (p_s (c_ph c1))))) = n by rewrite map_map; exact (rows6_len _ F).
    have XC : forall f : six R -> num, length (map f (map cart_to_cyl (rows6 (p_s (c_ph c1))))) = n by move=> f; rewrite map_map; exact (rows6_len _ F).
    destruct k; cbn in SU; try (by []);
      (do 3 eexists; split; [reflexivity|]; split; [exact LC|];
       split; [first [exact: XC|exact (speed_len true F)|destruct w; first [by rewrite map_length|by case: SU]]|];
       split; [exact RC|]; split; [|split; [exact F|by left]]); move=> i Hi HRs; cbn [resolved] in HRs; cbn [component].
    + exact (speed_nth true F Hi).
    + rewrite map_map (rows6_nth _ _ F Hi). by rewrite (proj1 (proj2 (cyl_components HRs))).
    + rewrite map_map (rows6_nth _ _ F Hi). by rewrite (proj2 (proj2 (cyl_components HRs))).
    + destruct w; (by case: SU) || exact (@column_nth (@svx) c c1 n i ltac:(done) F Hi U).
    + destruct w; (by case: SU) || exact (@column_nth (@svy) c c1 n i ltac:(done) F Hi V).
    + rewrite map_map (rows6_nth _ _ F Hi). by rewrite (proj2 (cyl_radius _)).
  - rewrite sphere_coords_ok //. cbn [bind].
    have RC : forall i, (i < n)%nat -> nth i (map h_r (map cart_to_sphere (rows6 (p_s (c_ph c1))))) 0 = radius6 false (own_star c i).
    { move=> i Hi. by rewrite map_map (rows6_nth _ _ F Hi). }
    have LC : length (map h_r (map cart_to_sphere (rows6 (p_s (c_ph c1))))) = n by rewrite map_map; exact (rows6_len _ F).
    have XC : forall f : spherical -> num, length (map f (map cart_to_sphere (rows6 (p_s (c_ph c1))))) = n by move=> f; rewrite map_map; exact (rows6_len _ F).
    destruct k; cbn in SU;
      [ | | | | | | destruct w; try (by case: SU)];
      (do 3 eexists; split; [reflexivity|]; split; [exact LC|];
       split; [first [exact: XC|exact (speed_len false FA)|by rewrite map_length|destruct w; first [by rewrite map_length|by case: SU]]|];
       split; [exact RC|]; split; [|split; [exact FA|by right]]); move=> i Hi HRs; cbn [resolved] in HRs; cbn [component].
    + exact (speed_nth false FA Hi).
    + rewrite map_map (rows6_nth _ _ F Hi). exact (proj1 (sphere_components HRs)).
    + rewrite map_map (rows6_nth _ _ F Hi). f_equal. by apply sphere_components; [exact: axis_zero|].
    + rewrite map_map (rows6_nth _ _ F Hi). by apply sphere_components; [exact: axis_zero|].
    + destruct w; (by case: SU) || exact (@column_nth (@svx) c _ n i ltac:(done) FA Hi U').
    + destruct w; (by case: SU) || exact (@column_nth (@svy) c _ n i ltac:(done) FA Hi V').
    + exact (@column_nth (@svz) c _ n i ltac:(done) FA Hi W').
Qed.

Lemma seen_radius6 s n q i : measured s n -> (i < n)%nat -> radius_of q s i = radius6 (l_projected q) (own_star (g_c (y_k s)) i).
Proof.
  move=> HM Hi. rewrite /radius_of /seen_distance /radius6 /star_at /own_system /set_cluster /map6. cbn [y_k g_c set_stars c_ph p_s w_s sx sy sz svx svy svz p_m].
  rewrite (proj1 (proj2 (proj1 HM))) !nth_map_seq //.
Qed.

Lemma statistic_row_ok w (v : list num) msk (val : nat -> R) n : length msk = n -> length v = n ->
  (forall i, In i (chosen msk) -> nth i v None = Some (val i)) ->
  statistic_row w v msk = Some (if Nat.ltb 3 (length (chosen msk)) then statistic_of w (map val (chosen msk)) else 0).
Proof.
  move=> L Lv H. rewrite /statistic_row /enough -chosen_count. destruct (Nat.ltb 3 _) => //.
  rewrite (@select_row _ None) ?L ?Lv //. rewrite /row_statistic /over_numbers /statistic_of.
  destruct w.
  - by rewrite (@all_some_map _ _ _ val) //= np_std_deviation.
  - by rewrite (@all_some_map _ _ _ val).
  - have E : all_some (map nsquare (map (fun i => nth i v None) (chosen msk))) = Some (map (fun i => val i ^ 2) (chosen msk)).
    { rewrite map_map. apply (@all_some_map R (chosen msk) (fun i => nsquare (nth i v None)) (fun i => val i ^ 2)). move=> i I. by rewrite H. }
    rewrite E. by rewrite /= map_map.
Qed.

Section OneSystem.
Variables (q : selection) (indx : option (list bool)) (s : system) (n nrad : nat) (bt : bintype) (u : usys) (o : osys).
Let c := g_c (y_k s).
Hypotheses (HR : ready G c u o) (HA : analyze true true c = c) (HM : measured s n) (EK : energies_known q s n)
  (MF : mask_fits indx n) (Hr : (0 < nrad)%nat) (PR : profilable q indx s n).
Let L6 : six_length (p_s (c_ph c)) n. Proof. exact (proj1 (proj1 HM)). Qed.

(* with the frame normalised or not; the radii are divided by a scale *)
Lemma velocity_prof_gen w coord norm : supported w coord (l_projected q) ->
  (forall i, (i < n)%nat -> asked q indx s i -> resolved coord (l_projected q) (own_star c i)) ->
  (norm = true -> half_mass (l_projected q) (profile_frame G true c) <> None /\
                  analyze true true (profile_frame G true c) = profile_frame G true c) ->
  exists lo mid hi r v s' caller,
    velocity_prof G w coord q indx None nrad bt norm s = Ok (r, v, s', caller) /\
    covers q indx s n lo hi /\ (length lo <= nrad)%nat /\ length mid = length lo /\ length v = length lo /\
    scaled norm (half_mass (l_projected q) (profile_frame G true c)) mid r /\
    (forall k, (k < length lo)%nat -> nth k lo 0 < nth k hi 0 /\ nth k lo 0 <= nth k mid 0 <= nth k hi 0 /\
       exists l, members n (in_row_of false q indx s lo hi k) l /\
         nth k v None = Some (if Nat.ltb 3 (length l) then statistic_of w (map (fun i => component coord (l_projected q) (own_star c i)) l) else 0)) /\
    system_restored s s'.
Proof.
  move=> SU RE HN. have F := profile_frame_ok norm HR HA L6. have [U1 U2] := @frame_units norm norm c u o HR.
  have [r [v [c2 [E1 [Lr [Lv [Er [Ev [F2 E2]]]]]]]]] := velocity_column_ok F U1 U2 SU.
  have Er' : forall i, (i < n)%nat -> nth i r 0 = radius_of q s i by move=> i Hi; rewrite Er // (seen_radius6 q HM Hi).
  have [x [W1 [W2 [W3 [W4 [W5 [W6 [W7 [W8 [W9 W10]]]]]]]]]] := rows_ok bt F HM EK MF Hr PR Lr Er'.
  rewrite /velocity_prof -/c. cbn zeta. rewrite E1. cbn [bind]. rewrite W1. cbn [bind].
  have [r' [R1 R2]] : exists r', radii_over norm (half_mass (l_projected q) c2) (w_mid x) = Ok r' /\
    scaled norm (half_mass (l_projected q) (profile_frame G true c)) (w_mid x) r'.
  { destruct norm; [|by exists (w_mid x)]. have [N1 N2] := HN eq_refl.
    have -> : c2 = profile_frame G true c by destruct E2 as [->| ->].
    destruct (half_mass (l_projected q) (profile_frame G true c)) as [h|] => //. cbn. eexists. split; [reflexivity|].
    by exists h. }
  rewrite R1. cbn [bind]. exists (w_lo x), (w_mid x), (w_hi x). do 4 eexists. split; [reflexivity|].
  split; [exact W2|]. split; [exact W4|]. split; [exact W3|]. split; [by rewrite /row_count map_length seq_length|].
  split; [exact R2|].
  have LI : length (w_msk x) = length (w_idx x) by rewrite W6 W7. split.
  - move=> k Hk. have [D1 D2] := W5 k Hk. split; [exact D2|]. split; [exact D1|]. exists (chosen (in_row false x k)). split; [exact: W9|].
    rewrite /row_count nth_map_seq ?W3 //. apply (@statistic_row_ok w v _ _ n) => //; [by rewrite /in_row row_mask_length // W6|].
    move=> i I. destruct (W9 false k) as [_ H9]. apply H9 in I. destruct I as [Hi [A _]]. apply Ev => //. by apply RE.
  - apply (sys_restored HR HA). exact (of_sees F2).
Qed.
End OneSystem.
End WithGalpy.
