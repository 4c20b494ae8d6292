(* Proofs: coordinate transformations. *)
From Verif Require Import Base ModelCluster ModelOps ModelConv ModelEnergy ModelCoords.
Set Implicit Arguments. Unset Strict Implicit.

Lemma sq0 a : 0 <= a ^ 2. Proof. exact: pow2_ge_0. Qed.
Lemma atan_scale x y : x <> 0 -> sqrt (x ^ 2 + y ^ 2) = Rabs x * sqrt (1 + (y / x)²).
Proof.
  move=> H. rewrite -(sqrt_Rsqr_abs x) -sqrt_mult; [exact: Rle_0_sqr|have := Rle_0_sqr (y / x); lra|].
  f_equal. rewrite /Rsqr. field. done.
Qed.
Lemma atan2_cos_sin y x : cos (atan2 y x) * sqrt (x ^ 2 + y ^ 2) = x /\ sin (atan2 y x) * sqrt (x ^ 2 + y ^ 2) = y.
Proof.
  have S1 : forall t, 0 < sqrt (1 + t²) by move=> t; apply sqrt_lt_R0; have := Rle_0_sqr t; lra.
  rewrite /atan2. destruct (Rltb 0 x) eqn:E1; [|destruct (Rltb x 0) eqn:E2].
  - move/Rltb_spec: E1 => E1. rewrite atan_scale; [lra|]. rewrite cos_atan sin_atan Rabs_pos_eq; [lra|].
    have := S1 (y / x) => P. split; field; lra.
  - move/Rltb_spec: E2 => E2. rewrite atan_scale; [lra|]. rewrite Rabs_left; [lra|]. have := S1 (y / x) => P.
    destruct (Rleb 0 y).
    + rewrite neg_cos neg_sin cos_atan sin_atan. split; field; lra.
    + have -> : atan (y / x) - PI = - (PI - atan (y / x)) by ring.
      rewrite cos_neg sin_neg. have -> : PI - atan (y / x) = - atan (y / x) + PI by ring.
      rewrite neg_cos neg_sin cos_neg sin_neg cos_atan sin_atan. split; field; lra.
  - have X : x = 0.
    { destruct (Rtotal_order x 0) as [H|[H|H]] => //.
      - by rewrite (proj2 (Rltb_spec x 0)) in E2. - by rewrite (proj2 (Rltb_spec 0 x)) in E1. }
    subst x. have -> : 0 ^ 2 + y ^ 2 = y² by rewrite /Rsqr; ring. rewrite sqrt_Rsqr_abs.
    destruct (Rltb 0 y) eqn:E3; [|destruct (Rltb y 0) eqn:E4].
    + move/Rltb_spec: E3 => E3. rewrite cos_PI2 sin_PI2 Rabs_pos_eq; lra.
    + move/Rltb_spec: E4 => E4. rewrite cos_neg sin_neg cos_PI2 sin_PI2 Rabs_left; lra.
    + have Y : y = 0.
      { destruct (Rtotal_order y 0) as [H|[H|H]] => //.
        - by rewrite (proj2 (Rltb_spec y 0)) in E4. - by rewrite (proj2 (Rltb_spec 0 y)) in E3. }
      subst y. rewrite Rabs_R0. lra.
Qed.
Lemma atan2_range y x : - PI < atan2 y x <= PI.
Proof.
  have P := PI_RGT_0. rewrite /atan2. destruct (Rltb 0 x) eqn:E1; [|destruct (Rltb x 0) eqn:E2].
  - have := atan_bound (y / x). lra.
  - move/Rltb_spec: E2 => E2. destruct (Rleb 0 y) eqn:E3.
    + move/Rleb_spec: E3 => E3. have B := atan_bound (y / x).
      have : atan (y / x) <= 0.
      { rewrite -atan_0. destruct (Req_dec y 0) as [->|N]; [rewrite /Rdiv Rmult_0_l; lra|].
        left. apply atan_increasing. have I : / x < 0 by apply Rinv_lt_0_compat. rewrite /Rdiv. nra. }
      lra.
    + have N : y < 0 by (destruct (Rle_or_lt 0 y) as [H|H] => //; rewrite (proj2 (Rleb_spec 0 y) H) in E3).
      have B := atan_bound (y / x). have : 0 < atan (y / x).
      { rewrite -atan_0. apply atan_increasing. have I : / x < 0 by apply Rinv_lt_0_compat. rewrite /Rdiv. nra. }
      lra.
  - destruct (Rltb 0 y); [lra|]. destruct (Rltb y 0); lra.
Qed.
Lemma angle_unique a b : - PI < a <= PI -> - PI < b <= PI -> cos a = cos b -> sin a = sin b -> a = b.
Proof.
  move=> A B C S. set u := (a - b) / 2.
  have E : cos (a - b) = 1.
  { rewrite cos_minus C S. have := sin2_cos2 b. rewrite /Rsqr. lra. }
  have Z : sin u = 0.
  { have D : cos (a - b) = 1 - 2 * sin u * sin u by rewrite -cos_2a_sin; f_equal; rewrite /u; field. nra. }
  have U : - PI < u < PI by rewrite /u; lra.
  destruct (Rtotal_order u 0) as [H|[H|H]].
  - have : 0 < sin (- u) by apply sin_gt_0; lra. rewrite sin_neg. lra.
  - rewrite /u in H. lra.
  - have : 0 < sin u by apply sin_gt_0; lra. lra.
Qed.
Lemma atan2_polar rho phi : 0 < rho -> - PI < phi <= PI -> atan2 (rho * sin phi) (rho * cos phi) = phi.
Proof.
  move=> H P. have [C S] := atan2_cos_sin (rho * sin phi) (rho * cos phi).
  have E : sqrt ((rho * cos phi) ^ 2 + (rho * sin phi) ^ 2) = rho.
  { have -> : (rho * cos phi) ^ 2 + (rho * sin phi) ^ 2 = rho * rho * ((sin phi)² + (cos phi)²) by rewrite /Rsqr; ring.
    rewrite sin2_cos2 Rmult_1_r sqrt_square; lra. }
  rewrite E in C S. apply angle_unique => //; [exact: atan2_range| |]; apply (Rmult_eq_reg_r rho); lra.
Qed.

(* ------------------------------------------------------------------ polar form of a direction *)
Definition rad (p : six R) : R := sqrt (sx p ^ 2 + sy p ^ 2 + sz p ^ 2).
Definition cylrad (p : six R) : R := sqrt (sx p ^ 2 + sy p ^ 2).
Lemma rad2 p : rad p * rad p = sx p ^ 2 + sy p ^ 2 + sz p ^ 2.
Proof. rewrite /rad sqrt_sqrt //. have := sq0 (sx p). have := sq0 (sy p). have := sq0 (sz p). lra. Qed.
Lemma cylrad2 p : cylrad p * cylrad p = sx p ^ 2 + sy p ^ 2.
Proof. rewrite /cylrad sqrt_sqrt //. have := sq0 (sx p). have := sq0 (sy p). lra. Qed.
Lemma rad_nn p : 0 <= rad p. Proof. exact: sqrt_pos. Qed.
Lemma cylrad_nn p : 0 <= cylrad p. Proof. exact: sqrt_pos. Qed.
Lemma polar_angle p : rad p <> 0 ->
  rad p * cos (acos (sz p / rad p)) = sz p /\ rad p * sin (acos (sz p / rad p)) = cylrad p /\ 0 <= acos (sz p / rad p) <= PI.
Proof.
  move=> N. have R0 := rad_nn p. have R1 : 0 < rad p by lra. have R2 := rad2 p. have C2 := cylrad2 p. have C0 := cylrad_nn p.
  have B : -1 <= sz p / rad p <= 1.
  { split; [apply (Rmult_le_reg_r (rad p))|apply (Rmult_le_reg_r (rad p))] => //; rewrite /Rdiv Rmult_assoc Rinv_l //; nra. }
  rewrite cos_acos // sin_acos //. split; [field; lra|]. split; [|exact: acos_bound].
  rewrite -{1}(Rabs_pos_eq (rad p)) // -sqrt_Rsqr_abs -sqrt_mult; [exact: Rle_0_sqr|have : (sz p / rad p)² <= 1; [rewrite /Rsqr; nra|lra]|].
  rewrite /cylrad. f_equal. have -> : (rad p)² * (1 - (sz p / rad p)²) = rad p * rad p - sz p ^ 2 by rewrite /Rsqr; field; lra.
  rewrite R2. ring.
Qed.
Lemma azimuth p : cylrad p * cos (atan2 (sy p) (sx p)) = sx p /\ cylrad p * sin (atan2 (sy p) (sx p)) = sy p.
Proof. have [A B] := atan2_cos_sin (sy p) (sx p). rewrite /cylrad. split; lra. Qed.
Lemma rad_zero p : rad p = 0 -> sx p = 0 /\ sy p = 0 /\ sz p = 0.
Proof. move=> E. have := rad2 p. rewrite E. have := sq0 (sx p). have := sq0 (sy p). have := sq0 (sz p). move=> ? ? ? ?. repeat split; nra. Qed.
Lemma cs1 a : sin a * sin a + cos a * cos a = 1.
Proof. have := sin2_cos2 a. rewrite /Rsqr. lra. Qed.

Theorem sphere_round_trip p : rad p <> 0 ->
  exists th vr vth, let h := cart_to_sphere p in
    h_theta h = Some th /\ h_vr h = Some vr /\ h_vtheta h = Some vth /\
    sphere_to_cart (h_r h) (h_phi h) th vr (h_vphi h) vth = p /\
    h_r h = rad p /\ - PI < h_phi h <= PI /\ 0 <= th <= PI /\
    (* components along the radial, azimuthal and polar directions *)
    rad p * vr = sx p * svx p + sy p * svy p + sz p * svz p /\
    cylrad p * h_vphi h = sx p * svy p - sy p * svx p /\
    rad p * (cylrad p * vth) = sz p * (sx p * svx p + sy p * svy p) - cylrad p * cylrad p * svz p /\
    vr ^ 2 + h_vphi h ^ 2 + vth ^ 2 = svx p ^ 2 + svy p ^ 2 + svz p ^ 2.
Proof.
  move=> N. have [T1 [T2 T3]] := polar_angle N. have [A1 A2] := azimuth p.
  set th := acos (sz p / rad p) in T1 T2 T3. set phi := atan2 (sy p) (sx p) in A1 A2.
  have ET : Reqb (rad p) 0 = false by apply not_true_iff_false; move=> /Reqb_spec.
  eexists th, _, _. rewrite /cart_to_sphere. cbn zeta. rewrite -/(rad p) ET -/th -/phi; cbn [h_r h_phi h_theta h_vr h_vphi h_vtheta option_map].
  do 3 (split; [reflexivity|]). have P1 := cs1 phi. have P2 := cs1 th.
  have G1 : rad p * cos phi * sin th = sx p by rewrite -A1 -T2; ring.
  have G2 : rad p * sin phi * sin th = sy p by rewrite -A2 -T2; ring.
  split; [|split; [reflexivity|split; [exact: atan2_range|split; [exact T3|]]]].
  { rewrite /sphere_to_cart. rewrite G1 G2 T1. destruct p as [x y z u v w]; cbn [sx sy sz svx svy svz] in *.
    set c := cos phi in P1 |- *. set s := sin phi in P1 |- *. set ct := cos th in P2 |- *. set st := sin th in P2 |- *.
    f_equal.
    - transitivity (u * ((s * s + c * c) * (st * st + ct * ct)) + u * (s * s) * (1 - (st * st + ct * ct)) + v * (c * s) * (st * st + ct * ct - 1)); [ring|]. rewrite P1 P2. ring.
    - transitivity (v * ((s * s + c * c) * (st * st + ct * ct)) + v * (c * c) * (1 - (st * st + ct * ct)) + u * (c * s) * (st * st + ct * ct - 1)); [ring|]. rewrite P1 P2. ring.
    - transitivity (w * (st * st + ct * ct)); [ring|]. rewrite P2. ring. }
  split. { rewrite -{1}G1 -{1}G2 -{1}T1. ring. }
  split. { rewrite -{1}A1 -{1}A2. ring. }
  split.
  { rewrite -T2. transitivity (rad p * cos th * ((rad p * cos phi * sin th) * svx p + (rad p * sin phi * sin th) * svy p) - rad p * sin th * (rad p * sin th) * svz p); [ring|].
    rewrite G1 G2 T1. reflexivity. }
  set c := cos phi in P1 |- *. set s := sin phi in P1 |- *. set ct := cos th in P2 |- *. set st := sin th in P2 |- *.
  set u := svx p. set v := svy p. set w := svz p.
  transitivity ((u * c + v * s) ^ 2 * (st * st + ct * ct) + w ^ 2 * (st * st + ct * ct) + (v * c - u * s) ^ 2); [ring|].
  rewrite P2. transitivity ((u ^ 2 + v ^ 2) * (s * s + c * c) + w ^ 2); [ring|]. rewrite P1. ring.
Qed.

Theorem sphere_inverse r phi th vr vphi vth : 0 < r -> - PI < phi <= PI -> 0 < th < PI ->
  cart_to_sphere (sphere_to_cart r phi th vr vphi vth) = mkSph r phi (Some th) (Some vr) vphi (Some vth).
Proof.
  move=> R0 P T. rewrite /cart_to_sphere /sphere_to_cart; cbn [sx sy sz svx svy svz].
  have P1 := cs1 phi. have P2 := cs1 th. have ST : 0 < sin th by apply sin_gt_0; lra.
  have -> : sqrt ((r * cos phi * sin th) ^ 2 + (r * sin phi * sin th) ^ 2 + (r * cos th) ^ 2) = r.
  { have -> : (r * cos phi * sin th) ^ 2 + (r * sin phi * sin th) ^ 2 + (r * cos th) ^ 2 =
      r * r * (sin th * sin th * (sin phi * sin phi + cos phi * cos phi) + cos th * cos th) by ring.
    rewrite P1. have -> : r * r * (sin th * sin th * 1 + cos th * cos th) = r * r * (sin th * sin th + cos th * cos th) by ring.
    rewrite P2 Rmult_1_r sqrt_square; lra. }
  have -> : r * sin phi * sin th = (r * sin th) * sin phi by ring. have -> : r * cos phi * sin th = (r * sin th) * cos phi by ring.
  rewrite atan2_polar //; [nra|]. have -> : Reqb r 0 = false by apply not_true_iff_false; move=> /Reqb_spec; lra.
  have -> : r * cos th / r = cos th by field; lra. rewrite acos_cos; [lra|]. cbn [option_map].
  set c := cos phi in P1 |- *. set s := sin phi in P1 |- *. set ct := cos th in P2 |- *. set st := sin th in P2 ST |- *.
  f_equal.
  - f_equal. transitivity (vr * (st * st * (s * s + c * c) + ct * ct) + vth * (st * ct) * ((s * s + c * c) - 1)); [ring|]. rewrite P1. transitivity (vr * (st * st + ct * ct)); [ring|]. rewrite P2. ring.
  - transitivity (vphi * (s * s + c * c)); [ring|]. rewrite P1. ring.
  - f_equal. transitivity (vth * (ct * ct * (s * s + c * c) + st * st) + vr * (st * ct) * ((s * s + c * c) - 1)); [ring|]. rewrite P1. transitivity (vth * (st * st + ct * ct)); [ring|]. rewrite P2. ring.
Qed.

(* ------------------------------------------------------------------ cylindrical *)
Theorem cyl_round_trip p : let q := cart_to_cyl p in
  cyl_to_cart q = p /\ sx q = cylrad p /\ - PI < sy q <= PI /\ sz q = sz p /\
  cylrad p * svx q = sx p * svx p + sy p * svy p /\ cylrad p * svy q = sx p * svy p - sy p * svx p /\ svz q = svz p /\
  svx q ^ 2 + svy q ^ 2 + svz q ^ 2 = svx p ^ 2 + svy p ^ 2 + svz p ^ 2.
Proof.
  have [A1 A2] := azimuth p. cbn zeta. rewrite /cart_to_cyl /rect_to_cyl_vec /rect_to_cyl. rewrite -/(cylrad p). 
  set phi := atan2 (sy p) (sx p) in A1 A2 |- *. have P1 := cs1 phi. cbn [sx sy sz svx svy svz].
  split; [|split; [reflexivity|split; [exact: atan2_range|split; [reflexivity|]]]].
  { rewrite /cyl_to_cart /cyl_to_rect /cyl_to_rect_vec; cbn [sx sy sz svx svy svz]. rewrite A1 A2.
    destruct p as [x y z u v w]; cbn [sx sy sz svx svy svz] in *. f_equal.
    - transitivity (u * (sin phi * sin phi + cos phi * cos phi)); [ring|]. rewrite P1; ring.
    - transitivity (v * (sin phi * sin phi + cos phi * cos phi)); [ring|]. rewrite P1; ring. }
  split; [rewrite -{1}A1 -{1}A2; ring|]. split; [rewrite -{1}A1 -{1}A2; ring|]. split; [reflexivity|].
  transitivity ((svx p ^ 2 + svy p ^ 2) * (sin phi * sin phi + cos phi * cos phi) + svz p ^ 2); [ring|]. rewrite P1. ring.
Qed.
Theorem cyl_inverse q : 0 < sx q -> - PI < sy q <= PI -> cart_to_cyl (cyl_to_cart q) = q.
Proof.
  move=> R0 P. rewrite /cart_to_cyl /cyl_to_cart /cyl_to_rect /cyl_to_rect_vec /rect_to_cyl_vec /rect_to_cyl; cbn [sx sy sz svx svy svz].
  destruct q as [r phi z u v w]; cbn [sx sy sz svx svy svz] in *. rewrite atan2_polar //. have P1 := cs1 phi.
  f_equal.
  - have -> : (r * cos phi) ^ 2 + (r * sin phi) ^ 2 = r * r * (sin phi * sin phi + cos phi * cos phi) by ring.
    rewrite P1 Rmult_1_r sqrt_square; lra.
  - transitivity (u * (sin phi * sin phi + cos phi * cos phi)); [ring|]. rewrite P1; ring.
  - transitivity (v * (sin phi * sin phi + cos phi * cos phi)); [ring|]. rewrite P1; ring.
Qed.
