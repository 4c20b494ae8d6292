(* Proofs: the rotation matrix of the tail frame. *)
From Coq Require Import Nsatz.
From Verif Require Import Base ModelCluster ModelOps ModelConv ModelEnergy ModelCoords ModelTail.
From Verif Require Import SpecUnits SpecFrame SpecEnergy SpecProfiles SpecDynamics SpecTail.
Set Implicit Arguments. Unset Strict Implicit.

Definition turn (m : mat3) (a : vec) : vec :=
  let '(x, y, z) := a in
  (x * m00 m + y * m10 m + z * m20 m, x * m01 m + y * m11 m + z * m21 m, x * m02 m + y * m12 m + z * m22 m).
Lemma tail_row_turn m p : place (tail_row m p) = turn m (place p) /\ motion (tail_row m p) = turn m (motion p).
Proof. by []. Qed.

(* the matrix in terms of cosine, sine and axis *)
Definition about (co si e2 e3 : R) : mat3 :=
  mkM co (si * e3) (- (si * e2)) (- (si * e3)) (co + (1 - co) * (e2 * e2)) ((1 - co) * (e2 * e3))
      (si * e2) ((1 - co) * (e3 * e2)) (co + (1 - co) * (e3 * e3)).
Lemma about_rotation co si e2 e3 : co * co + si * si = 1 -> e2 * e2 + e3 * e3 = 1 -> is_rotation (turn (about co si e2 e3)).
Proof.
  move=> H1 H2. split.
  - move=> [[x y] z] [[u v] w]. cbn [turn about dot3 m00 m01 m02 m10 m11 m12 m20 m21 m22]. nsatz.
  - move=> [[x y] z] [[u v] w] [[p q] r]. cbn [turn about volume m00 m01 m02 m10 m11 m12 m20 m21 m22]. nsatz.
Qed.

Lemma norm_dot v : np_norm v = len3 (v1 v, v2 v, v3 v).
Proof. rewrite /np_norm /len3 /dot3. f_equal. ring. Qed.
(* the cosine of the angle between v and the x axis *)
Definition xcos (v : vec) : R := let '(x, _, _) := v in x / len3 v.
Lemma unit_of v : len3 (v1 v, v2 v, v3 v) <> 0 -> let n := np_over v (np_norm v) in v1 n * v1 n + v2 n * v2 n + v3 n * v3 n = 1.
Proof.
  move=> H. cbn zeta. rewrite norm_dot. rewrite /np_over. cbn [v1 v2 v3]. set L := len3 _ in H *.
  have E : L * L = v1 v * v1 v + v2 v * v2 v + v3 v * v3 v.
  { rewrite /L /len3 sqrt_sqrt //. rewrite /dot3. nra. }
  have -> : v1 v / L * (v1 v / L) + v2 v / L * (v2 v / L) + v3 v / L * (v3 v / L) = (v1 v * v1 v + v2 v * v2 v + v3 v * v3 v) / (L * L) by field.
  rewrite -E. field. exact H.
Qed.
Lemma xcos_bound v : len3 v <> 0 -> -1 <= xcos v <= 1.
Proof.
  move: v => [[x y] z] H. have := unit_of (v := mk3 x y z) H. rewrite norm_dot. cbn [np_over v1 v2 v3 xcos]. nra.
Qed.

Lemma rotate_cut v : 0 < len3 (v1 v, v2 v, v3 v) -> let k := xcos (v1 v, v2 v, v3 v) in
  (1 - 1 / 10 ^ 10 < k -> rotate_to v (mk3 1 0 0) = Some (mkM 1 0 0 0 1 0 0 0 1)) /\
  (k < -1 + 1 / 10 ^ 10 -> rotate_to v (mk3 1 0 0) = Some (mkM (-1) 0 0 0 (-1) 0 0 0 (-1))) /\
  (-1 + 1 / 10 ^ 10 <= k <= 1 - 1 / 10 ^ 10 ->
    exists co si e2 e3, rotate_to v (mk3 1 0 0) = Some (about co si e2 e3) /\ co * co + si * si = 1 /\ e2 * e2 + e3 * e3 = 1 /\
      co = v1 v / np_norm v /\ si * e3 = - (v2 v / np_norm v) /\ si * e2 = v3 v / np_norm v).
Proof.
  move=> H. cbn zeta. have NZ : len3 (v1 v, v2 v, v3 v) <> 0 by lra. have UN := unit_of NZ. have B := xcos_bound NZ. cbn zeta in UN.
  have EK : xcos (v1 v, v2 v, v3 v) = v1 (np_over v (np_norm v)) by rewrite norm_dot.
  rewrite /rotate_to. rewrite (proj2 (Reqb_false (np_norm v) 0)); [by rewrite norm_dot|].
  rewrite EK in B |- *. set n := np_over v (np_norm v) in B UN *. cbn [v1 v2 v3].
  have -> : v1 n * 1 + v2 n * 0 + v3 n * 0 = v1 n by ring.
  have C1 : (Rltb (Rabs (v1 n - 1)) (1 / 10 ^ 10) = true <-> 1 - 1 / 10 ^ 10 < v1 n).
  { rewrite Rltb_spec Rabs_left1; [lra|]. split; lra. }
  have C2 : (Rltb (Rabs (v1 n + 1)) (1 / 10 ^ 10) = true <-> v1 n < -1 + 1 / 10 ^ 10).
  { rewrite Rltb_spec Rabs_pos_eq; [lra|]. split; lra. }
  have T : 0 < 1 / 10 ^ 10 < 1 by lra.
  split; [|split].
  - move/C1 => ->. done.
  - move=> K. have K1 : Rltb (Rabs (v1 n - 1)) (1 / 10 ^ 10) = false.
    { apply not_true_is_false. move/C1. lra. }
    rewrite K1. by move/C2: K => ->.
  - move=> [L1 L2]. have -> : Rltb (Rabs (v1 n - 1)) (1 / 10 ^ 10) = false by apply not_true_is_false; move/C1; lra.
    have -> : Rltb (Rabs (v1 n + 1)) (1 / 10 ^ 10) = false by apply not_true_is_false; move/C2; lra.
    set q := np_cross n (mk3 1 0 0). set s := sqrt (1 - v1 n ^ 2).
    have P : 0 < 1 - v1 n ^ 2 by nra.
    have S0 : 0 < s by apply sqrt_lt_R0. have SS : s * s = 1 - v1 n ^ 2 by apply sqrt_sqrt; lra.
    have Q : np_norm q = s.
    { rewrite /np_norm /s /q /np_cross. cbn [v1 v2 v3]. f_equal. nra. }
    have E1 : v1 (np_over q (np_norm q)) = 0 by rewrite Q /q /np_cross /np_over; cbn [v1 v2 v3]; field; lra.
    have E2 : v2 (np_over q (np_norm q)) = v3 n / s by rewrite Q /q /np_cross /np_over; cbn [v1 v2 v3]; field; lra.
    have E3 : v3 (np_over q (np_norm q)) = - v2 n / s by rewrite Q /q /np_cross /np_over; cbn [v1 v2 v3]; field; lra.
    rewrite E1 E2 E3. exists (v1 n), s, (v3 n / s), (- v2 n / s).
    split; [rewrite /about; f_equal; f_equal; ring|]. split; [nra|]. split.
    { have -> : v3 n / s * (v3 n / s) + - v2 n / s * (- v2 n / s) = (v3 n * v3 n + v2 n * v2 n) / (s * s) by field; lra.
      rewrite SS. have -> : v3 n * v3 n + v2 n * v2 n = 1 - v1 n ^ 2 by lra. field. lra. }
    split; [reflexivity|]. split; [|]; rewrite /n /np_over; cbn [v1 v2 v3]; field; (split; [rewrite norm_dot; lra|lra]).
Qed.

Definition aside (l : R) : vec := (l, 0, 0).
Lemma dot_self_len v : dot3 v v = len3 v * len3 v.
Proof. rewrite /len3 sqrt_sqrt //. move: v => [[x y] z]. cbn. nra. Qed.
(* what the matrix does to the velocity it was made for *)
Lemma rotate_ok x y z : 0 < len3 (x, y, z) -> -1 + 1 / 10 ^ 10 <= xcos (x, y, z) ->
  exists m, rotate_to (mk3 x y z) (mk3 1 0 0) = Some m /\ is_rotation (turn m) /\
    (xcos (x, y, z) <= 1 - 1 / 10 ^ 10 \/ y = 0 /\ z = 0 -> turn m (x, y, z) = aside (len3 (x, y, z))) /\
    len3 (minus3 (turn m (x, y, z)) (aside (len3 (x, y, z)))) <= 15 / 1000000 * len3 (x, y, z).
Proof.
  move=> H K. have [C1 [_ C3]] := rotate_cut (v := mk3 x y z) H. cbn [v1 v2 v3] in C1, C3. set L := len3 (x, y, z) in H *.
  have LL := dot_self_len (x, y, z). rewrite -/L in LL. cbn [dot3] in LL.
  have EX : xcos (x, y, z) = x / L by []. have B := xcos_bound (v := (x, y, z)) (Rgt_not_eq _ _ H). rewrite EX in B K C1 C3 |- *.
  have XL : x = x / L * L by field; lra.
  destruct (Rle_lt_dec (x / L) (1 - 1 / 10 ^ 10)) as [D|D].
  - have [co [si [e2 [e3 [-> [A1 [A2 [A3 [A4 A5]]]]]]]]] := C3 (conj K D). exists (about co si e2 e3).
    split; [reflexivity|]. split; [exact: about_rotation|].
    have NL : np_norm (mk3 x y z) = L by rewrite norm_dot. rewrite NL in A3 A4 A5.
    have T : turn (about co si e2 e3) (x, y, z) = aside L.
    { rewrite /aside. cbn [turn about m00 m01 m02 m10 m11 m12 m20 m21 m22].
      have Y : y = - (si * e3) * L by rewrite A4; field; lra. have Z : z = si * e2 * L by rewrite A5; field; lra.
      have X : x = co * L by rewrite A3; field; lra.
      rewrite X Y Z. f_equal; [f_equal|].
      - nsatz.
      - nsatz.
      - nsatz. }
    split; [by []|]. rewrite T. have -> : minus3 (aside L) (aside L) = (0, 0, 0) by rewrite /minus3 /aside; f_equal; [f_equal|]; ring.
    have -> : len3 (0, 0, 0) = 0 by rewrite /len3 /dot3; rewrite -[RHS]sqrt_0; f_equal; ring. lra.
  - exists (mkM 1 0 0 0 1 0 0 0 1). split; [exact (C1 D)|]. split.
    { split; [move=> [[a b] c] [[d e] f]|move=> [[a b] c] [[d e] f] [[g h] i]]; cbn; ring. }
    have TE : turn (mkM 1 0 0 0 1 0 0 0 1) (x, y, z) = (x, y, z) by cbn; f_equal; [f_equal|]; ring.
    rewrite TE. split.
    + move=> [D2|[Y Z]]; [lra|]. rewrite /aside. f_equal; [f_equal|by []]; [|by []].
      rewrite Y Z in LL. have E : 0 < x by nra. have EE : (x - L) * (x + L) = 0 by nra.
      apply Rmult_integral in EE. lra.
    + have P : 0 <= 15 / 1000000 * L by lra. rewrite -(sqrt_square _ P). rewrite /len3. apply sqrt_le_1_alt.
      rewrite /minus3 /aside /dot3. have Q0 : (1 - 1 / 10 ^ 10) * L < x by rewrite XL; apply Rmult_lt_compat_r.
      have Q : (1 - 1 / 10 ^ 10) * L * L < x * L by apply Rmult_lt_compat_r. have P2 : 0 < L * L by nra. lra.
Qed.
Lemma rotate_anti x y z : 0 < len3 (x, y, z) -> xcos (x, y, z) < -1 + 1 / 10 ^ 10 ->
  exists m, rotate_to (mk3 x y z) (mk3 1 0 0) = Some m /\ is_mirror (turn m) /\ forall a, turn m a = minus3 (0, 0, 0) a.
Proof.
  move=> H K. have [_ [C2 _]] := rotate_cut (v := mk3 x y z) H. exists (mkM (-1) 0 0 0 (-1) 0 0 0 (-1)). split; [exact (C2 K)|].
  split; [split; [move=> [[a b] c] [[d e] f]|move=> [[a b] c] [[d e] f] [[g h] i]]; cbn; ring|].
  move=> [[a b] c]. cbn. f_equal; [f_equal|]; ring.
Qed.
