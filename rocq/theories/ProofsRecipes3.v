From Coq Require Import Sorted.
From Verif Require Import Base ModelCluster ModelRecipes SpecOrder ProofsOrder SpecRecipes ProofsRecipes ProofsRecipes2.
Set Implicit Arguments. Unset Strict Implicit.

(* ------------------------------------------------ power laws *)
Lemma rpow_pos a y : 0 < a -> rpow a y = Rpower a y.
Proof. move=> H. rewrite /rpow. destruct (Req_EM_T a 0); [lra|done]. Qed.
Lemma Rpower_gt0 a y : 0 < Rpower a y. Proof. apply exp_pos. Qed.
Lemma Rpower_inv a y : 0 < a -> y <> 0 -> Rpower (Rpower a y) (1 / y) = a.
Proof. move=> Ha Hy. rewrite Rpower_mult. have -> : y * (1 / y) = 1 by field. exact: Rpower_1. Qed.
Lemma Rpower_le_pos a b y : 0 < y -> 0 < a -> 0 < b -> Rpower a y <= Rpower b y <-> a <= b.
Proof.
  move=> Hy Ha Hb. split => H.
  - apply Rnot_lt_le => Q. have : Rpower b y < Rpower a y by apply exp_increasing, Rmult_lt_compat_l => //; apply ln_increasing. lra.
  - apply Rle_Rpower_l; lra.
Qed.
Lemma Rpower_le_neg a b y : y < 0 -> 0 < a -> 0 < b -> Rpower a y <= Rpower b y <-> b <= a.
Proof.
  move=> Hy Ha Hb.
  have -> : y = - (- y) by lra. rewrite !(Rpower_Ropp _ (- y)).
  have P := @Rpower_le_pos b a (- y) ltac:(lra) Hb Ha.
  have A := Rpower_gt0 a (- y). have B := Rpower_gt0 b (- y).
  split => H.
  - apply P. apply Rnot_lt_le => Q. have := Rinv_lt_contravar _ _ (Rmult_lt_0_compat _ _ A B) Q. lra.
  - apply Rinv_le_contravar => //. by apply P.
Qed.

Lemma mix_between a b u : 0 <= u <= 1 -> Rmin a b <= a + (b - a) * u <= Rmax a b.
Proof.
  move=> [H0 H1]. rewrite /Rmin /Rmax. destruct (Rle_dec a b) as [L|L].
  - have := Rmult_le_pos (b - a) u ltac:(lra) H0. have := Rmult_le_compat_l (b - a) u 1 ltac:(lra) H1. lra.
  - have := Rmult_le_pos (a - b) u ltac:(lra) H0. have := Rmult_le_compat_l (a - b) u 1 ltac:(lra) H1. lra.
Qed.
Lemma mix_pos a b u : 0 < a -> 0 < b -> 0 <= u <= 1 -> 0 < a + (b - a) * u.
Proof. move=> Ha Hb Hu. have := mix_between a b Hu. have := Rmin_glb_lt _ _ _ Ha Hb. lra. Qed.

Definition cdf_ok alpha a b := alpha <= 0 /\ 0 < a < b.

Lemma div_le_iff u p q : 0 < q -> u <= p / q <-> u * q <= p.
Proof.
  move=> Hq. split => H.
  - have := Rmult_le_compat_r q _ _ ltac:(lra) H. have -> : p / q * q = p by field; lra. lra.
  - apply (Rmult_le_reg_r q) => //. have -> : p / q * q = p by field; lra. lra.
Qed.

Theorem power_law_inverse alpha a b u t : alpha <= 0 -> 0 < a < b -> 0 <= u <= 1 -> 0 < t ->
  pl_draw alpha a b u <= t <-> u <= power_law_cdf alpha a b t.
Proof.
  move=> Ha [a0 ab] Hu t0. rewrite /pl_draw /power_law_cdf.
  destruct (Req_EM_T alpha 0) as [->|N0].
  { destruct (Req_EM_T 0 (-1)) as [Q|_]; [lra|]. rewrite Rplus_0_l !Rpower_1; try lra. rewrite div_le_iff; lra. }
  destruct (Rlt_dec 0 alpha) as [Q|_]; [lra|].
  destruct (Req_EM_T alpha (-1)) as [->|N1].
  { have L : ln a < ln b by apply ln_increasing. rewrite div_le_iff; first lra.
    have L10 := ln10_pos.
    have -> : pow10 (log10 a + u * (log10 b - log10 a)) = exp (ln a + u * (ln b - ln a)).
    { rewrite /pow10 /log10 /Rpower. f_equal. field; lra. }
    split => H.
    - have : ln a + u * (ln b - ln a) <= ln t; [|lra].
      apply Rnot_lt_le => Q. have := exp_increasing _ _ Q. rewrite exp_ln //. lra.
    - rewrite -(exp_ln t) //. have Q : ln a + u * (ln b - ln a) <= ln t by lra.
      destruct Q as [Q|Q]; [left; by apply exp_increasing|rewrite Q; lra]. }
  set eta := alpha + 1. have Ne : eta <> 0 by rewrite /eta; lra.
  have Pa := Rpower_gt0 a eta. have Pb := Rpower_gt0 b eta.
  have b0 : 0 < b by lra. rewrite !(rpow_pos _ a0) !(rpow_pos _ b0).
  set z := Rpower a eta + (Rpower b eta - Rpower a eta) * u.
  have Pz : 0 < z by apply mix_pos. rewrite rpow_pos //.
  have Ez : t = Rpower (Rpower t eta) (1 / eta) by rewrite Rpower_inv.
  have Pt := Rpower_gt0 t eta.
  destruct (Rlt_dec 0 eta) as [Ep|En].
  - have Lab : Rpower a eta < Rpower b eta.
    { apply exp_increasing, Rmult_lt_compat_l => //. by apply ln_increasing. }
    have Ei : 0 < 1 / eta by apply Rdiv_lt_0_compat; lra.
    rewrite {1}Ez Rpower_le_pos // div_le_iff /z; lra.
  - have En' : eta < 0 by lra.
    have Lab : Rpower b eta < Rpower a eta.
    { rewrite /Rpower. apply exp_increasing. have := ln_increasing _ _ a0 ab => L.
      have := Rmult_lt_compat_l (- eta) _ _ ltac:(lra) L. lra. }
    have Ei : 1 / eta < 0.
    { have := Rinv_lt_0_compat _ En'. lra. }
    rewrite {1}Ez Rpower_le_neg //.
    have -> : (Rpower t eta - Rpower a eta) / (Rpower b eta - Rpower a eta) = (Rpower a eta - Rpower t eta) / (Rpower a eta - Rpower b eta).
    { field; lra. }
    rewrite div_le_iff /z; lra.
Qed.

Theorem power_law_shifted alpha a b u t : 0 < alpha -> a < b -> 0 <= u <= 1 -> a <= t ->
  pl_draw alpha a b u <= t <-> u <= rpow ((t - a) / (b - a)) (alpha + 1).
Proof.
  move=> Ha ab Hu Ht. rewrite /pl_draw. destruct (Req_EM_T alpha 0); [lra|]. destruct (Rlt_dec 0 alpha); [|lra].
  set eta := alpha + 1. have Ep : 0 < eta by rewrite /eta; lra. have Ei : 0 < 1 / eta by apply Rdiv_lt_0_compat; lra.
  set w := (t - a) / (b - a).
  have W : a + rpow u (1 / eta) * (b - a) <= t <-> rpow u (1 / eta) <= w by rewrite /w div_le_iff; lra.
  rewrite W. have w0 : 0 <= w by apply Rmult_le_pos; [lra|left; apply Rinv_0_lt_compat; lra].
  destruct (Req_EM_T u 0) as [->|Nu].
  { rewrite /rpow. destruct (Req_EM_T 0 0) => //. split => _ //. destruct (Req_EM_T w 0); [lra|]. have := Rpower_gt0 w eta; lra. }
  rewrite rpow_pos; first lra. destruct (Req_EM_T w 0) as [Ew|Nw].
  { rewrite Ew /rpow. destruct (Req_EM_T 0 0) => //. have := Rpower_gt0 u (1 / eta). split; lra. }
  rewrite rpow_pos; first lra.
  have E1 : u = Rpower (Rpower u (1 / eta)) eta by rewrite Rpower_mult; have -> : 1 / eta * eta = 1 by [field; lra]; rewrite Rpower_1; lra.
  rewrite {2}E1 Rpower_le_pos //; [apply Rpower_gt0|lra].
Qed.

Lemma pl_draw_mono alpha a b u w : a < b -> (alpha < 0 -> 0 < a) -> 0 <= u <= 1 -> 0 <= w <= 1 -> u <= w ->
  pl_draw alpha a b u <= pl_draw alpha a b w.
Proof.
  move=> ab a0 Hu Hw uw. destruct (Rlt_dec 0 alpha) as [Q|Q].
  - rewrite /pl_draw. destruct (Req_EM_T alpha 0); [lra|]. destruct (Rlt_dec 0 alpha); [|lra].
    apply Rplus_le_compat_l, Rmult_le_compat_r; [lra|].
    have Ei : 0 < 1 / (alpha + 1) by apply Rdiv_lt_0_compat; lra.
    rewrite /rpow. destruct (Req_EM_T u 0), (Req_EM_T w 0); try lra.
    + left; apply Rpower_gt0.
    + apply Rpower_le_pos; lra.
  - destruct (Req_EM_T alpha 0) as [->|N0].
    { rewrite /pl_draw. destruct (Req_EM_T 0 0) => //. have := Rmult_le_compat_r (b - a) _ _ ltac:(lra) uw. lra. }
    have A0 : 0 < a by apply a0; lra.
    have Pw : 0 < pl_draw alpha a b w.
    { rewrite /pl_draw. destruct (Req_EM_T alpha 0) => //. destruct (Rlt_dec 0 alpha) => //.
      destruct (Req_EM_T alpha (-1)); [apply pow10_pos|]. have B0 : 0 < b by lra.
      rewrite !(rpow_pos _ A0) !(rpow_pos _ B0) rpow_pos; [apply mix_pos => //; apply Rpower_gt0|apply Rpower_gt0]. }
    have al : alpha <= 0 by lra.
    apply (power_law_inverse al (conj A0 ab) Hu Pw).
    have := proj1 (power_law_inverse al (conj A0 ab) Hw Pw) (Rle_refl _). lra.
Qed.

Lemma pl_draw_ends alpha a b : a < b -> (alpha < 0 -> 0 < a) -> pl_draw alpha a b 0 = a /\ pl_draw alpha a b 1 = b.
Proof.
  move=> ab a0. rewrite /pl_draw. destruct (Req_EM_T alpha 0); [split; lra|].
  destruct (Rlt_dec 0 alpha).
  - rewrite /rpow. destruct (Req_EM_T 0 0) => //. destruct (Req_EM_T 1 0); [lra|].
    have -> : Rpower 1 (1 / (alpha + 1)) = 1 by rewrite /Rpower ln_1 Rmult_0_r exp_0. split; lra.
  - have A0 : 0 < a by apply a0; lra. have B0 : 0 < b by lra.
    destruct (Req_EM_T alpha (-1)).
    + rewrite Rmult_0_l Rplus_0_r Rmult_1_l. rewrite pow10_log10 //. split => //.
      have -> : log10 a + (log10 b - log10 a) = log10 b by lra. by apply pow10_log10.
    + rewrite Rmult_0_r Rplus_0_r Rmult_1_r. rewrite !(rpow_pos _ A0) !(rpow_pos _ B0).
      have -> : Rpower a (alpha + 1) + (Rpower b (alpha + 1) - Rpower a (alpha + 1)) = Rpower b (alpha + 1) by lra.
      rewrite !(rpow_pos _ (Rpower_gt0 _ _)). by rewrite !Rpower_inv; try lra.
Qed.

Theorem power_law_range alpha a b u : a < b -> (alpha < 0 -> 0 < a) -> Forall (fun v => 0 <= v < 1) u ->
  exists l, power_law_distribution_function u alpha a b = PArray l /\ length l = length u /\
    Forall (fun v => a <= v <= b) l.
Proof.
  move=> ab a0 F. rewrite /power_law_distribution_function. destruct (Req_EM_T a b); [lra|].
  eexists; split; [reflexivity|]. split; [by rewrite map_length|].
  apply Forall_forall => v /in_map_iff [w [<- I]]. move: F => /Forall_forall /(_ _ I) [w0 w1].
  have [E0 E1] := pl_draw_ends ab a0. split.
  - rewrite -{1}E0. apply pl_draw_mono => //; lra.
  - rewrite -{2}E1. apply pl_draw_mono => //; lra.
Qed.

(* the distribution function named power_law_cdf has density proportional to t^alpha *)
Theorem power_law_cdf_density alpha a b t : 0 < a < b -> 0 < t ->
  exists C, 0 < C /\ derivable_pt_lim (power_law_cdf alpha a b) t (C * Rpower t alpha).
Proof.
  move=> [a0 ab] t0. rewrite /power_law_cdf. destruct (Req_EM_T alpha (-1)) as [->|N].
  - have L := ln_increasing _ _ a0 ab. exists (/ (ln b - ln a)). split; [apply Rinv_0_lt_compat; lra|].
    have -> : / (ln b - ln a) * Rpower t (-1) = (/ t - 0) * / (ln b - ln a).
    { have -> : Rpower t (-1) = / t; [|lra]. have -> : -1 = - (1) by lra. rewrite Rpower_Ropp Rpower_1 //. }
    have -> : (/ t - 0) * / (ln b - ln a) = (/ t - 0) * / (ln b - ln a) + (ln t - ln a) * 0 by lra.
    apply (derivable_pt_lim_mult (fun t => ln t - ln a) (fun _ => / (ln b - ln a))); [|apply derivable_pt_lim_const].
    apply (derivable_pt_lim_minus ln (fun _ => ln a)); [by apply derivable_pt_lim_ln|apply derivable_pt_lim_const].
  - set eta := alpha + 1. have Ne : eta <> 0 by rewrite /eta; lra.
    have Pd : 0 < eta / (Rpower b eta - Rpower a eta).
    { destruct (Rlt_dec 0 eta) as [Ep|En].
      - apply Rdiv_lt_0_compat => //. have : Rpower a eta < Rpower b eta; [|lra].
        apply exp_increasing, Rmult_lt_compat_l => //. by apply ln_increasing.
      - have : Rpower b eta < Rpower a eta.
        { rewrite /Rpower. apply exp_increasing. have L := ln_increasing _ _ a0 ab.
          have := Rmult_lt_compat_l (- eta) _ _ ltac:(lra) L. lra. }
        move=> Q. have -> : eta / (Rpower b eta - Rpower a eta) = (- eta) / (Rpower a eta - Rpower b eta) by field; lra.
        apply Rdiv_lt_0_compat; lra. }
    exists (eta / (Rpower b eta - Rpower a eta)). split => //.
    have -> : eta / (Rpower b eta - Rpower a eta) * Rpower t alpha =
      (eta * Rpower t (eta - 1) - 0) * / (Rpower b eta - Rpower a eta) + (Rpower t eta - Rpower a eta) * 0.
    { have -> : eta - 1 = alpha by rewrite /eta; lra. rewrite /Rdiv; lra. }
    apply (derivable_pt_lim_mult (fun t => Rpower t eta - Rpower a eta) (fun _ => / (Rpower b eta - Rpower a eta))); [|apply derivable_pt_lim_const].
    apply (derivable_pt_lim_minus (fun t => Rpower t eta) (fun _ => Rpower a eta)); [by apply derivable_pt_lim_power|apply derivable_pt_lim_const].
Qed.

(* for alpha = 1 and xmin > 0 the sample is not from the power law *)
Theorem power_law_positive_wrong a b t : 0 < a -> a < t < b ->
  exists u, 0 <= u < 1 /\ u <= power_law_cdf 1 a b t /\ ~ pl_draw 1 a b u <= t.
Proof.
  move=> a0 [at_ tb].
  have e2 : 1 + 1 = INR 2 by rewrite /=; lra.
  have C : power_law_cdf 1 a b t = (t ^ 2 - a ^ 2) / (b ^ 2 - a ^ 2).
  { rewrite /power_law_cdf. destruct (Req_EM_T 1 (-1)); [lra|]. rewrite e2 !Rpower_pow //; lra. }
  have D : rpow ((t - a) / (b - a)) (1 + 1) = ((t - a) / (b - a)) ^ 2.
  { rewrite rpow_pos; first by apply Rdiv_lt_0_compat; lra. rewrite e2 Rpower_pow //. apply Rdiv_lt_0_compat; lra. }
  have q0 : 0 < b ^ 2 - a ^ 2 by nra.
  have Lt : ((t - a) / (b - a)) ^ 2 < (t ^ 2 - a ^ 2) / (b ^ 2 - a ^ 2).
  { apply (Rmult_lt_reg_r ((b - a) ^ 2 * (b ^ 2 - a ^ 2))); [apply Rmult_lt_0_compat => //; nra|].
    have -> : ((t - a) / (b - a)) ^ 2 * ((b - a) ^ 2 * (b ^ 2 - a ^ 2)) = (t - a) ^ 2 * (b ^ 2 - a ^ 2) by field; lra.
    have -> : (t ^ 2 - a ^ 2) / (b ^ 2 - a ^ 2) * ((b - a) ^ 2 * (b ^ 2 - a ^ 2)) = (t ^ 2 - a ^ 2) * (b - a) ^ 2 by field; lra.
    have P1 : 0 < (t - a) * (b - a) by apply Rmult_lt_0_compat; lra.
    have P2 : (t - a) * (b + a) < (t + a) * (b - a) by nra.
    have -> : (t - a) ^ 2 * (b ^ 2 - a ^ 2) = ((t - a) * (b - a)) * ((t - a) * (b + a)) by ring.
    have -> : (t ^ 2 - a ^ 2) * (b - a) ^ 2 = ((t - a) * (b - a)) * ((t + a) * (b - a)) by ring.
    by apply Rmult_lt_compat_l. }
  have U1 : (t ^ 2 - a ^ 2) / (b ^ 2 - a ^ 2) < 1.
  { apply (Rmult_lt_reg_r (b ^ 2 - a ^ 2)) => //. have -> : (t ^ 2 - a ^ 2) / (b ^ 2 - a ^ 2) * (b ^ 2 - a ^ 2) = t ^ 2 - a ^ 2 by field; lra. nra. }
  have U0 : 0 <= (t ^ 2 - a ^ 2) / (b ^ 2 - a ^ 2) by have := pow2_ge_0 ((t - a) / (b - a)); lra.
  exists ((t ^ 2 - a ^ 2) / (b ^ 2 - a ^ 2)). split => //. split; [by rewrite C; lra|].
  rewrite power_law_shifted; try lra.
Qed.
