From Coq Require Import Sorted.
From Verif Require Import Base ModelCluster ModelRecipes SpecOrder ProofsOrder SpecRecipes ProofsRecipes.
Set Implicit Arguments. Unset Strict Implicit.

(* ------------------------------------------------ binmaker *)
Lemma removelast_seq (f : nat -> R) n : removelast (map f (seq 0 (S n))) = map f (seq 0 n).
Proof. rewrite seq_S map_app. exact: removelast_last. Qed.
Lemma tl_seq (f : nat -> R) n : tl (map f (seq 0 (S n))) = map f (seq 1 n).
Proof. done. Qed.
Lemma nth_map_seq {A} (f : nat -> A) s n k d : (k < n)%nat -> nth k (map f (seq s n)) d = f (s + k)%nat.
Proof. move=> H. rewrite (@nth_map' _ _ _ _ k d 0%nat) ?seq_length // seq_nth //. Qed.

Lemma grid_adjacent (f : nat -> R) n : (0 < n)%nat -> (forall k, (k < n)%nat -> f k <= f (S k)) ->
  adjacent (map f (seq 0 n)) (map f (seq 1 n)).
Proof.
  move=> Hn H. split; [by rewrite !map_length !seq_length|]. split; [by destruct n => //; lia|].
  rewrite map_length seq_length. split => k Hk; rewrite !nth_map_seq //; try lia. exact (H k Hk).
Qed.
Lemma grid_spans x (f : nat -> R) n m M : (0 < n)%nat -> least x m -> greatest x M -> f 0%nat = m -> f n = M ->
  spans x (map f (seq 0 n)) (map f (seq 1 n)).
Proof.
  move=> Hn Lm GM E0 En. split; rewrite ?map_length ?seq_length nth_map_seq; try lia.
  - by rewrite E0.
  - have -> : (1 + (n - 1))%nat = n by lia. by rewrite En.
Qed.

Lemma zip_nth2 (f : R -> R -> R) l h k : (k < length l)%nat -> (k < length h)%nat ->
  nth k (zip_with f l h) 0 = f (nth k l 0) (nth k h 0).
Proof. revert h k; induction l as [|c l IH]; move=> [|d h] [|k] /=; try lia; move=> Q1 Q2 //; apply IH; lia. Qed.

Lemma ln10_pos : 0 < ln 10. Proof. rewrite -ln_1. apply ln_increasing; lra. Qed.
Lemma pow10_log10 a : 0 < a -> pow10 (log10 a) = a.
Proof.
  move=> H. rewrite /pow10 /log10 /Rpower. have := ln10_pos => L.
  have -> : ln a / ln 10 * ln 10 = ln a by field; lra. exact: exp_ln.
Qed.
Lemma log10_pow10 y : log10 (pow10 y) = y.
Proof. rewrite /pow10 /log10 /Rpower ln_exp. have := ln10_pos => L. field; lra. Qed.
Lemma pow10_le a b : a <= b -> pow10 a <= pow10 b.
Proof. move=> H. rewrite /pow10. apply Rle_Rpower; lra. Qed.
Lemma pow10_lt a b : a < b -> pow10 a < pow10 b.
Proof. move=> H. rewrite /pow10. apply Rpower_lt; lra. Qed.
Lemma pow10_pos y : 0 < pow10 y. Proof. apply exp_pos. Qed.
Lemma log10_le a b : 0 < a -> a <= b -> log10 a <= log10 b.
Proof.
  move=> Ha H. rewrite /log10 /Rdiv. apply Rmult_le_compat_r; [have := Rinv_0_lt_compat _ ln10_pos; lra|].
  destruct H as [H|<-]; [left; by apply ln_increasing|lra].
Qed.


Theorem binmaker_partition x nbin st : x <> [] -> (0 < nbin)%nat -> (st = Log -> all_positive x) ->
  exists b, binmaker x nbin st = Ok b /\ length (b_lo b) = nbin /\
    adjacent (b_lo b) (b_hi b) /\ spans x (b_lo b) (b_hi b) /\
    describes x (b_lo b) (b_hi b) (b_hist b) (b_sum b) /\ natsum (b_hist b) = length x /\
    (forall k, (k < nbin)%nat -> nth k (b_mid b) 0 = (nth k (b_lo b) 0 + nth k (b_hi b) 0) / 2) /\
    (forall j k, (j < nbin)%nat -> (k < nbin)%nat ->
      match st with
      | Linear => nth j (b_hi b) 0 - nth j (b_lo b) 0 = nth k (b_hi b) 0 - nth k (b_lo b) 0
      | Log => nth j (b_hi b) 0 * nth k (b_lo b) 0 = nth k (b_hi b) 0 * nth j (b_lo b) 0
      end) /\
    (forall v, In v x -> exists! k, in_bin (b_lo b) (b_hi b) k v).
Proof.
  move=> Nx Hb Hpos. rewrite /binmaker.
  destruct (amin x) as [m|] eqn:Em; last by destruct x.
  destruct (amax x) as [M|] eqn:EM; last by destruct x.
  have Lm := amin_least Em. have GM := amax_greatest EM.
  have mM : m <= M by apply Lm, GM.
  have Bp : 0 < INR nbin by apply lt_0_INR.
  have S1 : INR (S nbin - 1) = INR nbin by rewrite Nat.sub_1_r.
  set F := fun i => match st with
    | Linear => m + INR i * ((M - m) / INR (S nbin - 1))
    | Log => pow10 (log10 m + INR i * ((log10 M - log10 m) / INR (S nbin - 1))) end.
  have -> : match st with Linear => linspace m M (S nbin) | Log => logspace (log10 m) (log10 M) (S nbin) end = map F (seq 0 (S nbin)).
  { rewrite /F /logspace /linspace. destruct st => //. by rewrite map_map. }
  rewrite removelast_seq tl_seq.
  have Fm : forall k, (k < nbin)%nat -> F k <= F (S k).
  { move=> k Hk. rewrite /F S1 S_INR. destruct st.
    - have : 0 <= (M - m) / INR nbin by apply Rmult_le_pos; [lra|left; exact: Rinv_0_lt_compat]. lra.
    - apply pow10_le. have P := Hpos eq_refl. have Hm : 0 < m by apply P, Lm.
      have : 0 <= (log10 M - log10 m) / INR nbin.
      { apply Rmult_le_pos; [have := log10_le Hm mM; lra|left; exact: Rinv_0_lt_compat]. } lra. }
  have F0 : F 0%nat = m.
  { rewrite /F /=. destruct st; [lra|]. rewrite Rmult_0_l Rplus_0_r pow10_log10 //. apply (Hpos eq_refl), Lm. }
  have Fn : F nbin = M.
  { rewrite /F S1. destruct st; [field; lra|].
    have -> : log10 m + INR nbin * ((log10 M - log10 m) / INR nbin) = log10 M by field; lra.
    rewrite pow10_log10 //. apply (Hpos eq_refl), GM. }
  have Ad := grid_adjacent Hb Fm. have Sp := grid_spans Hb Lm GM F0 Fn.
  have [AL [_ [W _]]] := Ad.
  eexists; split; [reflexivity|]. cbn [b_lo b_hi b_mid b_hist b_sum].
  split; [by rewrite map_length seq_length|]. do 2 (split => //).
  split; [exact: masked_describes|]. split; [exact: masked_total|]. split; last split.
  - move=> k Hk. rewrite zip_nth2 ?map_length ?seq_length // !nth_map_seq //. lra.
  - move=> j k Hj Hk. rewrite !nth_map_seq //. rewrite /F S1 !plus_INR. cbn [INR]. destruct st.
    + field; lra.
    + rewrite /pow10 -!Rpower_plus. f_equal. field; lra.
  - move=> v I. have [k [_ B]] := in_bin_of Ad Sp I. exists k. split => // j B'. exact (in_bin_unique Ad B B').
Qed.

(* ------------------------------------------------ roaming bins of equal width *)
Lemma largest_index (P : nat -> Prop) n : (forall k, P k \/ ~ P k) -> (0 < n)%nat -> P 0%nat ->
  exists k, (k < n)%nat /\ P k /\ ((S k < n)%nat -> ~ P (S k)).
Proof.
  move=> D. induction n as [|n IH] => Hn H0; [lia|].
  destruct n as [|n].
  - exists 0%nat. split; [lia|]. split => //; lia.
  - have [k [Hk [Pk Nk]]] := IH ltac:(lia) H0.
    destruct (Nat.eq_dec (S k) (S n)) as [E|N].
    + destruct (D (S n)) as [Y|Y].
      * exists (S n). split; [lia|]. split => //; lia.
      * exists k. split; [lia|]. split => // _. by rewrite E.
    + exists k. split; [lia|]. split => // _. apply Nk; lia.
Qed.

(* offsets of roaming bins, as fractions of the range *)
Lemma roam_step nbin ntot : (0 < nbin)%nat -> (nbin <= ntot)%nat -> (1 < ntot)%nat ->
  (1 - 1 / INR nbin) / INR (ntot - 1) <= 1 / INR nbin.
Proof.
  move=> Hb Hn H1. have Bp : 0 < INR nbin by apply lt_0_INR.
  have Tp : 0 < INR (ntot - 1) by apply lt_0_INR; lia.
  apply (Rmult_le_reg_r (INR (ntot - 1) * INR nbin)); [by apply Rmult_lt_0_compat|].
  have -> : (1 - 1 / INR nbin) / INR (ntot - 1) * (INR (ntot - 1) * INR nbin) = INR nbin - 1 by field; lra.
  have -> : 1 / INR nbin * (INR (ntot - 1) * INR nbin) = INR (ntot - 1) by field; lra.
  rewrite minus_INR; first lia. have := le_INR _ _ Hn. cbn [INR]. lra.
Qed.

Lemma lin_cover (m M v : R) nbin ntot : m <= M -> (0 < nbin)%nat -> (nbin <= ntot)%nat -> m <= v <= M ->
  let dx := (M - m) / INR nbin in
  let lo k := m + INR k * ((M - dx - m) / INR (ntot - 1)) in
  exists k, (k < ntot)%nat /\ lo k <= v /\ (v < lo k + dx \/ S k = ntot /\ v = lo k + dx).
Proof.
  move=> mM Hb Hn [Hv1 Hv2] dx lo. have Bp : 0 < INR nbin by apply lt_0_INR.
  have B1 : 1 <= INR nbin by apply (le_INR 1).
  have dxp : 0 <= dx by apply Rmult_le_pos; [lra|left; exact: Rinv_0_lt_compat].
  destruct (Nat.eq_dec ntot 1) as [E1|N1].
  { have Eb : nbin = 1%nat by lia. exists 0%nat. split; [lia|]. rewrite /lo /=. split; [lra|].
    have : dx = M - m by rewrite /dx Eb /=; field. move=> Ed. rewrite Rmult_0_l Rplus_0_r.
    destruct (Req_dec v M); [right; split; [lia|lra]|left; lra]. }
  have Tp : 0 < INR (ntot - 1) by apply lt_0_INR; lia.
  have lo_last : lo (ntot - 1)%nat + dx = M by rewrite /lo; field; lra.
  have step : (M - dx - m) / INR (ntot - 1) <= dx.
  { have := @roam_step nbin ntot Hb Hn ltac:(lia) => S.
    have -> : (M - dx - m) / INR (ntot - 1) = (M - m) * ((1 - 1 / INR nbin) / INR (ntot - 1)) by rewrite /dx; field; lra.
    have -> : dx = (M - m) * (1 / INR nbin) by rewrite /dx; field; lra.
    apply Rmult_le_compat_l; lra. }
  have [k [Hk [Pk Nk]]] := @largest_index (fun k => lo k <= v) ntot (fun k => ltac:(destruct (Rle_dec (lo k) v); auto)) ltac:(lia) ltac:(rewrite /lo /=; lra).
  exists k. split => //. split => //.
  destruct (Nat.eq_dec (S k) ntot) as [Ek|N].
  - have Ek' : k = (ntot - 1)%nat by lia. rewrite Ek' lo_last. destruct (Req_dec v M); [right; split; [lia|done]|left; lra].
  - left. have := Nk ltac:(lia). rewrite /lo S_INR. lra.
Qed.

Lemma lin_range (m M : R) nbin ntot k : m <= M -> (0 < nbin)%nat -> (k < ntot)%nat ->
  let dx := (M - m) / INR nbin in
  let lo k := m + INR k * ((M - dx - m) / INR (ntot - 1)) in
  m <= lo k /\ lo k <= lo k + dx /\ lo k + dx <= M.
Proof.
  move=> mM Hb Hk dx lo. have Bp : 0 < INR nbin by apply lt_0_INR.
  have B1 : 1 <= INR nbin by apply (le_INR 1).
  have dxp : 0 <= dx by apply Rmult_le_pos; [lra|left; exact: Rinv_0_lt_compat].
  have dxM : dx <= M - m.
  { rewrite /dx. apply (Rmult_le_reg_r (INR nbin)) => //. have -> : (M - m) / INR nbin * INR nbin = M - m by field; lra.
    have := Rmult_le_compat_l (M - m) 1 (INR nbin) ltac:(lra) B1. lra. }
  destruct (Nat.eq_dec ntot 1) as [E1|N1].
  { have -> : k = 0%nat by lia. rewrite /lo /=. lra. }
  have Tp : 0 < INR (ntot - 1) by apply lt_0_INR; lia.
  have Kp : 0 <= INR k by apply pos_INR.
  have Kl : INR k <= INR (ntot - 1) by apply le_INR; lia.
  have : 0 <= INR k * ((M - dx - m) / INR (ntot - 1)).
  { apply Rmult_le_pos => //. apply Rmult_le_pos; [lra|left; exact: Rinv_0_lt_compat]. }
  have : INR k * ((M - dx - m) / INR (ntot - 1)) <= M - dx - m.
  { have -> : INR k * ((M - dx - m) / INR (ntot - 1)) = (M - dx - m) * (INR k / INR (ntot - 1)) by field; lra.
    rewrite -[X in _ <= X]Rmult_1_r. apply Rmult_le_compat_l; [lra|].
    apply (Rmult_le_reg_r (INR (ntot - 1))) => //. have -> : INR k / INR (ntot - 1) * INR (ntot - 1) = INR k by field; lra. lra. }
  rewrite /lo. lra.
Qed.

Lemma least_log x m : all_positive x -> least x m -> least (map log10 x) (log10 m).
Proof.
  move=> P [I H]. split; [by apply in_map|]. move=> v /in_map_iff [w [<- Iw]]. apply log10_le; [by apply P|by apply H].
Qed.
Lemma greatest_log x m : all_positive x -> greatest x m -> greatest (map log10 x) (log10 m).
Proof.
  move=> P [I H]. split; [by apply in_map|]. move=> v /in_map_iff [w [<- Iw]]. apply log10_le; [by apply P|by apply H].
Qed.


Theorem roaming_binmaker_correct x nbin ntot st : x <> [] -> (0 < nbin)%nat -> (0 < ntot)%nat -> (st = Log -> all_positive x) ->
  exists b, roaming_binmaker x nbin ntot st = Ok b /\ length (b_lo b) = ntot /\ length (b_hi b) = ntot /\
    (forall k, (k < ntot)%nat -> nth k (b_lo b) 0 <= nth k (b_hi b) 0 /\
       in_range x (nth k (b_lo b) 0) /\ in_range x (nth k (b_hi b) 0) /\
       nth k (b_lo b) 0 <= nth k (b_mid b) 0 <= nth k (b_hi b) 0) /\
    ((nbin <= ntot)%nat -> describes x (b_lo b) (b_hi b) (b_hist b) (b_sum b) /\
       forall v, In v x -> exists k, in_bin (b_lo b) (b_hi b) k v) /\
    describes x (b_lo b) (b_hi b) (b_hist b) (b_sum b).
Proof.
  move=> Nx Hb Ht Hpos. have Bp : 0 < INR nbin by apply lt_0_INR.
  destruct st.
  - rewrite /roaming_binmaker.
    destruct (amin x) as [m|] eqn:Em; last by destruct x.
    destruct (amax x) as [M|] eqn:EM; last by destruct x.
    have Lm := amin_least Em. have GM := amax_greatest EM. have mM : m <= M by apply Lm, GM.
    have -> : Rabs (M - m) = M - m by rewrite Rabs_pos_eq //; lra.
    set dx := (M - m) / INR nbin. rewrite /linspace map_map.
    set lo := fun i => m + INR i * ((M - dx - m) / INR (ntot - 1)).
    eexists; split; [reflexivity|]. cbn [b_lo b_hi b_mid b_hist b_sum].
    rewrite !map_length !seq_length. do 2 split => //.
    have Rg : forall k, (k < ntot)%nat -> m <= lo k /\ lo k <= lo k + dx /\ lo k + dx <= M by move=> k Hk; apply lin_range.
    have Ds : describes x (map lo (seq 0 ntot)) (map (fun k => lo k + dx) (seq 0 ntot))
       (masked_hist x (map lo (seq 0 ntot)) (map (fun k => lo k + dx) (seq 0 ntot)))
       (masked_sum x (map lo (seq 0 ntot)) (map (fun k => lo k + dx) (seq 0 ntot))).
    { apply masked_describes; [by rewrite !map_length|]. rewrite map_length seq_length => k Hk. rewrite !nth_map_seq //. exact (proj1 (proj2 (Rg k Hk))). }
    split; last split => //.
    + move=> k Hk. rewrite zip_nth2 ?map_length ?seq_length // !nth_map_seq // Nat.add_0_l.
      have [R1 [R2 R3]] := Rg k Hk. rewrite -!/(lo k). split; [lra|]. split; [exists m, M; do 2 split => //; lra|]. split; [exists m, M; do 2 split => //; lra|lra].
    + move=> Hn; split => // v I. have [k [Hk [H1 H2]]] := @lin_cover m M v nbin ntot mM Hb Hn (conj (proj2 Lm v I) (proj2 GM v I)).
      by exists k; rewrite /in_bin map_length seq_length !nth_map_seq.
  - have P := Hpos eq_refl. rewrite /roaming_binmaker.
    destruct (amin x) as [m0|] eqn:Em0; last by destruct x.
    destruct (amax x) as [M0|] eqn:EM0; last by destruct x.
    have Lm0 := amin_least Em0. have GM0 := amax_greatest EM0.
    destruct (amin (map log10 x)) as [m|] eqn:Em; last by destruct x.
    destruct (amax (map log10 x)) as [M|] eqn:EM; last by destruct x.
    have Lm := amin_least Em. have GM := amax_greatest EM.
    have Eqm : m = log10 m0 := least_unique Lm (least_log P Lm0).
    have EqM : M = log10 M0 := greatest_unique GM (greatest_log P GM0).
    have mM : m <= M by apply Lm, GM.
    have Em0' : m0 = pow10 m by rewrite Eqm pow10_log10 //; apply P, Lm0.
    have EM0' : M0 = pow10 M by rewrite EqM pow10_log10 //; apply P, GM0.
    have -> : Rabs (M - m) = M - m by rewrite Rabs_pos_eq //; lra.
    set dx := (M - m) / INR nbin. rewrite /logspace /linspace !map_map.
    set lo := fun i => m + INR i * ((M - dx - m) / INR (ntot - 1)).
    have -> : map (fun i => pow10 (m + dx + INR i * ((M - (m + dx)) / INR (ntot - 1)))) (seq 0 ntot) =
              map (fun i => pow10 (lo i + dx)) (seq 0 ntot).
    { apply map_ext => i. rewrite /lo. f_equal.
      have -> : M - (m + dx) = M - dx - m by lra. lra. }
    eexists; split; [reflexivity|]. cbn [b_lo b_hi b_mid b_hist b_sum].
    rewrite !map_length !seq_length. do 2 split => //.
    have Rg : forall k, (k < ntot)%nat -> m <= lo k /\ lo k <= lo k + dx /\ lo k + dx <= M by move=> k Hk; apply lin_range.
    have Ds : describes x (map (fun k => pow10 (lo k)) (seq 0 ntot)) (map (fun k => pow10 (lo k + dx)) (seq 0 ntot))
       (masked_hist x (map (fun k => pow10 (lo k)) (seq 0 ntot)) (map (fun k => pow10 (lo k + dx)) (seq 0 ntot)))
       (masked_sum x (map (fun k => pow10 (lo k)) (seq 0 ntot)) (map (fun k => pow10 (lo k + dx)) (seq 0 ntot))).
    { apply masked_describes; [by rewrite !map_length|]. rewrite map_length seq_length => k Hk. rewrite !nth_map_seq //.
      apply pow10_le. exact (proj1 (proj2 (Rg k Hk))). }
    split; last split => //.
    + move=> k Hk. rewrite zip_nth2 ?map_length ?seq_length // !nth_map_seq // Nat.add_0_l.
      have [R1 [R2 R3]] := Rg k Hk. rewrite -?/(lo k). split; [by apply pow10_le|].
      split; [exists m0, M0; do 2 split => //; rewrite Em0' EM0'; split; apply pow10_le; lra|].
      split; [exists m0, M0; do 2 split => //; rewrite Em0' EM0'; split; apply pow10_le; lra|].
      rewrite !log10_pow10. split; apply pow10_le; lra.
    + move=> Hn; split => // v I. have Hv : m <= log10 v <= M by split; [apply Lm|apply GM]; apply in_map.
      have Ev : v = pow10 (log10 v) by rewrite pow10_log10 //; apply P.
      have [k [Hk [H1 H2]]] := @lin_cover m M (log10 v) nbin ntot mM Hb Hn Hv.
      exists k. rewrite /in_bin map_length seq_length !nth_map_seq //. rewrite Nat.add_0_l. split => //.
      split; [rewrite Ev; by apply pow10_le|]. destruct H2 as [H2|[H2 H3]]; [left; rewrite Ev; by apply pow10_lt|right; split => //].
      rewrite Ev H3 //.
Qed.

(* ------------------------------------------------ roaming bins of equal number *)
Lemma trunc_le a n : a <= INR n -> (trunc a <= n)%nat.
Proof.
  move=> H. rewrite /trunc. have [B _] := base_Int_part a.
  have : (Int_part a <= Z.of_nat n)%Z; [|lia]. apply le_IZR. rewrite -INR_IZR_INZ. lra.
Qed.
Lemma trunc_mono a b : a <= b -> (trunc a <= trunc b)%nat.
Proof.
  move=> H. rewrite /trunc. have [B1 B2] := base_Int_part a. have [B3 B4] := base_Int_part b.
  have : (Int_part a < Int_part b + 1)%Z; [|lia]. apply lt_IZR. rewrite plus_IZR. lra.
Qed.
Lemma trunc_INR n : trunc (INR n) = n.
Proof. rewrite /trunc Int_part_INR. lia. Qed.

Lemma roam_tail M : forall lo0 hi0, length lo0 = length hi0 -> lo0 <> [] ->
  (forall k, (k < length lo0)%nat -> nth k lo0 0 <= nth k hi0 0 <= M) ->
  (forall k, (S k < length lo0)%nat -> nth (S k) lo0 0 <= nth k hi0 0) ->
  nth (length hi0 - 1) hi0 0 = M ->
  let lo := select (nondegenerate lo0 hi0) lo0 in let hi := select (nondegenerate lo0 hi0) hi0 in
  length lo = length hi /\ (forall k, (k < length lo)%nat -> nth k lo 0 < nth k hi 0) /\
  (lo = [] -> nth 0 lo0 0 = M) /\ (lo <> [] -> nth (length hi - 1) hi 0 = M) /\
  (forall v, In v lo -> In v lo0) /\ (forall v, In v hi -> In v hi0) /\ (length lo <= length lo0)%nat.
Proof.
  induction lo0 as [|a lo0 IH]; move=> [|b hi0] // [L] _ H1 H2 H3. cbv zeta. cbn [nondegenerate zip_with select].
  have [Hab HbM] : a <= b /\ b <= M by apply (H1 0%nat); simpl; lia.
  destruct lo0 as [|a' lo0].
  - destruct hi0 => //. simpl in H3. subst b. cbn. destruct (Reqb a M) eqn:E => /=.
    + apply Reqb_spec in E. split => //. split; [move=> k /=; lia|]. by repeat (split => //); lia.
    + apply Reqb_false in E. split => //. split; [move=> [|k] /= ?; [lra|lia]|]. by [].
  - destruct hi0 as [|b' hi0] => //.
    have G1 : forall k, (k < length (a' :: lo0))%nat -> nth k (a' :: lo0) 0 <= nth k (b' :: hi0) 0 <= M.
    { move=> k Hk. apply (H1 (S k)). simpl in *; lia. }
    have G2 : forall k, (S k < length (a' :: lo0))%nat -> nth (S k) (a' :: lo0) 0 <= nth k (b' :: hi0) 0.
    { move=> k Hk. apply (H2 (S k)). simpl in *; lia. }
    have G3 : nth (length (b' :: hi0) - 1) (b' :: hi0) 0 = M.
    { rewrite -H3. cbn [length]. have -> : (S (S (length hi0)) - 1)%nat = S (S (length hi0) - 1)%nat by lia. done. }
    pose proof (IH (b' :: hi0) L ltac:(done) G1 G2 G3) as D. cbv zeta in D.
    rewrite -/(nondegenerate (a' :: lo0) (b' :: hi0)).
    move: (select (nondegenerate (a' :: lo0) (b' :: hi0)) (a' :: lo0)) (select (nondegenerate (a' :: lo0) (b' :: hi0)) (b' :: hi0)) D => lo hi [D1 [D2 [D3 [D4 [D5 [D6 D7]]]]]].
    have Hn : a' <= b := H2 0%nat ltac:(simpl; lia).
    destruct (Reqb a b) eqn:E.
    + apply Reqb_spec in E. cbn [negb]. split => //. split => //. split.
      { move=> /D3 /= Q. lra. }
      split => //. split; [by move=> v /D5; right|]. split; [by move=> v /D6; right|]. simpl in *; lia.
    + apply Reqb_false in E. cbn [negb]. split; [by cbn [length]; rewrite D1|].
      split; [move=> [|k] /= Hk; [lra|apply D2; lia]|]. split => //. split.
      { move=> _. destruct hi as [|h hi].
        - destruct lo => //. simpl. have /= := D3 eq_refl. lra.
        - have Nl : lo <> [] by move=> Z; rewrite Z in D1.
          rewrite -(D4 Nl). cbn [length]. have -> : (S (S (length hi)) - 1)%nat = S (S (length hi) - 1)%nat by lia. done. }
      split; [by move=> v [->|I]; [left|right; apply D5]|]. split; [by move=> v [->|I]; [left|right; apply D6]|]. simpl in *; lia.
Qed.

Theorem roaming_nbinmaker_correct x nbin ntot : x <> [] -> (0 < nbin)%nat -> (nbin <= ntot)%nat -> (1 < ntot)%nat ->
  let b := roaming_nbinmaker x nbin ntot in
    length (b_lo b) = length (b_hi b) /\ (length (b_lo b) <= ntot)%nat /\
    describes x (b_lo b) (b_hi b) (b_hist b) (b_sum b) /\
    (forall k, (k < length (b_lo b))%nat -> nth k (b_lo b) 0 < nth k (b_hi b) 0 /\
       In (nth k (b_lo b) 0) x /\ In (nth k (b_hi b) 0) x /\ (0 < nth k (b_hist b) 0)%nat /\
       nth k (b_lo b) 0 <= nth k (b_mid b) 0 <= nth k (b_hi b) 0).
Proof.
  move=> Nx Hb Hn Ht. have Lx : (0 < length x)%nat by destruct x => //=; lia.
  rewrite /roaming_nbinmaker. cbv zeta. rewrite /linspace !map_map.
  set dx := 1 / INR nbin. set f := fun i => 0 + INR i * ((1 - dx - 0) / INR (ntot - 1)).
  set N := INR (length x - 1).
  have Ff : forall i, f i = INR i * ((1 - dx) / INR (ntot - 1)) by move=> i; rewrite /f Rminus_0_r Rplus_0_l.
  have Bp : 0 < INR nbin by apply lt_0_INR. have B1 : 1 <= INR nbin by apply (le_INR 1).
  have Tp : 0 < INR (ntot - 1) by apply lt_0_INR; lia.
  have dxp : 0 < dx by rewrite /dx /Rdiv Rmult_1_l; exact: Rinv_0_lt_compat.
  have Np : 0 <= N by apply pos_INR.
  have step : (1 - dx) / INR (ntot - 1) <= dx by apply roam_step.
  have Rg : forall k, (k < ntot)%nat -> 0 <= f k /\ f k + dx <= 1.
  { move=> k Hk. have := @lin_range 0 1 nbin ntot k ltac:(lra) Hb Hk. cbv zeta.
    have -> : (1 - 0) / INR nbin = dx by rewrite Rminus_0_r. rewrite -/(f k). lra. }
  have flast : f (ntot - 1)%nat + dx = 1 by rewrite Ff; field; lra.
  set lo0 := map (fun i => nth (trunc (f i * N)) (sortR x) 0) (seq 0 ntot).
  set hi0 := map (fun i => nth (trunc ((f i + dx) * N)) (sortR x) 0) (seq 0 ntot).
  have idx : forall g, g <= 1 -> (trunc (g * N) < length x)%nat.
  { move=> g Hg. have : (trunc (g * N) <= length x - 1)%nat; [|lia]. apply trunc_le. rewrite -/N.
    have := Rmult_le_compat_r N g 1 Np Hg. lra. }
  have D := @roam_tail (nth (length x - 1) (sortR x) 0) lo0 hi0.
  pose proof (D ltac:(by rewrite /lo0 /hi0 !map_length)
    ltac:(by rewrite /lo0; destruct ntot; [lia|]) ) as D'. clear D. cbv zeta in D'.
  have Il0 : forall v, In v lo0 -> In v x.
  { move=> v /in_map_iff [i [<- /in_seq [_ Hi]]]. apply sortR_in, idx. have := Rg i Hi. lra. }
  have Ih0 : forall v, In v hi0 -> In v x.
  { move=> v /in_map_iff [i [<- /in_seq [_ Hi]]]. apply sortR_in, idx. have := Rg i Hi. lra. }
  have D2 : length (select (nondegenerate lo0 hi0) lo0) = length (select (nondegenerate lo0 hi0) hi0) /\
    (forall k, (k < length (select (nondegenerate lo0 hi0) lo0))%nat -> nth k (select (nondegenerate lo0 hi0) lo0) 0 < nth k (select (nondegenerate lo0 hi0) hi0) 0) /\
    (select (nondegenerate lo0 hi0) lo0 <> [] -> nth (length (select (nondegenerate lo0 hi0) hi0) - 1) (select (nondegenerate lo0 hi0) hi0) 0 = nth (length x - 1) (sortR x) 0) /\
    (forall v, In v (select (nondegenerate lo0 hi0) lo0) -> In v lo0) /\ (forall v, In v (select (nondegenerate lo0 hi0) hi0) -> In v hi0) /\
    (length (select (nondegenerate lo0 hi0) lo0) <= ntot)%nat.
  { destruct D' as [E1 [E2 [E3 [E4 [E5 [E6 E7]]]]]].
    - rewrite /lo0 /hi0 map_length seq_length => k Hk. rewrite !nth_map_seq // Nat.add_0_l.
      have := Rg k Hk. move=> [R1 R2]. split; apply sortR_mono; try (apply idx; lra); try lia.
      + apply trunc_mono. apply Rmult_le_compat_r; lra.
      + have := idx _ R2. lia.
    - rewrite /lo0 /hi0 map_length seq_length => k Hk. rewrite !nth_map_seq //; try lia. rewrite !Nat.add_0_l.
      have [R1 R2] := Rg k ltac:(lia).
      apply sortR_mono; [apply trunc_mono, Rmult_le_compat_r => //|by apply idx].
      rewrite !Ff S_INR. lra.
    - rewrite /hi0 map_length seq_length nth_map_seq; first lia. rewrite Nat.add_0_l flast Rmult_1_l /N trunc_INR //.
    - do 5 (split => //). by rewrite /lo0 map_length seq_length in E7. }
  clear D'. move: (select (nondegenerate lo0 hi0) lo0) (select (nondegenerate lo0 hi0) hi0) D2 => lo hi [E1 [E2 [E4 [E5 [E6 E7]]]]].
  cbn [b_lo b_hi b_mid b_hist b_sum].
  have Mk : forall k v, (k < length lo)%nat -> In v x -> roam_mask lo hi k v = true <-> in_bin lo hi k v.
  { move=> k v Hk I. rewrite -mask_in_bin //; last first.
    - rewrite /roam_mask /mask_bin. destruct (Nat.ltb_spec k (length lo - 1)) => //.
      have Ek : k = (length hi - 1)%nat by lia. rewrite /closed andb_true_iff.
      rewrite [in nth k hi 0]Ek E4; first by move=> Z; rewrite Z /= in Hk; lia.
      split; [move=> Q; split => //|by move=> [Q _]]. apply Rleb_spec. by apply sortR_last.
    - move=> j Hj. left. exact (E2 j Hj). }
  have Ds : describes x lo hi (map (fun j => length (filter (roam_mask lo hi j) x)) (seq 0 (length lo)))
     (map (fun j => sumR (filter (roam_mask lo hi j) x)) (seq 0 (length lo))).
  { rewrite /describes !map_length !seq_length. do 2 split => //. move=> k Hk. rewrite !nth_map_seq // Nat.add_0_l.
    split; [apply counts_filter|apply totals_filter] => v I; exact: Mk. }
  do 2 (split => //). split => //. move=> k Hk. split; [exact (E2 k Hk)|].
  have Ik : In (nth k lo 0) x by apply Il0, E5, nth_In.
  split => //. split; [apply Ih0, E6, nth_In; lia|].
  have [_ [_ Dk]] := Ds. have [C T] := Dk k Hk.
  have Hp : (0 < nth k (map (fun j => length (filter (roam_mask lo hi j) x)) (seq 0 (length lo))) 0)%nat.
  { refine (hist_unique _ C). exists (nth k lo 0). split => //. split => //. split; [lra|left; exact (E2 k Hk)]. }
  split => //.
  have Em : forall (g : R -> nat -> R) (l : list R) (h : list nat), (k < length l)%nat -> (k < length h)%nat ->
      nth k (zip_with g l h) 0 = g (nth k l 0) (nth k h 0%nat).
  { clear. move=> g l; revert k. induction l as [|c l IH]; move=> k [|d h] /=; try lia.
    destruct k => //= ? ?. apply IH; lia. }
  rewrite Em ?map_length ?seq_length //.
  apply (totals_counts_mean C T) => // v [_ [? [?|[_ ->]]]]; [lra|]. have := E2 k Hk. lra.
Qed.

(* with a single roaming bin the count is the whole sample, whatever the bin edges *)
Theorem roaming_nbinmaker_single x nbin : x <> [] ->
  let b := roaming_nbinmaker x nbin 1 in b_lo b <> [] -> b_hist b = [length x].
Proof.
  move=> Nx. rewrite /roaming_nbinmaker. cbv zeta. rewrite /linspace. cbn [seq map].
  cbn [nondegenerate zip_with select]. destruct (negb _) => //= _.
  rewrite Rmult_0_l Rplus_0_r Rmult_0_l. have -> : trunc 0 = 0%nat by rewrite -{1}[0]/(INR 0) trunc_INR.
  f_equal. rewrite /roam_mask. destruct (Nat.ltb_spec 0 (length [nth 0 (sortR x) 0] - 1)) as [Q|_]; [simpl in Q; lia|].
  cbn [nth]. rewrite filter_every // => v I. apply Rleb_spec. by apply sortR_first.
Qed.
