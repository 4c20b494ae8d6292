(* Proofs: rows of a profile partition the stars asked for. *)
From Coq Require Import Sorted.
From Verif Require Import Base ModelCluster ModelOps ModelConv ModelEnergy ModelRecipes ModelStars ModelSubset ModelCoords ModelLagrange ModelProfiles.
From Verif Require Import SpecUnits SpecFrame SpecOrder SpecRecipes SpecEnergy SpecStars SpecSubset SpecLagrange SpecProfiles.
From Verif Require Import ProofsUnits ProofsFrame ProofsSort ProofsSees ProofsEnergy ProofsVR ProofsRecipes ProofsRecipes2 ProofsRecipes4 ProofsLagrange ProofsSubset ProofsSubset2 ProofsSubset4 ProofsProfiles.
Set Implicit Arguments. Unset Strict Implicit.

(* ---------------------------------------------------------------- partitions *)
Lemma members_perm n P l l' : members n P l -> members n P l' -> Permutation l l'.
Proof. move=> [N H] [N' H']. apply NoDup_Permutation => // i. by rewrite H H'. Qed.
Lemma members_ext n P Q l : (forall i, (i < n)%nat -> P i <-> Q i) -> members n P l -> members n Q l.
Proof. move=> E [N H]. split=> // i. rewrite H. split; move=> [A B]; split=> //; by apply E. Qed.
Lemma nodup_app {A} (l k : list A) : NoDup l -> NoDup k -> (forall a, In a l -> ~ In a k) -> NoDup (l ++ k).
Proof.
  induction l as [|a l IH]; move=> N1 N2 D //=. inversion N1 as [|? ? A1 A2]; subst. constructor.
  - rewrite in_app_iff. move=> [I|I] //. exact (D a ltac:(by left) I).
  - apply IH => // b I. apply D. by right.
Qed.
Lemma flat_nodup (L : nat -> list nat) : forall ks, NoDup ks -> (forall k, In k ks -> NoDup (L k)) ->
  (forall i k k', In k ks -> In k' ks -> In i (L k) -> In i (L k') -> k = k') -> NoDup (flat_map L ks).
Proof.
  induction ks as [|k ks IH]; move=> N A B; cbn [flat_map]; [constructor|]. inversion N as [|? ? N1 N2]; subst.
  apply nodup_app.
  - apply A. by left.
  - apply IH=> //; [by move=> k' I; apply A; right|]. move=> i a b I1 I2. apply B; by right.
  - move=> i I1 /in_flat_map [k' [I2 I3]]. have E : k = k' by apply (B i); [left|right| |]. by subst.
Qed.
Lemma members_partition n P K (Q : nat -> nat -> Prop) (L : nat -> list nat) l :
  (forall k, (k < K)%nat -> members n (Q k) (L k)) -> members n P l ->
  (forall i, (i < n)%nat -> P i <-> exists k, (k < K)%nat /\ Q k i) ->
  (forall i k k', (i < n)%nat -> Q k i -> Q k' i -> k = k') -> Permutation (flat_map L (seq 0 K)) l.
Proof.
  move=> A [N H] E U. apply NoDup_Permutation => //.
  - apply flat_nodup; [exact: seq_NoDup| |].
    + move=> k /in_seq I. by apply A; lia.
    + move=> i k k' /in_seq I1 /in_seq I2 J1 J2. destruct (A k ltac:(lia)) as [_ A1]. destruct (A k' ltac:(lia)) as [_ A2].
      apply A1 in J1. apply A2 in J2. apply (U i); tauto.
  - move=> i. rewrite in_flat_map H. split.
    + move=> [k [/in_seq I J]]. destruct (A k ltac:(lia)) as [_ A1]. apply A1 in J. destruct J as [J1 J2]. split=> //.
      apply E => //. exists k. split=> //. lia.
    + move=> [J1 J2]. apply E in J2 => //. destruct J2 as [k [Hk J2]]. exists k. split; [apply in_seq; lia|].
      destruct (A k Hk) as [_ A1]. by apply A1.
Qed.

(* ---------------------------------------------------------------- lengths and widths of the bins *)
Lemma own_bins_mid x nbin bt b : own_bins x nbin bt Linear = Ok b -> length (b_lo b) = length (b_hi b) -> length (b_mid b) = length (b_lo b).
Proof.
  destruct bt; rewrite /own_bins.
  - rewrite /nbinmaker. destruct (amax x) as [M|] => //.
    set lo := select _ _. set hi := select _ (_ ++ _). rewrite /bincount. destruct (existsb _ _) => // [[<-]] _. cbn [b_mid b_lo].
    by rewrite zip_with_length /wbincount !map_length !seq_length Nat.min_id.
  - rewrite /binmaker. destruct (amin x) as [m|] => //. destruct (amax x) as [M|] => // [[<-]]. cbn [b_mid b_lo b_hi] => E.
    rewrite zip_with_length -E Nat.min_id //.
Qed.

Lemma adjacent_flat lo hi : adjacent lo hi -> (forall k, (k < length lo)%nat -> nth k hi 0 = nth k lo 0) ->
  forall k, (k < length lo)%nat -> nth k hi 0 = nth 0 lo 0.
Proof.
  move=> [L [N [W A]]] H. induction k as [|k IH] => Hk; [by rewrite H|]. by rewrite H // A // IH //; lia.
Qed.
Lemma own_bins_wide x nbin bt b : x <> [] -> (0 < nbin)%nat -> ~ constant x -> own_bins x nbin bt Linear = Ok b ->
  adjacent (b_lo b) (b_hi b) /\ spans x (b_lo b) (b_hi b) /\ (length (b_lo b) <= nbin)%nat /\
  forall k, (k < length (b_lo b))%nat -> nth k (b_lo b) 0 <= nth k (b_mid b) 0 <= nth k (b_hi b) 0 /\ nth k (b_lo b) 0 < nth k (b_hi b) 0.
Proof.
  move=> Nx Hb Nc. destruct bt; rewrite /own_bins => E.
  - have [b' [E' [Ad [Sp [Le [_ [_ [H _]]]]]]]] := nbinmaker_partition Nx Nc Hb. have -> : b = b' by congruence.
    do 3 (split => //). move=> k Hk. have [H1 [_ [_ H2]]] := H k Hk. done.
  - have [b' [E' [Le [Ad [Sp [_ [_ [Mi [Wi _]]]]]]]]] := @binmaker_partition x nbin Linear Nx Hb ltac:(by []).
    have Eb : b = b' by congruence. subst b'. cbn zeta in Wi.
    do 2 (split => //). split; [by rewrite Le|]. move=> k Hk. have [L [N [W A]]] := Ad.
    have Wk := W k Hk. rewrite Le in Hk. rewrite (Mi k Hk).
    have P : nth k (b_lo b) 0 < nth k (b_hi b) 0; [|lra].
    destruct (Rle_lt_or_eq_dec _ _ Wk) as [?|Ek] => //. exfalso. apply Nc.
    have F := @adjacent_flat _ _ Ad ltac:(move=> j; rewrite Le => Hj; have := Wi j k Hj Hk; lra) (nbin - 1)%nat ltac:(lia).
    destruct Sp as [[I0 S0] [I1 S1]]. rewrite -L Le F in S1. move=> v w Iv Iw.
    have := S0 v Iv. have := S0 w Iw. have := S1 v Iv. have := S1 w Iw. lra.
Qed.

Section WithGalpy.
Variable G : galpy.

(* ---------------------------------------------------------------- the rows *)
Lemma rows_ok q indx s n nrad bt r c1 : own_framed G (g_c (y_k s)) c1 n -> measured s n -> energies_known q s n -> mask_fits indx n ->
  (0 < nrad)%nat -> profilable q indx s n -> length r = n -> (forall i, (i < n)%nat -> nth i r 0 = radius_of q s i) ->
  exists w, profile_rows q indx None nrad bt r (sys_with s c1) = Ok w /\
    covers q indx s n (w_lo w) (w_hi w) /\ length (w_mid w) = length (w_lo w) /\ (length (w_lo w) <= nrad)%nat /\
    (forall k, (k < length (w_lo w))%nat -> nth k (w_lo w) 0 <= nth k (w_mid w) 0 <= nth k (w_hi w) 0 /\ nth k (w_lo w) 0 < nth k (w_hi w) 0) /\
    length (w_msk w) = n /\ length (w_idx w) = n /\ members n (asked q indx s) (chosen (w_msk w)) /\
    (forall (cum : bool) k, members n (in_row_of cum q indx s (w_lo w) (w_hi w) k) (chosen (in_row cum w k))) /\
    (forall i, (i < n)%nat -> asked q indx s i -> exists k, in_bin (w_lo w) (w_hi w) k (radius_of q s i)).
Proof.
  move=> F M EK MF Hr PR Lr Er. have M1 := framed_measured F M. have Lm := proj1 (proj2 (proj1 M)).
  have H1 : (1 <= n)%nat by destruct PR as [i [_ [? _]]]; lia.
  have [m [Q [L W]]] := @subset_mask q indx (sys_with s c1) n M1 H1 EK MF.
  have W' : forall i, (i < n)%nat -> nth i m false = true <-> asked q indx s i.
  { move=> i Hi. rewrite W // /asked. by rewrite (@framed_satisfies G s c1 n i q F Lm Hi). }
  have ME : members n (asked q indx s) (chosen m) by apply chosen_members.
  have Ex : select m r = map (radius_of q s) (chosen m).
  { rewrite (@select_chosen _ 0 m r) ?L ?Lr //. apply map_ext_in => i /chosen_In [Hi _]. apply Er. by rewrite -L. }
  have [Nx Nc] : select m r <> [] /\ ~ constant (select m r).
  { destruct PR as [i [j [Hi [Hj [Ai [Aj D]]]]]].
    have Ii : In (radius_of q s i) (select m r) by rewrite Ex; apply in_map; apply ME.
    have Ij : In (radius_of q s j) (select m r) by rewrite Ex; apply in_map; apply ME.
    split; [by move=> E0; rewrite E0 in Ii|]. move=> C. by apply D, C. }
  have [b [Eb [Ad [Sp _]]]] := @own_bins_ok (select m r) nrad bt Linear Nx Hr ltac:(by []) ltac:(by []).
  have [_ [_ [Le Wd]]] := own_bins_wide Nx Hr Nc Eb.
  rewrite /profile_rows Q /=. rewrite Eb /=. eexists. split; [reflexivity|]. cbn [w_lo w_mid w_hi w_msk w_idx].
  split; [split => //; exists (chosen m); by rewrite -Ex|].
  split; [apply (own_bins_mid Eb); by destruct Ad|]. split=> //. split=> //. split=> //.
  split; [by rewrite /bin_index map_length|]. split=> //. split.
  - move=> cum k. rewrite /in_row. cbn [w_msk w_idx].
    apply (members_ext (P := fun i => nth i m false = true /\
      if cum then exists j, (j <= k)%nat /\ in_bin (b_lo b) (b_hi b) j (nth i r 0) else in_bin (b_lo b) (b_hi b) k (nth i r 0))).
    + move=> i Hi. rewrite W' // Er //.
    + exact: row_members.
  - move=> i Hi Ai. have [k [_ B]] := in_bin_of Ad Sp (v := radius_of q s i) ltac:(rewrite Ex; apply in_map; by apply ME). by exists k.
Qed.

(* rows and total *)
Lemma rows_partition q indx s n lo hi (L : nat -> list nat) l : adjacent lo hi ->
  (forall i, (i < n)%nat -> asked q indx s i -> exists k, in_bin lo hi k (radius_of q s i)) ->
  (forall k, members n (in_row_of false q indx s lo hi k) (L k)) -> members n (asked q indx s) l ->
  Permutation (flat_map L (seq 0 (length lo))) l.
Proof.
  move=> Ad Cv ML Ml. apply (@members_partition n (asked q indx s) (length lo) (in_row_of false q indx s lo hi)) => //.
  - move=> i Hi. split.
    + move=> A. have [k B] := Cv i Hi A. exists k. split; [by destruct B|]. by split.
    + by move=> [k [_ [A _]]].
  - move=> i k k' _ [_ B] [_ B']. exact (in_bin_unique Ad B B').
Qed.
Lemma rows_cumulative q indx s n lo hi (L : nat -> list nat) l K : adjacent lo hi -> (K < length lo)%nat ->
  (forall k, members n (in_row_of false q indx s lo hi k) (L k)) -> members n (in_row_of true q indx s lo hi K) l ->
  Permutation (flat_map L (seq 0 (S K))) l.
Proof.
  move=> Ad HK ML Ml. apply (@members_partition n (in_row_of true q indx s lo hi K) (S K) (in_row_of false q indx s lo hi)) => //.
  - move=> i Hi. split.
    + move=> [A [j [Hj B]]]. exists j. split; [lia|]. by split.
    + move=> [k [Hk [A B]]]. split=> //. exists k. split=> //. lia.
  - move=> i k k' _ [_ B] [_ B']. exact (in_bin_unique Ad B B').
Qed.
End WithGalpy.
