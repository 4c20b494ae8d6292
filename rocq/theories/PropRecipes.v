(* C25-C30, C53-C55: binning, sampling, nearest neighbours, binned profiles (util/recipes.py). *)
From Verif Require Import Base ModelCluster ModelRecipes SpecRecipes ProofsRecipes ProofsRecipes2 ProofsRecipes3 ProofsRecipes4.

(* C25: equal-number bins.  The bins run from the smallest to the largest element without gap or overlap, every element
   lies in exactly one of them, the histogram and sums describe them, the counts add up to the sample size, no bin is
   empty and the bin value is the mean of its elements. *)
Theorem C25_nbinmaker_partitions :
  forall (x : list R) (nbin : nat), x <> [] -> ~ constant x -> (0 < nbin)%nat ->
  exists b, nbinmaker x nbin = Ok b /\
    adjacent (b_lo b) (b_hi b) /\ spans x (b_lo b) (b_hi b) /\ (length (b_lo b) <= nbin)%nat /\
    describes x (b_lo b) (b_hi b) (b_hist b) (b_sum b) /\ natsum (b_hist b) = length x /\
    (forall k, (k < length (b_lo b))%nat -> nth k (b_lo b) 0 < nth k (b_hi b) 0 /\ (0 < nth k (b_hist b) 0)%nat /\
       nth k (b_mid b) 0 = nth k (b_sum b) 0 / INR (nth k (b_hist b) 0%nat) /\
       nth k (b_lo b) 0 <= nth k (b_mid b) 0 <= nth k (b_hi b) 0) /\
    (forall v, In v x -> exists! k, in_bin (b_lo b) (b_hi b) k v).
Proof. exact nbinmaker_partition. Qed.
Print Assumptions C25_nbinmaker_partitions.

(* C25: with distinct values and more values than bins, there are exactly nbin bins and their counts differ by at most
   one (each is n/nbin rounded down, or one more). *)
Theorem C25_nbinmaker_balanced :
  forall (x : list R) (nbin : nat), NoDup x -> (0 < nbin)%nat -> (nbin < length x)%nat ->
  exists b, nbinmaker x nbin = Ok b /\ length (b_lo b) = nbin /\
    forall k, (k < nbin)%nat ->
      (nth k (b_hist b) 0 = length x / nbin \/ nth k (b_hist b) 0 = S (length x / nbin))%nat.
Proof. exact nbinmaker_balanced. Qed.
Print Assumptions C25_nbinmaker_balanced.

(* C25: the excluded case: a sample of equal values (in particular a single value) has no bins and the call raises. *)
Theorem C25_constant_sample_raises :
  forall (x : list R) (nbin : nat), x <> [] -> constant x -> (0 < nbin)%nat -> nbinmaker x nbin = Raise.
Proof. exact nbinmaker_constant. Qed.
Print Assumptions C25_constant_sample_raises.

Example C25_hypotheses_met : [1; 2; 2; 5] <> [] /\ ~ constant [1; 2; 2; 5] /\ (0 < 3)%nat /\
  NoDup [1; 2; 5] /\ (2 < length [1; 2; 5])%nat /\ constant [4; 4].
Proof.
  split => //. split. { move=> C. have := C 1 5 ltac:(by left) ltac:(by do 3 right; left). lra. }
  split; [lia|]. split.
  { constructor; [move=> [|[|[]]]; lra|]. constructor; [move=> [|[]]; lra|]. constructor => //. constructor. }
  split; [simpl; lia|]. by move=> v w [<-|[<-|[]]] [<-|[<-|[]]].
Qed.

(* C26: equal-width (or equal-ratio) bins *)
Theorem C26_binmaker_partitions :
  forall (x : list R) (nbin : nat) (st : steptype), x <> [] -> (0 < nbin)%nat -> (st = Log -> all_positive x) ->
  exists b, binmaker x nbin st = Ok b /\ length (b_lo b) = nbin /\
    adjacent (b_lo b) (b_hi b) /\ spans x (b_lo b) (b_hi b) /\
    describes x (b_lo b) (b_hi b) (b_hist b) (b_sum b) /\ natsum (b_hist b) = length x /\
    (forall k, (k < nbin)%nat -> nth k (b_mid b) 0 = (nth k (b_lo b) 0 + nth k (b_hi b) 0) / 2) /\
    (forall j k, (j < nbin)%nat -> (k < nbin)%nat ->
      match st with
      | Linear => nth j (b_hi b) 0 - nth j (b_lo b) 0 = nth k (b_hi b) 0 - nth k (b_lo b) 0
      | Log => nth j (b_hi b) 0 * nth k (b_lo b) 0 = nth k (b_hi b) 0 * nth j (b_lo b) 0
      end) /\
    (forall v, In v x -> exists! k, in_bin (b_lo b) (b_hi b) k v).
Proof. exact binmaker_partition. Qed.
Print Assumptions C26_binmaker_partitions.

Example C26_hypotheses_met : [1; 2; 2; 5] <> [] /\ (0 < 3)%nat /\ (Log = Log -> all_positive [1; 2; 2; 5]).
Proof. split => //. split; [lia|]. move=> _ v /= [|[|[|[|[]]]]]; lra. Qed.

(* C27: bin_index returns the bin containing the element *)
Theorem C27_bin_index_contains :
  forall (x lo hi : list R), adjacent lo hi -> (forall v, In v x -> nth 0 lo 0 <= v <= nth (length hi - 1) hi 0) ->
  length (bin_index x lo hi) = length x /\
  forall i, (i < length x)%nat -> exists k, nth i (bin_index x lo hi) 0%Z = Z.of_nat k /\ in_bin lo hi k (nth i x 0) /\
     forall j, in_bin lo hi j (nth i x 0) -> j = k.
Proof.
  move=> x lo hi Ad H. split; [apply map_length|]. move=> i Hi.
  have [k [E B]] := bin_index_correct Ad (H _ (nth_In x 0 Hi)).
  exists k. rewrite /bin_index (@nth_map' _ _ _ x i 0%Z 0) //. do 2 split => //. move=> j B'. exact (in_bin_unique Ad B' B).
Qed.
Print Assumptions C27_bin_index_contains.

(* C27 finding: an element outside the given bins is not rejected: below the first edge it is put into the first bin,
   above the last edge into the last bin (mass functions and histograms with user-supplied bins count it there). *)
Theorem C27_out_of_range_refuted :
  forall (lo hi : list R) (v : R), adjacent lo hi ->
  (v < nth 0 lo 0 -> bin_index1 hi v = 0%Z /\ forall k, ~ in_bin lo hi k v) /\
  (nth (length hi - 1) hi 0 < v -> bin_index1 hi v = (Z.of_nat (length lo) - 1)%Z /\ forall k, ~ in_bin lo hi k v).
Proof.
  move=> lo hi v Ad. have [L [N [W A]]] := Ad. have Lp : (0 < length lo)%nat by destruct lo => //=; lia.
  have SS := @ss_prefix hi v (fun i j Hij Hj => adj_hi Ad Hij (eq_ind_r (fun n => (j < n)%nat) Hj L)).
  split => H.
  - split.
    + have Z : searchsorted_right hi v = 0%nat.
      { destruct (searchsorted_right hi v) eqn:E => //. have /SS : (0 < S n)%nat by lia.
        move=> /(_ ltac:(lia)). have := W 0%nat Lp. lra. }
      rewrite /bin_index1 Z. lia.
    + move=> k [Hk [H1 _]]. destruct k as [|k]; [lra|].
      have := adj_lo Ad (k := 0) (j := S k) ltac:(lia) Hk. have := W 0%nat Lp. lra.
  - split.
    + have Z : searchsorted_right hi v = length hi.
      { have := ss_le hi v. have : (length hi - 1 < searchsorted_right hi v)%nat; [|lia]. apply SS; [lia|lra]. }
      rewrite /bin_index1 Z -L. lia.
    + move=> k [Hk [_ H2]]. have := adj_hi Ad (k := k) (j := (length lo - 1)%nat) ltac:(lia) ltac:(lia).
      rewrite L. destruct H2 as [H2|[_ H2]]; lra.
Qed.
Print Assumptions C27_out_of_range_refuted.

Example C27_hypotheses_met : adjacent [0; 1] [1; 3] /\ (forall v, In v [0; 2; 3] -> nth 0 [0; 1] 0 <= v <= nth (length [1; 3] - 1) [1; 3] 0).
Proof.
  split; [split => //; split => //; split|].
  - move=> [|[|k]] /= H; try lra; lia.
  - move=> [|k] /= H; [done|lia].
  - move=> v /= [<-|[<-|[<-|[]]]]; lra.
Qed.

(* C28: roaming bins of equal width: inside the data range, edges ordered, counts and sums those of the bins; with at
   least nbin of them every element is in some bin. *)
Theorem C28_roaming_binmaker :
  forall (x : list R) (nbin ntot : nat) (st : steptype),
  x <> [] -> (0 < nbin)%nat -> (0 < ntot)%nat -> (st = Log -> all_positive x) ->
  exists b, roaming_binmaker x nbin ntot st = Ok b /\ length (b_lo b) = ntot /\ length (b_hi b) = ntot /\
    (forall k, (k < ntot)%nat -> nth k (b_lo b) 0 <= nth k (b_hi b) 0 /\
       in_range x (nth k (b_lo b) 0) /\ in_range x (nth k (b_hi b) 0) /\
       nth k (b_lo b) 0 <= nth k (b_mid b) 0 <= nth k (b_hi b) 0) /\
    ((nbin <= ntot)%nat -> describes x (b_lo b) (b_hi b) (b_hist b) (b_sum b) /\
       forall v, In v x -> exists k, in_bin (b_lo b) (b_hi b) k v) /\
    describes x (b_lo b) (b_hi b) (b_hist b) (b_sum b).
Proof. exact roaming_binmaker_correct. Qed.
Print Assumptions C28_roaming_binmaker.

(* C28: roaming bins of equal number, as many as nbin or more *)
Theorem C28_roaming_nbinmaker :
  forall (x : list R) (nbin ntot : nat), x <> [] -> (0 < nbin)%nat -> (nbin <= ntot)%nat -> (1 < ntot)%nat ->
  let b := roaming_nbinmaker x nbin ntot in
    length (b_lo b) = length (b_hi b) /\ (length (b_lo b) <= ntot)%nat /\
    describes x (b_lo b) (b_hi b) (b_hist b) (b_sum b) /\
    (forall k, (k < length (b_lo b))%nat -> nth k (b_lo b) 0 < nth k (b_hi b) 0 /\
       In (nth k (b_lo b) 0) x /\ In (nth k (b_hi b) 0) x /\ (0 < nth k (b_hist b) 0)%nat /\
       nth k (b_lo b) 0 <= nth k (b_mid b) 0 <= nth k (b_hi b) 0).
Proof. exact roaming_nbinmaker_correct. Qed.
Print Assumptions C28_roaming_nbinmaker.

(* C28 finding: the last roaming bin has no upper limit, so with fewer bins than nbin its count exceeds its contents;
   with one bin the count is always the whole sample. *)
Theorem C28_single_roaming_bin_refuted :
  forall (x : list R) (nbin : nat), x <> [] ->
  let b := roaming_nbinmaker x nbin 1 in b_lo b <> [] -> b_hist b = [length x].
Proof. exact roaming_nbinmaker_single. Qed.
Print Assumptions C28_single_roaming_bin_refuted.

Example C28_hypotheses_met : [1; 2; 2; 5] <> [] /\ (0 < 3)%nat /\ (3 <= 6)%nat /\ (1 < 6)%nat /\ (Log = Log -> all_positive [1; 2; 2; 5]).
Proof. split => //. do 3 (split; [lia|]). move=> _ v /= [|[|[|[|[]]]]]; lra. Qed.

(* C29: minimum_distance and closest_star give each point the smallest distance to another point *)
Theorem C29_minimum_distance :
  forall x : list (R * R * R), (1 < length x)%nat ->
  length (minimum_distance x) = length x /\
  forall i, (i < length x)%nat -> nearest euclid (0, 0, 0) x i (nth i (minimum_distance x) 0).
Proof. exact minimum_distance_nearest. Qed.
Print Assumptions C29_minimum_distance.

Theorem C29_closest_star :
  forall (projected : bool) (c : cluster),
  let s := p_s (c_ph c) in let n := length (sx s) in
  length (sy s) = n -> length (sz s) = n -> (1 < n)%nat -> ~ (c_units c = Some Uradec /\ c_origin c = Some Osky) ->
  exists d, closest_star projected c = Some d /\ length d = n /\
  forall i, (i < n)%nat -> nearest euclid (0, 0, 0) (map (star_position projected c) (seq 0 n)) i (nth i d 0).
Proof. exact closest_star_nearest. Qed.
Print Assumptions C29_closest_star.

(* C29 finding: in sky coordinates closest_star returns nothing *)
Theorem C29_closest_star_sky_refuted :
  forall projected c, c_units c = Some Uradec -> c_origin c = Some Osky -> closest_star projected c = None.
Proof. by move=> p c U O; rewrite /closest_star U O. Qed.
Print Assumptions C29_closest_star_sky_refuted.

Example C29_hypotheses_met :
  let c := set_stars (init_cluster 0 (Some Upckms) (Some Ocluster) 8 220) (mk6 [0; 1; 5] [0; 2; 0] [0; 0; 1] [0;0;0] [0;0;0] [0;0;0]) (Some Ocluster) in
  let s := p_s (c_ph c) in let n := length (sx s) in
  length (sy s) = n /\ length (sz s) = n /\ (1 < n)%nat /\ ~ (c_units c = Some Uradec /\ c_origin c = Some Osky).
Proof. split => //. split => //. split; [simpl; lia|]. by move=> [? ?]. Qed.

(* C30: samples stay within the limits, one per draw, and grow with the draw *)
Theorem C30_power_law_range :
  forall (alpha a b : R) (u : list R), a < b -> (alpha < 0 -> 0 < a) -> Forall (fun v => 0 <= v < 1) u ->
  exists l, power_law_distribution_function u alpha a b = PArray l /\ length l = length u /\
    Forall (fun v => a <= v <= b) l.
Proof. move=> alpha a b u. exact: power_law_range. Qed.
Print Assumptions C30_power_law_range.

Theorem C30_power_law_monotone :
  forall (alpha a b u w : R), a < b -> (alpha < 0 -> 0 < a) -> 0 <= u < 1 -> 0 <= w < 1 -> u <= w ->
  exists p q, power_law_distribution_function [u; w] alpha a b = PArray [p; q] /\ p <= q.
Proof.
  move=> alpha a b u w ab a0 Hu Hw uw. rewrite /power_law_distribution_function. destruct (Req_EM_T a b); [lra|].
  do 2 eexists; split; [reflexivity|]. apply pl_draw_mono => //; lra.
Qed.
Print Assumptions C30_power_law_monotone.

(* C30 finding: with xmin = xmax the result is a single number, not n of them *)
Theorem C30_equal_limits_refuted :
  forall u alpha a, power_law_distribution_function u alpha a a = PScalar a.
Proof. move=> u alpha a. rewrite /power_law_distribution_function. by destruct (Req_EM_T a a). Qed.
Print Assumptions C30_equal_limits_refuted.

(* C53: for alpha <= 0 the sample has the distribution with density proportional to t^alpha on [a,b]: the draw u gives a
   value at most t exactly when u is at most F(t), and F has derivative C t^alpha.  Missing: alpha > 0, where the claim
   is false (next theorem). *)
Theorem C53_power_law_distribution_partial :
  forall (alpha a b u t : R), alpha <= 0 -> 0 < a < b -> 0 <= u < 1 -> 0 < t ->
  (exists v, power_law_distribution_function [u] alpha a b = PArray [v] /\
     (v <= t <-> u <= power_law_cdf alpha a b t)) /\
  exists C, 0 < C /\ derivable_pt_lim (power_law_cdf alpha a b) t (C * Rpower t alpha).
Proof.
  move=> alpha a b u t Ha ab Hu t0. split; [|exact: power_law_cdf_density].
  rewrite /power_law_distribution_function. destruct (Req_EM_T a b); [lra|]. eexists; split; [reflexivity|].
  apply power_law_inverse => //; lra.
Qed.
Print Assumptions C53_power_law_distribution_partial.

(* C53 finding: for alpha = 1 (linearly rising density) and any 0 < xmin < xmax the values are drawn from a law shifted
   to xmin instead: for every t inside there are draws with u <= F(t) whose value exceeds t. *)
Theorem C53_rising_power_law_refuted :
  forall a b t, 0 < a -> a < t < b ->
  exists u v, 0 <= u < 1 /\ u <= power_law_cdf 1 a b t /\
    power_law_distribution_function [u] 1 a b = PArray [v] /\ t < v.
Proof.
  move=> a b t a0 T. have [u [Hu [C N]]] := power_law_positive_wrong a0 T. exists u, (pl_draw 1 a b u).
  do 2 split => //. rewrite /power_law_distribution_function. destruct (Req_EM_T a b); [lra|]. split => //. lra.
Qed.
Print Assumptions C53_rising_power_law_refuted.

Example C30_C53_hypotheses_met : 1 < 3 /\ (-2 < 0 -> 0 < 1) /\ Forall (fun v => 0 <= v < 1) [0; 1/2] /\
  -2 <= 0 /\ 0 < 1 < 3 /\ 0 <= 1/2 < 1 /\ 0 < 2.
Proof. split; [lra|]. split; [lra|]. split; [repeat constructor; lra|lra]. Qed.

(* C54: binned means.  mean_prof and smooth return, for each non-empty bin in order, the bin value, the mean and the
   standard deviation (and extremes) of the y values whose x is in the bin; every y value is used once. *)
Theorem C54_mean_prof :
  forall (x y : list R) (nbin : nat) (bt : bintype) (st : steptype), x <> [] -> length x = length y -> (0 < nbin)%nat ->
  (bt = Num -> ~ constant x) -> (bt = Fix -> st = Log -> all_positive x) ->
  exists b groups, own_bins x nbin bt st = Ok b /\ length groups = length (b_lo b) /\
    (forall k, (k < length (b_lo b))%nat -> values_where (in_bin (b_lo b) (b_hi b) k) x y (nth k groups [])) /\
    Permutation (concat groups) y /\
    mean_prof x y nbin bt st = Ok (flat_map (fun k => match nth k groups [] with [] => [] | g => [(nth k (b_mid b) 0, average g, deviation g)] end)
                                            (seq 0 (length (b_lo b)))).
Proof. exact mean_prof_correct. Qed.
Print Assumptions C54_mean_prof.

Theorem C54_smooth :
  forall (x y : list R) (dx : R) (bt : bintype), x <> [] -> length x = length y -> 0 < dx -> ~ constant x ->
  (exists m M, least x m /\ greatest x M /\ dx <= M - m) ->
  exists nbin b groups, own_bins x nbin bt Linear = Ok b /\ (0 < nbin)%nat /\
    (exists m M, least x m /\ greatest x M /\ INR nbin * dx <= M - m < INR nbin * dx + dx) /\
    length groups = length (b_lo b) /\
    (forall k, (k < length (b_lo b))%nat -> values_where (in_bin (b_lo b) (b_hi b) k) x y (nth k groups [])) /\
    exists rows, smooth x y dx bt = Ok rows /\
      Forall2 (fun row kg => let '((xb, yb, ys), (ymin, ymax)) := row in
          xb = nth (fst kg) (b_mid b) 0 /\ yb = average (snd kg) /\ ys = deviation (snd kg) /\
          least (snd kg) ymin /\ greatest (snd kg) ymax)
        rows (filter (fun kg => match snd kg with [] => false | _ => true end) (combine (seq 0 (length groups)) groups)).
Proof. exact smooth_correct. Qed.
Print Assumptions C54_smooth.

Example C54_hypotheses_met : let x := [1; 2; 2; 5] in let y := [3; 1; 4; 1] in
  x <> [] /\ length x = length y /\ ~ constant x /\ exists m M, least x m /\ greatest x M /\ 1 <= M - m.
Proof.
  split => //. split => //. split. { move=> C. have := C 1 5 ltac:(by left) ltac:(by do 3 right; left). lra. }
  exists 1, 5. split; [split; [by left|move=> v /= [|[|[|[|[]]]]]; lra]|].
  split; [split; [by do 3 right; left|move=> v /= [|[|[|[|[]]]]]; lra]|lra].
Qed.

(* C55: interpolation between two points is the straight line through them, and reading it backwards is its inverse *)
Theorem C55_interpolate :
  forall x1 y1 x2 y2 s : R, x1 <> x2 ->
  interpolate (x1, y1) (x2, y2) (Some (x1 + s * (x2 - x1))) None = y1 + s * (y2 - y1) /\
  (y1 <> y2 -> interpolate (x1, y1) (x2, y2) None (Some (y1 + s * (y2 - y1))) = x1 + s * (x2 - x1)).
Proof.
  move=> x1 y1 x2 y2 s N. have E := @interpolate_affine x1 y1 x2 y2 s (x1 + s * (x2 - x1)) N eq_refl. split => // Ny.
  rewrite -E. by apply interpolate_line.
Qed.
Print Assumptions C55_interpolate.
Example C55_hypotheses_met : 1 <> 2 /\ 3 <> 5. Proof. lra. Qed.
