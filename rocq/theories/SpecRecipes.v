(* Specification of binning, sampling and nearest neighbours, independent of recipes.py. *)
From Verif Require Import Base ModelCluster.

Definition least (x : list R) (m : R) : Prop := In m x /\ forall v, In v x -> m <= v.
Definition greatest (x : list R) (M : R) : Prop := In M x /\ forall v, In v x -> v <= M.

(* v lies in bin k: lower edge included, upper edge excluded except in the last bin *)
Definition in_bin (lo hi : list R) (k : nat) (v : R) : Prop :=
  (k < length lo)%nat /\ nth k lo 0 <= v /\ (v < nth k hi 0 \/ S k = length lo /\ v = nth k hi 0).

(* consecutive bins without gaps: each starts where the previous one ended *)
Definition adjacent (lo hi : list R) : Prop :=
  length lo = length hi /\ lo <> [] /\
  (forall k, (k < length lo)%nat -> nth k lo 0 <= nth k hi 0) /\
  (forall k, (S k < length lo)%nat -> nth (S k) lo 0 = nth k hi 0).

(* the bins run from the smallest to the largest element *)
Definition spans (x lo hi : list R) : Prop :=
  least x (nth 0 lo 0) /\ greatest x (nth (length hi - 1) hi 0).

(* h is the number of elements of x for which P holds *)
Definition counts (P : R -> Prop) (x : list R) (h : nat) : Prop :=
  exists sel rest, Permutation x (sel ++ rest) /\ Forall P sel /\ Forall (fun v => ~ P v) rest /\ length sel = h.
(* s is the sum of the elements of x for which P holds *)
Definition totals (P : R -> Prop) (x : list R) (s : R) : Prop :=
  exists sel rest, Permutation x (sel ++ rest) /\ Forall P sel /\ Forall (fun v => ~ P v) rest /\ sumR sel = s.

(* the histogram and the sums describe the bins *)
Definition describes (x lo hi : list R) (hist : list nat) (sums : list R) : Prop :=
  length hist = length lo /\ length sums = length lo /\
  forall k, (k < length lo)%nat ->
    counts (in_bin lo hi k) x (nth k hist 0%nat) /\ totals (in_bin lo hi k) x (nth k sums 0).

Definition natsum (l : list nat) : nat := fold_right Nat.add 0%nat l.

(* d is the smallest distance, measured by dist, from entry i to another entry of x *)
Definition nearest {P} (dist : P -> P -> R) (dft : P) (x : list P) (i : nat) (d : R) : Prop :=
  (exists j, (j < length x)%nat /\ j <> i /\ d = dist (nth i x dft) (nth j x dft)) /\
  forall j, (j < length x)%nat -> j <> i -> d <= dist (nth i x dft) (nth j x dft).

(* distribution function of the law with density proportional to t^alpha on [a,b], 0 < a < b *)
Definition power_law_cdf (alpha a b t : R) : R :=
  if Req_EM_T alpha (-1) then (ln t - ln a) / (ln b - ln a)
  else (Rpower t (alpha + 1) - Rpower a (alpha + 1)) / (Rpower b (alpha + 1) - Rpower a (alpha + 1)).

Definition euclid (p q : R * R * R) : R :=
  sqrt ((fst (fst p) - fst (fst q)) ^ 2 + (snd (fst p) - snd (fst q)) ^ 2 + (snd p - snd q) ^ 2).

(* mean and population standard deviation of a non-empty sample *)
Definition average (l : list R) : R := sumR l / INR (length l).
Definition deviation (l : list R) : R := sqrt (average (map (fun a => (a - average l) ^ 2) l)).

(* g holds the y values of the pairs (x,y) with P x, the others do not satisfy P *)
Definition values_where (P : R -> Prop) (x y : list R) (g : list R) : Prop :=
  exists sel rest : list (R * R), Permutation (combine x y) (sel ++ rest) /\
    Forall (fun p => P (fst p)) sel /\ Forall (fun p => ~ P (fst p)) rest /\ g = map snd sel.

(* all elements equal *)
Definition constant (x : list R) : Prop := forall v w, In v x -> In w x -> v = w.
Definition all_positive (x : list R) : Prop := forall v, In v x -> 0 < v.
(* v lies between the smallest and the largest element of x *)
Definition in_range (x : list R) (v : R) : Prop := exists m M, least x m /\ greatest x M /\ m <= v <= M.

(* positions of the stars, with z dropped when projected *)
Definition star_position (projected : bool) (c : cluster) (i : nat) : R * R * R :=
  let s := p_s (c_ph c) in (nth i (sx s) 0, nth i (sy s) 0, if projected then 0 else nth i (sz s) 0).
