(* Models clustertools/util/recipes.py.  Arrays are lists of reals; rounding is not modelled. *)
From Verif Require Import Base ModelCluster.
Set Implicit Arguments.

(* np.amin / np.amax of an array; None is the ValueError on an empty array *)
Definition amax (x : list R) : option R := match x with [] => None | a :: t => Some (fold_left Rmax t a) end.
Definition amin (x : list R) : option R := match x with [] => None | a :: t => Some (fold_left Rmin t a) end.

(* np.linspace(a, b, n) *)
Definition linspace (a b : R) (n : nat) : list R :=
  map (fun i => a + INR i * ((b - a) / INR (n - 1))) (seq 0 n).
(* np.log10, 10.0 ** y, np.logspace *)
Definition log10 (a : R) : R := ln a / ln 10.
Definition pow10 (y : R) : R := Rpower 10 y.
Definition logspace (a b : R) (n : nat) : list R := map pow10 (linspace a b n).

(* recipes.py:787-808 bin_index: np.searchsorted(x_upper, x, side="right") is the number of entries of the sorted
   array x_upper that are <= x; capped at len(x_upper)-1.  Integers, since -1 appears for no bins. *)
Definition searchsorted_right (edges : list R) (v : R) : nat := length (filter (fun e => Rleb e v) edges).
Definition bin_index1 (hi : list R) (v : R) : Z :=
  Z.min (Z.of_nat (searchsorted_right hi v)) (Z.of_nat (length hi) - 1).
Definition bin_index (x lo hi : list R) : list Z := map (bin_index1 hi) x.

(* np.bincount(idx, minlength=k), k at least every index+1 as in all calls here; None is the ValueError raised on a
   negative index.  The float conversion of the counts is not modelled. *)
Definition bincount (idx : list Z) (k : nat) : option (list nat) :=
  if existsb (fun i => Z.ltb i 0) idx then None
  else Some (map (fun b => length (filter (fun i => Z.eqb i (Z.of_nat b)) idx)) (seq 0 k)).
(* np.bincount(idx, weights=w, minlength=k) *)
Definition wbincount (idx : list Z) (w : list R) (k : nat) : list R :=
  map (fun b => sumR (map snd (filter (fun p => Z.eqb (fst p) (Z.of_nat b)) (combine idx w)))) (seq 0 k).

(* x_lower, x_mid, x_upper, x_hist, x_sum *)
Record bins := mkBins { b_lo : list R; b_mid : list R; b_hi : list R; b_hist : list nat; b_sum : list R }.

(* boolean index  x_lower != x_upper  (recipes.py:73-75, 198-200) *)
Definition nondegenerate (lo hi : list R) : list bool := zip_with (fun a b => negb (Reqb a b)) lo hi.

(* recipes.py:66 *)
Definition cut_idx (n nbin : nat) : list nat := map (fun i => (i * n / nbin)%nat) (seq 0 nbin).

(* recipes.py:29-85 nbinmaker(x, nbin); Raise: empty x, or bincount on -1 when every bin is degenerate *)
Definition nbinmaker (x : list R) (nbin : nat) : result bins :=
  let lo0 := take 0 x (take 0%nat (argsort x) (cut_idx (length x) nbin)) in     (* 62-67 *)
  match amax x with
  | None => Raise
  | Some M =>
    let hi0 := tl lo0 ++ [M] in                                                 (* 69-70 *)
    let msk := nondegenerate lo0 hi0 in
    let lo := select msk lo0 in let hi := select msk hi0 in                     (* 73-75 *)
    let idx := bin_index x lo hi in
    match bincount idx (length lo) with
    | None => Raise
    | Some hist =>
      let sm := wbincount idx x (length lo) in
      Ok (mkBins lo (zip_with (fun s h => s / INR h) sm hist) hi hist sm)
    end
  end.

(* the two masks of recipes.py:138,140,204,278,280 *)
Definition half_open (a b : R) (v : R) : bool := Rleb a v && Rltb v b.
Definition closed (a b : R) (v : R) : bool := Rleb a v && Rleb v b.

(* the loops recipes.py:136-143, 276-283: bin j half open, the last one closed *)
Definition mask_bin (lo hi : list R) (j : nat) : R -> bool :=
  if Nat.ltb j (length lo - 1) then half_open (nth j lo 0) (nth j hi 0) else closed (nth j lo 0) (nth j hi 0).
Definition masked_hist (x lo hi : list R) : list nat :=
  map (fun j => length (filter (mask_bin lo hi j) x)) (seq 0 (length lo)).
Definition masked_sum (x lo hi : list R) : list R :=
  map (fun j => sumR (filter (mask_bin lo hi j) x)) (seq 0 (length lo)).

Inductive steptype := Linear | Log.

(* recipes.py:88-148 binmaker(x, nbin, steptype), nbin > 0 *)
Definition binmaker (x : list R) (nbin : nat) (st : steptype) : result bins :=
  match amin x, amax x with
  | Some m, Some M =>
    let steps := match st with
                 | Linear => linspace m M (S nbin)
                 | Log => logspace (log10 m) (log10 M) (S nbin) end in          (* 126-129 *)
    let lo := removelast steps in let hi := tl steps in                         (* 131-132 *)
    Ok (mkBins lo (zip_with (fun b a => (b + a) / 2) hi lo) hi (masked_hist x lo hi) (masked_sum x lo hi))
  | _, _ => Raise
  end.

(* np.sort *)
Definition sortR (x : list R) : list R := take 0 x (argsort x).
(* (a).astype(int) of a non-negative float *)
Definition trunc (a : R) : nat := Z.to_nat (Int_part a).

(* recipes.py:202-208: the last bin has no upper limit *)
Definition roam_mask (lo hi : list R) (j : nat) : R -> bool :=
  if Nat.ltb j (length lo - 1) then half_open (nth j lo 0) (nth j hi 0) else Rleb (nth j lo 0).

(* recipes.py:150-215 roaming_nbinmaker(x, nbin, ntot) *)
Definition roaming_nbinmaker (x : list R) (nbin ntot : nat) : bins :=
  let xs := sortR x in
  let dx := 1 / INR nbin in
  let flo := linspace 0 (1 - dx) ntot in
  let fhi := map (fun f => f + dx) flo in
  let lo0 := map (fun f => nth (trunc (f * INR (length x - 1))) xs 0) flo in
  let hi0 := map (fun f => nth (trunc (f * INR (length x - 1))) xs 0) fhi in
  let msk := nondegenerate lo0 hi0 in
  let lo := select msk lo0 in let hi := select msk hi0 in
  let hist := map (fun j => length (filter (roam_mask lo hi j) x)) (seq 0 (length lo)) in
  let sm := map (fun j => sumR (filter (roam_mask lo hi j) x)) (seq 0 (length lo)) in
  mkBins lo (zip_with (fun s h => s / INR h) sm hist) hi hist sm.

(* recipes.py:217-288 roaming_binmaker(x, nbin, ntot, steptype) *)
Definition roaming_binmaker (x : list R) (nbin ntot : nat) (st : steptype) : result bins :=
  match st with
  | Linear =>
    match amin x, amax x with
    | Some m, Some M =>
      let dx := Rabs (M - m) / INR nbin in
      let lo := linspace m (M - dx) ntot in
      let hi := map (fun a => a + dx) lo in
      Ok (mkBins lo (zip_with (fun b a => (b + a) / 2) hi lo) hi (masked_hist x lo hi) (masked_sum x lo hi))
    | _, _ => Raise
    end
  | Log =>
    match amin (map log10 x), amax (map log10 x) with
    | Some m, Some M =>
      let dx := Rabs (M - m) / INR nbin in
      let lo := logspace m (M - dx) ntot in
      let hi := logspace (m + dx) M ntot in
      Ok (mkBins lo (zip_with (fun b a => pow10 ((log10 b + log10 a) / 2)) hi lo) hi
                 (masked_hist x lo hi) (masked_sum x lo hi))
    | _, _ => Raise
    end
  end.

(* x ** y for a base the code keeps positive; 0 ** y = 0 for y > 0 *)
Definition rpow (a y : R) : R := if Req_EM_T a 0 then 0 else Rpower a y.

(* recipes.py:290-328 power_law_distribution_function; `u` are the uniform draws in [0,1) behind
   np.random.random/rand, and np.random.power(eta, n) is u ** (1/eta) of such draws.
   PScalar is the 0-dimensional array returned when xmin == xmax (314-315, 328). *)
Inductive sampled := PScalar (v : R) | PArray (l : list R).
Definition pl_draw (alpha xmin xmax u : R) : R :=
  let eta := alpha + 1 in
  if Req_EM_T alpha 0 then xmin + u * (xmax - xmin)
  else if Rlt_dec 0 alpha then xmin + rpow u (1 / eta) * (xmax - xmin)
  else if Req_EM_T alpha (-1) then pow10 (log10 xmin + u * (log10 xmax - log10 xmin))
  else rpow (rpow xmin eta + (rpow xmax eta - rpow xmin eta) * u) (1 / eta).
Definition power_law_distribution_function (u : list R) (alpha xmin xmax : R) : sampled :=
  if Req_EM_T xmin xmax then PScalar xmin else PArray (map (pl_draw alpha xmin xmax) u).

(* recipes.py:681-722 interpolate((x1,y1),(x2,y2), x=.., y=..) *)
Definition interpolate (p1 p2 : R * R) (x y : option R) : R :=
  let '(x1, y1) := p1 in let '(x2, y2) := p2 in
  let m := (y2 - y1) / (x2 - x1) in
  let b := y1 - m * x1 in
  match x, y with
  | Some x, _ => m * x + b
  | None, Some y => (y - b) / m
  | None, None => 0
  end.

(* recipes.py:759-785 distance *)
Definition point := (R * R * R)%type.
Definition distance (p q : point) : R :=
  let '(x1, y1, z1) := p in let '(x2, y2, z2) := q in
  let dx := x2 - x1 in let dy := y2 - y1 in let dz := z2 - z1 in
  sqrt (dx * dx + dy * dy + dz * dz).

Fixpoint put {A} (l : list A) (i : nat) (a : A) : list A :=
  match l, i with [], _ => [] | _ :: t, O => a :: t | b :: t, S j => b :: put t j a end.

(* recipes.py:746-749, 751-754 *)
Definition relax (md : list R) (i : nat) (r : R) : list R :=
  put md i (if Rlt_dec (nth i md 0) 0 then r else Rmin (nth i md 0) r).

(* recipes.py:724-756 minimum_distance *)
Definition origin3 : point := (0, 0, 0).
Definition minimum_distance (x : list point) : list R :=
  let n := length x in
  fold_left (fun md i =>
    fold_left (fun md j =>
      let r := distance (nth i x origin3) (nth j x origin3) in
      relax (relax md i r) j r) (seq (S i) (n - S i)) md)
    (seq 0 (n - 1)) (repeat (-1) n).

(* analysis/functions.py:963-976 closest_star outside units radec / origin sky: cKDTree(x).query(x, k=2) lists for each
   point the distances to its two nearest points of the data set, itself included, in increasing order; column 1 is
   the second of them.  The tree search itself is scipy's and is replaced by a full sort. *)
Definition kd_second (x : list point) (p : point) : R := nth 1 (sortR (map (distance p) x)) 0.
Definition closest_star (projected : bool) (c : cluster) : option (list R) :=
  match c_units c, c_origin c with
  | Some Uradec, Some Osky => None                     (* 955-961: falls off the end and returns None *)
  | _, _ =>
    let s := p_s (c_ph c) in
    let pts := zip_with (fun a b => (fst a, snd a, b)) (combine (sx s) (sy s))
                        (if projected then map (fun _ => 0) (sx s) else sz s) in
    Some (map (kd_second pts) pts)
  end.

Inductive bintype := Num | Fix.

(* recipes.py:563-566, 640-643: bins chosen by bintype *)
Definition own_bins (x : list R) (nbin : nat) (bt : bintype) (st : steptype) : result bins :=
  match bt with Num => nbinmaker x nbin | Fix => binmaker x nbin st end.

(* np.mean, np.std *)
Definition np_mean (l : list R) : R := sumR l / INR (length l).
Definition np_std (l : list R) : R := sqrt (np_mean (map (fun a => Rabs (a - np_mean l) ^ 2) l)).

(* y[bin_idx == i] *)
Definition in_group (idx : list Z) (i : nat) (y : list R) : list R :=
  map snd (filter (fun p => Z.eqb (fst p) (Z.of_nat i)) (combine idx y)).

(* one row of the loops of recipes.py:577-594 and 654-676 (median=False): nothing for an empty bin *)
Definition profile_row (h : nat) (mid : R) (g : list R) : list (R * R * R) :=
  match g with
  | [] => []
  | a :: _ => if Nat.ltb 1 h then [(mid, np_mean g, np_std g)]
              else if Nat.eqb h 1 then [(mid, a, 0)] else [(mid, 0, 0)]
  end.

(* recipes.py:530-596 mean_prof(x, y, nbin, bintype, steptype) with its own bins and median=False; the three returned
   arrays are the three columns *)
Definition mean_prof (x y : list R) (nbin : nat) (bt : bintype) (st : steptype) : result (list (R * R * R)) :=
  match own_bins x nbin bt st with
  | Raise => Raise
  | Ok b =>
    let idx := bin_index x (b_lo b) (b_hi b) in
    match bincount idx (length (b_lo b)) with
    | None => Raise
    | Some hist =>
      Ok (flat_map (fun i => profile_row (nth i hist 0%nat) (nth i (b_mid b) 0) (in_group idx i y))
                   (seq 0 (length (b_lo b))))
    end
  end.

(* recipes.py:599-678 smooth(x, y, dx, bintype), median=False; columns x_bin y_bin y_sig, then y_min y_max *)
Definition smooth_row (h : nat) (mid : R) (g : list R) : list ((R * R * R) * (R * R)) :=
  match g with
  | [] => []
  | a :: t => if Nat.ltb 1 h then [((mid, np_mean g, np_std g), (fold_left Rmin t a, fold_left Rmax t a))]
              else if Nat.eqb h 1 then [((mid, a, 0), (a, a))] else [((mid, 0, 0), (0, 0))]
  end.
Definition smooth (x y : list R) (dx : R) (bt : bintype) : result (list ((R * R * R) * (R * R))) :=
  match amin x, amax x with
  | Some m, Some M =>
    let nbin := trunc ((M - m) / dx) in
    match own_bins x nbin bt Linear with
    | Raise => Raise
    | Ok b =>
      let idx := bin_index x (b_lo b) (b_hi b) in
      Ok (flat_map (fun i => smooth_row (nth i (b_hist b) 0%nat) (nth i (b_mid b) 0) (in_group idx i y)) (seq 0 nbin))
    end
  | _, _ => Raise
  end.
