(* Mass functions and velocity dispersion against mass.  Models clustertools/analysis/functions.py:1338-1509, 1678-1838,
   clustertools/analysis/profiles.py:390-620, 1495-1727 and clustertools/util/recipes.py:331-401, 485-528 (without plotting). *)
From Verif Require Import Base ModelCluster ModelOps ModelConv ModelEnergy ModelRecipes ModelStars ModelSubset ModelCoords ModelLagrange ModelProfiles.
Set Implicit Arguments.

(* np.log10 of an array entry: -inf or nan unless the argument is positive *)
Definition nlog10 (a : num) : num := match a with Some x => if Rltb 0 x then Some (log10 x) else None | None => None end.
(* quotient of array entries: inf or nan when the divisor is zero *)
Definition nratio (a b : R) : num := if Reqb b 0 then None else Some (a / b).

(* slope, intercept and their errors *)
Record line_fit := mkFit { t_slope : R; t_icpt : R; t_eslope : R; t_eicpt : R }.
(* numpy's np.polyfit(x, y, 1, cov=True): the least squares line in closed form, and the covariance of numpy >= 1.16.
   None: an exception (unequal lengths, fewer than three points) or no finite result (equal abscissae). *)
Definition polyfit1 (x y : list R) : option line_fit :=
  let n := INR (length x) in let mx := sumR x / n in let my := sumR y / n in
  let sxx := sumR (map (fun a => (a - mx) ^ 2) x) in
  let sxy := sumR (zip_with (fun a b => (a - mx) * (b - my)) x y) in
  if Nat.ltb (length x) 3 || negb (Nat.eqb (length x) (length y)) || Reqb sxx 0 then None
  else
    let a := sxy / sxx in let b := my - a * mx in
    let res := sumR (zip_with (fun u v => (v - (a * u + b)) ^ 2) x y) / (n - 2) in
    Some (mkFit a b (sqrt (res / sxx)) (sqrt (res * (1 / n + mx ^ 2 / sxx)))).
(* with arrays that may hold nan or inf: no fit *)
Definition polyfit_of (x y : list num) : option line_fit :=
  match all_some x, all_some y with Some a, Some b => polyfit1 a b | _, _ => None end.
(* the marker -1000.0 (functions.py:1501-1509, 1814-1821) *)
Definition no_fit : line_fit := mkFit (-1000) (-1000) (-1000) (-1000).

(* recipes.py:485-528 x_hist, and 366-373: histogram in bins of its own, or in the caller's bins *)
Definition x_hist (user : option edges) (x : list R) (nx : nat) (bt : bintype) : result (edges * list nat) :=
  match user with
  | None => bind (own_bins x nx bt Linear) (fun b => Ok ((b_lo b, b_mid b, b_hi b), b_hist b))
  | Some (lo, mid, hi) =>
    match bincount (bin_index x lo hi) (length lo) with
    | None => Raise
    | Some h => Ok ((lo, mid, hi), h)
    end
  end.
(* recipes.py:331-401 dx_function: densities of the bins with dx > 0, and the power law through them.
   Bins of no width give inf, which is kept by dx>0: modelled as a missing density. *)
Record dx_row := mkRow { w_x : R; w_n : nat; w_d : num }.
Definition dx_rows (lo mid hi : list R) (h : list nat) : list dx_row :=
  map (fun k => mkRow (nth k mid 0) (nth k h 0%nat) (nratio (INR (nth k h 0%nat)) (nth k hi 0 - nth k lo 0))) (seq 0 (length lo)).
Definition positive_row (w : dx_row) : bool := match w_d w with None => Nat.ltb 0 (w_n w) | Some d => Rltb 0 d end.
Definition dx_function (user : option edges) (x : list R) (nx : nat) (bt : bintype)
    : result (list dx_row * option line_fit) :=
  bind (x_hist user x nx bt) (fun eh => let '((lo, mid, hi), h) := eh in
  let l := filter positive_row (dx_rows lo mid hi h) in
  Ok (l, polyfit_of (map (fun w => nlog10 (Some (w_x w))) l) (map (fun w => nlog10 (w_d w)) l))).

Section WithGalpy.
Variable G : galpy.

(* functions.py:1419-1420 and the same lines of the other routines *)
Definition mass_frame (c : cluster) : cluster := match c_units c with Some Uamuse => to_pckms G c | _ => c end.

(* mean masses, numbers, densities dN/dm, fit, the smallest-correction column *)
Record mass_table := mkMT { mt_mean : list R; mt_hist : list nat; mt_dm : list num; mt_fit : option line_fit;
                            mt_error : option (list num) }.
(* functions.py:1448-1454: sum of 1/mcorr over a bin; a correction of 0 gives inf *)
Definition corrected (corr : list R) (msk : list bool) : num :=
  let l := select msk corr in if existsb (fun a => Reqb a 0) l then None else Some (sumR (map (fun a => 1 / a) l)).
Definition nover (a : num) (b : R) : num := match a with Some x => nratio x b | None => None end.
(* functions.py:1441-1446, 1770-1772: bins of the selected masses, and the bin of every star *)
Definition rows_of (msk : list bool) (caller : option (list bool)) (nbin : nat) (bt : bintype) (r : list R) : result rows :=
  bind (own_bins (select msk r) nbin bt Linear) (fun b =>
  Ok (mkRows (b_lo b) (b_mid b) (b_hi b) msk (bin_index r (b_lo b) (b_hi b)) caller)).
(* functions.py:1448-1463 *)
Definition mass_rows (w : rows) (corr : list R) (ret : bool) : mass_table :=
  let cnt := map (fun i => count (in_row false w i)) (row_count w) in
  let ch := map (fun i => corrected corr (in_row false w i)) (row_count w) in
  let dm := zip_with nover ch (zip_with (fun a b => a - b) (w_hi w) (w_lo w)) in
  let err := zip_with (fun (h : nat) (c : num) => match c with Some x => nratio (INR h) x | None => Some 0 end) cnt ch in
  mkMT (w_mid w) cnt dm (polyfit_of (map (fun x => nlog10 (Some x)) (w_mid w)) (map nlog10 dm))
       (if ret then Some err else None).
(* functions.py:1338-1509: the table, the cluster afterwards, the caller's mask afterwards.  When subset returns -1 (a mask
   of the wrong length) np.sum(-1) is below nmass. *)
Definition mass_function (q : selection) (indx : option (list bool)) (nmass : nat) (bt : bintype) (mcorr : option (list R))
    (s : system) : result (mass_table * system * option (list bool)) :=
  let c := g_c (y_k s) in let c1 := mass_frame c in let m := p_m (c_ph c1) in
  let back := sys_with s (return_cluster G (save_cluster c) c1) in
  let ret := match mcorr with None => false | Some _ => true end in
  let corr := match mcorr with None => repeat 1 (g_ntot (y_k s)) | Some l => l end in
  let too_few := mkMT (repeat 0 nmass) (repeat 0%nat nmass) (repeat (Some 0) nmass) (Some no_fit)
                      (if ret then Some (repeat (Some 0) nmass) else None) in
  bind (get_subset q indx (sys_with s c1)) (fun x =>
  match fst x with
  | None => Ok (too_few, back, snd x)
  | Some msk =>
    if Nat.leb nmass (count msk) then
      if Nat.eqb (length corr) (length m) then
        bind (rows_of msk (snd x) nmass bt m) (fun w => Ok (mass_rows w corr ret, back, snd x))
      else Raise
    else Ok (too_few, back, snd x)
  end).

(* functions.py:1678-1821 with meq=False: mean masses, dispersions, fit.  The loop runs over range(nmass) whatever the
   number of bins; an empty bin gives nan. *)
Record eta_table := mkET { et_mean : list R; et_sigma : list num; et_fit : option line_fit }.
Definition sample_std (l : list R) : num := match l with [] => None | _ => Some (np_std l) end.
Definition eta_function (q : selection) (indx : option (list bool)) (nmass : nat) (s : system)
    : result (eta_table * system * option (list bool)) :=
  let c := g_c (y_k s) in let c1 := mass_frame c in
  let back := sys_with s (return_cluster G (save_cluster c) c1) in
  let v := if l_projected q then d_vpro (c_der c1) else d_v (c_der c1) in
  let too_few := mkET (repeat 0 nmass) (repeat (Some 0) nmass) (Some no_fit) in
  bind (get_subset q indx (sys_with s c1)) (fun x =>
  match fst x with
  | None => Ok (too_few, back, snd x)
  | Some msk =>
    if Nat.leb (2 * nmass) (count msk) then
      bind (rows_of msk (snd x) nmass Num (p_m (c_ph c1))) (fun w =>
      let sg := map (fun i => sample_std (select (in_row false w i) v)) (seq 0 nmass) in
      Ok (mkET (w_mid w) sg (polyfit_of (map (fun a => nlog10 (Some a)) (w_mid w)) (map nlog10 sg)), back, snd x))
    else Ok (too_few, back, snd x)
  end).

(* a slope is used when it is above the marker (profiles.py:557-559, 1667-1668); no fit: nan or an exception *)
Definition kept_slope (f : option line_fit) : num := option_map (fun f => if Rltb (-100) (t_slope f) then t_slope f else 0) f.
(* profiles.py:561-581, 1670-1681: slope against ln(r/rm) *)
Definition gradient (rm : option R) (mid : list R) (prof : list num) : option line_fit :=
  if Nat.ltb 3 (length mid) then
    match rm with
    | None => None
    | Some a => polyfit_of (map (fun x => if Reqb a 0 then None else if Rltb 0 (x / a) then Some (ln (x / a)) else None) mid) prof
    end
  else Some (mkFit (-100) 0 0 0).
(* the limits mass_function applies when none are given: stellar types 0 and 1 (functions.py:1349-1350) *)
Definition mass_default (projected : bool) : selection :=
  mkSel None None None None None None None None 0 1 None projected.
(* profiles.py:390-620 without bins given by the caller, mcorr=None or given: radii, slopes, gradient of the slope.
   mbt: the bins in mass (keyword mbintype).  Each row starts from the cluster as framed; what the inner calls leave behind
   is that cluster again (simplification: not threaded through the loop). *)
Fixpoint over_rows {A} (f : nat -> result A) (ks : list nat) : result (list A) :=
  match ks with [] => Ok [] | k :: t => bind (f k) (fun a => bind (over_rows f t) (fun l => Ok (a :: l))) end.
Definition alpha_prof (q : selection) (indx : option (list bool)) (nrad : nat) (bt : bintype) (nmass : nat) (mbt : bintype)
    (mcorr : option (list R)) (normalize : bool) (s : system)
    : result (list R * list num * option line_fit * system * option (list bool)) :=
  let c := g_c (y_k s) in let c1 := profile_frame G normalize c in let s1 := sys_with s c1 in
  let r := if l_projected q then d_rpro (c_der c1) else d_r (c_der c1) in
  bind (profile_rows q indx None nrad bt r s1) (fun w =>
  bind (radii_over normalize (half_mass (l_projected q) c1) (w_mid w)) (fun rprof =>
  bind (over_rows (fun i => bind (mass_function (mass_default (l_projected q)) (Some (in_row false w i)) nmass mbt mcorr s1)
                              (fun x => Ok (kept_slope (mt_fit (fst (fst x)))))) (row_count w)) (fun ap =>
  Ok (rprof, ap, gradient (half_mass (l_projected q) c1) (w_mid w) ap, sys_with s (return_cluster G (save_cluster c) c1), w_caller w)))).
(* profiles.py:1495-1727 without bins given by the caller, meq=False.  The bins are made from the three-dimensional radii
   whatever `projected` is (1634-1637), and each row is selected anew between its two edges, without indx, npop, emin and
   emax (1651-1665). *)
Definition eta_limits (q : selection) (lo hi : R) : selection :=
  mkSel (Some lo) (Some hi) (l_mmin q) (l_mmax q) (l_vmin q) (l_vmax q) None None (l_kwmin q) (l_kwmax q) None (l_projected q).
Definition eta_prof (q : selection) (indx : option (list bool)) (nrad : nat) (bt : bintype) (nmass : nat)
    (normalize : bool) (s : system) : result (list R * list num * option line_fit * system * option (list bool)) :=
  let c := g_c (y_k s) in let c1 := profile_frame G normalize c in let s1 := sys_with s c1 in
  bind (profile_rows q indx None nrad bt (d_r (c_der c1)) s1) (fun w =>
  bind (radii_over normalize (half_mass (l_projected q) c1) (w_mid w)) (fun rprof =>
  bind (over_rows (fun i => bind (eta_function (eta_limits q (nth i (w_lo w) 0) (nth i (w_hi w) 0)) None nmass s1)
                              (fun x => Ok (kept_slope (et_fit (fst (fst x)))))) (row_count w)) (fun ep =>
  Ok (rprof, ep, gradient (half_mass (l_projected q) c1) (w_mid w) ep, sys_with s (return_cluster G (save_cluster c) c1), w_caller w)))).

(* functions.py:1823-1838, one mass; the array branch computes the same value entry by entry (the entries above meq are
   assigned in a second step) *)
Definition meq_func (m meq sigma0 : R) : R :=
  let sigma_eq := sigma0 * exp (-(1/2)) in
  if Rleb m meq then sigma0 * exp (-(1/2) * m / meq) else sigma_eq * rpow (m / meq) (-(1/2)).
Fixpoint assign (msk : list bool) (l vals : list R) : list R :=
  match msk, l, vals with
  | true :: t, _ :: l', v :: vals' => v :: assign t l' vals'
  | false :: t, a :: l', _ => a :: assign t l' vals
  | _, _, _ => l
  end.
Definition meq_func_array (m : list R) (meq sigma0 : R) : list R :=
  let sigma_eq := sigma0 * exp (-(1/2)) in
  let low := map (fun a => Rleb a meq) m in
  let s1 := assign low (map (fun _ => 0) m) (map (fun a => sigma0 * exp (-(1/2) * a / meq)) (select low m)) in
  let high := map (fun a => Rltb meq a) m in
  assign high s1 (map (fun a => sigma_eq * rpow (a / meq) (-(1/2))) (select high m)).
End WithGalpy.
