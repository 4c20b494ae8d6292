(* Tapered mass functions.  Models clustertools/analysis/functions.py:1513-1676, clustertools/util/recipes.py:403-483 and the
   method mass_function of clustertools/cluster/cluster.py:2683-2775 (without plotting). *)
From Verif Require Import Base ModelCluster ModelOps ModelConv ModelEnergy ModelRecipes ModelStars ModelSubset ModelLagrange ModelProfiles ModelMassFunction.
Set Implicit Arguments.

(* functions.py:1672-1676, recipes.py:479-483 *)
Definition tpl_func (m A alpha mc beta : R) : R := A * rpow m alpha * (1 - exp (-1 * rpow (m / mc) beta)).
(* 10.0**np.log10(x) (functions.py:1623-1630): the value itself; 10**(-inf) is 0; nan for a negative value.  inf and nan make curve_fit raise *)
Definition pow_log (a : num) : num := match a with Some x => if Rleb 0 x then Some x else None | None => None end.

(* the four parameters and their errors *)
Record tapered := mkTap { tp_A : R; tp_alpha : R; tp_mc : R; tp_beta : R; tp_eA : R; tp_ealpha : R; tp_emc : R; tp_ebeta : R }.
(* what is returned: eleven values (functions.py:1655), or seven (1661-1669) *)
Inductive tapered_answer :=
  | Eleven (mean : list R) (hist : list nat) (dm : list num) (f : tapered)
  | Seven (mean : list R) (hist : list nat) (dm : list num) (f : line_fit).

Section Fit.
(* scipy's curve_fit(func, x, y, bounds=(lower, upper)) with the square roots of the diagonal of the covariance; a missing bound is infinite *)
Variable fit : (R -> R -> R -> R -> R -> R) -> list R -> list R -> list num -> list num -> result tapered.
(* functions.py:1627-1628, recipes.py:453; all: the masses of all stars *)
Definition lower_default (all : list R) : option (list num) := option_map (fun a => [Some 0; None; Some a; None]) (amin all).
Definition upper_default (all : list R) : option (list num) := option_map (fun a => [None; None; Some a; None]) (amax all).
Definition fit_tapered (all mean : list R) (dm : list num) (lower upper : option (list num)) : result tapered :=
  match all_some (map (fun x => pow_log (Some x)) mean), all_some (map pow_log dm), lower_default all, upper_default all with
  | Some x, Some y, Some lo, Some hi => fit tpl_func x y (match lower with Some l => l | None => lo end) (match upper with Some l => l | None => hi end)
  | _, _, _, _ => Raise
  end.

Section WithGalpy.
Variable G : galpy.
(* functions.py:1513-1669: the answer, the cluster afterwards, the caller's mask afterwards; lower, upper: the keywords lower_bounds, upper_bounds *)
Definition tapered_mass_function (q : selection) (indx : option (list bool)) (nmass : nat) (mcorr : option (list R)) (lower upper : option (list num))
    (s : system) : result (tapered_answer * system * option (list bool)) :=
  let c := g_c (y_k s) in let c1 := mass_frame G c in let m := p_m (c_ph c1) in
  let back := sys_with s (return_cluster G (save_cluster c) c1) in
  let corr := match mcorr with None => repeat 1 (g_ntot (y_k s)) | Some l => l end in
  let too_few := Seven (repeat 0 nmass) (repeat 0%nat nmass) (repeat (Some 0) nmass) no_fit in
  bind (get_subset q indx (sys_with s c1)) (fun x =>
  match fst x with
  | None => Ok (too_few, back, snd x)
  | Some msk =>
    if Nat.leb nmass (count msk) then
      if Nat.eqb (length corr) (length m) then
        bind (rows_of msk (snd x) nmass Num m) (fun w =>
        let t := mass_rows w corr false in
        bind (fit_tapered m (mt_mean t) (mt_dm t) lower upper) (fun f => Ok (Eleven (mt_mean t) (mt_hist t) (mt_dm t) f, back, snd x)))
      else Raise
    else Ok (too_few, back, snd x)
  end).
End WithGalpy.

(* recipes.py:403-477 *)
Definition tapered_dx_function (user : option edges) (x : list R) (nx : nat) (bt : bintype) : result (list dx_row * tapered) :=
  bind (x_hist user x nx bt) (fun eh => let '((lo, mid, hi), h) := eh in
  let l := filter positive_row (dx_rows lo mid hi h) in
  bind (fit_tapered x (map w_x l) (map w_d l) None None) (fun f => Ok (l, f))).
End Fit.

(* cluster.py:2683-2775: seven names are unpacked; the function returns eight values when corrections are given.  projected=None stands for the
   attribute of the cluster (2750-2751).  Result: the slope, returned and stored as alpha, and the cluster afterwards *)
Definition with_projection (own : bool) (projected : option bool) (q : selection) : selection :=
  mkSel (l_rmin q) (l_rmax q) (l_mmin q) (l_mmax q) (l_vmin q) (l_vmax q) (l_emin q) (l_emax q) (l_kwmin q) (l_kwmax q) (l_npop q)
        (match projected with Some b => b | None => own end).
Definition mass_method (G : galpy) (own : bool) (projected : option bool) (q : selection) (indx : option (list bool)) (nmass : nat) (bt : bintype)
    (mcorr : option (list R)) (s : system) : result (option R * system * option (list bool)) :=
  bind (mass_function G (with_projection own projected q) indx nmass bt mcorr s) (fun x => let '(t, s', caller) := x in
  match mt_error t with Some _ => Raise | None => Ok (option_map t_slope (mt_fit t), s', caller) end).
