(* Radial profiles of the equipartition mass.  Models clustertools/analysis/profiles.py:1729-1834, which is eta_prof (1495-1727) with meq=True
   (without plotting and without bins given by the caller). *)
From Verif Require Import Base ModelCluster ModelOps ModelConv ModelEnergy ModelRecipes ModelStars ModelSubset ModelCoords ModelLagrange ModelProfiles ModelMassFunction ModelDynamics.
From Verif Require Import ModelTail ModelCentre ModelRadii.
Set Implicit Arguments.

(* profiles.py:1647, 1667-1668: zero unless the fitted value is above -100 *)
Definition kept_mass (f : line_fit) : R := if Rltb (-100) (t_slope f) then t_slope f else 0.
(* profiles.py:1575-1727 with meq=True.  The argument meq of meq_prof (1749) is not used: 1830.  As in eta_prof, the bins are of three-dimensional radii and
   each row is selected anew between its two edges, without indx, npop, emin and emax (1651-1665).  Each row starts from the cluster as framed (simplification). *)
Definition meq_prof (G : galpy) (fit : R -> R -> list R -> list R -> result line_fit) (q : selection) (indx : option (list bool)) (nrad : nat) (bt : bintype) (nmass : nat)
    (normalize : bool) (s : system) : result (list R * list R * option line_fit * system * option (list bool)) :=
  let c := g_c (y_k s) in let c1 := profile_frame G normalize c in let s1 := sys_with s c1 in
  bind (profile_rows q indx None nrad bt (d_r (c_der c1)) s1) (fun w =>
  bind (radii_over normalize (half_mass (l_projected q) c1) (w_mid w)) (fun rprof =>
  bind (over_rows (fun i => bind (eta_meq G fit (eta_limits q (nth i (w_lo w) 0) (nth i (w_hi w) 0)) None nmass s1)
                              (fun x => Ok (kept_mass (snd (fst (fst x)))))) (row_count w)) (fun ep =>
  Ok (rprof, ep, gradient (half_mass (l_projected q) c1) (w_mid w) (map (@Some R) ep), sys_with s (return_cluster G (save_cluster c) c1), w_caller w)))).
