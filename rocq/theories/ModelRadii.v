(* Limiting radius, core radius, virial radius by critical density, core relaxation time, kinematic concentration.  Models
   clustertools/analysis/functions.py:594-653, 1203-1335, 1678-1821 (meq=True), 1840-2301, 2491-2864 (without plotting) and
   cluster/cluster.py:2963-3308. *)
From Verif Require Import Base ModelCluster ModelOps ModelConv ModelEnergy ModelRecipes ModelStars ModelSubset ModelCoords ModelLagrange ModelProfiles ModelMassFunction ModelDynamics.
From Verif Require Import ModelTail ModelCentre.
Set Implicit Arguments.

(* ------------------------------------------------------------ limiting radius *)
(* the limits of _rho_prof when none are given (functions.py:2691-2705): stellar types 0 to 15 *)
Definition rho_default (projected : bool) : selection := mkSel None None None None None None None None 0 15 None projected.
(* np.argwhere(pprof < rho)[0][0]; None: IndexError *)
Fixpoint first_below (rho : R) (l : list R) : option nat :=
  match l with [] => None | a :: t => if Rltb a rho then Some 0%nat else option_map S (first_below rho t) end.
(* functions.py:2582-2591.  A nan in the profile is not modelled (Raise). *)
Definition limit_radius (rho : R) (rprof pprof : list R) : result R :=
  if Rltb rho (last pprof 0) then Ok (last rprof 0)
  else if Rltb (hd 0 pprof) rho then Ok 0
  else match first_below rho pprof with
       | None => Raise
       | Some k => Ok (interpolate (nth (k - 1) rprof 0, nth (k - 1) pprof 0) (nth k rprof 0, nth k pprof 0) None (Some rho))
       end.

Section WithGalpy.
Variable G : galpy.

(* functions.py:2550-2553 *)
Definition limiting_frame (c : cluster) : cluster := to_galpy G (if off_centre c then to_centre false c else c).
(* functions.py:2491-2687.  dens is galpy's evaluateDensities(pot, R, z, use_physical=False) for the potential given.
   _rho_prof (2689-2864) with normalize=False is the body of rho_prof.  The method (cluster.py:3245-3308) has no zgc. *)
Definition rlimiting (dens : R -> R -> R) (rgc zgc : option R) (nrad : nat) (projected from_centre : bool) (s : system)
    : result (R * system) :=
  let c := g_c (y_k s) in
  let c1 := limiting_frame c in
  let '(a, z) := tidal_place rgc zgc from_centre c1 in
  bind (rho_prof G (rho_default projected) None None nrad Num false (sys_with s c1)) (fun y =>
  let '(rprof, pnum, _, s2, _) := y in
  match all_some pnum with
  | None => Raise
  | Some pprof =>
    let rho := if projected then dens a z * (4 * last rprof 0 / 3) else dens a z in
    bind (limit_radius rho rprof pprof) (fun rl =>
    let c' := return_cluster G (save_cluster c) (g_c (y_k s2)) in
    Ok (convert_length rl Ugalpy c', sys_with s c'))
  end).
Definition rlimiting_method (dens : R -> R -> R) (rgc : option R) (nrad : nat) (projected from_centre : bool) (s : system)
    : result (R * system) := rlimiting dens rgc None nrad projected from_centre s.

(* ------------------------------------------------------------ core radius *)
(* functions.py:2111-2121: a cluster whose centre offset is the origin gets a centre, which stays set.  A centre that is nan
   is not modelled (Raise). *)
Definition no_centre (c : cluster) : bool := let o := p_c (c_ph c) in Reqb (sx o) 0 && Reqb (sy o) 0 && Reqb (sz o) 0.
Definition default_centre (m : dmethod) : centre_args := mkCA zero6 None 100 (1 / 10) None 100 m 6.
Definition core_frame (m : dmethod) (c : cluster) : result cluster :=
  let c0 := match c_units c with Some Uamuse => to_pckms G c | _ => c end in
  match c_origin c with
  | Some Ocentre => Ok c0
  | _ =>
    if no_centre c0 then
      match method_find_centre G 0 1 true false (default_centre m) c0 with
      | Done (Ok (Some (_, c1))) => Ok (to_centre true c1)
      | _ => Raise
      end
    else Ok (to_centre true c0)
  end.
(* functions.py:2125-2141.  Ties among the distances are in an unspecified order, here by index (simplification). *)
Definition core_distance (projected : bool) (a b : six R) : R :=
  if projected then sqrt ((sx b - sx a) ^ 2 + (sy b - sy a) ^ 2) else pos_distance a b.
Definition core_density (projected : bool) (k : nat) (l : list particle) (i : nat) : option R :=
  let p := y_p (nth i l (mkPart 0 zero6)) in
  let arg := firstn k (argsort (map (fun b => core_distance projected p (y_p b)) l)) in
  let lst := nth (k - 1) arg O in
  let mass := sumR (map (fun j => y_m (nth j l (mkPart 0 zero6))) arg) - y_m (nth lst l (mkPart 0 zero6)) in
  let d := core_distance projected p (y_p (nth lst l (mkPart 0 zero6))) in
  let vol := if projected then d ^ 2 else d ^ 3 in
  if Reqb vol 0 then None else Some (mass / vol).
(* functions.py:2132-2144; inside Ok, None is nan *)
Definition core_radius (projected : bool) (k : nat) (l : list particle) (r : list R) : result num :=
  if Nat.leb k 1 || Nat.ltb (length l) k then Raise
  else Ok match all_finite (map (core_density projected k l) (seq 0 (length l))) with
    | None => None
    | Some rhos =>
      let tot := sumR (map (fun a => a ^ 2) rhos) in
      if Reqb tot 0 then None else Some (sqrt (sumR (zip_with (fun rho a => rho ^ 2 * a ^ 2) rhos r) / tot))
    end.
(* functions.py:2062-2155 with method='casertano'; line 2155 attaches pc to a number in pc *)
Definition rcore_casertano (k : nat) (projected : bool) (c : cluster) : result (num * cluster) :=
  bind (core_frame Mcasertano c) (fun c1 =>
  bind (core_radius projected k (particles c1) (if projected then d_rpro (c_der c1) else d_r (c_der c1))) (fun rc =>
  Ok (rc, return_cluster G (save_cluster c) c1))).

(* functions.py:2176: int(np.ceil(1./mfrac)) *)
Definition nceil (x : R) : nat := Z.to_nat (- Int_part (- x)).
(* rprof[np.invert(rindx)][-1], rprof[rindx][0]; None: IndexError *)
Definition last_of {A} (l : list A) : option A := match rev l with [] => None | a :: _ => Some a end.
Definition first_of {A} (l : list A) : option A := match l with [] => None | a :: _ => Some a end.
(* functions.py:2183-2199; None inside Ok: a division by zero *)
Definition isothermal_radius (projected : bool) (rprof pprof : list R) : result num :=
  match first_of pprof with
  | None => Raise
  | Some p0 =>
    let rho := if projected then 1 / 2 * p0 else p0 / 3 in
    let l := combine rprof pprof in
    match last_of (filter (fun x => negb (Rltb (snd x) rho)) l), first_of (filter (fun x => Rltb (snd x) rho) l) with
    | Some (r1, p1), Some (r2, p2) =>
      let m := (p2 - p1) / (r2 - r1) in let b := p2 - m * r2 in
      Ok (if Reqb (r2 - r1) 0 then None else if Reqb m 0 then None else Some ((rho - b) / m))
    | _, _ => Raise
    end
  end.
(* functions.py:2062-2121, 2157-2204 with another method.  The Lagrange radius of line 2173 is not used, but may raise. *)
Definition rcore_isothermal (mfrac : R) (projected : bool) (s : system) : result (num * system) :=
  let c := g_c (y_k s) in
  bind (core_frame Mharfst c) (fun c1 =>
  let c2 := to_pckms G c1 in
  bind (rlagrange_frac G mfrac projected c2) (fun x =>
  bind (rho_prof G (rho_default projected) None None (nceil (1 / mfrac)) Num false (sys_with s (snd x))) (fun y =>
  let '(rprof, pnum, _, s2, _) := y in
  match all_some pnum with
  | None => Raise
  | Some pprof =>
    bind (isothermal_radius projected rprof pprof) (fun rc =>
    let c' := return_cluster G (save_cluster c) (g_c (y_k s2)) in
    Ok (option_map (fun r => convert_length r Upckms c') rc, sys_with s c'))
  end))).

(* ------------------------------------------------------------ core relaxation time *)
(* functions.py:594-653.  A division by zero gives inf or nan: None. *)
Definition core_relaxation_time (coulomb : R) (projected : bool) (c : cluster) : result (num * cluster) :=
  let c1 := relax_frame G c in
  let grav := get_grav c1 in
  let ntot := INR (length (p_m (c_ph c1))) in
  let lnlambda := ln (coulomb * ntot) in
  let mtot := sumR (p_m (c_ph c1)) in
  let mbar := mtot / ntot in
  bind (rcore_casertano 6 projected c1) (fun x =>
  let c2 := snd x in
  match (if projected then d_rmpro (c_der c2) else d_rm (c_der c2)) with
  | None => Raise
  | Some rh =>
    let c' := return_cluster G (save_cluster c) c2 in
    Ok (match fst x with
        | None => None
        | Some rc =>
          let t := 39 / 100 / lnlambda * sqrt (rc ^ 3 / (grav * mtot)) * (mtot / mbar) * sqrt (rc * rh) / (rc + rh) * pckms_in_Myr in
          if Reqb ntot 0 || Reqb lnlambda 0 || Reqb (grav * mtot) 0 || Reqb mbar 0 || Reqb (rc + rh) 0 then None
          else Some (convert_time G t Upckms c')
        end, c')
  end).

(* ------------------------------------------------------------ virial radius by critical density *)
(* functions.py:1266-1300: mean density inside each star, the star whose density is nearest, the line through its neighbour.
   None: nan (two equal radii or densities on the line; a star at the origin, whose density is infinite, is not modelled). *)
Definition enclosed_density (m r : R) : num := if Reqb r 0 then None else Some (m / (4 / 3 * PI * r ^ 3)).
Definition line_radius (rho r1 p1 r2 p2 : R) : num :=
  let m := (p2 - p1) / (r2 - r1) in let b := p2 - m * r2 in
  if Reqb (r2 - r1) 0 then None else if Reqb m 0 then None else Some ((rho - b) / m).
Definition critical_radius (rho : R) (m r : list R) (order : list nat) : num :=
  let msum := cumsum (take 0 m order) in
  let rprof := take 0 r order in
  match all_some (zip_with enclosed_density msum rprof) with
  | None => None
  | Some pprof =>
    let k := argmin (map (fun p => Rabs (p - rho)) pprof) in
    let at_ (l : list R) (j : nat) := nth j l 0 in
    if Nat.eqb k (length pprof - 1) || Nat.eqb k 0 then Some (at_ rprof k)
    else if Reqb (at_ pprof k) rho then Some (at_ rprof k)
    else if Rltb (at_ pprof k) rho
         then line_radius rho (at_ rprof (k - 1)%nat) (at_ pprof (k - 1)%nat) (at_ rprof k) (at_ pprof k)
         else line_radius rho (at_ rprof k) (at_ pprof k) (at_ rprof (k + 1)%nat) (at_ pprof (k + 1)%nat)
  end.
(* functions.py:1203-1335.  crit is galpy's dens_in_msolpc3(vo, ro) / dens_in_criticaldens(vo, ro, H).  The argument Om is
   not used.  argmin of no stars raises.  cluster.projected is set (lines 1261 is not reached). *)
Definition virial_radius_critical_density (crit : R -> R -> R -> R) (H Om overdens : R) (projected : bool) (c : cluster)
    : result (num * cluster) :=
  let c1 := relax_frame G c in
  let rho := crit (vo (c_sc c1)) (ro (c_sc c1)) H * overdens in
  match lagrange_order projected c1 with
  | None => Raise
  | Some order =>
    match order with
    | [] => Raise
    | _ =>
      let rv := critical_radius rho (p_m (c_ph c1)) (lagrange_radii projected c1) order in
      let c' := return_cluster G (save_cluster c) c1 in
      Ok (option_map (fun r => convert_length r Upckms c') rv, c')
    end
  end.

(* ------------------------------------------------------------ equipartition mass and kinematic concentration *)
(* scipy's curve_fit(meq_func, x, y, bounds=([lo, 0], [hi, inf])): meq, sigma0 and their errors; it raises for arrays of
   different lengths *)
Variable fit : R -> R -> list R -> list R -> result line_fit.
(* functions.py:1678-1821 with meq=True.  10**log10(x) is x (mean masses are positive; a zero dispersion comes back as zero);
   a nan makes curve_fit raise. *)
Definition eta_meq (q : selection) (indx : option (list bool)) (nmass : nat) (s : system)
    : result ((list R * list num * line_fit) * system * option (list bool)) :=
  let c := g_c (y_k s) in let c1 := mass_frame G c in
  let back := sys_with s (return_cluster G (save_cluster c) c1) in
  let v := if l_projected q then d_vpro (c_der c1) else d_v (c_der c1) in
  let m := p_m (c_ph c1) in
  let too_few := (repeat 0 nmass, repeat (Some 0) nmass, no_fit) in
  bind (get_subset q indx (sys_with s c1)) (fun x =>
  match fst x with
  | None => Ok (too_few, back, snd x)
  | Some msk =>
    if Nat.leb (2 * nmass) (count msk) then
      bind (rows_of msk (snd x) nmass Num m) (fun w =>
      let sg := map (fun i => sample_std (select (in_row false w i) v)) (seq 0 nmass) in
      match all_some sg, amin m, amax m with
      | Some ys, Some lo, Some hi => bind (fit lo hi (w_mid w) ys) (fun f => Ok ((w_mid w, sg, f), back, snd x))
      | _, _, _ => Raise
      end)
    else Ok (too_few, back, snd x)
  end).
(* functions.py:1840-1945 *)
Definition meq_function (q : selection) (indx : option (list bool)) (nmass : nat) (s : system)
    : result ((list R * list num * line_fit) * system * option (list bool)) :=
  let c := g_c (y_k s) in let c1 := mass_frame G c in
  bind (eta_meq q indx nmass (sys_with s c1)) (fun y => let '(t, s2, caller) := y in
  Ok (t, sys_with s (return_cluster G (save_cluster c) (g_c (y_k s2))), caller)).
(* cluster.py:2963-3054: the method has no npop, so the limit npop=1 of the function applies (functions.py:1853) *)
Definition with_pop (p : option Z) (q : selection) : selection :=
  mkSel (l_rmin q) (l_rmax q) (l_mmin q) (l_mmax q) (l_vmin q) (l_vmax q) (l_emin q) (l_emax q) (l_kwmin q) (l_kwmax q) p (l_projected q).
(* functions.py:1947-2060: the limits rmin, rmax given are replaced; the two calls share the array indx *)
Definition with_radii (lo hi : R) (q : selection) : selection :=
  mkSel (Some lo) (Some hi) (l_mmin q) (l_mmax q) (l_vmin q) (l_vmax q) (l_emin q) (l_emax q) (l_kwmin q) (l_kwmax q) (l_npop q) (l_projected q).
Definition ckin (q : selection) (indx : option (list bool)) (nmass : nat) (s : system) : result (num * system * option (list bool)) :=
  let c := g_c (y_k s) in let c1 := mass_frame G c in
  bind (rlagrange G 10 (l_projected q) c1) (fun x => let '(rn, c2) := x in
  bind (eta_meq (with_radii (nth 3 rn 0) (nth 5 rn 0) q) indx nmass (sys_with s c2)) (fun y => let '((_, _, f50), s3, indx1) := y in
  bind (eta_meq (with_radii 0 (nth 4 rn 0) q) indx1 nmass s3) (fun z => let '((_, _, f), s4, indx2) := z in
  Ok (nratio (t_slope f) (t_slope f50), sys_with s (return_cluster G (save_cluster c) (g_c (y_k s4))), indx2)))).
End WithGalpy.
