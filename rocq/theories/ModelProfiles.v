(* Radial profiles.  Models clustertools/analysis/profiles.py:34-388, 623-1493, 1837-2072 (without plotting). *)
From Verif Require Import Base ModelCluster ModelOps ModelConv ModelEnergy ModelRecipes ModelStars ModelSubset ModelCoords ModelLagrange.
Set Implicit Arguments.

(* the cluster object after its phase-space arrays or derived quantities changed *)
Definition sys_with (s : system) (c : cluster) : system :=
  mkSys (set_cluster (y_k s) c) (y_kin s) (y_pot s) (y_etot s).

(* lower edges, mean radii, upper edges *)
Definition edges : Type := (list R * list R * list R)%type.

(* profiles.py:126-132 and the same lines of the other routines: the caller's bins, or bins made from the radii of the
   selected stars (bintype 'fix': binmaker, otherwise nbinmaker) *)
Definition profile_bins (user : option edges) (x : list R) (nrad : nat) (bt : bintype) : result edges :=
  match user with
  | Some e => Ok e
  | None => match own_bins x nrad bt Linear with Ok b => Ok (b_lo b, b_mid b, b_hi b) | Raise => Raise end
  end.

(* profiles.py:331-334: rindx = indx * (bin_idx<=i) or indx * (bin_idx==i) *)
Definition row_mask (cumulative : bool) (msk : list bool) (idx : list Z) (i : nat) : list bool :=
  zip_with andb msk (map (fun b => if cumulative then Z.leb b (Z.of_nat i) else Z.eqb b (Z.of_nat i)) idx).

Record rows := mkRows { w_lo : list R; w_mid : list R; w_hi : list R; w_msk : list bool; w_idx : list Z;
                        w_caller : option (list bool) }.

(* profiles.py:124-134, 314-324, 748-799, 966-987, 1179-1228, 1407-1445: select, bin, index.  When subset returns -1
   (a mask of the wrong length) len(r[-1]) raises in the bin makers; that is also assumed when the caller gives bins. *)
Definition profile_rows (q : selection) (indx : option (list bool)) (user : option edges) (nrad : nat) (bt : bintype)
    (r : list R) (s1 : system) : result rows :=
  bind (get_subset q indx s1) (fun x =>
  match fst x with
  | None => Raise
  | Some msk =>
    bind (profile_bins user (select msk r) nrad bt) (fun e => let '(lo, mid, hi) := e in
    Ok (mkRows lo mid hi msk (bin_index r lo hi) (snd x)))
  end).
Definition row_count (w : rows) : list nat := seq 0 (length (w_mid w)).
Definition in_row (cumulative : bool) (w : rows) (i : nat) : list bool := row_mask cumulative (w_msk w) (w_idx w) i.

(* x / cluster.rm: TypeError when rm is None *)
Definition radii_over (normalize : bool) (rm : option R) (mid : list R) : result (list R) :=
  if normalize then match rm with Some a => Ok (map (fun x => x / a) mid) | None => Raise end else Ok mid.

(* profiles.py:143-146 *)
Definition shell_volume (projected : bool) (lo hi : R) : R :=
  if projected then PI * (hi ^ 2 - lo ^ 2) else 4 / 3 * PI * (hi ^ 3 - lo ^ 3).

(* which velocity is profiled *)
Inductive vcoord := Cspeed | Cr | Cphi | Ctheta | Cx | Cy | Cz.
(* sigv_prof, v_prof, v2_prof *)
Inductive statistic := Dispersion | Mean | MeanSquare.

Definition nsquare (a : num) : num := option_map (fun x => x ^ 2) a.
(* np.std, np.mean of an array that may contain nan *)
Definition over_numbers (f : list R -> R) (l : list num) : num := option_map f (all_some l).
(* profiles.py:818, 1245, 1462 *)
Definition row_statistic (w : statistic) (l : list num) : num :=
  match w with
  | Dispersion => over_numbers np_std l
  | Mean => over_numbers np_mean l
  | MeanSquare => over_numbers np_mean (map nsquare l)
  end.
(* profiles.py:816-820, 1243-1246, 1460-1463: rows of at most three stars keep the initial 0 *)
Definition enough (msk : list bool) : bool := Nat.ltb 3 (count msk).
Definition statistic_row (w : statistic) (v : list num) (msk : list bool) : num :=
  if enough msk then row_statistic w (select msk v) else Some 0.

(* profiles.py:1003-1015; a zero radial dispersion gives inf or nan *)
Definition beta_row (projected : bool) (vr vp vt : list num) (msk : list bool) : num :=
  if enough msk then
    match over_numbers np_std (select msk vr), over_numbers np_std (select msk vp), over_numbers np_std (select msk vt) with
    | Some sr, Some sp, Some st =>
        if Reqb sr 0 then None
        else Some (if projected then sp / sr - 1 else 1 - (st ^ 2 + sp ^ 2) / (2 * sr ^ 2))
    | _, _, _ => None
    end
  else Some 0.

Section WithGalpy.
Variable G : galpy.

(* profiles.py:108-114, 295-301, 698-704, 923-929, 1128-1134, 1354-1360; origin0 is the origin recorded by save_cluster
   three lines above *)
Definition profile_frame (normalize : bool) (c : cluster) : cluster :=
  let c0 := match c_units c with Some Uamuse => to_pckms G c | _ => c end in
  match c_origin c with
  | Some Ocluster | Some Ocentre => if normalize then sortstars true c0 else c0
  | _ => to_centre normalize c0
  end.

(* profiles.py:219-388: radii, masses, numbers; the cluster and the caller's mask afterwards.  The conversions of lines
   382-383 start from the units of the restored cluster, except for AMUSE, where they attach pc and MSun. *)
Definition m_prof (q : selection) (indx : option (list bool)) (user : option edges) (nrad : nat) (bt : bintype)
    (normalize cumulative : bool) (s : system) : result (list R * list R * list nat * system * option (list bool)) :=
  let c := g_c (y_k s) in
  let c1 := profile_frame normalize c in let s1 := sys_with s c1 in
  let r := if l_projected q then d_rpro (c_der c1) else d_r (c_der c1) in
  bind (profile_rows q indx user nrad bt r s1) (fun w =>
  let mprof := map (fun i => sumR (select (in_row cumulative w i) (p_m (c_ph c1)))) (row_count w) in
  let nprof := map (fun i => count (in_row cumulative w i)) (row_count w) in
  let c' := return_cluster G (save_cluster c) c1 in
  bind (radii_over normalize (d_rm (c_der c')) (w_mid w)) (fun rprof =>
  Ok (rprof, mprof, nprof, sys_with s c', w_caller w))).

(* profiles.py:34-216: radii, densities, numbers; a bin of no volume has no density *)
Definition density_row (projected : bool) (lo hi : R) (m : list R) : num :=
  let vol := shell_volume projected lo hi in
  if Reqb vol 0 then None else Some (sumR (map (fun x => x / vol) m)).
Definition rho_prof (q : selection) (indx : option (list bool)) (user : option edges) (nrad : nat) (bt : bintype)
    (normalize : bool) (s : system) : result (list R * list num * list nat * system * option (list bool)) :=
  let c := g_c (y_k s) in
  let c1 := profile_frame normalize c in let s1 := sys_with s c1 in
  let r := if l_projected q then d_rpro (c_der c1) else d_r (c_der c1) in
  bind (profile_rows q indx user nrad bt r s1) (fun w =>
  let pprof := map (fun i => density_row (l_projected q) (nth i (w_lo w) 0) (nth i (w_hi w) 0)
                               (select (in_row false w i) (p_m (c_ph c1)))) (row_count w) in
  let nprof := map (fun i => count (in_row false w i)) (row_count w) in
  let c' := return_cluster G (save_cluster c) c1 in
  bind (radii_over normalize (d_rm (c_der c')) (w_mid w)) (fun rprof =>
  Ok (rprof, pprof, nprof, sys_with s c', w_caller w))).

(* profiles.py:706-788, 1136-1218, 1364-1435: the radii used for the bins, the velocities profiled, the cluster after
   sphere_coords.  Names that are not bound (theta in projection, z otherwise in v_prof and v2_prof) raise; v2_prof
   has no branch for x, y and v and keeps the speeds. *)
Definition velocity_column (w : statistic) (coord : option vcoord) (projected : bool) (c : cluster)
    : result (list R * list num * cluster) :=
  let ph := p_s (c_ph c) in
  let speeds (c : cluster) := map Some (if projected then d_vpro (c_der c) else d_v (c_der c)) in
  let cartesian (l : list R) (c : cluster) := match w with MeanSquare => speeds c | _ => map Some l end in
  match coord with
  | None => Ok (if projected then d_rpro (c_der c) else d_r (c_der c), speeds c, c)
  | Some k =>
    if projected then
      let cyl := map cart_to_cyl (rows6 ph) in
      let r := map (@sx R) cyl in
      match k with
      | Cr => Ok (r, map (fun p => Some (svx p)) cyl, c)
      | Cphi => Ok (r, map (fun p => Some (svy p)) cyl, c)
      | Ctheta => Raise
      | Cx => Ok (r, cartesian (svx ph) c, c)
      | Cy => Ok (r, cartesian (svy ph) c, c)
      | Cz => Ok (r, map (fun p => Some (svz p)) cyl, c)
      | Cspeed => Ok (r, speeds c, c)
      end
    else
      bind (sphere_coords G c) (fun lc => let '(l, c2) := lc in
      let r := map h_r l in let ph2 := p_s (c_ph c2) in
      match k with
      | Cr => Ok (r, map h_vr l, c2)
      | Cphi => Ok (r, map (fun h => Some (h_vphi h)) l, c2)
      | Ctheta => Ok (r, map h_vtheta l, c2)
      | Cx => Ok (r, cartesian (svx ph2) c2, c2)
      | Cy => Ok (r, cartesian (svy ph2) c2, c2)
      | Cz => match w with Dispersion => Ok (r, map Some (svz ph2), c2) | _ => Raise end
      | Cspeed => Ok (r, speeds c2, c2)
      end)
  end.

(* profiles.py:801-807 and the same lines of the other routines *)
Definition half_mass (projected : bool) (c : cluster) : option R :=
  if projected then d_rmpro (c_der c) else d_rm (c_der c).

(* profiles.py:623-850, 1053-1276, 1279-1493.  The mask is made before sphere_coords is called; subset does not change
   the cluster, so the order of the two does not matter otherwise. *)
Definition velocity_prof (w : statistic) (coord : option vcoord) (q : selection) (indx : option (list bool))
    (user : option edges) (nrad : nat) (bt : bintype) (normalize : bool) (s : system)
    : result (list R * list num * system * option (list bool)) :=
  let c := g_c (y_k s) in let c1 := profile_frame normalize c in let s1 := sys_with s c1 in
  bind (velocity_column w coord (l_projected q) c1) (fun rv => let '(r, v, c2) := rv in
  bind (profile_rows q indx user nrad bt r s1) (fun x =>
  bind (radii_over normalize (half_mass (l_projected q) c2) (w_mid x)) (fun rprof =>
  Ok (rprof, map (fun i => statistic_row w v (in_row false x i)) (row_count x),
      sys_with s (return_cluster G (save_cluster c) c2), w_caller x)))).
Definition sigv_prof := velocity_prof Dispersion.
Definition v_prof := velocity_prof Mean.
Definition v2_prof := velocity_prof MeanSquare.

(* profiles.py:969-977 *)
Definition three_velocities (projected : bool) (c : cluster) : result (list R * list num * list num * list num * cluster) :=
  if projected then
    let cyl := map cart_to_cyl (rows6 (p_s (c_ph c))) in
    Ok (map (@sx R) cyl, map (fun p => Some (svx p)) cyl, map (fun p => Some (svy p)) cyl, map (fun _ => Some 0) cyl, c)
  else
    bind (sphere_coords G c) (fun lc => let '(l, c2) := lc in
    Ok (map h_r l, map h_vr l, map (fun h => Some (h_vphi h)) l, map h_vtheta l, c2)).
(* profiles.py:852-1050; the zeros of line 1009 are not used *)
Definition beta_prof (q : selection) (indx : option (list bool)) (user : option edges) (nrad : nat) (bt : bintype)
    (normalize : bool) (s : system) : result (list R * list num * system * option (list bool)) :=
  let c := g_c (y_k s) in let c1 := profile_frame normalize c in let s1 := sys_with s c1 in
  bind (three_velocities (l_projected q) c1) (fun x => let '(r, vr, vp, vt, c2) := x in
  bind (profile_rows q indx user nrad bt r s1) (fun w =>
  bind (radii_over normalize (half_mass (l_projected q) c2) (w_mid w)) (fun rprof =>
  Ok (rprof, map (fun i => beta_row (l_projected q) vr vp vt (in_row false w i)) (row_count w),
      sys_with s (return_cluster G (save_cluster c) c2), w_caller w)))).

(* profiles.py:1921-1927: vcirc_prof sorts the stars unless it centres them without sorting *)
Definition vcirc_frame (normalize : bool) (c : cluster) : cluster :=
  let c0 := match c_units c with Some Uamuse => to_pckms G c | _ => c end in
  match c_origin c with
  | Some Ocluster | Some Ocentre => sortstars true c0
  | _ => to_centre normalize c0
  end.

(* profiles.py:1983-1984: np.sqrt(grav*np.cumsum(m)/r); a star at the centre gives inf *)
Definition circular_speed (grav m r : R) : num := if Reqb r 0 then None else Some (sqrt (grav * m / r)).

(* np.argmax of the finite values: index of the first maximum *)
Fixpoint index_of (a : R) (l : list R) : nat :=
  match l with [] => 0%nat | b :: t => if Reqb b a then 0%nat else S (index_of a t) end.
(* np.argmin(np.fabs(r - x)) *)
Definition nearest_index (r : list R) (x : R) : option nat :=
  let d := map (fun a => Rabs (a - x)) r in option_map (fun m => index_of m d) (amin d).

(* profiles.py:1837-2072: radii, circular speeds, rvmax, vmax.  The order is recorded by the cluster (None: numpy adds an
   axis, not modelled: Raise); masks of another length raise.  A speed that is not finite (star at the centre) makes
   vmax inf: modelled as Raise.  nrad=None keeps every star. *)
Definition vcirc_prof (q : selection) (indx : option (list bool)) (user : option edges) (nrad : option nat) (bt : bintype)
    (normalize : bool) (s : system) : result (list R * list R * R * R * system * option (list bool)) :=
  let c := g_c (y_k s) in let c1 := vcirc_frame normalize c in let s1 := sys_with s c1 in
  let grav := get_grav c1 in
  match (if l_projected q then d_rproorder (c_der c1) else d_rorder (c_der c1)) with
  | None => Raise
  | Some o =>
    let r0 := take 0 (if l_projected q then d_rpro (c_der c1) else d_r (c_der c1)) o in
    let m0 := take 0 (p_m (c_ph c1)) o in
    bind (get_subset q indx s1) (fun x =>
    match fst x with
    | None => Raise
    | Some msk =>
      bind (masked msk r0) (fun r => bind (masked msk m0) (fun m =>
      match all_some (zip_with (circular_speed grav) (cumsum m) r) with
      | None => Raise
      | Some vc =>
        match amax vc with
        | None => Raise
        | Some vmax =>
          let rvmax := nth (index_of vmax vc) r 0 in
          bind (match user, nrad with
                | Some (_, mid, _), _ => Ok (all_some (map (nearest_index r) mid))
                | None, Some n => bind (profile_bins None (select msk (d_r (c_der c1))) n bt)
                                       (fun e => let '(_, mid, _) := e in Ok (all_some (map (nearest_index r) mid)))
                | None, None => Ok (Some (seq 0 (length r)))
                end) (fun args =>
          match args with
          | None => Raise
          | Some a =>
            bind (radii_over normalize (half_mass (l_projected q) c1) (take 0 r a)) (fun rprof =>
            Ok (rprof, take 0 vc a, rvmax, vmax, sys_with s (return_cluster G (save_cluster c) c1), snd x))
          end)
        end
      end))
    end)
  end.
End WithGalpy.
