(* What a profile leaves behind when it raises.  Models the state of cluster and mask when an exception leaves clustertools/analysis/profiles.py 34-216 (rho_prof),
   219-388 (m_prof), 623-850, 1053-1493 (sigv_prof, v_prof, v2_prof) and 852-1050 (beta_prof): the selection is made at 124 (and 314, 748, 966, ...), the bins at
   129-132, the normalisation of rho_prof and m_prof after return_cluster (208-214), that of the others before it (801-807, 823). *)
From Verif Require Import Base ModelCluster ModelOps ModelConv ModelEnergy ModelRecipes ModelStars ModelSubset ModelCoords ModelLagrange ModelProfiles.
Set Implicit Arguments.
Open Scope list_scope. Open Scope R_scope.

Inductive profile :=
| Pmass (nrad : nat) (bt : bintype) (normalize cumulative : bool)
| Pdensity (nrad : nat) (bt : bintype) (normalize : bool)
| Pspeed (w : statistic) (coord : option vcoord) (nrad : nat) (bt : bintype) (normalize : bool)
| Panisotropy (nrad : nat) (bt : bintype) (normalize : bool).
Section WithGalpy.
Variable G : galpy.
(* the call raises (no bins are given) *)
Definition fails (a : profile) (q : selection) (indx : option (list bool)) (s : system) : Prop :=
  match a with
  | Pmass n bt norm cum => m_prof G q indx None n bt norm cum s = Raise
  | Pdensity n bt norm => rho_prof G q indx None n bt norm s = Raise
  | Pspeed w k n bt norm => velocity_prof G w k q indx None n bt norm s = Raise
  | Panisotropy n bt norm => beta_prof G q indx None n bt norm s = Raise
  end.
(* cluster.py:3935 has written the mask, unless subset itself raised before *)
Definition mask_left (q : selection) (indx : option (list bool)) (s : system) : option (list bool) :=
  match get_subset q indx s with Ok x => snd x | Raise => indx end.
(* m_prof and rho_prof: the cluster is returned before the radii are divided by the half-mass radius *)
Definition late (q : selection) (indx : option (list bool)) (n : nat) (bt : bintype) (norm : bool) (s : system) : system :=
  let c := g_c (y_k s) in let c1 := profile_frame G norm c in
  match profile_rows q indx None n bt (if l_projected q then d_rpro (c_der c1) else d_r (c_der c1)) (sys_with s c1) with
  | Raise => sys_with s c1
  | Ok _ => sys_with s (return_cluster G (save_cluster c) c1)
  end.
(* the others: sphere_coords is called between the selection and the bins, not in projection *)
Definition early (three : bool) (q : selection) (indx : option (list bool)) (norm : bool) (s : system) : system :=
  let c1 := profile_frame G norm (g_c (y_k s)) in
  match get_subset q indx (sys_with s c1) with
  | Raise => sys_with s c1
  | Ok _ => if three && negb (l_projected q) then match sphere_coords G c1 with Ok (_, c2) => sys_with s c2 | Raise => sys_with s c1 end else sys_with s c1
  end.
(* catalogue and mask after the exception *)
Definition abandoned (a : profile) (q : selection) (indx : option (list bool)) (s : system) : system * option (list bool) :=
  match a with
  | Pmass n bt norm _ | Pdensity n bt norm => (late q indx n bt norm s, mask_left q indx (sys_with s (profile_frame G norm (g_c (y_k s)))))
  | Pspeed _ k _ _ norm => (early (match k with None => false | Some _ => true end) q indx norm s, mask_left q indx (sys_with s (profile_frame G norm (g_c (y_k s)))))
  | Panisotropy _ _ norm => (early true q indx norm s, mask_left q indx (sys_with s (profile_frame G norm (g_c (y_k s)))))
  end.
End WithGalpy.
