(* Vocabulary for the selection properties. *)
From Verif Require Import Base ModelCluster ModelEnergy ModelRecipes ModelStars ModelSubset SpecStars SpecOrder.
Set Implicit Arguments.

(* lo <= v <= hi, a missing limit not excluding anything *)
Definition within (lo hi : option R) (v : R) : Prop :=
  (forall a, lo = Some a -> a <= v) /\ (forall b, hi = Some b -> v <= b).

(* distance from the origin and speed of star i, in projection on the x-y plane if asked *)
Definition seen_distance (projected : bool) (k : catalog) (i : nat) : R :=
  let s := w_s (star_at k i) in
  if projected then sqrt (sx s ^ 2 + sy s ^ 2) else sqrt (sx s ^ 2 + sy s ^ 2 + sz s ^ 2).
Definition seen_speed (projected : bool) (k : catalog) (i : nat) : R :=
  let s := w_s (star_at k i) in
  if projected then sqrt (svx s ^ 2 + svy s ^ 2) else sqrt (svx s ^ 2 + svy s ^ 2 + svz s ^ 2).

(* star i satisfies all limits *)
Definition satisfies (q : selection) (s : system) (i : nat) : Prop :=
  let k := y_k s in
  within (l_rmin q) (l_rmax q) (seen_distance (l_projected q) k i) /\
  within (l_vmin q) (l_vmax q) (seen_speed (l_projected q) k i) /\
  within (l_mmin q) (l_mmax q) (row_mass k i) /\
  (forall p, l_npop q = Some p -> w_npop (star_at k i) = p) /\
  (l_emin q = None /\ l_emax q = None \/
   exists e, nth i (y_etot s) None = Some e /\ within (l_emin q) (l_emax q) e) /\
  (e_kw (g_sse k) = [] \/ l_kwmin q <= nth i (e_kw (g_sse k)) 0 <= l_kwmax q).
Definition in_mask (indx : option (list bool)) (i : nat) : Prop :=
  match indx with None => True | Some l => nth i l false = true end.

(* n stars, all arrays of that length, radii and speeds up to date; stellar types and energies present or absent *)
Definition measured (s : system) (n : nat) : Prop :=
  let k := y_k s in let d := c_der (g_c k) in
  aligned k n /\ g_ntot k = n /\
  length (d_r d) = n /\ length (d_rpro d) = n /\ length (d_v d) = n /\ length (d_vpro d) = n /\
  (forall i, (i < n)%nat ->
     nth i (d_r d) 0 = seen_distance false k i /\ nth i (d_rpro d) 0 = seen_distance true k i /\
     nth i (d_v d) 0 = seen_speed false k i /\ nth i (d_vpro d) 0 = seen_speed true k i) /\
  (e_kw (g_sse k) = [] \/ length (e_kw (g_sse k)) = n) /\
  (y_etot s = [] \/ length (y_etot s) = n).
Definition energies_known (q : selection) (s : system) (n : nat) : Prop :=
  l_emin q = None /\ l_emax q = None \/ length (y_etot s) = n.
Definition mask_fits (indx : option (list bool)) (n : nat) : Prop :=
  match indx with None => True | Some l => length l = n end.

(* the indices of the stars a mask selects, in increasing order *)
Definition chosen (msk : list bool) : list nat := filter (fun i => nth i msk false) (seq 0 (length msk)).

(* several calls with the same array passed as indx: what it contains after each call is what the next one gets *)
Fixpoint repeated_calls (qs : list selection) (indx : option (list bool)) (s : system) : option (list bool) :=
  match qs with
  | [] => indx
  | q :: t => match get_subset q indx s with Ok (_, indx') => repeated_calls t indx' s | Raise => None end
  end.

(* distance of star i of one cluster from star j of another *)
Definition star_separation (projected : bool) (c1 c2 : cluster) (i j : nat) : R :=
  let a := p_s (c_ph c1) in let b := p_s (c_ph c2) in
  let d (f : six (list R) -> list R) := nth i (f a) 0 - nth j (f b) 0 in
  if projected then sqrt (d (@sx _) ^ 2 + d (@sy _) ^ 2) else sqrt (d (@sx _) ^ 2 + d (@sy _) ^ 2 + d (@sz _) ^ 2).

(* the optional per-star data are present for all n stars or absent *)
Definition sse_sized (s : system) (n : nat) : Prop :=
  let e := g_sse (y_k s) in
  e_logl e = [] \/
  length (e_kw e) = n /\ length (e_logl e) = n /\ length (e_logr e) = n /\
  (e_ep e = [] \/ e_ospin e = [] \/ length (e_ep e) = n /\ length (e_ospin e) = n).
Definition energy_sized (s : system) (n : nat) : Prop :=
  y_etot s = [] \/ length (y_kin s) = n /\ length (y_pot s) = n.
(* the binary table has b rows or is absent *)
Definition bse_sized (s : system) (b : nat) : Prop :=
  let e := g_bse (y_k s) in let q := c_bin (g_c (y_k s)) in
  f_id2 e = [] \/
  length (f_id1 e) = b /\ length (f_id2 e) = b /\ length (f_kw1 e) = b /\ length (f_kw2 e) = b /\ length (f_kcm e) = b /\
  length (f_ecc e) = b /\ length (b_pb q) = b /\ length (b_semi q) = b /\ length (b_m1 q) = b /\ length (b_m2 q) = b /\
  length (f_logl1 e) = b /\ length (f_logl2 e) = b /\ length (f_logr1 e) = b /\ length (f_logr2 e) = b.
Definition sky_sized (s : system) (n : nat) : Prop :=
  let k := k_s (c_sky (g_c (y_k s))) in
  length (sx k) <> n \/ six_length k n.
Definition complete (s : system) (n : nat) : Prop :=
  measured s n /\ sse_sized s n /\ energy_sized s n /\ (exists b, bse_sized s b) /\ sky_sized s n.

(* rows j of the new cluster and i of the old one hold the same star *)
Definition same_star (new old : system) (j i : nat) : Prop :=
  star_at (y_k new) j = star_at (y_k old) i /\
  (e_kw (g_sse (y_k old)) <> [] -> nth j (e_kw (g_sse (y_k new))) 0 = nth i (e_kw (g_sse (y_k old))) 0) /\
  (e_logl (g_sse (y_k old)) <> [] ->
     nth j (e_logl (g_sse (y_k new))) 0 = nth i (e_logl (g_sse (y_k old))) 0 /\
     nth j (e_logr (g_sse (y_k new))) 0 = nth i (e_logr (g_sse (y_k old))) 0 /\
     nth j (e_lum (g_sse (y_k new))) 0 = Rpower 10 (nth i (e_logl (g_sse (y_k old))) 0)) /\
  (y_etot old <> [] -> nth j (y_kin new) 0 = nth i (y_kin old) 0 /\ nth j (y_pot new) None = nth i (y_pot old) None /\
     nth j (y_etot new) None = nadd (Some (nth i (y_kin old) 0)) (nth i (y_pot old) None)).
(* total mass of the stars of a cluster *)
Definition mass_of (s : system) : R := total (row_mass (y_k s)) (g_ntot (y_k s)).

(* the data of the parent that do not belong to a star: time, units, origin, centre, orbit, scales *)
Definition parent_data (s : system) (c : cluster) : Prop :=
  let p := g_c (y_k s) in
  c_units c = c_units p /\ c_origin c = c_origin p /\ p_t (c_ph c) = p_t (c_ph p) /\ p_c (c_ph c) = p_c (c_ph p) /\
  p_g (c_ph c) = p_g (c_ph p) /\ zmbar (c_sc c) = zmbar (c_sc p) /\ rbar (c_sc c) = rbar (c_sc p) /\
  vbar (c_sc c) = vbar (c_sc p) /\ tbar (c_sc c) = tbar (c_sc p) /\ ro (c_sc c) = ro (c_sc p) /\ vo (c_sc c) = vo (c_sc p).

(* a cluster holding exactly the stars J of s, in that order, with the data of the parent and up-to-date radii *)
Definition holds_stars (sub s : system) (J : list nat) : Prop :=
  measured sub (length J) /\ parent_data s (g_c (y_k sub)) /\
  (forall j, (j < length J)%nat -> same_star sub s j (nth j J 0%nat)).
(* a binary of the parent is kept exactly if one of its components is among the stars of the new cluster *)
Definition binaries_follow (sub s : system) : Prop :=
  let k := y_k s in let k' := y_k sub in
  f_id2 (g_bse k) <> [] ->
  exists B, length B = length (f_id2 (g_bse k)) /\
    (forall i, (i < length B)%nat -> nth i B false = true <->
       In (nth i (f_id1 (g_bse k)) 0%Z) (c_id (g_c k')) \/ In (nth i (f_id2 (g_bse k)) 0%Z) (c_id (g_c k'))) /\
    f_id1 (g_bse k') = select B (f_id1 (g_bse k)) /\ f_id2 (g_bse k') = select B (f_id2 (g_bse k)) /\
    b_semi (c_bin (g_c k')) = select B (b_semi (c_bin (g_c k))) /\ b_pb (c_bin (g_c k')) = select B (b_pb (c_bin (g_c k))) /\
    b_m1 (c_bin (g_c k')) = select B (b_m1 (c_bin (g_c k))) /\ b_m2 (c_bin (g_c k')) = select B (b_m2 (c_bin (g_c k))).
(* radial order and mass-fraction radii are those of the n stars of the cluster *)
Definition sorted_sub (sub : system) (n : nat) : Prop :=
  let k := y_k sub in let d := c_der (g_c k) in
  nonneg (row_masses k n) -> 0 < sumR (row_masses k n) ->
  exists o rm r10, d_rorder d = Some o /\ sorted_order o (row_distances k n) /\
    d_rm d = Some rm /\ is_fraction_radius (1/2) (row_distances k n) (row_masses k n) rm /\
    d_r10 d = Some r10 /\ is_fraction_radius (1/10) (row_distances k n) (row_masses k n) r10.

(* the parent after the call: analysed again, nothing else *)
Definition parent_after (s : system) : system :=
  mkSys (set_cluster (y_k s) (analyze true true (g_c (y_k s)))) (y_kin s) (y_pot s) (y_etot s).
