(* Specification of Newtonian energies for a list of point masses, independent of the loops in the code. *)
From Verif Require Import Base ModelCluster ModelOps ModelConv ModelEnergy SpecUnits SpecFrame.

(* squared distance of two bodies *)
Definition dist2 (a b : star4) : R := (fx a - fx b) ^ 2 + (fy a - fy b) ^ 2 + (fz a - fz b) ^ 2.
(* potential energy of a pair, G = 1, Plummer softening *)
Definition pair_energy (soft : R) (a b : star4) : R := - (fm a * fm b) / sqrt (dist2 a b + soft ^ 2).
(* indices other than k *)
Definition others (k n : nat) : list nat := filter (fun j => negb (Nat.eqb j k)) (seq 0 n).
(* potential energy of body k in the field of all others *)
Definition newton_potential (soft : R) (l : list star4) (k : nat) : R :=
  sumR (map (fun j => pair_energy soft (nth k l star0) (nth j l star0)) (others k (length l))).
(* no two bodies at the same place *)
Definition separated (l : list star4) : Prop :=
  forall i j, (i < length l)%nat -> (j < length l)%nat -> i <> j -> dist2 (nth i l star0) (nth j l star0) <> 0.
(* the set of pairs i < j < n *)
Definition pair_set (n : nat) (ps : list (nat * nat)) : Prop :=
  NoDup ps /\ forall i j, In (i, j) ps <-> (i < j < n)%nat.

Definition translate (d : R * R * R) (a : star4) : star4 :=
  let '(x, y, z) := d in mk4 (fx a + x) (fy a + y) (fz a + z) (fm a).
Definition dilate (k m : R) (a : star4) : star4 := mk4 (k * fx a) (k * fy a) (k * fz a) (m * fm a).

(* bodies of a cluster as rows; velocities relative to the cluster (subtract the orbit if the origin is the galaxy) *)
Definition body (c : cluster) (k : nat) : star4 :=
  let s := p_s (c_ph c) in
  mk4 (nth k (sx s) 0) (nth k (sy s) 0) (nth k (sz s) 0) (nth k (p_m (c_ph c)) 0).
Definition bodies (c : cluster) : list star4 := map (body c) (seq 0 (length (p_m (c_ph c)))).
(* what is seen in the plane of the sky when projected *)
Definition in_plane (projected : bool) (a : star4) : star4 := mk4 (fx a) (fy a) (if projected then 0 else fz a) (fm a).
Definition bodies_seen (projected : bool) (c : cluster) : list star4 := map (in_plane projected) (bodies c).
Definition rel_speed2 (projected : bool) (c : cluster) (k : nat) : R :=
  let s := p_s (c_ph c) in
  let g := match c_origin c with Some Ogalaxy => p_g (c_ph c) | _ => zero6 end in
  (nth k (svx s) 0 - svx g) ^ 2 + (nth k (svy s) 0 - svy g) ^ 2 +
  (if projected then 0 else (nth k (svz s) 0 - svz g) ^ 2).
Definition nstars (c : cluster) : nat := length (p_m (c_ph c)).
Definition mass (c : cluster) (k : nat) : R := nth k (p_m (c_ph c)) 0.

(* the cluster is as before a routine was called, except possibly its binary elements *)
Definition restored (c c' : cluster) : Prop :=
  c_ph c' = c_ph c /\ c_units c' = c_units c /\ c_origin c' = c_origin c /\ c_der c' = c_der c /\ c_sc c' = c_sc c /\ c_id c' = c_id c /\ c_sky c' = c_sky c /\ c_nb c' = c_nb c.

(* total kinetic energy, sum of the per-star potentials (each pair counted twice) and virial ratio; with specific=True
   these are sums of per-mass quantities *)
Definition kinetic_sum (specific projected : bool) (c : cluster) : R :=
  sumR (map (fun k => (if specific then 1 else mass c k) * rel_speed2 projected c k / 2) (seq 0 (nstars c))).
Definition potential_sum (specific projected : bool) (soft : R) (c : cluster) : R :=
  sumR (map (fun k => get_grav c * newton_potential soft (bodies_seen projected c) k / (if specific then mass c k else 1))
            (seq 0 (nstars c))).
Definition virial_ratio (specific projected : bool) (soft : R) (c : cluster) : R :=
  kinetic_sum specific projected c / (potential_sum specific projected soft c / 2).

(* size of the unit of energy per mass, or of energy, in (km/s)^2 or Msun (km/s)^2 *)
Definition energy_size (specific : bool) (z : usize) : R := in_kms z ^ 2 * (if specific then 1 else in_Msun z).

(* sum over the pairs ps of m_i m_j / r_ij *)
Definition inverse_distance (l : list star4) (ps : list (nat * nat)) : R :=
  sumR (map (fun '(i, j) => let a := nth i l star0 in let b := nth j l star0 in fm a * fm b / sqrt (dist2 a b)) ps).

(* the centre of the cluster moves with its orbit (only used for clusters given in the galactic frame) *)
Definition still_centre (c : cluster) : Prop :=
  c_origin c = Some Ogalaxy -> svx (p_c (c_ph c)) = 0 /\ svy (p_c (c_ph c)) = 0 /\ svz (p_c (c_ph c)) = 0.
