(* Lagrange radii.  Models clustertools/analysis/functions.py:978-1045. *)
From Verif Require Import Base ModelCluster ModelOps ModelRecipes.

Section WithGalpy.
Variable G : galpy.

(* functions.py:1005-1011: leave AMUSE quantities, then centre the cluster unless it is already in a cluster frame.
   cluster.origin0 is the origin recorded by save_cluster two lines above, so it is cluster.origin. *)
Definition lagrange_frame (c : cluster) : cluster :=
  let c0 := match c_units c with Some Uamuse => to_pckms G c | _ => c end in
  match c_origin c with
  | Some Ocluster | Some Ocentre => sortstars true c0
  | _ => to_centre true c0
  end.

(* functions.py:1017-1024: the radii used and the order in which the masses are accumulated; indexing with an order
   that was never computed raises *)
Definition lagrange_radii (projected : bool) (c : cluster) : list R :=
  if projected then d_rpro (c_der c) else d_r (c_der c).
Definition lagrange_order (projected : bool) (c : cluster) : option (list nat) :=
  if projected then d_rproorder (c_der c) else d_rorder (c_der c).

(* all entries present, or the IndexError of an empty [0] *)
Fixpoint all_some {A} (l : list (option A)) : option (list A) :=
  match l with
  | [] => Some []
  | None :: _ => None
  | Some a :: t => option_map (cons a) (all_some t)
  end.

(* functions.py:1026-1033: radii of mass i/n for i in range(1,n), then np.max(r) until there are n of them.
   np.sum(m)*i/n is written (i/n)*np.sum(m). *)
Definition lagrange_list (n : nat) (m r : list R) (order : list nat) : option (list R) :=
  match all_some (map (fun i => frac_radius (INR i / INR n) m r (sumR m) order) (seq 1 (n - 1))) with
  | None => None
  | Some rn => if Nat.eqb n (length rn) then Some rn
               else option_map (fun mx => rn ++ repeat mx (n - length rn)) (amax r)
  end.

(* functions.py:978-1045 with mfrac=None; the final conversion of an AMUSE cluster (1041-1042) attaches the unit pc to
   numbers already in pc *)
Definition rlagrange (n : nat) (projected : bool) (c : cluster) : result (list R * cluster) :=
  let c1 := lagrange_frame c in
  match lagrange_order projected c1 with
  | None => Raise
  | Some order =>
    match lagrange_list n (p_m (c_ph c1)) (lagrange_radii projected c1) order with
    | None => Raise
    | Some rn => Ok (rn, return_cluster G (save_cluster c) c1)
    end
  end.

(* functions.py:978-1045 with a mass fraction: lines 1035-1037; cluster.mtot is the total recorded by analyze.
   (msum/mtot)>=mfrac is written msum >= mfrac*mtot (mtot > 0). *)
Definition rlagrange_frac (mfrac : R) (projected : bool) (c : cluster) : result (R * cluster) :=
  let c1 := lagrange_frame c in
  match lagrange_order projected c1 with
  | None => Raise
  | Some order =>
    match frac_radius mfrac (p_m (c_ph c1)) (lagrange_radii projected c1) (d_mtot (c_der c1)) order with
    | None => Raise
    | Some r => Ok (r, return_cluster G (save_cluster c) c1)
    end
  end.
End WithGalpy.
