(* State of a StarCluster and its analyze()/sortstars() bookkeeping.
   Models clustertools/cluster/cluster.py. *)
From Verif Require Import Base.

(* Unit systems: the strings tested in cluster/operations.py:56-851. *)
Inductive usys := Unbody | Upckms | Upcmyr | Ukpckms | Ukpcgyr | Ugalpy | UWD | Uamuse | Uradec.
Definition usys_eq_dec (a b : usys) : {a = b} + {a <> b}. Proof. decide equality. Defined.
Definition usys_eqb a b := if usys_eq_dec a b then true else false.

(* Origins: strings tested in cluster/operations.py:922-1316. *)
Inductive osys := Ocentre | Ocluster | Ogalaxy | Osky.
Definition osys_eq_dec (a b : osys) : {a = b} + {a <> b}. Proof. decide equality. Defined.
Definition oosys_eq_dec (a b : option osys) : {a = b} + {a <> b}.
Proof. decide equality; apply osys_eq_dec. Defined.
Definition oosys_eqb a b := if oosys_eq_dec a b then true else false.
Definition ousys_eq_dec (a b : option usys) : {a = b} + {a <> b}.
Proof. decide equality; apply usys_eq_dec. Defined.

(* Binary units: cluster.py:148 starts bunits at the value of units;
   operations.py:853-920 adds audays and sudays. *)
Inductive busys := Bu (u : usys) | Baudays | Bsudays.

(* Physical data that a unit conversion rescales: cluster.py:130-260.
   tphys; m; x,y,z,vx,vy,vz; xc..vzc; xgc..vzgc. *)
Record phys := mkP {
  p_t : R; p_m : list R; p_s : six (list R); p_c : six R; p_g : six R }.

(* N-body scale factors and galpy scales: cluster.py:177-178, 222-225, 298-316. *)
Record scales := mkSc {
  zmbar : R; rbar : R; vbar : R; tbar : R;
  rbar_su : R; rbar_au : R; tbar_days : R; ro : R; vo : R }.

(* Binary data touched by the binary unit functions: cluster.py:341-344. *)
Record bindata := mkB { b_semi : list R; b_pb : list R; b_m1 : list R; b_m2 : list R }.

(* Sky data: cluster.py:263-290, cached orbits :174,:237, centre in nbody units :307-309.
   An Orbit object is represented by the galactocentric phase-space point (kpc, km/s) it holds. *)
Record skydata := mkSk {
  k_s : six (list R);            (* ra dec dist pmra pmdec vlos of the stars *)
  k_gc : six R;                  (* ra_gc ... vlos_gc *)
  k_c : six R;                   (* ra_c ... vlos_c *)
  k_orbit : option (six R);
  k_orbits : option (list (six R));
  k_xcn : option (R * R * R) }.

(* Quantities derived by analyze/sortstars: cluster.py:1390-1440, 376-378.
   rm, r10, rmpro, r10pro are None either before the first analyze or where the code would raise
   IndexError because no star satisfies the test. *)
Record derived := mkD {
  d_r : list R; d_rpro : list R; d_v : list R; d_vpro : list R; d_mtot : R;
  d_rorder : option (list nat); d_rorder_origin : option osys; d_rproorder : option (list nat);
  d_rm : option R; d_r10 : option R; d_rmpro : option R; d_r10pro : option R }.

Record cluster := mkC {
  c_units : option usys; c_origin : option osys; c_bunits : option busys; c_nb : nat;
  c_ph : phys; c_sc : scales; c_bin : bindata; c_sky : skydata; c_der : derived; c_id : list Z }.

Definition set_ph (c : cluster) (p : phys) (u : option usys) : cluster :=
  mkC u (c_origin c) (c_bunits c) (c_nb c) p (c_sc c) (c_bin c) (c_sky c) (c_der c) (c_id c).
Definition set_stars (c : cluster) (s : six (list R)) (o : option osys) : cluster :=
  mkC (c_units c) o (c_bunits c) (c_nb c)
      (mkP (p_t (c_ph c)) (p_m (c_ph c)) s (p_c (c_ph c)) (p_g (c_ph c)))
      (c_sc c) (c_bin c) (c_sky c) (c_der c) (c_id c).
Definition set_der (c : cluster) (d : derived) : cluster :=
  mkC (c_units c) (c_origin c) (c_bunits c) (c_nb c) (c_ph c) (c_sc c) (c_bin c) (c_sky c) d (c_id c).
Definition set_bin (c : cluster) (b : bindata) (u : option busys) : cluster :=
  mkC (c_units c) (c_origin c) u (c_nb c) (c_ph c) (c_sc c) b (c_sky c) (c_der c) (c_id c).
Definition set_sky (c : cluster) (k : skydata) : cluster :=
  mkC (c_units c) (c_origin c) (c_bunits c) (c_nb c) (c_ph c) (c_sc c) (c_bin c) k (c_der c) (c_id c).
Definition set_sc (c : cluster) (s : scales) : cluster :=
  mkC (c_units c) (c_origin c) (c_bunits c) (c_nb c) (c_ph c) s (c_bin c) (c_sky c) (c_der c) (c_id c).

(* np.argsort(key): stable insertion of indices by key.  numpy's default is quicksort, which is not stable;
   the order of ties is therefore one of several the code may produce (simplification). *)
Fixpoint insert_by (key : nat -> R) (i : nat) (l : list nat) : list nat :=
  match l with
  | [] => [i]
  | j :: t => if Rleb (key i) (key j) then i :: j :: t else j :: insert_by key i t
  end.
Definition sort_by (key : nat -> R) (l : list nat) : list nat := fold_right (insert_by key) [] l.
Definition argsort (l : list R) : list nat := sort_by (fun i => nth i l 0) (seq 0 (length l)).

(* a[idx] for an integer index array *)
Definition take {A} (d : A) (l : list A) (idx : list nat) : list A := map (fun i => nth i l d) idx.

(* np.cumsum *)
Fixpoint cumsum_from (s : R) (l : list R) : list R :=
  match l with [] => [] | a :: t => (s + a) :: cumsum_from (s + a) t end.
Definition cumsum := cumsum_from 0.

(* order[msum >= frac*mtot][0]: first entry of order whose cumulative value reaches the threshold *)
Fixpoint first_reaching (order : list nat) (msum : list R) (thr : R) : option nat :=
  match order, msum with
  | i :: o', s :: m' => if Rleb thr s then Some i else first_reaching o' m' thr
  | _, _ => None
  end.

(* cluster.py:1411-1415, 1418-1422: radius of the first star, in the given order, at which the cumulative
   weight reaches frac of the total *)
Definition frac_radius (frac : R) (w r : list R) (tot : R) (order : list nat) : option R :=
  option_map (fun i => nth i r 0) (first_reaching order (cumsum (take 0 w order)) (frac * tot)).

(* cluster.py:1393-1396 *)
Definition norm3 (x y z : list R) : list R :=
  zip_with (fun a b => sqrt (a + b)) (zip_with (fun a b => a ^ 2 + b ^ 2) x y) (map (fun c => c ^ 2) z).
Definition norm2 (x y : list R) : list R := zip_with (fun a b => sqrt (a ^ 2 + b ^ 2)) x y.

(* cluster.py:1488-1513 sortstars; `projected` is (projected or self.projected), line 1512.
   Line 1512 compares rorder_origin after line 1510 may have updated it. *)
Definition sortstars (projected : bool) (c : cluster) : cluster :=
  let d := c_der c in
  let '(ror, roo) :=
    match d_rorder d with
    | Some o => if oosys_eqb (d_rorder_origin d) (c_origin c) && Nat.eqb (length (d_r d)) (length o)
                then (Some o, d_rorder_origin d)
                else (Some (argsort (d_r d)), c_origin c)
    | None => (Some (argsort (d_r d)), c_origin c)
    end in
  let rpo :=
    if projected then
      match d_rproorder d with
      | Some o => if oosys_eqb roo (c_origin c) && Nat.eqb (length (d_rpro d)) (length o)
                  then Some o else Some (argsort (d_rpro d))
      | None => Some (argsort (d_rpro d))
      end
    else d_rproorder d in
  set_der c (mkD (d_r d) (d_rpro d) (d_v d) (d_vpro d) (d_mtot d) ror roo rpo
                 (d_rm d) (d_r10 d) (d_rmpro d) (d_r10pro d)).

(* cluster.py:1390-1404: radii, speeds, total mass.  Means, maxima and the luminosity radii are not kept;
   np.max raising ValueError on an empty cluster is not modelled here. *)
Definition analyze_radii (c : cluster) : cluster :=
  let s := p_s (c_ph c) in
  let d := c_der c in
  set_der c (mkD (norm3 (sx s) (sy s) (sz s)) (norm2 (sx s) (sy s))
                 (norm3 (svx s) (svy s) (svz s)) (norm2 (svx s) (svy s))
                 (sumR (p_m (c_ph c)))
                 (d_rorder d) (d_rorder_origin d) (d_rproorder d)
                 (d_rm d) (d_r10 d) (d_rmpro d) (d_r10pro d)).

(* cluster.py:1410-1422 *)
Definition analyze_fracs (c : cluster) : cluster :=
  let d := c_der c in
  let m := p_m (c_ph c) in
  let '(rm, r10) :=
    match d_rorder d with
    | Some o => (frac_radius (1/2) m (d_r d) (d_mtot d) o, frac_radius (1/10) m (d_r d) (d_mtot d) o)
    | None => (d_rm d, d_r10 d)
    end in
  let '(rmp, r10p) :=
    match d_rproorder d with
    | Some o => (frac_radius (1/2) m (d_rpro d) (d_mtot d) o, frac_radius (1/10) m (d_rpro d) (d_mtot d) o)
    | None => (d_rmpro d, d_r10pro d)
    end in
  set_der c (mkD (d_r d) (d_rpro d) (d_v d) (d_vpro d) (d_mtot d)
                 (d_rorder d) (d_rorder_origin d) (d_rproorder d) rm r10 rmp r10p).

(* cluster.py:1370-1440 analyze(sortstars, projected) *)
Definition analyze (sort projected : bool) (c : cluster) : cluster :=
  let c1 := analyze_radii c in
  let c2 := if sort then sortstars projected c1 else c1 in
  analyze_fracs c2.

(* StarCluster() before any star is added: cluster.py:120-406 (default scales, empty arrays). *)
Definition zero6 : six R := mk6 0 0 0 0 0 0.
Definition nil6 : six (list R) := mk6 [] [] [] [] [] [].
Definition empty_derived : derived :=
  mkD [] [] [] [] 0 None None None None None None None.
Definition init_cluster (t : R) (u : option usys) (o : option osys) (ro_ vo_ : R) : cluster :=
  mkC u o (option_map Bu u) 0 (mkP t [] nil6 zero6 zero6)
      (mkSc 1 1 1 1 1 1 1 ro_ vo_) (mkB [] [] [] [])
      (mkSk nil6 zero6 zero6 None None None) empty_derived [].
