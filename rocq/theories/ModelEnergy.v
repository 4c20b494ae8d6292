(* Potential and kinetic energies, virial ratio, virial radius.
   Models clustertools/analysis/functions.py:656-925, 1101-1200, cluster/cluster.py:1272-1320, 2073-2115,
   cluster/operations.py:1450-1490 and util/recipes.py:760-785. *)
From Verif Require Import Base ModelCluster ModelOps ModelConv.

(* a row [x, y, z, m] of the array passed to the numba functions (functions.py:743-745, 728-730) *)
Record star4 := mk4 { fx : R; fy : R; fz : R; fm : R }.
Definition star0 : star4 := mk4 0 0 0 0.

(* util/recipes.py:760-785 *)
Definition distance (a b : star4) : R :=
  let dx := fx b - fx a in let dy := fy b - fy a in let dz := fz b - fz a in
  sqrt (dx * dx + dy * dy + dz * dz).

(* A float that may be nan; nan absorbs in sums. *)
Definition num := option R.
Definition nadd (a b : num) : num :=
  match a, b with Some x, Some y => Some (x + y) | _, _ => None end.
Definition nmul (k : R) (a : num) : num := option_map (fun x => k * x) a.
Definition ndiv (a : num) (k : R) : num := option_map (fun x => x / k) a.

(* pot[k] += t *)
Fixpoint upd {A} (l : list A) (k : nat) (f : A -> A) : list A :=
  match l, k with
  | [], _ => []
  | a :: t, O => f a :: t
  | a :: t, S k' => a :: upd t k' f
  end.

(* for i in range(n - 1): for j in range(i + 1, n)  (functions.py:808-809) *)
Definition pairs (n : nat) : list (nat * nat) :=
  flat_map (fun i => map (fun j => (i, j)) (seq (S i) (n - S i))) (seq 0 (n - 1)).

(* functions.py:810-816: r==0 becomes nan *)
Definition pair_term (soft : R) (a b : star4) : num :=
  let r := distance a b in
  if Reqb r 0 then None else Some (- (fm a * fm b) / sqrt (r ^ 2 + soft ^ 2)).

(* functions.py:786-818 *)
Definition potential_energy (soft : R) (l : list star4) : list num :=
  fold_left (fun pot '(i, j) =>
      let t := pair_term soft (nth i l star0) (nth j l star0) in
      upd (upd pot i (fun p => nadd p t)) j (fun p => nadd p t))
    (pairs (length l)) (repeat (Some 0) (length l)).

(* functions.py:856-890 *)
Definition potential_energy_subset (soft : R) (sub full : list star4) : list R :=
  map (fun a => fold_left (fun p b =>
         let r := distance a b in
         if Reqb r 0 then p else p + - (fm a * fm b) / sqrt (r ^ 2 + soft ^ 2)) full 0) sub.

(* functions.py:756-773, the loop used with full=False; m is per star (specific) or m_i m_j *)
Definition potential_energy_loop (grav soft : R) (specific projected : bool) (l : list star4) : list R :=
  map (fun a =>
    sumR (map snd (filter (fun p => negb (Reqb (fst p) 0))
      (map (fun b =>
        let dx := fx a - fx b in let dy := fy a - fy b in let dz := fz a - fz b in
        let m := if specific then fm b else fm a * fm b in
        let dr := if projected then sqrt (dx ^ 2 + dy ^ 2 + soft ^ 2)
                  else sqrt (dx ^ 2 + dy ^ 2 + dz ^ 2 + soft ^ 2) in
        (dr, - grav * m / dr)) l)))) l.

(* np.array([x, y, z, m]).T (functions.py:745) and with z = 0 (743) *)
Definition rows (projected : bool) (c : cluster) : list star4 :=
  let s := p_s (c_ph c) in
  let z := if projected then map (fun _ => 0) (sx s) else sz s in
  zip_with (fun '(a, b, z) m => mk4 a b z m) (combine (combine (sx s) (sy s)) z) (p_m (c_ph c)).

(* tests `origin0 != 'cluster' and origin0 != 'centre'` (functions.py:696) *)
Definition off_centre (c : cluster) : bool :=
  match c_origin c with Some Ocluster | Some Ocentre => false | _ => true end.

Section WithGalpy.
Variable G : galpy.

(* functions.py:696-699 *)
Definition energy_frame (c : cluster) : cluster :=
  let c1 := if off_centre c then to_cluster false c else c in
  match c_units c1 with Some Uamuse => to_pckms G c1 | _ => c1 end.

(* functions.py:703-713 *)
Definition kinetic (specific projected : bool) (c : cluster) : list R :=
  let v := if projected then d_vpro (c_der c) else d_v (c_der c) in
  if specific then map (fun a => 1/2 * a ^ 2) v
  else zip_with (fun m a => 1/2 * m * a ^ 2) (p_m (c_ph c)) v.

(* functions.py:741-773 (ids not given) *)
Definition potential (specific projected full : bool) (soft : R) (c : cluster) : list num :=
  let grav := get_grav c in
  if full then
    let p := map (nmul grav) (potential_energy soft (rows projected c)) in
    if specific then zip_with ndiv p (p_m (c_ph c)) else p
  else map Some (potential_energy_loop grav soft specific projected (rows false c)).

(* functions.py:656-783 with ids=None, parallel=False: (kin, pot) and the cluster afterwards *)
Definition energies (specific projected full : bool) (soft : R) (c : cluster) : (list R * list num) * cluster :=
  let c1 := energy_frame c in
  ((kinetic specific projected c1, potential specific projected full soft c1),
   return_cluster G (save_cluster c) c1).

(* functions.py:715-739 with ids a boolean mask *)
Definition energies_ids (specific : bool) (soft : R) (ids : list bool) (c : cluster) : (list R * list R) * cluster :=
  let c1 := energy_frame c in
  let m := select ids (p_m (c_ph c1)) in
  let kin := zip_with (fun m v => 1/2 * m * v ^ 2) m (select ids (d_v (c_der c1))) in
  let full := rows false c1 in
  let pot := map (fun p => get_grav c1 * p) (potential_energy_subset soft (select ids full) full) in
  let kp := if specific then (zip_with Rdiv kin m, zip_with Rdiv pot m) else (kin, pot) in
  (kp, return_cluster G (save_cluster c) c1).

(* attributes set by add_energies, cluster.py:1272-1320 *)
Record energy := mkE { e_kin : list R; e_pot : list num; e_etot : list num; e_ektot : R; e_ptot : R; e_qvir : R }.
Definition nan_to_num (a : num) : R := match a with Some x => x | None => 0 end.
(* cluster.py:1272-1320 with etot=None; when ptot is zero numpy yields inf or nan instead of a number *)
Definition add_energies (kin : list R) (pot : list num) : energy :=
  let ek := sumR kin in let ep := sumR (map nan_to_num pot) / 2 in
  mkE kin pot (zip_with (fun k p => nadd (Some k) p) kin pot) ek ep (ek / ep).

(* cluster.py:2512-2568, method energies without ids; the body brackets the call of energies once more *)
Definition energies_method (specific projected full : bool) (soft : R) (c : cluster) : energy * cluster :=
  let c1 := energy_frame c in
  let '((kin, pot), c2) := energies specific projected full soft c1 in
  (add_energies kin pot, return_cluster G (save_cluster c) c2).

(* vx *= k; vy *= k; vz *= k (cluster.py:2111-2113) *)
Definition scale_velocities (k : R) (c : cluster) : cluster :=
  let s := p_s (c_ph c) in
  set_stars c (mk6 (sx s) (sy s) (sz s) (vmul (svx s) k) (vmul (svy s) k) (vmul (svz s) k)) (c_origin c).

(* operations.py:1450-1490; cache is the attribute qvir if energies were computed before (1481-1486) *)
Definition virialize_factor (qvir soft : R) (projected : bool) (cache : option R) (c : cluster)
  : R * option R * cluster :=
  let c1 := if off_centre c then to_centre true c else c in
  let '(q, c2) := match cache with
                  | Some q => (q, c1)
                  | None => let '(e, c2) := energies_method true projected true soft c1 in (e_qvir e, c2)
                  end in
  (sqrt (Rabs (qvir / q)), Some q, return_cluster G (save_cluster c) c2).

(* cluster.py:2073-2115 *)
Definition virialize (qvir soft : R) (projected : bool) (cache : option R) (c : cluster) : option R * cluster :=
  let '(qv, cache', c1) := virialize_factor qvir soft projected cache c in
  let c2 := if off_centre c1 then to_centre false c1 else c1 in
  (cache', return_cluster G (save_cluster c1) (scale_velocities qv c2)).

(* functions.py:1175-1200 *)
Definition weighted_inverse_distance_sum (l : list star4) : R :=
  fold_left (fun s '(i, j) =>
      let a := nth i l star0 in let b := nth j l star0 in s + fm a * fm b / distance a b)
    (pairs (length l)) 0.

(* functions.py:1143-1164, full=False *)
Definition inverse_distance_loop (l : list star4) : R :=
  fold_left (fun s i =>
      let a := nth i l star0 in
      s + sumR (map (fun b =>
            let dx := fx a - fx b in let dy := fy a - fy b in let dz := fz a - fz b in
            fm a * fm b / sqrt (dx * dx + dy * dy + dz * dz)) (skipn (S i) l)))
    (seq 0 (length l - 1)) 0.

(* functions.py:1101-1173 virial_radius_inverse_distance (amuse: value in parsec) *)
Definition virial_radius (projected full : bool) (c : cluster) : R * cluster :=
  let c0 := match c_units c with Some Uamuse => to_pckms G c | _ => c end in
  let c1 := if off_centre c then to_centre false c0 else c0 in
  let l := rows projected c1 in
  let s := if full then weighted_inverse_distance_sum l else inverse_distance_loop l in
  (sumR (p_m (c_ph c1)) ^ 2 / (2 * s), return_cluster G (save_cluster c) c1).
End WithGalpy.

(* ------------------------------------------------------------ parallel version *)
(* functions.py:821-853: numba.prange runs the iterations i concurrently.  pot[k] += t compiles to a load followed by
   a store, with no lock or atomic add; a worker is the list of these steps for its iteration. *)
Inductive micro := Load (k : nat) | Store (k : nat) (t : num).
Record worker := mkW { w_reg : num; w_todo : list micro }.
Record shared := mkS { s_pot : list num; s_workers : list worker }.

Definition micro_update (k : nat) (t : num) : list micro := [Load k; Store k t].
Definition worker_code (soft : R) (l : list star4) (i : nat) : list micro :=
  flat_map (fun j => let t := pair_term soft (nth i l star0) (nth j l star0) in
                     micro_update i t ++ micro_update j t) (seq (S i) (length l - S i)).
Definition parallel_start (soft : R) (l : list star4) : shared :=
  mkS (repeat (Some 0) (length l))
      (map (fun i => mkW (Some 0) (worker_code soft l i)) (seq 0 (length l - 1))).

(* functions.py:893-925: each iteration only updates its own entry *)
Definition subset_worker_code (soft : R) (sub full : list star4) (i : nat) : list micro :=
  let a := nth i sub star0 in
  flat_map (fun b => let r := distance a b in
                     if Reqb r 0 then [] else micro_update i (Some (- (fm a * fm b) / sqrt (r ^ 2 + soft ^ 2)))) full.
Definition parallel_subset_start (soft : R) (sub full : list star4) : shared :=
  mkS (repeat (Some 0) (length sub))
      (map (fun i => mkW (Some 0) (subset_worker_code soft sub full i)) (seq 0 (length sub))).

(* one step of worker w *)
Definition step (w : nat) (s : shared) : shared :=
  match nth_error (s_workers s) w with
  | Some (mkW _ (Load k :: rest)) =>
      mkS (s_pot s) (upd (s_workers s) w (fun _ => mkW (nth k (s_pot s) None) rest))
  | Some (mkW reg (Store k t :: rest)) =>
      mkS (upd (s_pot s) k (fun _ => nadd reg t)) (upd (s_workers s) w (fun _ => mkW reg rest))
  | _ => s
  end.
(* an execution: which worker moves at each step *)
Definition execute (schedule : list nat) (s : shared) : shared := fold_left (fun s w => step w s) schedule s.
Definition finished (s : shared) : Prop := Forall (fun w => w_todo w = []) (s_workers s).
