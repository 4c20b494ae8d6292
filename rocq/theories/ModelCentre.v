(* Cluster centres.  Models clustertools/analysis/functions.py:57-453 and cluster/cluster.py:2119-2369. *)
From Verif Require Import Base ModelCluster ModelOps ModelConv ModelEnergy ModelRecipes ModelCoords.
Set Implicit Arguments.

Definition less6 (a b : six R) : six R :=
  mk6 (sx a - sx b) (sy a - sy b) (sz a - sz b) (svx a - svx b) (svy a - svy b) (svz a - svz b).

(* functions.py:445-453 find_centre_of_mass; None: a division by a zero total mass, all six values are nan or inf.
   The function does not convert units or origin. *)
Definition find_centre_of_mass (c : cluster) : option (six R) :=
  let m := p_m (c_ph c) in
  if Reqb (sumR m) 0 then None
  else Some (map6 (fun x => sumR (zip_with Rmult m x) / sumR m) (p_s (c_ph c))).

(* mass, position and velocity of one star *)
Record particle := mkPart { y_m : R; y_p : six R }.
Definition particles (c : cluster) : list particle := zip_with mkPart (p_m (c_ph c)) (rows6 (p_s (c_ph c))).
Definition shift_part (d : six R) (b : particle) : particle := mkPart (y_m b) (less6 (y_p b) d).
(* x ** 2.0 + y ** 2.0 + z ** 2.0 (functions.py:387) *)
Definition square_radius (b : particle) : R := sx (y_p b) ^ 2 + sy (y_p b) ^ 2 + sz (y_p b) ^ 2.
(* np.sum(m * x) / np.sum(m), six times (functions.py:397-403, 173-179) *)
Definition total_mass (l : list particle) : R := sumR (map y_m l).
Definition mass_mean (l : list particle) : six R :=
  let f (g : six R -> R) := sumR (map (fun b => y_m b * g (y_p b)) l) / total_mass l in
  mk6 (f (@sx R)) (f (@sy R)) (f (@sz R)) (f (@svx R)) (f (@svy R)) (f (@svz R)).

(* functions.py:386-423; n counts the remaining iterations (nmax - n) *)
Fixpoint harfst_loop (n nsphere : nat) (rmin rlim : R) (l : list particle) (dc : six R) : six R :=
  match n with
  | O => dc
  | S n' =>
    if Rltb rmin rlim then
      let inn := filter (fun b => Rltb (square_radius b) (rlim ^ 2)) l in
      let nc := length inn in
      let mc := total_mass inn in
      let xc := if Reqb mc 0 then zero6 else mass_mean inn in
      if Rltb 0 mc && Nat.ltb nsphere nc
      then harfst_loop n' nsphere rmin (rlim * (8 / 10)) (map (shift_part xc) l) (plus6 dc xc)
      else dc
    else dc
  end.

(* functions.py:363-425 on the chosen stars; np.amax raises on an empty selection *)
Definition harfst (start : six R) (nsphere : nat) (rmin : R) (rmax : option R) (nmax : nat) (l : list particle) : option (six R) :=
  let l1 := map (shift_part start) l in
  match (match rmax with Some r => Some r | None => amax (map (fun b => sqrt (square_radius b)) l1) end) with
  | None => None
  | Some rlim => Some (harfst_loop nmax nsphere rmin rlim l1 start)
  end.

(* cluster.m[indx] ...: a boolean mask of another length raises IndexError; None is every star (363-364, 124-125) *)
Definition pick_rows {A} (indx : option (list bool)) (n : nat) (l : list A) : option (list A) :=
  match indx with
  | None => Some l
  | Some mk => if Nat.eqb (length mk) n then Some (select mk l) else None
  end.

(* functions.py:293-313.  cKDTree.query(pos, k) gives for each star its k nearest stars in order of distance, itself
   included; ties are in an unspecified order, here by index (simplification).  k = 0 or 1 and more neighbours than stars
   raise.  A zero distance to the last neighbour, or a zero total, makes the result nan: None inside. *)
Definition pos_distance (a b : six R) : R := sqrt ((sx b - sx a) ^ 2 + (sy b - sy a) ^ 2 + (sz b - sz a) ^ 2).
Definition neighbours (k : nat) (l : list particle) (i : nat) : list nat :=
  let p := y_p (nth i l (mkPart 0 zero6)) in
  firstn k (argsort (map (fun b => pos_distance p (y_p b)) l)).
Definition local_density (k : nat) (l : list particle) (i : nat) : option R :=
  let p := y_p (nth i l (mkPart 0 zero6)) in
  let arg := neighbours k l i in
  let lst := nth (k - 1) arg O in
  let mass := sumR (map (fun j => y_m (nth j l (mkPart 0 zero6))) arg) - y_m (nth lst l (mkPart 0 zero6)) in
  let vol := pos_distance p (y_p (nth lst l (mkPart 0 zero6))) ^ 3 in
  if Reqb vol 0 then None else Some (mass / vol).
Fixpoint all_finite (l : list (option R)) : option (list R) :=
  match l with
  | [] => Some []
  | Some a :: t => option_map (cons a) (all_finite t)
  | None :: _ => None
  end.
Definition casertano (k : nat) (l : list particle) : result (option (six R)) :=
  if Nat.leb k 1 || Nat.ltb (length l) k then Raise
  else Ok match all_finite (map (local_density k l) (seq 0 (length l))) with
    | None => None
    | Some rhos =>
      let tot := sumR rhos in
      if Reqb tot 0 then None
      else let f (g : six R -> R) := sumR (zip_with (fun rho b => rho * g (y_p b) / tot) rhos l) in
           Some (mk6 (f (@sx R)) (f (@sy R)) (f (@sz R)) (f (@svx R)) (f (@svy R)) (f (@svz R)))
    end.

Inductive dmethod := Mharfst | Mcasertano | Mother.

(* the arguments of find_centre and find_centre_of_density *)
Record centre_args := mkCA {
  ca_start : six R; ca_indx : option (list bool); ca_nsphere : nat; ca_rmin : R; ca_rmax : option R; ca_nmax : nat;
  ca_method : dmethod; ca_nneighbour : nat }.


(* functions.py:151-168: one pass of the sigma clipping; (id, (x, y, z)) of the remaining stars.
   None: the loop ends (the while test fails, or break). *)
Definition clip_radius (p : R * R * R) : R := let '(x, y, z) := p in sqrt (x ^ 2 + y ^ 2 + z ^ 2).
Definition clip_step (nsigma : R) (nsphere : nat) (l : list (Z * (R * R * R))) : option (list (Z * (R * R * R))) :=
  if Nat.ltb nsphere (length l) then
    let sigma := nsigma * np_std (map (fun q => clip_radius (snd q)) l) in
    let inn := filter (fun q => Rltb (clip_radius (snd q)) sigma) l in
    if Nat.ltb nsphere (length inn) then
      let mx := np_mean (map (fun q => fst (fst (snd q))) inn) in
      let my := np_mean (map (fun q => snd (fst (snd q))) inn) in
      let mz := np_mean (map (fun q => snd (snd q)) inn) in
      Some (map (fun '(i, (x, y, z)) => (i, (x - mx, y - my, z - mz))) inn)
    else None
  else None.
(* the while loop with at most `fuel` passes; None: still running *)
Fixpoint clip_loop (fuel : nat) (nsigma : R) (nsphere : nat) (l : list (Z * (R * R * R))) : option (list (Z * (R * R * R))) :=
  match fuel with
  | O => None
  | S f => match clip_step nsigma nsphere l with None => Some l | Some l' => clip_loop f nsigma nsphere l' end
  end.

Section WithGalpy.
Variable G : galpy.

(* functions.py:188-264.  Quantities of an amuse cluster are represented by their values in pc and km/s, which is what
   is returned (262).  Inside Ok: None is nan. *)
Definition find_centre_of_density (a : centre_args) (c : cluster) : result (option (six R) * cluster) :=
  let c1 := match c_units c with Some Uamuse => to_pckms G c | _ => c end in
  let back := return_cluster G (save_cluster c) c1 in
  match ca_method a with
  | Mharfst =>
    match pick_rows (ca_indx a) (length (p_m (c_ph c1))) (particles c1) with
    | None => Raise
    | Some l => match harfst (ca_start a) (ca_nsphere a) (ca_rmin a) (ca_rmax a) (ca_nmax a) l with
                | None => Raise
                | Some p => Ok (Some p, back)
                end
    end
  | Mcasertano => match casertano (ca_nneighbour a) (particles c1) with Raise => Raise | Ok p => Ok (p, back) end
  | Mother => Raise                                    (* xdc unbound *)
  end.

(* functions.py:151-179 on the cluster in working units, None: still running after `fuel` passes *)
Definition clipped_centre (fuel : nat) (nsigma : R) (a : centre_args) (l : list (Z * particle)) : option (option (six R)) :=
  let kept0 := match ca_indx a with None => l | Some mk => select mk l end in
  let l0 := map (fun '(i, b) => let q := less6 (y_p b) (ca_start a) in (i, (sx q, sy q, sz q))) kept0 in
  match clip_loop fuel nsigma (ca_nsphere a) l0 with
  | None => None
  | Some lf =>
    (* np.isin(cluster.id, i_d) *)
    let ids := map fst lf in
    let inn := map snd (filter (fun p => existsb (Z.eqb (fst p)) ids) l) in
    Some (if Reqb (total_mass inn) 0 then None else Some (mass_mean inn))
  end.

(* functions.py:57-186.  Running: the loop of line 157 has not ended after `fuel` passes. *)
Inductive progress (A : Type) := Done (a : result A) | Running.
Definition find_centre (fuel : nat) (nsigma : R) (density : bool) (a : centre_args) (c : cluster)
  : progress (option (six R) * cluster) :=
  let c1 := match c_units c with Some Uamuse => to_pckms G c | _ => c end in
  match ca_indx a with
  | Some mk =>
    if Nat.eqb (count mk) 0 then Done (Ok (Some zero6, c1))       (* 126-128: returns before return_cluster *)
    else if density then
      Done (match find_centre_of_density a c1 with
            | Raise => Raise | Ok (p, c2) => Ok (p, return_cluster G (save_cluster c) c2) end)
    else if negb (Nat.eqb (length mk) (length (p_m (c_ph c1)))) then Done Raise
    else match clipped_centre fuel nsigma a (combine (c_id c1) (particles c1)) with
         | None => Running _
         | Some p => Done (Ok (p, return_cluster G (save_cluster c) c1))
         end
  | None =>
    if density then
      Done (match find_centre_of_density a c1 with
            | Raise => Raise | Ok (p, c2) => Ok (p, return_cluster G (save_cluster c) c2) end)
    else match clipped_centre fuel nsigma a (combine (c_id c1) (particles c1)) with
         | None => Running _
         | Some p => Done (Ok (p, return_cluster G (save_cluster c) c1))
         end
  end.
End WithGalpy.

(* tuple equality of six floats *)
Definition six_eqb (a b : six R) : bool :=
  Reqb (sx a) (sx b) && Reqb (sy a) (sy b) && Reqb (sz a) (sz b) &&
  Reqb (svx a) (svx b) && Reqb (svy a) (svy b) && Reqb (svz a) (svz b).
Definition set_centres (c : cluster) (cc g : six R) : cluster :=
  set_ph c (mkP (p_t (c_ph c)) (p_m (c_ph c)) (p_s (c_ph c)) cc g) (c_units c).

(* cluster.py:2307-2369 _set_centre *)
Definition set_centre (reset : bool) (p : six R) (c : cluster) : cluster :=
  let g := p_g (c_ph c) in
  match c_origin c with
  | Some Ocentre => c
  | Some Ocluster | None => set_centres c p g
  | Some Ogalaxy =>
    if six_eqb g zero6 || reset then set_centres c zero6 p
    else if six_eqb g p then c
    else set_centres c (less6 p g) g
  | Some Osky =>
    if six_eqb g zero6 || reset then set_centres c zero6 p
    else c                                  (* both remaining branches set nothing *)
  end.

(* cluster.py:2264-2285; None: nan, the centre is then set to nan and is not representable here *)
Definition method_centre_of_mass (reset : bool) (c : cluster) : option (six R * cluster) :=
  option_map (fun p => (p, set_centre reset p c)) (find_centre_of_mass c).
(* cluster.py:2191-2261: method and nneighbour are not passed on, so the default harfst is always used *)
Definition method_centre_of_density (G : galpy) (reset : bool) (a : centre_args) (c : cluster)
  : result (option (six R * cluster)) :=
  match find_centre_of_density G (mkCA (ca_start a) (ca_indx a) (ca_nsphere a) (ca_rmin a) (ca_rmax a) (ca_nmax a) Mharfst 6) c with
  | Raise => Raise
  | Ok (p, c') => Ok (option_map (fun p => (p, set_centre reset p c')) p)
  end.
(* cluster.py:2119-2189 *)
Definition method_find_centre (G : galpy) (fuel : nat) (nsigma : R) (density reset : bool) (a : centre_args) (c : cluster)
  : progress (option (six R * cluster)) :=
  match find_centre G fuel nsigma density a c with
  | Running _ => Running _
  | Done Raise => Done Raise
  | Done (Ok (p, c')) => Done (Ok (option_map (fun p => (p, set_centre reset p c')) p))
  end.
