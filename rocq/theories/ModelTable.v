(* Clusters from astropy tables. *)
From Coq Require Import String Ascii.
From Verif Require Import Base ModelCluster ModelOps ModelStars ModelLoad.
Open Scope string_scope. Open Scope list_scope. Open Scope R_scope.

(* A column of numbers or of whole numbers; units of columns are dropped by np.array (astropy_table.py:144) and not modelled *)
Inductive tcol := Rcol (l : list R) | Zcol (l : list Z).
(* a table: its columns by name, in order; astropy allows no name twice *)
Definition atable := list (string * tcol).
(* a Python dict of strings *)
Definition mapper := list (string * string).
Fixpoint lookup {A} (s : string) (l : list (string * A)) : option A :=
  match l with [] => None | (n, a) :: t => if String.eqb n s then Some a else lookup s t end.
Fixpoint remove (s : string) (m : mapper) : mapper :=
  match m with [] => [] | (n, a) :: t => if String.eqb n s then remove s t else (n, a) :: remove s t end.
(* str.lower(), on ASCII letters *)
Definition lower_char (c : ascii) : ascii :=
  let n := nat_of_ascii c in if (Nat.leb 65 n && Nat.leb n 90)%bool then ascii_of_nat (n + 32) else c.
Fixpoint lower (s : string) : string :=
  match s with EmptyString => EmptyString | String c t => String (lower_char c) (lower t) end.

Definition reals (c : tcol) : list R := match c with Rcol l => l | Zcol l => map IZR l end.
(* identifiers must be whole numbers here *)
Definition whole (c : tcol) : result (list Z) := match c with Zcol l => Ok l | Rcol _ => Raise end.

(* astropy_table.py:79-91 _helper: the first of the candidates that is a column name, ignoring case *)
Fixpoint helper (t : atable) (vs : list string) : result (option tcol) :=
  match vs with
  | [] => Ok None
  | v :: rest =>
    match index_of_name v (map (fun p => lower (fst p)) t) with
    | Some i => match lookup (nth i (map fst t) "") t with Some c => Ok (Some c) | None => Raise end
    | None => helper t rest
    end
  end.
Definition required (t : atable) (vs : list string) : result tcol :=
  bind (helper t vs) (fun o => match o with Some c => Ok c | None => Raise end).

Record chosen_columns := mkCC { h_s : six tcol; h_m : option tcol; h_id : option tcol }.
(* 98-125: names searched for *)
Definition sky_candidates : six (list string) :=
  mk6 ["right ascension"; "ra"] ["declination"; "dec"] ["distance"; "dist"; "d"]
      ["pm_ra_cosdec"; "pm_ra"; "pmra"] ["pm_dec"; "pmdec"] ["radial_velocity"; "rvel"; "v_los"; "vlos"].
Definition plain_candidates : six (list string) := mk6 ["x"] ["y"] ["z"] ["v_x"; "vx"] ["v_y"; "vy"] ["v_z"; "vz"].
Definition candidates (u : option usys) (o : option osys) : six (list string) :=
  match u, o with Some Uradec, Some Osky => sky_candidates | _, _ => plain_candidates end.
Definition find_columns (t : atable) (u : option usys) (o : option osys) : result chosen_columns :=
  bind (helper t ["id"]) (fun id => bind (helper t ["m"; "mass"]) (fun m =>
  let q := candidates u o in
  bind (required t (sx q)) (fun x => bind (required t (sy q)) (fun y => bind (required t (sz q)) (fun z =>
  bind (required t (svx q)) (fun vx => bind (required t (svy q)) (fun vy => bind (required t (svz q)) (fun vz =>
  Ok (mkCC (mk6 x y z vx vy vz) m id))))))))).

(* 127-136: columns named by the mapper.  dict.pop changes the caller's dict, also when a later step raises. *)
Definition take_column {A} (t : atable) (key : string) (m : mapper) (k : tcol -> mapper -> result A * mapper) : result A * mapper :=
  match lookup key m with
  | None => (Raise, m)
  | Some nm => match lookup nm t with None => (Raise, remove key m) | Some c => k c (remove key m) end
  end.
Definition take_optional {A} (t : atable) (key : string) (m : mapper) (k : option tcol -> mapper -> result A * mapper) : result A * mapper :=
  match lookup key m with
  | None => k None m
  | Some _ => take_column t key m (fun c => k (Some c))
  end.
Definition map_columns (t : atable) (m : mapper) : result chosen_columns * mapper :=
  take_column t "x" m (fun x m => take_column t "y" m (fun y m => take_column t "z" m (fun z m =>
  take_column t "vx" m (fun vx m => take_column t "vy" m (fun vy m => take_column t "vz" m (fun vz m =>
  take_optional t "m" m (fun ms m => take_optional t "id" m (fun ids m =>
  (Ok (mkCC (mk6 x y z vx vy vz) ms ids), m))))))))).

Section WithGalpy.
Variable G : galpy.
(* 155-174: as for snapshots, but with origin cluster or centre no centre is looked for *)
Definition centre_table (rd : reader) (o : load_opts) (ofile : option text) (advance : bool) (c : cluster)
    : result (cluster * option text) :=
  let orbit f c := bind (get_cluster_orbit G rd (l_orbit o) (o_nsnap (l_set o)) advance f c) (fun r => Ok (fst r, Some (snd r))) in
  match l_origin o with
  | Some Ogalaxy =>
    bind (match ofile with
          | None => bind (find_centre_default G c) (fun c' => Ok (c', None))
          | Some f => orbit f c
          end) (fun r =>
    if l_analyze o
    then bind (find_centre_default G (to_cluster false (fst r))) (fun c2 =>
         Ok (to_galaxy G true (to_centre (l_sort o) c2), snd r))
    else Ok r)
  | Some Ocluster | Some Ocentre =>
    let c' := if l_analyze o then analyze (l_sort o) (l_proj o) c else c in
    match ofile with None => Ok (c', None) | Some f => orbit f c' end
  | _ => Ok (c, ofile)
  end.
(* 139-153 *)
Definition build_table (rd : reader) (o : load_opts) (ofile : option text) (advance : bool) (h : chosen_columns) : result loaded :=
  bind (match h_id h with None => Ok None | Some c => bind (whole c) (fun l => Ok (Some (Array l))) end) (fun ids =>
  bind (add_stars 0 (mkArgs (map6 (fun c => Array (reals c)) (h_s h)) (option_map (fun c => Array (reals c)) (h_m h)) ids None None)
          false true (l_proj o) (init_catalog (init_cluster 0 (l_units o) (l_origin o) (l_ro o) (l_vo o)))) (fun k =>
  bind (centre_table rd o ofile advance (g_c k)) (fun r =>
  Ok (mkLoaded (set_cluster k (fst r)) (l_set o) (l_units o) (l_origin o) (snd r))))).
(* astropy_table.py:7-179, and load.py:263-274; the second result is the mapper as the caller finds it afterwards.  An empty
   mapper is not None: line 73 replaces it and line 128 raises. *)
Definition get_table (rd : reader) (o : load_opts) (t : atable) (m : option mapper) (ofile : option text) (advance : bool)
    : result loaded * option mapper :=
  match m with
  | None => (bind (find_columns t (l_units o) (l_origin o)) (build_table rd o ofile advance), None)
  | Some m => let '(h, m') := map_columns t m in (bind h (build_table rd o ofile advance), Some m')
  end.
End WithGalpy.
