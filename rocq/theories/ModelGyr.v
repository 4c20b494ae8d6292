(* gyrfalcON / NEMO text files.  Models clustertools/io/gyrfalcon.py and the gyrfalcon branches of io/load.py.
   A file is the list of its lines, a line the list of its blank-separated tokens (ModelLoad.v); an open file is what is
   left of it. *)
From Coq Require Import String Ascii.
From Verif Require Import Base ModelCluster ModelOps ModelRecipes ModelStars ModelLoad.
Set Implicit Arguments.
Open Scope string_scope. Open Scope list_scope. Open Scope R_scope.

(* "Ntot" in dat *)
Definition contains (pat s : string) : bool := match String.index 0 pat s with Some _ => true | None => false end.
Definition any_contains (pat : string) (l : line) : bool := existsb (contains pat) l.
(* s[:-1] *)
Fixpoint drop_last (s : string) : string :=
  match s with EmptyString => EmptyString | String _ EmptyString => EmptyString | String c s' => String c (drop_last s') end.
(* "#" in data: one of the tokens is # *)
Definition hashed (l : line) : bool := existsb (String.eqb "#") l.

(* gyrfalcon.py:80-93, 225-238: at most `n` lines; an empty one ends the file, one without # is the first line of data *)
Inductive header := Hend | Hdone (ntot : Z) (t : R) (over : option line) (rest : text).
Definition int_token (rd : reader) (s : string) : result Z := match int_of rd (drop_last s) with Some z => Ok z | None => Raise end.
Definition real_token (rd : reader) (s : string) : result R := match float_of rd s with Some x => Ok x | None => Raise end.
Fixpoint gyr_header (rd : reader) (n : nat) (f : text) (ntot : Z) (t : R) : result header :=
  match n with
  | O => Ok (Hdone ntot t None f)
  | S n' =>
    let '(data, f') := readline f in
    match data with
    | [] => Ok Hend
    | _ =>
      if negb (hashed data) then Ok (Hdone ntot t (Some data) f')
      else bind (if any_contains "Ntot" data then match nth_error data 2 with Some s => int_token rd s | None => Raise end else Ok ntot) (fun ntot' =>
           bind (if any_contains "time" data then match nth_error data 2 with Some s => real_token rd s | None => Raise end else Ok t) (fun t' =>
           gyr_header rd n' f' ntot' t'))
    end
  end.
(* give: which columns follow mass, position and velocity, gyrfalcon.py:124-131 *)
Inductive gives := Gmxv | Gmxve | Gall.
Definition extra_columns (g : gives) : list nat := match g with Gmxv => [] | Gmxve => [7] | Gall => [7; 8; 9; 10; 11] end%nat.
(* gyrfalcon.py:106-131: the values of one line; an IndexError or ValueError raises *)
Fixpoint gyr_data (rd : reader) (cols : list nat) (n : nat) (over : option line) (f : text) : result (list (list R) * text) :=
  match n with
  | O => Ok ([], f)
  | S n' =>
    let '(data, f1) := match over with Some l => (l, f) | None => readline f end in
    if hashed data then Ok ([], f1)
    else match mapM (orbit_value rd data) cols with
         | None => Raise
         | Some r => bind (gyr_data rd cols n' None f1) (fun q => Ok (r :: fst q, snd q))
         end
  end.
Definition col (rows : list (list R)) (k : nat) : list R := map (fun r => nth k r 0) rows.
(* the arguments of add_stars, gyrfalcon.py:137, 313; identifiers count from `first` *)
Definition gyr_args (first : nat) (rows : list (list R)) : star_args :=
  let a k := Array (col rows k) in
  mkArgs (mk6 (a 1%nat) (a 2%nat) (a 3%nat) (a 4%nat) (a 5%nat) (a 6%nat)) (Some (a 0%nat))
         (Some (Array (map (fun j => Z.of_nat (j + first)) (seq 0 (length rows))))) None None.

(* a loaded cluster with its open file (sfile) and the extra columns (one list for each attribute) *)
Record nemo := mkNemo { n_v : loaded; n_file : option text; n_extra : list (list R) }.
(* settings of a StarCluster made without the keyword skiprows, cluster.py:167 *)
Definition no_skip (o : settings) : settings :=
  mkSet (o_nsnap o) (o_nzfill o) (o_wdir o) (o_snapdir o) (o_snapbase o) (o_snapend o) 0.

Section WithGalpy.
Variable G : galpy.
(* gyrfalcon.py:139-153, 315-329 *)
Definition centre_gyr (rd : reader) (o : load_opts) (ofile : option text) (advance : bool) (c : cluster) : result (cluster * option text) :=
  bind (match ofile with
        | None => bind (find_centre_default G c) (fun c' => Ok (c', None))
        | Some f => bind (get_cluster_orbit G rd (l_orbit o) (o_nsnap (l_set o)) advance f c) (fun r => Ok (fst r, Some (snd r)))
        end) (fun r =>
  if l_analyze o
  then match l_origin o with
       | Some og => bind (find_centre_default G (to_cluster false (fst r))) (fun c2 =>
                    Ok (to_origin G (Oreq og) true (to_centre (l_sort o) c2), snd r))
       | None => bind (find_centre_default G (fst r)) (fun c2 => Ok (analyze (l_sort o) (l_proj o) c2, snd r))
       end
  else Ok r).
(* gyrfalcon.py:135-165: the cluster with its stars *)
Definition build_gyr (rd : reader) (o : load_opts) (ofile : option text) (advance : bool) (first : nat) (t : R) (ntot : Z) (rows : list (list R))
    : result loaded :=
  let k0 := init_catalog (init_cluster t (l_units o) (l_origin o) (l_ro o) (l_vo o)) in
  if Z.ltb 0 ntot
  then bind (add_stars 0 (gyr_args first rows) false true (l_proj o) k0) (fun k =>
       bind (centre_gyr rd o ofile advance (g_c k)) (fun r =>
       Ok (mkLoaded (set_cluster k (fst r)) (l_set o) (l_units o) (l_origin o) (snd r))))
  else Ok (mkLoaded k0 (l_set o) (l_units o) (l_origin o) ofile).
Definition extras (g : gives) (ntot : Z) (rows : list (list R)) : list (list R) :=
  if Z.ltb 0 ntot then map (col rows) (map (fun j => 7 + j)%nat (seq 0 (length (extra_columns g)))) else [].
(* gyrfalcon.py:84: the cluster at the end of the file, created without units, origin and skiprows *)
Definition ended (o : load_opts) (ofile : option text) : loaded :=
  mkLoaded (init_catalog (init_cluster 0 None None (l_ro o) (l_vo o))) (no_skip (l_set o)) None None ofile.
(* gyrfalcon.py:13-165 *)
Definition get_gyrfalcon (rd : reader) (o : load_opts) (g : gives) (ofile : option text) (advance : bool) (f : text) : result nemo :=
  bind (gyr_header rd (o_skip (l_set o)) f 0%Z 0) (fun h =>
  match h with
  | Hend => Ok (mkNemo (ended o ofile) None [])
  | Hdone ntot t over rest =>
    bind (gyr_data rd (seq 0 7 ++ extra_columns g) (Z.to_nat ntot) over rest) (fun q =>
    bind (build_gyr rd o ofile advance 1 t ntot (fst q)) (fun v =>
    Ok (mkNemo v (Some (snd q)) (extras g ntot (fst q)))))
  end).
Definition set_ofile (ofile : option text) (v : nemo) : nemo :=
  mkNemo (mkLoaded (v_cat (n_v v)) (v_set (n_v v)) (v_units (n_v v)) (v_origin (n_v v)) ofile) (n_file v) (n_extra v).
(* load.py:227-232, 287-289: the orbit file is not handed to _get_gyrfalcon, only remembered *)
Definition load_gyrfalcon (rd : reader) (d : disk) (o : load_opts) (g : gives) (filename : option string) (ofile : option text) : result nemo :=
  match get_filename d (l_set o) filename with
  | None => Raise
  | Some p => match files d p with
              | None => Raise
              | Some f => bind (get_gyrfalcon rd o g None false f) (fun v => Ok (set_ofile ofile v))
              end
  end.
(* load.py:508-533 and the restart 588-616 (as in ModelLoad.advance_snapshot); the keywords wdir, snapdir, ... are those of the
   cluster.  give is not remembered: `g` is the keyword of this call. *)
Definition advance_gyrfalcon (rd : reader) (d : disk) (a : adv_opts) (g : gives) (proj : bool) (v : nemo) : result nemo :=
  let ofile := match w_ofile a with Some f => Some f | None => v_orbit (n_v v) end in
  let o := adv_load_opts a (n_v v) proj in
  let filename := get_filename d (l_set o) (w_filename a) in
  bind (match filename with
        | None => match n_file v with Some f => Ok f | None => Raise end
        | Some p => match files d p with Some f => Ok f | None => Raise end
        end) (fun f =>
  bind (get_gyrfalcon rd o g ofile true f) (fun v1 =>
  if Nat.eqb (g_ntot (v_cat (n_v v1))) 0 then
    if dirs d (append (o_wdir (v_set (n_v v1))) "cont/") then
      match ofile with
      | Some _ => Raise
      | None => load_gyrfalcon rd d (restart_opts o (n_v v1)) g filename None
      end
    else Ok v1
  else Ok v1)).
Fixpoint advance_gyr_times (rd : reader) (d : disk) (a : adv_opts) (g : gives) (proj : bool) (n : nat) (v : nemo) : result nemo :=
  match n with O => Ok v | S n' => bind (advance_gyr_times rd d a g proj n' v) (advance_gyrfalcon rd d a g proj) end.

(* ------------------------------------------------------------------ _get_new_gyrfalcon *)
(* gyrfalcon.py:245-255: the second header, of which only the time is used *)
Inductive header2 := H2end | H2done (t : option R).
Fixpoint gyr_header2 (rd : reader) (n : nat) (f : text) (t : option R) : result header2 :=
  match n with
  | O => Ok (H2done t)
  | S n' =>
    let '(data, f') := readline f in
    match data with
    | [] => Ok H2end
    | _ => if negb (hashed data) then Ok (H2done t)
           else bind (if any_contains "time" data then match nth_error data 2 with Some s => bind (real_token rd s) (fun x => Ok (Some x)) | None => Raise end else Ok t)
                     (gyr_header2 rd n' f')
    end
  end.
(* gyrfalcon.py:240-259: None when not advancing; Raise where tphys2 is not assigned *)
Inductive step_time := Snone | Send | Sdt (dt : R).
Definition new_step (rd : reader) (skip : nat) (dt : option R) (advance : bool) (ntot : Z) (t : R) (rest : text) : result step_time :=
  if advance then
    match dt with
    | Some x => Ok (Sdt x)
    | None => bind (gyr_header2 rd skip (skipn (Z.to_nat ntot) rest) None) (fun h =>
              match h with H2end => Ok Send | H2done (Some t2) => Ok (Sdt (t2 - t)) | H2done None => Raise end)
    end
  else Ok Snone.
(* gyrfalcon.py:290-307: all the columns, by rows *)
Definition new_rows (g : gives) (t : table) : result (list (list R)) :=
  match t with
  | Flat => Raise
  | Mat rows => match mapM (fun r => mapM (nth_error r) (seq 0 7 ++ extra_columns g)) rows with Some q => Ok q | None => Raise end
  end.
(* what is kept of the new reader: the cluster, the file (by content), cluster.dt (None until advanced, cluster.py:139) *)
Record new_nemo := mkNew { z_v : loaded; z_file : option text; z_dt : option R; z_extra : list (list R) }.
(* gyrfalcon.py:167-340.  np.loadtxt past the end of the file is taken as raising (numpy up to 1.22 raises StopIteration,
   which line 286 catches; later versions return an empty array and line 290 raises IndexError). *)
Definition get_new_gyrfalcon (rd : reader) (o : load_opts) (g : gives) (dt : option R) (ofile : option text) (advance : bool) (f : text)
    : result new_nemo :=
  let skip := o_skip (l_set o) in
  bind (gyr_header rd skip f 0%Z 0) (fun h =>
  match h with
  | Hend => Ok (mkNew (ended o ofile) None None [])
  | Hdone ntot t _ rest =>
    bind (new_step rd skip dt advance ntot t rest) (fun s =>
    let go (t' : R) (dt' : option R) (nskip : nat) : result new_nemo :=
      bind (loadtxt rd nskip (Some (Z.to_nat ntot)) f) (fun tb =>
      bind (new_rows g tb) (fun rows =>
      bind (build_gyr rd o ofile advance 0 t' ntot rows) (fun v =>
      Ok (mkNew v (Some f) dt' (extras g ntot rows))))) in
    match s with
    | Send => Ok (mkNew (ended o ofile) None None [])
    | Snone => go t None skip
    | Sdt x => go (t + x * INR (o_nsnap (l_set o))) (Some x) ((skip + Z.to_nat ntot) * o_nsnap (l_set o) + skip)%nat
    end)
  end).
(* load.py:234-238, 535-559, without restart (a cluster without stars is given back) *)
Definition load_new_gyrfalcon (rd : reader) (d : disk) (o : load_opts) (g : gives) (filename : option string) (ofile : option text)
    : result new_nemo :=
  match get_filename d (l_set o) filename with
  | None => Raise
  | Some p => match files d p with
              | None => Raise
              | Some f => bind (get_new_gyrfalcon rd o g None None false f) (fun v =>
                          Ok (mkNew (mkLoaded (v_cat (z_v v)) (v_set (z_v v)) (v_units (z_v v)) (v_origin (z_v v)) ofile) (z_file v) (z_dt v) (z_extra v)))
              end
  end.
Definition advance_new_gyrfalcon (rd : reader) (d : disk) (a : adv_opts) (g : gives) (proj : bool) (v : new_nemo) : result new_nemo :=
  let ofile := match w_ofile a with Some f => Some f | None => v_orbit (z_v v) end in
  let o := adv_load_opts a (z_v v) proj in
  bind (match get_filename d (l_set o) (w_filename a) with
        | None => match z_file v with Some f => Ok f | None => Raise end
        | Some p => match files d p with Some f => Ok f | None => Raise end
        end) (get_new_gyrfalcon rd o g (z_dt v) ofile true).
Fixpoint advance_new_times (rd : reader) (d : disk) (a : adv_opts) (g : gives) (proj : bool) (n : nat) (v : new_nemo) : result new_nemo :=
  match n with O => Ok v | S n' => bind (advance_new_times rd d a g proj n' v) (advance_new_gyrfalcon rd d a g proj) end.
End WithGalpy.
