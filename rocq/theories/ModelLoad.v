(* Snapshot files, orbit files, advancing from one snapshot to the next.
   Models clustertools/io/snapshot.py, io/orbit.py, io/load.py (ctype "snapshot"), cluster/cluster.py:836-1003 (add_orbit).
   A text file is the list of its lines, a line the list of its tokens as separated by the delimiter.
   float() and int() are parameters; numbers are real numbers (printing and reading a float is taken as exact). *)
From Coq Require Import String Ascii.
From Coq Require Import DecimalString.
From Verif Require Import Base ModelCluster ModelOps ModelConv ModelEnergy ModelRecipes ModelCentre ModelStars.
Set Implicit Arguments.
Open Scope char_scope. Open Scope string_scope. Open Scope list_scope. Open Scope R_scope.

Definition line := list string.
Definition text := list line.
Record reader := mkReader { float_of : string -> option R; int_of : string -> option Z }.
(* the file system: os.path.isfile(p) is files p <> None; os.path.exists of a directory *)
Record disk := mkDisk { files : string -> option text; dirs : string -> bool }.

(* ------------------------------------------------------------------ file names *)
(* str(n) for n >= 0 *)
Definition str (n : nat) : string := NilEmpty.string_of_uint (Nat.to_uint n).
(* s.zfill(k): zeros are put in front until the length is k (a sign is not handled: n >= 0) *)
Fixpoint zeros (k : nat) (s : string) : string := match k with O => s | S k' => String "0"%char (zeros k' s) end.
Definition zfill (k : nat) (s : string) : string := zeros (k - String.length s) s.
(* snapshot.py:66-73, load.py:672-679: a directory gets a trailing slash unless it is empty *)
Fixpoint last_char (s : string) : option Ascii.ascii :=
  match s with EmptyString => None | String c EmptyString => Some c | String _ s' => last_char s' end.
Definition slash : Ascii.ascii := Ascii.Ascii true true true true false true false false.
Definition with_slash (s : string) : string :=
  match last_char s with None => s | Some c => if Ascii.eqb c slash then s else append s (String slash EmptyString) end.

(* the keywords a StarCluster remembers: cluster.py:160-167 *)
Record settings := mkSet {
  o_nsnap : nat; o_nzfill : nat; o_wdir : string; o_snapdir : string; o_snapbase : string; o_snapend : string; o_skip : nat }.
Definition cat3 (a b c : string) := append a (append b c).
(* str(nsnap).zfill(nzfill) between snapbase and snapend *)
Definition snap_name (o : settings) : string := cat3 (o_snapbase o) (zfill (o_nzfill o) (str (o_nsnap o))) (o_snapend o).
Definition first_file (d : disk) (l : list string) : option string :=
  List.find (fun s => match files d s with Some _ => true | None => false end) l.
(* snapshot.py:78-136 *)
Definition snapshot_file (d : disk) (o : settings) (filename : option string) : option string :=
  let w := with_slash (o_wdir o) in
  let s := with_slash (o_snapdir o) in
  first_file d match filename with
               | Some f => [cat3 w s f; append w f; f]
               | None => [append (append w s) (snap_name o); append w (snap_name o)]
               end.
(* load.py:649-709 _get_filename: a name that is nowhere is returned as it is *)
Definition get_filename (d : disk) (o : settings) (filename : option string) : option string :=
  let w := with_slash (o_wdir o) in
  let s := with_slash (o_snapdir o) in
  match filename with
  | Some f => match first_file d [f; cat3 w s f; append w f] with Some g => Some g | None => Some f end
  | None => first_file d [append (append w s) (snap_name o); append w (snap_name o)]
  end.

(* ------------------------------------------------------------------ tables *)
Fixpoint mapM {A B} (f : A -> option B) (l : list A) : option (list B) :=
  match l with
  | [] => Some []
  | a :: t => match f a, mapM f t with Some b, Some r => Some (b :: r) | _, _ => None end
  end.
(* np.loadtxt(f, skiprows, max_rows): comments and empty lines are dropped, every token must be a number and every row
   as long as the first.  One row or one column gives a one-dimensional array (Flat), which cannot be indexed [:, k]. *)
Inductive table := Mat (rows : list (list R)) | Flat.
Fixpoint uncomment (l : line) : line :=
  match l with [] => [] | t :: l' => if String.prefix "#" t then [] else t :: uncomment l' end.
Definition nonempty {A} (l : list A) : bool := match l with [] => false | _ => true end.
Definition loadtxt (rd : reader) (skip : nat) (max : option nat) (f : text) : result table :=
  let rows := List.filter nonempty (map uncomment (skipn skip f)) in
  let rows := match max with Some n => firstn n rows | None => rows end in
  match mapM (mapM (float_of rd)) rows with
  | None => Raise
  | Some r =>
    let w := length (hd [] r) in
    if forallb (fun l => Nat.eqb (length l) w) r
    then Ok (if Nat.leb (length r) 1 || Nat.leb w 1 then Flat else Mat r)
    else Raise
  end.
(* data[:, k] *)
Definition column (t : table) (k : nat) : result (list R) :=
  match t with
  | Flat => Raise
  | Mat rows => match mapM (fun r => nth_error r k) rows with Some l => Ok l | None => Raise end
  end.
(* snapshot.py:138-192: np.argwhere(col_names == name)[0][0], then data[:, col_nums[.]] *)
Fixpoint index_of_name (s : string) (l : list string) : option nat :=
  match l with [] => None | a :: t => if String.eqb s a then Some O else option_map S (index_of_name s t) end.
Definition named (t : table) (names : list string) (nums : list nat) (s : string) : result (option (list R)) :=
  match index_of_name s names with
  | None => Ok None
  | Some i => match nth_error nums i with
              | None => Raise
              | Some k => bind (column t k) (fun l => Ok (Some l))
              end
  end.
Definition or_scalar (d : R) (o : option (list R)) : arg R := match o with Some l => Array l | None => Scalar d end.
(* the arguments of add_stars, snapshot.py:198-201, and the kw column.  Identifiers are integers in the model: the
   integer part of the number read. *)
Definition read_columns (t : table) (names : list string) (nums : list nat) : result (star_args * option (list R)) :=
  let g := named t names nums in
  bind (g "m"%string) (fun m => bind (g "x"%string) (fun x => bind (g "y"%string) (fun y => bind (g "z"%string) (fun z =>
  bind (g "vx"%string) (fun vx => bind (g "vy"%string) (fun vy => bind (g "vz"%string) (fun vz =>
  bind (g "id"%string) (fun i => bind (g "kw"%string) (fun kw =>
  Ok (mkArgs (mk6 (or_scalar 0 x) (or_scalar 0 y) (or_scalar 0 z) (or_scalar 0 vx) (or_scalar 0 vy) (or_scalar 0 vz))
             (Some (or_scalar 1 m)) (option_map (fun l => Array (map Int_part l)) i) None None, kw)))))))))).

(* ------------------------------------------------------------------ add_orbit *)
Section WithGalpy.
Variable G : galpy.

Definition six_times (a b : R) (p : six R) : six R :=
  mk6 (sx p * a) (sy p * a) (sz p * a) (svx p * b) (svy p * b) (svz p * b).
Definition six_over (a b : R) (p : six R) : six R :=
  mk6 (sx p / a) (sy p / a) (sz p / a) (svx p / b) (svy p / b) (svz p / b).
(* cluster.py:888-935: to kpckms.  Units without a branch (amuse, WDunits) are left as they are. *)
Definition orbit_to_kpckms (s : scales) (u : usys) (q : six R * R) : six R * R :=
  let '(p, t) := q in
  match u with
  | Unbody => (six_times (rbar s / 1000) (vbar s) p, t * tbar s)
  | Ugalpy => (six_times (ro s) (vo s) p, t * time_in_Gyr G (ro s) (vo s))
  | Upckms => (six_over 1000 1 p, t / 1000)
  | Upcmyr => (six_over 1000 kms p, t / 1000)
  | Ukpcgyr => (six_over 1 kms p, t)
  | Uradec => (of_radec6 G p, t)
  | _ => (p, t)
  end.
(* cluster.py:937-957: from kpckms to the units of the cluster.  Other units have no branch. *)
Definition orbit_of_kpckms (s : scales) (u : option usys) (q : six R * R) : six R * R :=
  let '(p, t) := q in
  match u with
  | Some Upckms => (six_times 1000 1 p, t * 1000)
  | Some Unbody => (mk6 (sx p * (1000 / rbar s)) (sy p * (1000 / rbar s)) (sz p * (1000 / rbar s))
                        (svx p / vbar s) (svy p / vbar s) (svz p / vbar s), t * (1000 / tbar s))
  | Some Ugalpy => (six_over (ro s) (vo s) p, t / time_in_Gyr G (ro s) (vo s))
  | _ => (p, t)
  end.
(* cluster.py:979-993: sky arrays that are all zero get the value of the orbit *)
Definition fill (l : list R) (v : R) : list R := if forallb (fun a => Reqb a 0) l then vadd l v else l.
(* cluster.py:836-993 add_orbit(..., ounits, initialize=False, tphys); rgc is not kept *)
Definition add_orbit (p : six R) (ounits : option usys) (tphys : option R) (c : cluster) : cluster :=
  let t := match tphys with Some t => t | None => 0 end in
  let '(p, t) := match ounits with
                 | None => (p, t)
                 | Some u => if ousys_eq_dec (Some u) (c_units c) then (p, t)
                             else orbit_of_kpckms (c_sc c) (c_units c) (orbit_to_kpckms (c_sc c) u (p, t))
                 end in
  let ph := c_ph c in
  let c1 := set_ph c (mkP (match tphys with Some _ => t | None => p_t ph end) (p_m ph) (p_s ph) (p_c ph) p) (c_units c) in
  match c_units c with
  | Some Uradec =>
    let k := c_sky c in
    let s := k_s k in
    let s' := match c_origin c with
              | Some Osky => mk6 (fill (sx s) (sx p)) (fill (sy s) (sy p)) (fill (sz s) (sz p))
                                 (fill (svx s) (svx p)) (fill (svy s) (svy p)) (fill (svz s) (svz p))
              | _ => s
              end in
    set_sky c1 (mkSk s' p (k_c k) (k_orbit k) (k_orbits k) (k_xcn k))
  | _ => c1
  end.

(* ------------------------------------------------------------------ the orbit file *)
(* f.readline(): an empty line of tokens at the end of the file *)
Definition readline (f : text) : line * text := match f with [] => ([], []) | l :: t => (l, t) end.
Fixpoint readlines (n : nat) (f : text) (last : line) : line * text :=
  match n with O => (last, f) | S n' => let '(l, f') := readline f in readlines n' f' l end.
Record orbit_opts := mkOO { q_cols : list (string * nat); q_units : option usys; q_time : bool }.
(* orbit.py:52-69: names and columns are visited in order, a later one overrides an earlier one *)
Definition orbit_value (rd : reader) (data : line) (k : nat) : option R :=
  match nth_error data k with Some s => float_of rd s | None => None end.
Definition set_named (s : string) (v : R) (q : R * six R) : R * six R :=
  let '(t, p) := q in
  if String.eqb s "t" then (v, p)
  else if String.eqb s "x" then (t, mk6 v (sy p) (sz p) (svx p) (svy p) (svz p))
  else if String.eqb s "y" then (t, mk6 (sx p) v (sz p) (svx p) (svy p) (svz p))
  else if String.eqb s "z" then (t, mk6 (sx p) (sy p) v (svx p) (svy p) (svz p))
  else if String.eqb s "vx" then (t, mk6 (sx p) (sy p) (sz p) v (svy p) (svz p))
  else if String.eqb s "vy" then (t, mk6 (sx p) (sy p) (sz p) (svx p) v (svz p))
  else if String.eqb s "vz" then (t, mk6 (sx p) (sy p) (sz p) (svx p) (svy p) v)
  else q.
Definition orbit_names : list string := ["t"; "x"; "y"; "z"; "vx"; "vy"; "vz"]%string.
Fixpoint parse_orbit (rd : reader) (data : line) (cols : list (string * nat)) (q : R * six R) : result (R * six R) :=
  match cols with
  | [] => Ok q
  | (s, k) :: rest =>
    if existsb (String.eqb s) orbit_names
    then match orbit_value rd data k with Some v => parse_orbit rd data rest (set_named s v q) | None => Raise end
    else parse_orbit rd data rest q
  end.
(* orbit.py:4-84 _get_cluster_orbit; the second result is what is left of the open file *)
Definition get_cluster_orbit (rd : reader) (oo : orbit_opts) (nsnap : nat) (advance : bool) (f : text) (c : cluster)
    : result (cluster * text) :=
  let '(data, f') := if negb (Nat.eqb nsnap 0) && negb advance then readlines (nsnap + 1) f [] else readline f in
  match parse_orbit rd data (q_cols oo) (0, zero6) with
  | Raise => Raise
  | Ok (t, p) => Ok (add_orbit p (q_units oo) (if q_time oo then Some t else None) c, f')
  end.

(* ------------------------------------------------------------------ _get_snapshot *)
(* cluster.find_centre() with its defaults, cluster.py:2119-2137: the centre of density from all the stars *)
Definition default_centre : centre_args := mkCA zero6 None 100 (1/10) None 100 Mharfst 6.
Definition find_centre_default (c : cluster) : result cluster :=
  match method_find_centre G 0 1 true false default_centre c with
  | Done (Ok (Some (_, c'))) => Ok c'
  | _ => Raise
  end.

Record load_opts := mkLO {
  l_set : settings; l_names : list string; l_nums : list nat; l_units : option usys; l_origin : option osys;
  l_tphys : R; l_analyze : bool; l_sort : bool; l_proj : bool; l_ro : R; l_vo : R; l_orbit : orbit_opts }.
(* a loaded StarCluster: its stars, its keywords, units_init and origin_init, and the open orbit file *)
Record loaded := mkLoaded {
  v_cat : catalog; v_set : settings; v_units : option usys; v_origin : option osys; v_orbit : option text }.

Definition set_kw (kw : option (list R)) (k : catalog) : catalog :=
  match kw with
  | None => k
  | Some l => let e := g_sse k in
      mkCat (g_c k) (g_m0 k) (g_npop k) (g_b k) (mkSse l (e_logl e) (e_logr e) (e_lum e) (e_ep e) (e_ospin e) (e_ltot e))
            (g_bse k) (g_ntot k) (g_ns k)
  end.
(* snapshot.py:206-226, the part after the stars have been added *)
Definition centre_snapshot (rd : reader) (o : load_opts) (ofile : option text) (advance : bool) (c : cluster)
    : result (cluster * option text) :=
  let orbit f c := bind (get_cluster_orbit rd (l_orbit o) (o_nsnap (l_set o)) advance f c) (fun r => Ok (fst r, Some (snd r))) in
  match l_origin o with
  | Some Ogalaxy =>
    bind (match ofile with
          | None => bind (find_centre_default c) (fun c' => Ok (c', None))
          | Some f => orbit f c
          end) (fun r =>
    if l_analyze o
    then bind (find_centre_default (to_cluster false (fst r))) (fun c2 =>
         Ok (to_galaxy G true (to_centre (l_sort o) c2), snd r))
    else Ok r)
  | Some Ocluster | Some Ocentre =>
    bind (if l_analyze o then bind (find_centre_default c) (fun c' => Ok (analyze (l_sort o) (l_proj o) c')) else Ok c) (fun c' =>
    match ofile with None => Ok (c', None) | Some f => orbit f c' end)
  | _ => Ok (c, ofile)
  end.
(* snapshot.py:194-228 *)
Definition build_snapshot (rd : reader) (o : load_opts) (ofile : option text) (advance : bool) (t : table) : result loaded :=
  bind (read_columns t (l_names o) (l_nums o)) (fun q =>
  bind (add_stars 0 (fst q) false true (l_proj o)
          (init_catalog (init_cluster (l_tphys o) (l_units o) (l_origin o) (l_ro o) (l_vo o)))) (fun k =>
  let k1 := set_kw (snd q) k in
  bind (centre_snapshot rd o ofile advance (g_c k1)) (fun r =>
  Ok (mkLoaded (set_cluster k1 (fst r)) (l_set o) (l_units o) (l_origin o) (snd r))))).
(* snapshot.py:13-228; the empty cluster of lines 94 and 135 is created without units and origin *)
Definition get_snapshot (rd : reader) (d : disk) (o : load_opts) (filename : option string) (ofile : option text) (advance : bool)
    : result loaded :=
  match match snapshot_file d (l_set o) filename with Some p => files d p | None => None end with
  | None => Ok (mkLoaded (init_catalog (init_cluster 0 None None (l_ro o) (l_vo o))) (l_set o) None None ofile)
  | Some f => bind (loadtxt rd (o_skip (l_set o)) None f) (build_snapshot rd o ofile advance)
  end.

(* load.py:249-262, 287-289 *)
Definition load_snapshot (rd : reader) (d : disk) (o : load_opts) (filename : option string) (ofile : option text)
    : result loaded := get_snapshot rd d o filename ofile false.

(* ------------------------------------------------------------------ advance_cluster *)
(* the keywords of a call to advance_cluster: load.py:712-777, 562-563 *)
Record adv_opts := mkAO {
  w_nsnap : option nat; w_filename : option string; w_ofile : option text;
  w_cols : option (list string * list nat); w_analyze : bool; w_sort : bool; w_orbit : orbit_opts; w_tphys : R; w_rovo : R * R }.
Definition default_names : list string := ["m"; "x"; "y"; "z"; "vx"; "vy"; "vz"]%string.
Definition default_nums : list nat := [0; 1; 2; 3; 4; 5; 6]%nat.
Definition set_nsnap (o : settings) (n : nat) : settings :=
  mkSet n (o_nzfill o) (o_wdir o) (o_snapdir o) (o_snapbase o) (o_snapend o) (o_skip o).
Definition set_wdir (o : settings) (w : string) : settings :=
  mkSet (o_nsnap o) (o_nzfill o) w (o_snapdir o) (o_snapbase o) (o_snapend o) (o_skip o).
(* load.py:733: one more than the larger of the keyword and the number of the cluster *)
Definition next_nsnap (a : adv_opts) (v : loaded) : nat :=
  (Nat.max (match w_nsnap a with Some n => n | None => 0 end) (o_nsnap (v_set v)) + 1)%nat.
Definition adv_load_opts (a : adv_opts) (v : loaded) (proj : bool) : load_opts :=
  let cols := match w_cols a with Some q => q | None => (default_names, default_nums) end in
  mkLO (set_nsnap (v_set v) (next_nsnap a v)) (fst cols) (snd cols) (v_units v) (v_origin v) (w_tphys a) (w_analyze a) (w_sort a)
       proj (fst (w_rovo a)) (snd (w_rovo a)) (w_orbit a).
(* load.py:354-647 advance_cluster for a cluster of ctype "snapshot", without a galpy orbit; `proj` is cluster.projected.
   Restart (588-616): when no file was found and the directory cont/ exists, load_cluster is called on it.  Line 610
   takes units_init and origin_init from the empty cluster, and the columns have been popped from the keywords at 562-563.
   With an open orbit file line 600 pops the keyword ofilename, absent here: KeyError (giving it is not modelled). *)
Definition restart_opts (o : load_opts) (v1 : loaded) : load_opts :=
  mkLO (set_wdir (l_set o) (append (o_wdir (v_set v1)) "cont/")) default_names default_nums (v_units v1) (v_origin v1) (l_tphys o)
       (l_analyze o) (l_sort o) (l_proj o) (l_ro o) (l_vo o) (l_orbit o).
Definition advance_snapshot (rd : reader) (d : disk) (a : adv_opts) (proj : bool) (v : loaded) : result loaded :=
  let ofile := match w_ofile a with Some f => Some f | None => v_orbit v end in
  let o := adv_load_opts a v proj in
  bind (get_snapshot rd d o (w_filename a) ofile true) (fun v1 =>
  if Nat.eqb (g_ntot (v_cat v1)) 0 then
    if dirs d (append (o_wdir (v_set v1)) "cont/") then
      match ofile with
      | Some _ => Raise
      | None => load_snapshot rd d (restart_opts o v1) (w_filename a) None
      end
    else Ok (mkLoaded (v_cat v1) (v_set v1) (v_units v1) (v_origin v1) None)
  else Ok v1).
(* repeated calls; the orbit file is left where the last call stopped reading *)
Fixpoint advance_times (rd : reader) (d : disk) (a : adv_opts) (proj : bool) (n : nat) (v : loaded) : result loaded :=
  match n with O => Ok v | S n' => bind (advance_times rd d a proj n' v) (advance_snapshot rd d a proj) end.
End WithGalpy.
