(* Vocabulary for the properties of add_stars, add_binary_stars, add_sse: rows of a catalogue. *)
From Verif Require Import Base ModelCluster ModelStars.
Set Implicit Arguments.

(* one star: position and velocity, mass, identifier, initial mass, population *)
Record star := mkStar { w_s : six R; w_m : R; w_id : Z; w_m0 : R; w_npop : Z }.

(* row i of the per-star arrays *)
Definition star_at (k : catalog) (i : nat) : star :=
  let c := g_c k in
  mkStar (map6 (fun l => nth i l 0) (p_s (c_ph c))) (nth i (p_m (c_ph c)) 0) (nth i (c_id c) 0%Z)
         (nth i (g_m0 k) 0) (nth i (g_npop k) 0%Z).

(* every per-star array has n entries *)
Definition six_length (s : six (list R)) (n : nat) : Prop :=
  length (sx s) = n /\ length (sy s) = n /\ length (sz s) = n /\
  length (svx s) = n /\ length (svy s) = n /\ length (svz s) = n.
Definition aligned (k : catalog) (n : nat) : Prop :=
  six_length (p_s (c_ph (g_c k))) n /\ length (p_m (c_ph (g_c k))) = n /\ length (c_id (g_c k)) = n /\
  length (g_m0 k) = n /\ length (g_npop k) = n.

(* a call describes N stars: every array has N entries and, unless N is 1, at least one argument is an array *)
Definition arg_sized {A} (N : nat) (p : arg A) : Prop := match p with Scalar _ => True | Array l => length l = N end.
Definition opt_sized {A} (N : nat) (p : option (arg A)) : Prop := match p with None => True | Some p => arg_sized N p end.
Definition is_array {A} (p : arg A) : bool := match p with Scalar _ => false | Array _ => true end.
Definition opt_array {A} (p : option (arg A)) : bool := match p with None => false | Some p => is_array p end.
Definition six_sized (N : nat) (s : six (arg R)) : Prop :=
  arg_sized N (sx s) /\ arg_sized N (sy s) /\ arg_sized N (sz s) /\
  arg_sized N (svx s) /\ arg_sized N (svy s) /\ arg_sized N (svz s).
Definition six_array (s : six (arg R)) : bool :=
  is_array (sx s) || is_array (sy s) || is_array (sz s) || is_array (svx s) || is_array (svy s) || is_array (svz s).
Definition describes_stars (a : star_args) (N : nat) : Prop :=
  (1 <= N)%nat /\ six_sized N (a_s a) /\ opt_sized N (a_m a) /\ opt_sized N (a_id a) /\
  opt_sized N (a_m0 a) /\ opt_sized N (a_npop a) /\
  (N = 1%nat \/ six_array (a_s a) || opt_array (a_m a) || opt_array (a_id a) || opt_array (a_m0 a) || opt_array (a_npop a) = true).

(* the value an argument gives to star j *)
Definition value {A} (d : A) (p : arg A) (j : nat) : A := match p with Scalar a => a | Array l => nth j l d end.
Definition value_or {A} (dflt d : A) (p : option (arg A)) (j : nat) : A :=
  match p with None => dflt | Some p => value d p j end.

(* star j of a call; the identifier is only fixed when ids are given *)
Definition is_given (a : star_args) (j : nat) (w : star) : Prop :=
  w_s w = map6 (fun p => value 0 p j) (a_s a) /\ w_m w = value_or 1 0 (a_m a) j /\
  w_m0 w = value_or 0 0 (a_m0 a) j /\ w_npop w = value_or 1%Z 0%Z (a_npop a) j /\
  (forall p, a_id a = Some p -> w_id w = value 0%Z p j).

(* w is the centre of mass of stars j and j' of a call *)
Definition weighted (m1 m2 x1 x2 : R) : R := (m1 * x1 + m2 * x2) / (m1 + m2).
Definition is_pair (a : star_args) (j j' : nat) (w : star) : Prop :=
  let m1 := value_or 1 0 (a_m a) j in
  let m2 := value_or 1 0 (a_m a) j' in
  let c (f : six (arg R) -> arg R) := weighted m1 m2 (value 0 (f (a_s a)) j) (value 0 (f (a_s a)) j') in
  w_s w = mk6 (c (@sx _)) (c (@sy _)) (c (@sz _)) (c (@svx _)) (c (@svy _)) (c (@svz _)) /\
  w_m w = m1 + m2 /\ w_m0 w = value_or 0 0 (a_m0 a) j + value_or 0 0 (a_m0 a) j' /\
  w_npop w = value_or 1%Z 0%Z (a_npop a) j /\
  (forall p, a_id a = Some p -> w_id w = value 0%Z p j).

(* the cluster holds no binaries yet *)
Definition no_binaries (k : catalog) : Prop := c_nb (g_c k) = 0%nat /\ g_b k = init_pairs.

(* total mass, and total of mass times a component of position or velocity *)
Definition total (f : nat -> R) (n : nat) : R := sumR (map f (seq 0 n)).
Definition row_mass (k : catalog) (i : nat) : R := w_m (star_at k i).
Definition row_moment (f : six R -> R) (k : catalog) (i : nat) : R := w_m (star_at k i) * f (w_s (star_at k i)).

(* identifiers of everything in the cluster: each row, and the companion of each binary (row i < nb), whose
   identifier is one more than that of its row *)
Definition all_ids (k : catalog) : list Z :=
  c_id (g_c k) ++ map (fun i => nth i (c_id (g_c k)) 0 + 1)%Z (seq 0 (c_nb (g_c k))).

(* a history of calls without ids, binaries being given in at most one call *)
Inductive default_history : catalog -> Prop :=
| DH_start c : c_nb c = 0%nat -> c_id c = [] -> p_m (c_ph c) = [] -> p_s (c_ph c) = nil6 ->
    default_history (init_catalog c)
| DH_singles k a N sort an proj k' :
    default_history k -> describes_stars a N -> a_id a = None ->
    add_stars 0 a sort an proj k = Ok k' -> default_history k'
| DH_binaries k a N nb sort an proj k' :
    default_history k -> describes_stars a N -> a_id a = None -> c_nb (g_c k) = 0%nat ->
    (1 <= nb)%nat -> (2 * nb <= N)%nat ->
    add_stars nb a sort an proj k = Ok k' -> default_history k'.

(* the stellar evolution arrays all have n entries *)
Definition sse_aligned (k : catalog) (n : nat) : Prop :=
  let e := g_sse k in
  length (e_kw e) = n /\ length (e_logl e) = n /\ length (e_logr e) = n /\ length (e_lum e) = n /\
  length (e_ep e) = n /\ length (e_ospin e) = n.
Definition opt_list_sized (o : option (list R)) (n : nat) : Prop := match o with None => True | Some l => length l = n end.
Definition opt_entry (o : option (list R)) (j : nat) : R := match o with None => 0 | Some l => nth j l 0 end.

(* distances of the n stars from the origin *)
Definition row_distance (k : catalog) (i : nat) : R :=
  let s := w_s (star_at k i) in sqrt (sx s ^ 2 + sy s ^ 2 + sz s ^ 2).
Definition row_distances (k : catalog) (n : nat) : list R := map (row_distance k) (seq 0 n).
Definition row_masses (k : catalog) (n : nat) : list R := map (row_mass k) (seq 0 n).

(* arguments of add_binary_stars given as arrays of n entries *)
Definition pairs_sized (q : pair_args) (n : nat) : Prop :=
  exists x1 x2 m1 m2, q_1 q = map6 Array x1 /\ q_2 q = map6 Array x2 /\ q_m1 q = Some (Array m1) /\ q_m2 q = Some (Array m2) /\
    six_length x1 n /\ six_length x2 n /\ length m1 = n /\ length m2 = n /\
    opt_sized n (q_id1 q) /\ opt_array (q_id1 q) = (match q_id1 q with None => false | _ => true end).
Definition is_pair_row (q : pair_args) (i : nat) (w : star) : Prop :=
  let m1 := value_or 1 0 (q_m1 q) i in
  let m2 := value_or 1 0 (q_m2 q) i in
  let c (f : six (arg R) -> arg R) := weighted m1 m2 (value 0 (f (q_1 q)) i) (value 0 (f (q_2 q)) i) in
  w_s w = mk6 (c (@sx _)) (c (@sy _)) (c (@sz _)) (c (@svx _)) (c (@svy _)) (c (@svz _)) /\ w_m w = m1 + m2.
