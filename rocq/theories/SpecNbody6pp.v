(* Specification of NBODY6++ output files. *)
From Coq Require Import String Ascii.
From Coq Require Import Init.Byte.
From Verif Require Import Base ModelCluster ModelRecipes ModelEnergy ModelStars SpecStars ModelLoad SpecLoad ModelNbody6 SpecNbody6 ModelNbody6pp.
Set Implicit Arguments.
Open Scope string_scope. Open Scope list_scope. Open Scope R_scope.

(* a particle with the density around it, the distance of its neighbour and its potential *)
Record body := mkBody { y_p : particle; y_rho : R; y_xn : R; y_phi : R }.
(* the components of binaries come first, two by two *)
Definition listed (pairs : list (body * body)) (singles : list body) : list body := flat_map (fun q => [fst q; snd q]) pairs ++ singles.
(* conf.3: header mark, numbers of particles, of the model, of the run and of scalars, mark; then mark, scalars, masses, densities, distances, positions,
   velocities, potentials, identifiers, mark.  phi: the bytes of the potentials; a, b: the marks of the data *)
Definition conf3_marked (D : decoder) (a b : Z) (scalars : list R) (bs : list body) (phi f : bytes) : Prop :=
  exists mark model nrun h b1 b2 b3 b4 b5 b6 b7 b8 b9, f = h ++ b1 ++ b2 ++ b3 ++ b4 ++ b5 ++ b6 ++ b7 ++ phi ++ b8 ++ b9 /\
    ints D [mark; count bs; model; nrun; count scalars; mark] h /\
    ints D [a] b1 /\ reals D scalars b2 /\ reals D (map (fun y => pt_m (y_p y)) bs) b3 /\ reals D (map y_rho bs) b4 /\ reals D (map y_xn bs) b5 /\
    reals D (flat_map (fun y => let s := pt_s (y_p y) in [sx s; sy s; sz s]) bs) b6 /\
    reals D (flat_map (fun y => let s := pt_s (y_p y) in [svx s; svy s; svz s]) bs) b7 /\
    reals D (map y_phi bs) phi /\ ints D (map (fun y => pt_id (y_p y)) bs) b8 /\ ints D [b] b9.
Definition conf3_record (D : decoder) (scalars : list R) (bs : list body) (phi f : bytes) : Prop := exists mark, conf3_marked D mark mark scalars bs phi f.

(* star i of the catalogue is the centre of mass of p and q, with the identifier of p *)
Definition pair_at (k : catalog) (i : nat) (p q : particle) : Prop :=
  let w := star_at k i in let c f := weighted (pt_m p) (pt_m q) (f (pt_s p)) (f (pt_s q)) in
  w_m w = pt_m p + pt_m q /\ w_s w = mk6 (c (@sx R)) (c (@sy R)) (c (@sz R)) (c (@svx R)) (c (@svy R)) (c (@svz R)) /\ w_id w = pt_id p.
(* one value for each object: the sum over a pair, the value of a single star *)
Definition objects (f : body -> R) (pairs : list (body * body)) (singles : list body) : list R := map (fun q => f (fst q) + f (snd q)) pairs ++ map f singles.
(* kinetic energy of star i *)
Definition row_kinetic (k : catalog) (i : nat) : R :=
  let w := star_at k i in 1/2 * w_m w * (svx (w_s w) ^ 2 + svy (w_s w) ^ 2 + svz (w_s w) ^ 2).
(* the stars of one record are in the cluster; the potentials are apart *)
Definition conf_loaded (scalars : list R) (pairs : list (body * body)) (singles : list body) (v : pp) : Prop :=
  let k := u_cat v in let nb := length pairs in let n := (nb + length singles)%nat in
  aligned k n /\ g_ntot k = n /\
  (forall i q, nth_error pairs i = Some q -> pair_at k i (y_p (fst q)) (y_p (snd q))) /\
  (forall j y, nth_error singles j = Some y -> particle_at k (nb + j) (y_p y)) /\
  scaled_by scalars k /\ c_units (g_c k) = Some Unbody /\ c_origin (g_c k) = Some Ocluster /\ p_g (c_ph (g_c k)) = mk6 0 0 0 0 0 0 /\
  u_rhos v = objects y_rho pairs singles /\ exists e, u_energy v = Some e /\ e_kin e = map (row_kinetic k) (seq 0 n).

(* file number z, for an interval dt: 3 or 3.0 *)
Definition numbered (dt : number) (z : Z) : number := match dt with Whole _ => Whole z | Float _ => Float (IZR z) end.

(* ------------------------------------------------------------------ bev.82 and sev.83 *)
(* an integer column *)
Definition word_whole (rd : reader) (l : line) (i : nat) (z : Z) : Prop := word_real rd l i (IZR z).
Definition numbers_only (rd : reader) (l : line) : Prop := forall i w, nth_error l i = Some w -> exists x, float_of rd w = Some x.
(* a binary in twenty columns; the first three are the time and the two addresses *)
Definition bev_line (rd : reader) (l : line) (b : Z * Z * binrow) : Prop :=
  let '(a1, a2, r) := b in length l = 20%nat /\ numbers_only rd l /\ word_whole rd l 1 a1 /\ word_whole rd l 2 a2 /\
  word_whole rd l 3 (r_id1 r) /\ word_whole rd l 4 (r_id2 r) /\ word_whole rd l 5 (r_kw1 r) /\ word_whole rd l 6 (r_kw2 r) /\ word_whole rd l 7 (r_kwb r) /\
  word_real rd l 8 (r_rib r) /\ word_real rd l 9 (r_ecc r) /\ word_real rd l 10 (r_pb r) /\ word_real rd l 11 (r_semi r) /\ word_real rd l 12 (r_m1 r) /\ word_real rd l 13 (r_m2 r) /\
  word_real rd l 14 (r_l1 r) /\ word_real rd l 15 (r_l2 r) /\ word_real rd l 16 (r_r1 r) /\ word_real rd l 17 (r_r2 r) /\ word_real rd l 18 (r_te1 r) /\ word_real rd l 19 (r_te2 r).
(* a single star in nine columns; the second is its address *)
Definition sev_line (rd : reader) (l : line) (b : Z * sinrow) : Prop :=
  let '(a, y) := b in length l = 9%nat /\ numbers_only rd l /\ word_whole rd l 1 a /\ word_whole rd l 2 (y_id y) /\ word_whole rd l 3 (y_kw y) /\
  word_real rd l 4 (y_ri y) /\ word_real rd l 5 (y_m y) /\ word_real rd l 6 (y_l y) /\ word_real rd l 7 (y_r y) /\ word_real rd l 8 (y_te y).
(* header with the number of rows and the time, then the rows *)
Definition ev_file {A} (row : line -> A -> Prop) (rd : reader) (rows : list A) (f : text) : Prop :=
  exists h data, f = h :: data /\ word_int rd h 0 (Z.of_nat (length rows)) /\ (exists t, word_real rd h 1 t) /\ Forall2 row data rows.
(* single stars are at the addresses after those of the 2 nb components, each once *)
Definition addressed (nb : nat) (args : list Z) (n : nat) : Prop := Permutation args (map (fun i => Z.of_nat (2 * nb + 1 + i)) (seq 0 n)).
(* addresses count from 1 and components come first: the place of a single star among the objects *)
Definition object_of (nb : nat) (a : Z) : nat := Z.to_nat (a - Z.of_nat nb - 1).
(* rows of the files are in the cluster: types of both stars for a binary, type and radius of a single star *)
Definition pp_evolved (bs : list (Z * Z * binrow)) (ss : list (Z * sinrow)) (k : catalog) : Prop :=
  let nb := length bs in let sc := c_sc (g_c k) in let q := c_bin (g_c k) in let rows := map snd bs in
  length (e_kw (g_sse k)) = (nb + length ss)%nat /\ length (e_logr (g_sse k)) = (nb + length ss)%nat /\
  (forall i a1 a2 r, nth_error bs i = Some (a1, a2, r) -> nth i (e_kw (g_sse k)) 0 = IZR (Z.max (r_kw1 r) (r_kw2 r))) /\
  (forall a y, In (a, y) ss -> nth (object_of nb a) (e_kw (g_sse k)) 0 = IZR (y_kw y) /\ nth (object_of nb a) (e_logr (g_sse k)) 0 = y_r y) /\
  c_nb (g_c k) = nb /\ f_id1 (g_bse k) = map r_id1 rows /\ f_id2 (g_bse k) = map r_id2 rows /\
  f_kw1 (g_bse k) = map (fun b => IZR (r_kw1 b)) rows /\ f_kw2 (g_bse k) = map (fun b => IZR (r_kw2 b)) rows /\
  f_kcm (g_bse k) = map (fun b => IZR (r_kwb b)) rows /\ f_ecc (g_bse k) = map r_ecc rows /\
  b_pb q = map (fun b => Rpower 10 (r_pb b) / tbar_days sc) rows /\ b_semi q = map (fun b => Rpower 10 (r_semi b) / rbar_su sc) rows /\
  b_m1 q = map (fun b => r_m1 b / zmbar sc) rows /\ b_m2 q = map (fun b => r_m2 b / zmbar sc) rows.
