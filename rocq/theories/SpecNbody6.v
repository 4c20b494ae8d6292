(* Specification of NBODY6 output files. *)
From Coq Require Import String Ascii.
From Coq Require Import Init.Byte.
From Verif Require Import Base ModelCluster ModelRecipes ModelStars SpecStars ModelLoad SpecLoad ModelNbody6.
Set Implicit Arguments.
Open Scope string_scope. Open Scope list_scope. Open Scope R_scope.

(* ------------------------------------------------------------------ binary records *)
(* the bytes are the four-byte integers (reals) of the list, one after the other *)
Inductive ints (D : decoder) : list Z -> bytes -> Prop :=
| ints_nil : ints D [] []
| ints_cons a b c d z l f : d_int D a b c d = z -> ints D l f -> ints D (z :: l) (a :: b :: c :: d :: f).
Inductive reals (D : decoder) : list R -> bytes -> Prop :=
| reals_nil : reals D [] []
| reals_cons a b c d x l f : d_real D a b c d = x -> reals D l f -> reals D (x :: l) (a :: b :: c :: d :: f).
(* a particle: mass, position and velocity, identifier *)
Record particle := mkPt { pt_m : R; pt_s : six R; pt_id : Z }.
(* a data block: length mark, scalars, masses, positions, velocities, identifiers, the same mark *)
Definition data_block (D : decoder) (scalars : list R) (ps : list particle) (f : bytes) : Prop :=
  exists mark b1 b2 b3 b4 b5 b6 b7, f = b1 ++ b2 ++ b3 ++ b4 ++ b5 ++ b6 ++ b7 /\
    ints D [mark] b1 /\ reals D scalars b2 /\ reals D (map pt_m ps) b3 /\
    reals D (flat_map (fun p => [sx (pt_s p); sy (pt_s p); sz (pt_s p)]) ps) b4 /\
    reals D (flat_map (fun p => [svx (pt_s p); svy (pt_s p); svz (pt_s p)]) ps) b5 /\
    ints D (map pt_id ps) b6 /\ ints D [mark] b7.
Definition count {A} (l : list A) : Z := Z.of_nat (length l).
(* the same with marks a and b *)
Definition marked_block (D : decoder) (a b : Z) (scalars : list R) (ps : list particle) (f : bytes) : Prop :=
  exists b1 b2 b3 b4 b5 b6 b7, f = b1 ++ b2 ++ b3 ++ b4 ++ b5 ++ b6 ++ b7 /\
    ints D [a] b1 /\ reals D scalars b2 /\ reals D (map pt_m ps) b3 /\
    reals D (flat_map (fun p => [sx (pt_s p); sy (pt_s p); sz (pt_s p)]) ps) b4 /\
    reals D (flat_map (fun p => [svx (pt_s p); svy (pt_s p); svz (pt_s p)]) ps) b5 /\
    ints D (map pt_id ps) b6 /\ ints D [b] b7.
(* OUT3: header mark, numbers of particles, of the model, of the run and of scalars, mark; data block *)
Definition out3_record (D : decoder) (scalars : list R) (ps : list particle) (f : bytes) : Prop :=
  exists mark model nrun h b, f = h ++ b /\ ints D [mark; count ps; model; nrun; count scalars; mark] h /\ data_block D scalars ps b.
(* OUT33: no run number, and no data block without binaries *)
Definition out33_record (D : decoder) (scalars : list R) (ps : list particle) (f : bytes) : Prop :=
  exists mark model h b, f = h ++ b /\ ints D [mark; count ps; model; count scalars; mark] h /\
    match ps with [] => b = [] | _ => data_block D scalars ps b end.
(* what the readers return *)
Definition read_record (scalars : list R) (ps : list particle) : out3 :=
  mkOut (count ps) scalars (map pt_m ps)
    (mk6 (map (fun p => sx (pt_s p)) ps) (map (fun p => sy (pt_s p)) ps) (map (fun p => sz (pt_s p)) ps)
         (map (fun p => svx (pt_s p)) ps) (map (fun p => svy (pt_s p)) ps) (map (fun p => svz (pt_s p)) ps)) (map pt_id ps).

(* ------------------------------------------------------------------ stellar evolution files *)
Definition word_int (rd : reader) (l : line) (i : nat) (z : Z) : Prop := exists w, nth_error l i = Some w /\ int_of rd w = Some z.
Definition word_real (rd : reader) (l : line) (i : nat) (x : R) : Prop := exists w, nth_error l i = Some w /\ float_of rd w = Some x.
Definition footer (l : line) : Prop := nth_error l 0 = Some "##".
Definition header_line (rd : reader) (n : nat) (l : line) : Prop := word_int rd l 2 (Z.of_nat n) /\ exists t, word_real rd l 3 t.
(* six (three) numbers from word i on, or all 0 when that word is NaN *)
Definition numbers_from (rd : reader) (l : line) (i : nat) (v : list R) : Prop :=
  (nth_error l i = Some "NaN" /\ v = repeat 0 (length v)) \/
  (nth_error l i <> Some "NaN" /\ forall j x, nth_error v j = Some x -> word_real rd l (i + j) x).
Definition binary_line (rd : reader) (l : line) (b : binrow) : Prop :=
  ~ footer l /\ word_int rd l 0 (r_id1 b) /\ word_int rd l 1 (r_id2 b) /\ word_int rd l 2 (r_kw1 b) /\ word_int rd l 3 (r_kw2 b) /\ word_int rd l 4 (r_kwb b) /\
  word_real rd l 5 (r_rib b) /\ word_real rd l 6 (r_ecc b) /\ word_real rd l 7 (r_pb b) /\ word_real rd l 8 (r_semi b) /\
  word_real rd l 9 (r_m1 b) /\ word_real rd l 10 (r_m2 b) /\ (exists w, nth_error l 11 = Some w) /\
  numbers_from rd l 11 [r_l1 b; r_l2 b; r_r1 b; r_r2 b; r_te1 b; r_te2 b].
Definition single_line (rd : reader) (l : line) (y : sinrow) : Prop :=
  ~ footer l /\ word_int rd l 0 (y_id y) /\ word_int rd l 1 (y_kw y) /\ word_real rd l 2 (y_ri y) /\ word_real rd l 3 (y_m y) /\
  (exists w, nth_error l 4 = Some w) /\ numbers_from rd l 4 [y_l y; y_r y; y_te y].
(* a section: header, one line for each star, footer *)
Definition section {A} (row : line -> A -> Prop) (rd : reader) (rows : list A) (f : text) : Prop :=
  exists h data e, f = h :: data ++ [e] /\ header_line rd (length rows) h /\ Forall2 row data rows /\ footer e.
(* one entry for each object, binaries first *)
Definition joined {A B C} (f : A -> C) (g : B -> C) (a : list A) (b : list B) : list C := map f a ++ map g b.
(* luminosity of a binary: log10 of the sum of the luminosities *)
Definition pair_luminosity (b : binrow) (v : R) : Prop := Rpower 10 v = Rpower 10 (r_l1 b) + Rpower 10 (r_l2 b).

(* ------------------------------------------------------------------ clusters *)
(* star i of the catalogue is this particle *)
Definition particle_at (k : catalog) (i : nat) (p : particle) : Prop :=
  w_m (star_at k i) = pt_m p /\ w_s (star_at k i) = pt_s p /\ w_id (star_at k i) = pt_id p.
Definition stars_are (ps : list particle) (k : catalog) : Prop :=
  aligned k (length ps) /\ g_ntot k = length ps /\ forall i p, nth_error ps i = Some p -> particle_at k i p.
(* scale factors, time and centre from the scalars of OUT3 *)
Definition scaled_by (scalars : list R) (k : catalog) : Prop :=
  let v i := nth i scalars 0 in
  let s := c_sc (g_c k) in
  p_t (c_ph (g_c k)) = v 0%nat /\ rbar s = v 2%nat /\ zmbar s = v 3%nat /\ tbar s = v 10%nat /\ vbar s = v 11%nat /\
  sx (p_c (c_ph (g_c k))) = v 6%nat /\ sy (p_c (c_ph (g_c k))) = v 7%nat /\ sz (p_c (c_ph (g_c k))) = v 8%nat /\
  (* the length unit in solar radii and in astronomical units, and the time unit of binary orbits in days *)
  rbar_su s = v 2%nat * (648000 / PI * 149597870700) / 695700000 /\ rbar_au s = v 2%nat * (648000 / PI) /\
  (0 < v 2%nat -> 0 < v 3%nat -> tbar_days s = 365.25 * sqrt (rbar_au s ^ 3 / v 3%nat)).
(* one snapshot as written to the files: scalars and particles of OUT3 and OUT33, lines of fort.82 and fort.83 *)
Record n6_snap := mkSnap { z_sc : list R; z_ps : list particle; z_bsc : list R; z_bps : list particle; z_bin : list binrow; z_sin : list sinrow }.
(* its records; `has33` tells whether there is an OUT33 file, `hasse` whether there are fort.82 and fort.83 files *)
Definition snap_records (D : decoder) (rd : reader) (has33 hasse : bool) (s : n6_snap) (f3 f33 : bytes) (f82 f83 : text) : Prop :=
  (18 <= length (z_sc s))%nat /\ z_ps s <> [] /\ out3_record D (z_sc s) (z_ps s) f3 /\
  (if has33 then out33_record D (z_bsc s) (z_bps s) f33 /\ (z_bps s <> [] -> (6 <= length (z_bsc s))%nat) else z_bps s = []) /\
  (if hasse then section (binary_line rd) rd (z_bin s) f82 /\ section (single_line rd) rd (z_sin s) f83 /\ z_sin s <> [] else True).
(* what the stellar evolution files say of each object, binaries first; the luminosities are apart *)
Definition evolved (s : n6_snap) (k : catalog) : Prop :=
  let sc := c_sc (g_c k) in
  let q := c_bin (g_c k) in
  e_kw (g_sse k) = joined (fun b => IZR (r_kwb b)) (fun y => IZR (y_kw y)) (z_bin s) (z_sin s) /\
  e_logr (g_sse k) = joined (fun b => Rmax (r_r1 b) (r_r2 b)) y_r (z_bin s) (z_sin s) /\
  c_nb (g_c k) = length (z_bin s) /\
  f_id1 (g_bse k) = map r_id1 (z_bin s) /\ f_id2 (g_bse k) = map r_id2 (z_bin s) /\
  f_kw1 (g_bse k) = map (fun b => IZR (r_kw1 b)) (z_bin s) /\ f_kw2 (g_bse k) = map (fun b => IZR (r_kw2 b)) (z_bin s) /\
  f_kcm (g_bse k) = map (fun b => IZR (r_kwb b)) (z_bin s) /\ f_ecc (g_bse k) = map r_ecc (z_bin s) /\
  f_logl1 (g_bse k) = map r_l1 (z_bin s) /\ f_logl2 (g_bse k) = map r_l2 (z_bin s) /\
  f_logr1 (g_bse k) = map r_r1 (z_bin s) /\ f_logr2 (g_bse k) = map r_r2 (z_bin s) /\
  b_pb q = map (fun b => Rpower 10 (r_pb b) / tbar_days sc) (z_bin s) /\ b_semi q = map (fun b => Rpower 10 (r_semi b) / rbar_su sc) (z_bin s) /\
  b_m1 q = map (fun b => r_m1 b / zmbar sc) (z_bin s) /\ b_m2 q = map (fun b => r_m2 b / zmbar sc) (z_bin s).
(* galactocentric orbit: the first six scalars of OUT33 *)
Definition orbit_of (bsc : list R) (bps : list particle) : six R :=
  match bps with [] => mk6 0 0 0 0 0 0 | _ => let v i := nth i bsc 0 in mk6 (v 0%nat) (v 1%nat) (v 2%nat) (v 3%nat) (v 4%nat) (v 5%nat) end.
Definition snap_loaded (hasse : bool) (s : n6_snap) (k : catalog) : Prop :=
  stars_are (z_bps s ++ z_ps s) k /\ scaled_by (z_sc s) k /\ c_units (g_c k) = Some Unbody /\ c_origin (g_c k) = Some Ocluster /\
  p_g (c_ph (g_c k)) = orbit_of (z_bsc s) (z_bps s) /\ (if hasse then evolved s k else g_sse k = init_sse /\ g_bse k = init_bse).
(* a file holding records number a, a+1, ..., a+n-1 *)
Definition records {A} (recs : nat -> list A) (a n : nat) : list A := concat (map recs (seq a n)).
Definition given {A} (b : bool) (x : A) : option A := if b then Some x else None.
(* Kepler's third law: lengths in astronomical units, times in years, masses in solar masses *)
Definition kepler (au years m1 m2 : R) : Prop := years ^ 2 * (m1 + m2) = au ^ 3.
