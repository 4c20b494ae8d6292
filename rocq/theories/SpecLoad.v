(* Specification of snapshot files: which file is read, and what the numbers in it mean. *)
From Coq Require Import String Ascii.
From Verif Require Import Base ModelCluster ModelStars SpecStars ModelLoad.
Set Implicit Arguments.
Open Scope string_scope. Open Scope list_scope. Open Scope R_scope.

(* ------------------------------------------------------------------ names *)
(* value of a string of decimal digits read after the digits of acc *)
Definition digit (c : ascii) : option nat :=
  let n := nat_of_ascii c in if (Nat.leb 48 n && Nat.leb n 57)%bool then Some (n - 48)%nat else None.
Fixpoint digits_value (acc : nat) (s : string) : option nat :=
  match s with
  | EmptyString => Some acc
  | String c s' => match digit c with Some d => digits_value (10 * acc + d) s' | None => None end
  end.
(* s is the decimal numeral of n, padded with zeros to k characters *)
Definition numeral (n k : nat) (s : string) : Prop :=
  digits_value 0 s = Some n /\ (k <= String.length s)%nat /\ (1 <= String.length s)%nat /\
  ((k < String.length s)%nat -> String.length s = 1%nat \/ (10 ^ (String.length s - 1) <= n)%nat).
(* w' is the directory w written so that a file name can follow *)
Definition slashed (w w' : string) : Prop :=
  (w = "" /\ w' = "") \/ (exists u, w = append u "/" /\ w' = w) \/
  (w <> "" /\ (forall u, w <> append u "/") /\ w' = append w "/").
(* the names to try, in order *)
Definition search (o : settings) (filename : option string) (l : list string) : Prop :=
  exists w s num, slashed (o_wdir o) w /\ slashed (o_snapdir o) s /\ numeral (o_nsnap o) (o_nzfill o) num /\
    l = match filename with
        | Some f => [append w (append s f); append w f; f]
        | None => let g := append (o_snapbase o) (append num (o_snapend o)) in [append w (append s g); append w g]
        end.
(* f is the content of the first of these names that exists *)
Definition first_content (d : disk) (l : list string) (f : text) : Prop :=
  exists pre p post, l = pre ++ p :: post /\ (forall q, In q pre -> files d q = None) /\ files d p = Some f.
Definition finds (d : disk) (o : settings) (filename : option string) (f : text) : Prop :=
  exists l, search o filename l /\ first_content d l f.
Definition finds_none (d : disk) (o : settings) (filename : option string) : Prop :=
  exists l, search o filename l /\ forall q, In q l -> files d q = None.

(* ------------------------------------------------------------------ tables *)
(* the line holds these numbers, and is not a comment *)
Definition line_holds (rd : reader) (l : line) (r : list R) : Prop :=
  Forall2 (fun t v => float_of rd t = Some v /\ String.prefix "#" t = false) l r.
(* after `skip` lines the file has one line for each row, all of width w *)
Definition file_holds (rd : reader) (skip : nat) (f : text) (rows : list (list R)) (w : nat) : Prop :=
  exists pre data, f = pre ++ data /\ length pre = skip /\ Forall2 (line_holds rd) data rows /\ Forall (fun r => length r = w) rows.

(* the (first) column called s is column k of the table *)
Definition stands_for (names : list string) (nums : list nat) (s : string) (k : nat) : Prop :=
  exists pre post, names = pre ++ s :: post /\ ~ In s pre /\ nth_error nums (length pre) = Some k.
(* v is the value of quantity s in row i, or the default where there is no such column *)
Definition quantity (names : list string) (nums : list nat) (rows : list (list R)) (s : string) (dflt : R) (i : nat) (v : R) : Prop :=
  (~ In s names /\ v = dflt) \/ (exists k, stands_for names nums s k /\ nth k (nth i rows []) 0 = v).
Definition star_names : list string := ["m"; "x"; "y"; "z"; "vx"; "vy"; "vz"; "id"].
(* every named quantity has a column inside the table, and some star quantity is named *)
Definition columns_fit (names : list string) (nums : list nat) (w : nat) : Prop :=
  (forall s, In s ("kw" :: star_names) -> In s names -> exists k, stands_for names nums s k /\ (k < w)%nat) /\
  (exists s, In s star_names /\ In s names).
Definition row_star (names : list string) (nums : list nat) (rows : list (list R)) (i : nat) (s : star) : Prop :=
  let q := quantity names nums rows in
  q "m" 1 i (w_m s) /\ q "x" 0 i (sx (w_s s)) /\ q "y" 0 i (sy (w_s s)) /\ q "z" 0 i (sz (w_s s)) /\
  q "vx" 0 i (svx (w_s s)) /\ q "vy" 0 i (svy (w_s s)) /\ q "vz" 0 i (svz (w_s s)) /\
  (~ In "id" names -> w_id s = Z.of_nat i) /\
  (forall k z, stands_for names nums "id" k -> nth k (nth i rows []) 0 = IZR z -> w_id s = z) /\
  w_m0 s = 0 /\ w_npop s = 1%Z.
(* the stars of v are exactly the rows of the table *)
Definition stars_are_rows (names : list string) (nums : list nat) (rows : list (list R)) (k : catalog) : Prop :=
  aligned k (length rows) /\ g_ntot k = length rows /\ c_nb (g_c k) = 0%nat /\
  (forall i, (i < length rows)%nat -> row_star names nums rows i (star_at k i)) /\
  (~ In "kw" names -> e_kw (g_sse k) = []) /\
  (forall j, stands_for names nums "kw" j -> e_kw (g_sse k) = map (fun r => nth j r 0) rows).

(* ------------------------------------------------------------------ orbit files *)
(* component of an orbit by name *)
Definition component (s : string) (t : R) (p : six R) : R :=
  if String.eqb s "t" then t else if String.eqb s "x" then sx p else if String.eqb s "y" then sy p
  else if String.eqb s "z" then sz p else if String.eqb s "vx" then svx p else if String.eqb s "vy" then svy p else svz p.
Definition orbit_quantities : list string := ["t"; "x"; "y"; "z"; "vx"; "vy"; "vz"].
(* the line gives time t and phase-space point p: named columns are read, quantities without a column are 0 *)
Definition orbit_line (rd : reader) (cols : list (string * nat)) (l : line) (t : R) (p : six R) : Prop :=
  NoDup (map fst cols) /\
  forall s, In s orbit_quantities ->
    (forall k, In (s, k) cols -> exists tok, nth_error l k = Some tok /\ float_of rd tok = Some (component s t p)) /\
    (~ In s (map fst cols) -> component s t p = 0).

(* ------------------------------------------------------------------ orbits in other units *)
Definition orbit_source (u : usys) : Prop :=
  u = Unbody \/ u = Ugalpy \/ u = Upckms \/ u = Upcmyr \/ u = Ukpcgyr \/ u = Ukpckms.
Definition orbit_target (u : usys) : Prop := u = Ukpckms \/ u = Upckms \/ u = Unbody \/ u = Ugalpy.

(* ------------------------------------------------------------------ loaded clusters and series of snapshots *)
(* v holds the rows of a table, in the requested units and origin, and remembers its keywords *)
Definition loaded_from (names : list string) (nums : list nat) (rows : list (list R)) (u : option usys) (og : option osys) (o : settings)
    (v : loaded) : Prop :=
  stars_are_rows names nums rows (v_cat v) /\ c_units (g_c (v_cat v)) = u /\ c_origin (g_c (v_cat v)) = og /\
  v_set v = o /\ v_units v = u /\ v_origin v = og.
(* snapshot number n is on disk and holds this table of at least two stars *)
Definition on_disk (rd : reader) (d : disk) (o : settings) (n : nat) (rows : list (list R)) (w : nat) : Prop :=
  exists f, finds d (set_nsnap o n) None f /\ file_holds rd (o_skip o) f rows w /\ (2 <= w)%nat /\ (2 <= length rows)%nat.
(* line n of an orbit file gives this time and point *)
Definition orbit_at (rd : reader) (cols : list (string * nat)) (f : text) (n : nat) (t : R) (p : six R) : Prop :=
  exists l, nth_error f n = Some l /\ orbit_line rd cols l t p.
(* the columns a call to advance_cluster reads *)
Definition advance_columns (a : adv_opts) : list string * list nat :=
  match w_cols a with Some q => q | None => (["m"; "x"; "y"; "z"; "vx"; "vy"; "vz"], [0; 1; 2; 3; 4; 5; 6]%nat) end.
(* a call that only asks for the next snapshot *)
Definition plain_advance (a : adv_opts) : Prop := w_nsnap a = None /\ w_filename a = None /\ w_ofile a = None.
