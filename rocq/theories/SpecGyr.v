(* Specification of gyrfalcON / NEMO text files. *)
From Coq Require Import String Ascii.
From Verif Require Import Base ModelCluster ModelStars SpecStars ModelLoad SpecLoad ModelGyr.
Set Implicit Arguments.
Open Scope string_scope. Open Scope list_scope. Open Scope R_scope.

(* the pattern occurs in one of the words of the line *)
Definition mentions (pat : string) (l : line) : Prop := exists w a b, In w l /\ w = append a (append pat b).
(* the value is announced by exactly one line, as its third word *)
Definition announced (pat : string) (hdr : text) (val : string -> Prop) : Prop :=
  exists pre l post w, hdr = pre ++ l :: post /\ mentions pat l /\ nth_error l 2 = Some w /\ val w /\
    Forall (fun q => ~ mentions pat q) (pre ++ post).
(* a header: comment lines, of which one gives the number of stars (followed by one character, a comma) and one the time *)
Definition nemo_header (rd : reader) (hdr : text) (n : nat) (t : R) : Prop :=
  Forall (In "#") hdr /\
  announced "Ntot" hdr (fun w => exists u c, w = append u (String c EmptyString) /\ int_of rd u = Some (Z.of_nat n)) /\
  announced "time" hdr (fun w => float_of rd w = Some t).
(* a line of data: the words are the numbers of the row (and none is #) *)
Definition nemo_line (rd : reader) (l : line) (r : list R) : Prop :=
  ~ In "#" l /\ Forall2 (fun w v => float_of rd w = Some v) l r.
(* the number of columns *)
Definition columns_given (g : gives) : nat := match g with Gmxv => 7 | Gmxve => 8 | Gall => 12 end%nat.
(* one snapshot: a header of at most `skip` lines, then a line of columns_given numbers for each star *)
Definition nemo_record (rd : reader) (skip : nat) (g : gives) (t : R) (rows : list (list R)) (f : text) : Prop :=
  exists hdr data, f = hdr ++ data /\ (length hdr <= skip)%nat /\ rows <> [] /\ nemo_header rd hdr (length rows) t /\
    Forall2 (nemo_line rd) data rows /\ Forall (fun r => length r = columns_given g) rows.
(* the stars are the rows: mass, position, velocity; identifiers count from `first` *)
Definition nemo_star (first : nat) (rows : list (list R)) (shift : six R) (i : nat) (s : star) : Prop :=
  let r k := nth k (nth i rows []) 0 in
  w_m s = r 0%nat /\
  w_s s = mk6 (r 1%nat - sx shift) (r 2%nat - sy shift) (r 3%nat - sz shift) (r 4%nat - svx shift) (r 5%nat - svy shift) (r 6%nat - svz shift) /\
  w_id s = Z.of_nat (i + first) /\ w_m0 s = 0 /\ w_npop s = 1%Z.
Definition stars_of_nemo (first : nat) (rows : list (list R)) (shift : six R) (k : catalog) : Prop :=
  aligned k (length rows) /\ g_ntot k = length rows /\ c_nb (g_c k) = 0%nat /\
  forall i, (i < length rows)%nat -> nemo_star first rows shift i (star_at k i).
(* the attributes for the extra columns *)
Definition extras_of (g : gives) (rows : list (list R)) : list (list R) :=
  map (fun k => map (fun r => nth k r 0) rows) match g with Gmxv => [] | Gmxve => [7] | Gall => [7; 8; 9; 10; 11] end%nat.
(* a cluster read from these rows, with the requested units, origin and keywords *)
Definition nemo_loaded (first : nat) (rows : list (list R)) (t : R) (u : option usys) (og : option osys) (o : settings) (v : loaded) : Prop :=
  stars_of_nemo first rows (mk6 0 0 0 0 0 0) (v_cat v) /\ c_units (g_c (v_cat v)) = u /\ c_origin (g_c (v_cat v)) = og /\
  p_t (c_ph (g_c (v_cat v))) = t /\ v_set v = o /\ v_units v = u /\ v_origin v = og.
(* origins in which the stars of the file are kept as they are *)
Definition kept_origin (og : option osys) : Prop := og = None \/ og = Some Ocluster \/ og = Some Ogalaxy.
(* the names open() tries for a file of snapshots: first as given, then in the directories *)
Definition open_names (o : settings) (filename : option string) (l : list string) : Prop :=
  match filename with
  | None => search o None l
  | Some f => exists w s, slashed (o_wdir o) w /\ slashed (o_snapdir o) s /\ l = [f; append w (append s f); append w f]
  end.
Definition opens (d : disk) (o : settings) (filename : option string) (f : text) : Prop :=
  exists l, open_names o filename l /\ first_content d l f.
(* the files of the next snapshots are not on disk one by one, so the open file is read on *)
Definition one_file (d : disk) (o : settings) (n m : nat) : Prop := forall j, (1 <= j <= m)%nat -> finds_none d (set_nsnap o (n + j)) None.
(* records first, first+1, ..., one after the other *)
Definition series (recs : nat -> text) (first count : nat) : text := concat (map recs (seq first count)).
(* records of fixed shape: exactly `skip` header lines and `n` stars *)
Definition uniform_record (rd : reader) (skip n : nat) (g : gives) (t : R) (rows : list (list R)) (f : text) : Prop :=
  exists hdr data, f = hdr ++ data /\ length hdr = skip /\ length rows = n /\ nemo_header rd hdr n t /\
    Forall2 (line_holds rd) data rows /\ Forall (fun r => length r = columns_given g) rows.
