(* Vocabulary for clusters from tables. *)
From Coq Require Import String Ascii.
From Verif Require Import Base ModelCluster ModelStars SpecStars ModelLoad ModelTable.
Open Scope string_scope. Open Scope list_scope. Open Scope R_scope.

(* s in small letters is s' *)
Inductive small : string -> string -> Prop :=
| small_nil : small EmptyString EmptyString
| small_capital c c' s s' : (65 <= nat_of_ascii c <= 90)%nat -> nat_of_ascii c' = (nat_of_ascii c + 32)%nat -> small s s' -> small (String c s) (String c' s')
| small_other c s s' : ~ (65 <= nat_of_ascii c <= 90)%nat -> small s s' -> small (String c s) (String c s').
(* no column goes by that name *)
Definition unnamed (t : atable) (v : string) : Prop := forall n c, In (n, c) t -> ~ small n v.
(* c is the first column that goes by the name v *)
Definition first_named (t : atable) (v : string) (c : tcol) : Prop :=
  exists before n after, t = before ++ (n, c) :: after /\ small n v /\ unnamed before v.
(* c is the column found by searching the names in order *)
Definition found (t : atable) (vs : list string) (c : tcol) : Prop :=
  exists before v after, vs = before ++ v :: after /\ Forall (unnamed t) before /\ first_named t v c.
Definition not_found (t : atable) (vs : list string) : Prop := Forall (unnamed t) vs.

(* the column of the table with exactly the name the mapper has for a key *)
Definition mapped (t : atable) (m : mapper) (key : string) (c : tcol) : Prop := exists n, In (key, n) m /\ In (n, c) t.

Definition numbers (c : tcol) (l : list R) : Prop := match c with Rcol r => l = r | Zcol z => l = map IZR z end.
(* the catalogue holds exactly the rows of these columns; without masses they are 1, without identifiers 0, 1, 2, ... *)
Definition holds_columns (k : catalog) (n : nat) (s : six (list R)) (m : option (list R)) (id : option (list Z)) : Prop :=
  aligned k n /\ g_ntot k = n /\ c_nb (g_c k) = 0%nat /\
  forall i, (i < n)%nat -> star_at k i =
    mkStar (map6 (fun l => nth i l 0) s) (match m with Some l => nth i l 0 | None => 1 end)
           (match id with Some l => nth i l 0%Z | None => Z.of_nat i end) 0 1%Z.
(* six columns, and masses and identifiers if there are any, all of n rows *)
Definition columns_are (n : nat) (h : six tcol) (hm hid : option tcol) (s : six (list R)) (m : option (list R)) (id : option (list Z)) : Prop :=
  (numbers (sx h) (sx s) /\ numbers (sy h) (sy s) /\ numbers (sz h) (sz s) /\ numbers (svx h) (svx s) /\ numbers (svy h) (svy s) /\ numbers (svz h) (svz s)) /\
  six_length s n /\
  match hm, m with Some c, Some l => numbers c l /\ length l = n | None, None => True | _, _ => False end /\
  match hid, id with Some (Zcol z), Some l => z = l /\ length l = n | None, None => True | _, _ => False end.
