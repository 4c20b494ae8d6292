(* Vocabulary for interpolation in a table. *)
From Verif Require Import Base.
Open Scope R_scope.

(* strictly increasing *)
Definition rising (xs : list R) : Prop := forall i j, (i < j < length xs)%nat -> nth i xs 0 < nth j xs 0.
(* (x, y) lies on the segment between two neighbouring points of the table *)
Definition on_table (xs ys : list R) (x y : R) : Prop :=
  exists i, (i + 1 < length xs)%nat /\ nth i xs 0 <= x <= nth (i + 1) xs 0 /\
    (y - nth i ys 0) * (nth (i + 1) xs 0 - nth i xs 0) = (nth (i + 1) ys 0 - nth i ys 0) * (x - nth i xs 0).
