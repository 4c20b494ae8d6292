(* Specification of radial ordering and enclosed mass, independent of analyze/sortstars. *)
From Coq Require Import Sorted.
From Verif Require Import Base.

(* o lists every index of r exactly once, by non-decreasing value of r *)
Definition sorted_order (o : list nat) (r : list R) : Prop :=
  Permutation o (seq 0 (length r)) /\ StronglySorted (fun i j => nth i r 0 <= nth j r 0) o.

(* total weight of the stars at distance at most / less than d *)
Definition weight_within (r w : list R) (d : R) : R :=
  sumR (map snd (filter (fun p => Rleb (fst p) d) (combine r w))).
Definition weight_inside (r w : list R) (d : R) : R :=
  sumR (map snd (filter (fun p => Rltb (fst p) d) (combine r w))).

(* d is the radius of fraction f: a star sits there, the stars up to d hold at least f of the total,
   the stars strictly closer hold less *)
Definition is_fraction_radius (f : R) (r w : list R) (d : R) : Prop :=
  In d r /\ f * sumR w <= weight_within r w d /\ weight_inside r w d < f * sumR w.

Definition nonneg (w : list R) : Prop := forall a, In a w -> 0 <= a.
