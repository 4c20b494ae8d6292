(* Specification of a request for the energies of some stars. *)
From Verif Require Import Base ModelCluster ModelEnergy ModelIds SpecEnergy.
Set Implicit Arguments.

(* star k of the cluster is asked for: by its id, or by position in a mask *)
Definition asked (a : ids_arg) (c : cluster) (k : nat) : Prop :=
  match a with
  | One_id z => nth k (c_id c) 0%Z = z
  | Id_list l => In (nth k (c_id c) 0%Z) l
  | Mask_array l => nth k l false = true
  | Bool_list l => nth k l false = true
  end.
(* requests that are understood: ids, or an array of booleans with an entry per star *)
Definition understood (a : ids_arg) (c : cluster) : Prop :=
  match a with One_id _ => True | Id_list l => l <> [] | Mask_array l => length l = nstars c /\ l <> [] | Bool_list _ => False end.
(* the numbers of the stars asked for, in the order of the cluster *)
Definition in_order (a : ids_arg) (c : cluster) (ks : list nat) : Prop :=
  (forall k, In k ks <-> (k < nstars c)%nat /\ asked a c k) /\ forall i j, (i < j < length ks)%nat -> (nth i ks 0 < nth j ks 0)%nat.
(* kinetic and potential energy of star k, relative to the cluster, in its field (per unit mass if specific) *)
Definition star_kinetic (specific : bool) (c : cluster) (k : nat) : R := (if specific then 1 else mass c k) * rel_speed2 false c k / 2.
Definition star_potential (specific : bool) (soft : R) (c : cluster) (k : nat) : R :=
  ModelConv.get_grav c * newton_potential soft (bodies c) k / (if specific then mass c k else 1).
