(* Energies of some of the stars.  Models the argument ids of energies: clustertools/analysis/functions.py:690-739 and cluster/cluster.py:2509-2553. *)
From Verif Require Import Base ModelCluster ModelOps ModelConv ModelEnergy ModelStars.
Set Implicit Arguments.

(* the argument ids: a number; an array or list of numbers; a numpy array of booleans; a Python list of booleans *)
Inductive ids_arg := One_id (z : Z) | Id_list (l : list Z) | Mask_array (l : list bool) | Bool_list (l : list bool).
Definition as_number (b : bool) : Z := if b then 1%Z else 0%Z.
(* functions.py:717-721, cluster.py:2527-2530.  ids[0] of an empty array raises IndexError.  A Python bool is an int, a numpy bool is not, so only
   the numpy array is used as a mask; a mask of another length raises IndexError when it is used (726) *)
Definition chosen (a : ids_arg) (id : list Z) : result (list bool) :=
  match a with
  | One_id z => Ok (map (fun i => Z.eqb i z) id)
  | Id_list [] | Mask_array [] | Bool_list [] => Raise
  | Id_list l => Ok (map (fun i => existsb (Z.eqb i) l) id)
  | Mask_array l => if Nat.eqb (length l) (length id) then Ok l else Raise
  | Bool_list l => Ok (map (fun i => existsb (fun b => Z.eqb i (as_number b)) l) id)
  end.
(* full = np.zeros(ntot); full[ids] = part (cluster.py:2532-2533) *)
Fixpoint scatter (ids : list bool) (part : list R) : list R :=
  match ids, part with
  | [], _ => []
  | true :: t, p :: q => p :: scatter t q
  | true :: t, [] => 0 :: scatter t []
  | false :: t, q => 0 :: scatter t q
  end.

Section WithGalpy.
Variable G : galpy.
(* cluster.py:2509-2553: what is returned, what is stored as kin, pot, etot, ektot, ptot, qvir, and the cluster afterwards.  projected is passed on, and not used
   when there are ids (functions.py:715-739) *)
Definition energies_ids_method (specific projected : bool) (soft : R) (a : ids_arg) (c : cluster) : result ((list R * list R) * energy * cluster) :=
  let c1 := energy_frame G c in
  bind (chosen a (c_id c1)) (fun m =>
  let '((kin, pot), c2) := energies_ids G specific soft m c1 in
  bind (chosen a (c_id c2)) (fun m2 =>
  Ok ((kin, pot), add_energies (scatter m2 kin) (map Some (scatter m2 pot)), return_cluster G (save_cluster c) c2))).
End WithGalpy.
