(* Vocabulary for clusters from galpy Orbits and AMUSE particles. *)
From Verif Require Import Base ModelCluster ModelStars SpecStars ModelLoad ModelParticles.
Open Scope R_scope.

(* a point in natural units, in kpc and km/s *)
Definition physical (ro vo : R) (p : six R) : six R :=
  mk6 (sx p * ro) (sy p * ro) (sz p * ro) (svx p * vo) (svy p * vo) (svz p * vo).
(* the mass given for object i: 1 by default, one for all, or its own *)
Definition given_mass (m : option (arg R)) (i : nat) (a : R) : Prop :=
  match m with None => a = 1 | Some (Scalar b) => a = b | Some (Array l) => nth_error l i = Some a end.
(* as many masses as objects, if there is an array of them *)
Definition enough_masses (m : option (arg R)) (n : nat) : Prop :=
  match m with Some (Array l) => length l = n | _ => True end.
