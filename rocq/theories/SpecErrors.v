(* Specification of interactive sessions. *)
From Verif Require Import Base ModelCluster ModelOps ModelHistory ModelErrors SpecUnits SpecFrame SpecHistory.
Set Implicit Arguments.
Open Scope list_scope. Open Scope R_scope.

Definition allowed (q : request) : Prop := match q with Units u => linear u | Origin o => flat o | _ => True end.
(* the changes of units and origin that an analysis makes before it fails, for a cluster in units u about the origin o: Lagrange radii go to the centre from
   the galaxy, relaxation times and critical densities also to pc and km/s; AMUSE units are given up first *)
Definition detour (a : analysis) (u : usys) (o : osys) : list op :=
  let amuse := match u with Uamuse => [OpUnits Upckms] | _ => [] end in
  let centre := match o with Ocluster | Ocentre => [] | _ => [OpOrigin Ocentre true] end in
  match a with
  | Lagrange _ _ | Fraction _ _ => amuse ++ centre
  | HalfMassRelaxation _ _ | Relaxation _ _ | VirialCritical _ _ _ _ _ => centre ++ [OpUnits Upckms]
  | DensityCentre _ => amuse
  | _ => []
  end.
(* the request q, made on a cluster in units u about o, got the reply r: the changes it made *)
Definition made (q : request) (r : reply) (u : usys) (o : osys) : list op :=
  match q, r with
  | Ask a, Error => detour a u o
  | RelaxationAt _ k p, _ => detour (Relaxation k p) u o
  | Units v, _ => [OpUnits v]
  | Origin w, _ => [OpOrigin w true]
  | _, _ => []
  end.
(* all the changes of a session with these requests and replies, from units u and origin o *)
Fixpoint itinerary (l : list (request * reply)) (u : usys) (o : osys) : list op :=
  match l with
  | [] => []
  | (q, r) :: l => let m := made q r u o in m ++ itinerary l (last_units m u) (last_origin m o)
  end.
(* the reply to q on a cluster it has for itself *)
Definition reply_alone (G : galpy) (q : request) (c : cluster) : reply :=
  match q with
  | Ask a => match alone G a c with Ok x => Answer x | Raise => Error end
  | RelaxationAt _ _ _ => Error
  | _ => Done
  end.
