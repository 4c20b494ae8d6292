(* Interactive sessions: an analysis that raises is caught, and the session goes on with the cluster as the failing call left it.  Models the state of the
   cluster when an exception leaves clustertools/analysis/functions.py 978-1045 (after 1003-1015), 456-529 (after 488-493; 526-529: `vel` is unbound when rad is
   given), 531-591 (after 560-565), 1182-1302 (after 1248-1253), 188-264 (after 246-249) and clustertools/analysis/orbits.py 600-767 (686, after the cluster
   has been returned): none of these functions restores the cluster when it fails.  The other analyses do not fail. *)
From Verif Require Import Base ModelCluster ModelOps ModelConv ModelEnergy ModelRecipes ModelLagrange ModelProfiles ModelDynamics ModelStars ModelOrbit ModelRadii ModelTail ModelCentre ModelHistory.
Set Implicit Arguments.
Open Scope list_scope. Open Scope R_scope.

(* one call in an interactive session; RelaxationAt: relaxation_time with rad given *)
Inductive request := Ask (a : analysis) | RelaxationAt (rad coulomb : R) (projected : bool) | Units (u : usys) | Origin (o : osys).
Inductive reply := Answer (a : answer) | Error | Done.
Section WithGalpy.
Variable G : galpy.
(* the cluster when the call a raises on c *)
Definition left_behind (a : analysis) (c : cluster) : cluster :=
  match a with
  | Lagrange _ _ | Fraction _ _ => lagrange_frame G c
  | HalfMassRelaxation _ _ | Relaxation _ _ | VirialCritical _ _ _ _ _ => relax_frame G c
  | Path _ _ _ f r v => snd (initialize_orbit G f (Some (opt r (ro (c_sc c)))) (Some (opt v (vo (c_sc c)))) c)
  | DensityCentre _ => match c_units c with Some Uamuse => to_pckms G c | _ => c end
  | Energies _ _ _ _ | EnergiesOf _ _ _ | Virial _ _ | Tidal _ _ _ _ _ _ _ | Tail => c
  end.
Definition attempt (q : request) (c : cluster) : reply * cluster :=
  match q with
  | Ask a => match measure G a c with Ok (x, d) => (Answer x, d) | Raise => (Error, left_behind a c) end
  | RelaxationAt rad k p => match relaxation_time G (Some rad) k p c with Ok (x, d) => (Answer (Anum x), d) | Raise => (Error, relax_frame G c) end
  | Units u => (Done, to_units G (Ureq u) c)
  | Origin o => (Done, to_origin G (Oreq o) true c)
  end.
Fixpoint interactive (l : list request) (c : cluster) : list reply * cluster :=
  match l with
  | [] => ([], c)
  | q :: l => let '(r, d) := attempt q c in let '(rs, e) := interactive l d in (r :: rs, e)
  end.
End WithGalpy.
