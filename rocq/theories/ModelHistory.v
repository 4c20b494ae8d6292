(* Histories that mix analyses with changes of units and origin.  The analyses are the functions modelled in ModelLagrange (clustertools/analysis/functions.py
   978-1045), ModelDynamics (456-591, 2303-2488), ModelEnergy (593-793, 1101-1180), ModelRadii (1182-1302), ModelTail (clustertools/tidaltail/tails.py 19-108),
   ModelOrbit (clustertools/analysis/orbits.py 600-767) and ModelCentre (functions.py 188-264), called one after the other on one cluster. *)
From Verif Require Import Base ModelCluster ModelOps ModelConv ModelEnergy ModelRecipes ModelLagrange ModelProfiles ModelDynamics ModelStars ModelOrbit ModelRadii ModelTail ModelCentre.
Set Implicit Arguments.
Open Scope list_scope. Open Scope R_scope.

Inductive analysis :=
| Lagrange (n : nat) (projected : bool)                                       (* rlagrange(nlagrange, projected=) *)
| Fraction (f : R) (projected : bool)                                         (* rlagrange(mfrac=, projected=) *)
| HalfMassRelaxation (coulomb : R) (projected : bool)
| Relaxation (coulomb : R) (projected : bool)
| Energies (specific projected full : bool) (soft : R)
| EnergiesOf (specific : bool) (soft : R) (ids : list bool)
| Virial (projected full : bool)
| VirialCritical (crit : R -> R -> R -> R) (H Om overdens : R) (projected : bool)
| Tidal (rtide : R -> R -> R -> R) (n : nat) (converge : R) (indx : option (list bool)) (rgc zgc : option R) (from_centre : bool)
| Tail
| Path (ev : evolution) (tfinal : option R) (nt : nat) (from_centre : bool) (r v : option R)
| DensityCentre (a : centre_args).
Inductive answer :=
| Alist (l : list R) | Aone (x : R) | Anum (x : num) | Aenergies (kin : list R) (pot : list num) | Apairs (kin pot : list R)
| Atide (x : R) (mask : option (list bool)) | Atail (s : option (six (list R))) | Apath (p : path) (o : orbit) | Acentre (p : option (six R)).

Section WithGalpy.
Variable G : galpy.
(* the answer and the cluster afterwards *)
Definition measure (a : analysis) (c : cluster) : result (answer * cluster) :=
  match a with
  | Lagrange n p => bind (rlagrange G n p c) (fun q => Ok (Alist (fst q), snd q))
  | Fraction f p => bind (rlagrange_frac G f p c) (fun q => Ok (Aone (fst q), snd q))
  | HalfMassRelaxation k p => bind (half_mass_relaxation_time G k p c) (fun q => Ok (Anum (fst q), snd q))
  | Relaxation k p => bind (relaxation_time G None k p c) (fun q => Ok (Anum (fst q), snd q))
  | Energies s p f e => let q := energies G s p f e c in Ok (Aenergies (fst (fst q)) (snd (fst q)), snd q)
  | EnergiesOf s e ids => let q := energies_ids G s e ids c in Ok (Apairs (fst (fst q)) (snd (fst q)), snd q)
  | Virial p f => let q := virial_radius G p f c in Ok (Aone (fst q), snd q)
  | VirialCritical crit H Om o p => bind (virial_radius_critical_density G crit H Om o p c) (fun q => Ok (Anum (fst q), snd q))
  | Tidal t n k m a z f => let q := rtidal G t n k m a z f c in Ok (Atide (fst (fst q)) (snd q), snd (fst q))
  | Tail => let q := to_tail G c in Ok (Atail (fst q), snd q)
  | Path ev t n f r v => bind (orbital_path G ev t n f r v c) (fun q => Ok (Apath (fst (fst q)) (snd (fst q)), snd q))
  | DensityCentre a => bind (find_centre_of_density G a c) (fun q => Ok (Acentre (fst q), snd q))
  end.
Inductive step := ToUnits (u : usys) | ToOrigin (o : osys) | Measure (a : analysis).
(* a whole session: the answers in order, and the cluster at the end *)
Fixpoint session (l : list step) (c : cluster) : result (list answer * cluster) :=
  match l with
  | [] => Ok ([], c)
  | ToUnits u :: l => session l (to_units G (Ureq u) c)
  | ToOrigin o :: l => session l (to_origin G (Oreq o) true c)
  | Measure a :: l => bind (measure a c) (fun q => bind (session l (snd q)) (fun r => Ok (fst q :: fst r, snd r)))
  end.
End WithGalpy.
