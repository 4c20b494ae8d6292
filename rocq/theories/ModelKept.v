(* Results that a cluster keeps.  Models clustertools/cluster/cluster.py:364-382 (rn, rv, trh are None at first), 2407-2437, 2606-2633, 2635-2681 and the
   dispatcher clustertools/analysis/functions.py:1047-1099; cluster.py:2777-2873. *)
From Coq Require Import String Ascii.
From Verif Require Import Base ModelCluster ModelOps ModelConv ModelEnergy ModelRecipes ModelLagrange ModelProfiles ModelDynamics ModelStars ModelOrbit ModelSkyPath.
Set Implicit Arguments.
Open Scope string_scope. Open Scope list_scope. Open Scope R_scope.

(* a cluster with its attributes projected, rn, trh and rv *)
Record holder := mkH { h_c : cluster; h_projected : bool; h_rn : option (list R); h_trh : option num; h_rv : option R }.
Definition holding (c : cluster) (projected : bool) : holder := mkH c projected None None None.
(* the calls: rlagrange(nlagrange, projected), half_mass_relaxation_time(coulomb, projected), virial_radius(method, full, projected), to_units(units) *)
Inductive call :=
| Rlagrange (n : nat) (projected : option bool)
| Relaxation (coulomb : R) (projected : option bool)
| Virial (method : string) (full : bool) (projected : option bool)
| Units (u : usys).

Section WithGalpy.
Variable G : galpy.
(* functions.py:1094-1099 with inverse_distance; other methods but critical_density, which is modelled in ModelRadii, leave rv unbound *)
Definition virial_dispatch (method : string) (full projected : bool) (c : cluster) : result (R * cluster) :=
  if String.eqb method "inverse_distance" then Ok (virial_radius G projected full c) else Raise.
Definition do_call (a : call) (h : holder) : result holder :=
  let flag p := opt p (h_projected h) in
  match a with
  | Rlagrange n p =>                                                                     (* cluster.py:2629-2633 *)
    bind (rlagrange G n (flag p) (h_c h)) (fun q => Ok (mkH (snd q) (h_projected h) (Some (fst q)) (h_trh h) (h_rv h)))
  | Relaxation k p =>                                                                    (* 2433-2437 *)
    bind (half_mass_relaxation_time G k (flag p) (h_c h)) (fun q => Ok (mkH (snd q) (h_projected h) (h_rn h) (Some (fst q)) (h_rv h)))
  | Virial m full p =>                                                                   (* 2675-2681 *)
    bind (virial_dispatch m full (flag p) (h_c h)) (fun q => Ok (mkH (snd q) (h_projected h) (h_rn h) (h_trh h) (Some (fst q))))
  | Units u => Ok (mkH (to_units G (Ureq u) (h_c h)) (h_projected h) (h_rn h) (h_trh h) (h_rv h))
  end.
Fixpoint do_calls (l : list call) (h : holder) : result holder :=
  match l with [] => Ok h | a :: l => bind (do_call a h) (do_calls l) end.
End WithGalpy.

(* cluster.py:2777-2873: a function body that names a variable that is neither a parameter nor a global raises NameError; the parameters of the method
   tapered_mass_function (its cluster, mmin, mmax, ...) and the first variable it names *)
Definition tapered_params : list string :=
  ["cluster"; "mmin"; "mmax"; "nmass"; "rmin"; "rmax"; "vmin"; "vmax"; "emin"; "emax"; "kwmin"; "kwmax"; "npop"; "indx"; "projected"; "mcorr"; "plot"; "kwargs"].
Definition tapered_method {T : Type} (found : T) : result T := if accepts tapered_params ["self"; "mmin"] then Ok found else Raise.
