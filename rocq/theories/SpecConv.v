(* Specification for the stand-alone converters: the value a number must have after conversion is fixed by the unit
   sizes of SpecUnits.  Here only: which pairs of systems the velocity converters serve correctly, and the physical
   value of the gravitational constant. *)
From Verif Require Import Base ModelCluster ModelOps SpecUnits.

(* velocity pairs (from u to v) for which the km/s -> pc/Myr (kpc/Gyr) factor is forgotten *)
Definition factor_forgotten (u v : usys) : Prop :=
  (v = Upcmyr \/ v = Ukpcgyr) /\ u <> v /\ u <> Unbody /\ ~ (u = Ugalpy /\ v = Upcmyr).
Definition square_factor_forgotten (u v : usys) : Prop :=
  (v = Upcmyr \/ v = Ukpcgyr) /\ u <> v /\ u <> Unbody.

(* systems whose velocity unit is a multiple of km/s the converters know about *)
Definition vel_system (u : usys) : Prop := u <> Uradec /\ u <> UWD.

(* systems whose mass unit the converters can handle *)
Definition mass_system (u : usys) : Prop := u <> Uradec /\ u <> Ugalpy.

(* unit of mass over length^p in Msun / pc^p *)
Definition density_size (z : usize) (projected : bool) : R :=
  in_Msun z / in_pc z ^ (if projected then 2 else 3)%nat.

(* Newton's constant in pc (km/s)^2 / Msun *)
Definition G_pc : R := 4302 / 1000000.
(* A number g is Newton's constant in the system of unit size z *)
Definition is_grav (z : usize) (g : R) : Prop := g * (in_pc z * in_kms z ^ 2 / in_Msun z) = G_pc.
