(* Vocabulary for sub_cluster with its reset options. *)
From Verif Require Import Base ModelCluster ModelOps ModelEnergy ModelStars ModelSubset SpecUnits SpecFrame SpecStars SpecSubset.
Set Implicit Arguments.

(* the same stars row by row, with the same stellar and binary data and energies *)
Definition same_labels (a b : system) : Prop :=
  c_id (g_c (y_k a)) = c_id (g_c (y_k b)) /\ g_m0 (y_k a) = g_m0 (y_k b) /\ g_npop (y_k a) = g_npop (y_k b) /\
  g_ntot (y_k a) = g_ntot (y_k b) /\ g_sse (y_k a) = g_sse (y_k b) /\ g_bse (y_k a) = g_bse (y_k b) /\
  y_kin a = y_kin b /\ y_pot a = y_pot b /\ y_etot a = y_etot b.
Definition same_rows (a b : system) : Prop := same_labels a b /\ forall j, star_at (y_k a) j = star_at (y_k b) j.
(* the velocity, in km/s relative to the galactic centre, of star j *)
Definition galactic_velocity (G : galpy) (c : cluster) (j : nat) : R * R * R :=
  let s := p_s (galactic_view G c) in (nth j (svx s) 0, nth j (svy s) 0, nth j (svz s) 0).
