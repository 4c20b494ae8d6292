(* Specification of the output files: what the rows mean, in Msun, pc and km/s relative to the galactic centre. *)
From Coq Require Import String Ascii.
From Verif Require Import Base ModelCluster ModelOps ModelStars ModelLoad SpecUnits SpecFrame SpecStars.
Set Implicit Arguments.
Open Scope string_scope. Open Scope list_scope. Open Scope R_scope.

(* mass (Msun), galactocentric position (pc) and velocity (km/s) of star i, and of the centre of the cluster *)
Definition sun_mass_of (G : galpy) (c : cluster) (i : nat) : R := nth i (p_m (galactic_view G c)) 0.
Definition galactic_star (G : galpy) (c : cluster) (i : nat) : six R := map6 (fun l => nth i l 0) (p_s (galactic_view G c)).
Definition galactic_centre (G : galpy) (c : cluster) : six R :=
  let g := p_g (galactic_view G c) in let o := p_c (galactic_view G c) in
  mk6 (sx g + sx o) (sy g + sy o) (sz g + sz o) (svx g + svx o) (svy g + svy o) (svz g + svz o).
Definition relative6 (a b : six R) : six R :=
  mk6 (sx a - sx b) (sy a - sy b) (sz a - sz b) (svx a - svx b) (svy a - svy b) (svz a - svz b).
(* the row [m; x; y; z; vx; vy; vz; ...] is a star of mass m and phase-space point p, in units of the given size *)
Definition row_shows (z : usize) (m : R) (p : six R) (row : list R) : Prop :=
  nth 0 row 0 * in_Msun z = m /\ nth 1 row 0 * in_pc z = sx p /\ nth 2 row 0 * in_pc z = sy p /\ nth 3 row 0 * in_pc z = sz p /\
  nth 4 row 0 * in_kms z = svx p /\ nth 5 row 0 * in_kms z = svy p /\ nth 6 row 0 * in_kms z = svz p.
(* every number of the table is read back as it was printed, and is not taken for a comment *)
Definition printable (rd : reader) (show : R -> string) (rows : list (list R)) : Prop :=
  Forall (Forall (fun v => float_of rd (show v) = Some v /\ String.prefix "#" (show v) = false)) rows.
(* the columns written by snapout *)
Definition snap_names : list string := ["m"; "x"; "y"; "z"; "vx"; "vy"; "vz"; "id"].
Definition snap_names_kw : list string := ["m"; "x"; "y"; "z"; "vx"; "vy"; "vz"; "id"; "kw"].
(* the same star, apart from initial mass and population, which are not written *)
Definition same_star (a b : star) : Prop := w_s a = w_s b /\ w_m a = w_m b /\ w_id a = w_id b.
