(* Specification of the units of binary elements: size of the unit of semi-major axis, period and component mass in
   N-body units. *)
From Verif Require Import Base ModelCluster ModelOps SpecUnits SpecFrame.

Record bsize := mkBS { bs_len : R; bs_time : R; bs_mass : R }.
Definition bin_size (s : scales) (b : busys) : option bsize :=
  match b with
  | Bu Unbody => Some (mkBS 1 1 1)
  | Baudays => Some (mkBS (1 / rbar_au s) (1 / tbar_days s) (1 / zmbar s))
  | Bsudays => Some (mkBS (1 / rbar_su s) (1 / tbar_days s) (1 / zmbar s))
  | _ => None
  end.
(* the same binaries in N-body units *)
Definition bin_view (z : bsize) (b : bindata) : bindata :=
  mkB (map (fun a => a * bs_len z) (b_semi b)) (map (fun a => a * bs_time z) (b_pb b))
      (map (fun a => a * bs_mass z) (b_m1 b)) (map (fun a => a * bs_mass z) (b_m2 b)).
Definition good_bin_scales (s : scales) : Prop :=
  rbar_au s <> 0 /\ rbar_su s <> 0 /\ tbar_days s <> 0 /\ zmbar s <> 0.

Inductive bop := ToSudays | ToAudays | ToNbody.
Definition bop_units (a : bop) : busys :=
  match a with ToSudays => Bsudays | ToAudays => Baudays | ToNbody => Bu Unbody end.
Definition brun1 (G : galpy) (c : cluster) (a : bop) : cluster :=
  match a with ToSudays => to_sudays c | ToAudays => to_audays c | ToNbody => to_units G (Ureq Unbody) c end.
Definition brun (G : galpy) (ops : list bop) (c : cluster) : cluster := fold_left (brun1 G) ops c.
