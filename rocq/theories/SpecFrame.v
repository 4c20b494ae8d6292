(* Specification for unit and origin changes together: one canonical description of a cluster (Msun, pc, km/s, Myr,
   positions and velocities relative to the galactic centre), and histories of unit and origin requests. *)
From Verif Require Import Base ModelCluster ModelOps SpecUnits.

(* What must be added to stored star coordinates to obtain galactocentric ones:
   nothing for origin galaxy, the cluster's orbit for origin cluster, orbit plus centre offset for origin centre. *)
Definition origin_shift (c : cluster) : six R :=
  let g := p_g (c_ph c) in let o := p_c (c_ph c) in
  match c_origin c with
  | Some Ocluster => g
  | Some Ocentre => mk6 (sx g + sx o) (sy g + sy o) (sz g + sz o) (svx g + svx o) (svy g + svy o) (svz g + svz o)
  | _ => mk6 0 0 0 0 0 0
  end.

Definition view6 (z : usize) (a : six R) : six R :=
  mk6 (sx a * in_pc z) (sy a * in_pc z) (sz a * in_pc z)
      (svx a * in_kms z) (svy a * in_kms z) (svz a * in_kms z).

Definition galactic_view (G : galpy) (c : cluster) : phys :=
  let z := match c_units c with Some u => unit_size G (c_sc c) u | None => mkSize 1 1 1 1 end in
  let d := origin_shift c in let p := c_ph c in let s := p_s p in
  mkP (p_t p * in_Myr z) (map (fun a => a * in_Msun z) (p_m p))
    (mk6 (map (fun a => (a + sx d) * in_pc z) (sx s)) (map (fun a => (a + sy d) * in_pc z) (sy s))
         (map (fun a => (a + sz d) * in_pc z) (sz s)) (map (fun a => (a + svx d) * in_kms z) (svx s))
         (map (fun a => (a + svy d) * in_kms z) (svy s)) (map (fun a => (a + svz d) * in_kms z) (svz s)))
    (view6 z (p_c p)) (view6 z (p_g p)).

(* origins that are plain translations of each other *)
Definition flat (o : osys) : Prop := o <> Osky.

(* one request a user (or an analysis routine) can make; sort is the sortstars argument *)
Inductive op := OpUnits (u : usys) | OpOrigin (o : osys) (sort : bool).
Definition flat_op (a : op) : Prop :=
  match a with OpUnits u => linear u | OpOrigin o _ => flat o end.
Definition run1 (G : galpy) (c : cluster) (a : op) : cluster :=
  match a with OpUnits u => to_units G (Ureq u) c | OpOrigin o s => to_origin G (Oreq o) s c end.
Definition run (G : galpy) (ops : list op) (c : cluster) : cluster := fold_left (run1 G) ops c.

Fixpoint last_units (ops : list op) (u : usys) : usys :=
  match ops with [] => u | OpUnits v :: t => last_units t v | _ :: t => last_units t u end.
Fixpoint last_origin (ops : list op) (o : osys) : osys :=
  match ops with [] => o | OpOrigin v _ :: t => last_origin t v | _ :: t => last_origin t o end.

(* a cluster in a linear unit system and a non-sky origin *)
Definition ready (G : galpy) (c : cluster) (u : usys) (o : osys) : Prop :=
  good_scales G (c_sc c) /\ c_units c = Some u /\ linear u /\ c_origin c = Some o /\ flat o.

(* Scale factors of a physical cluster are positive. *)
Definition positive_scales (G : galpy) (s : scales) : Prop :=
  0 < zmbar s /\ 0 < rbar s /\ 0 < vbar s /\ 0 < tbar s /\ 0 < ro s /\ 0 < vo s /\
  0 < time_in_Gyr G (ro s) (vo s) /\ 0 < mass_in_msol G (ro s) (vo s) /\ 0 < velocity_in_kpcGyr G (vo s) (ro s).

(* distance of every star from the current origin, from the stored coordinates *)
Definition distances (c : cluster) : list R :=
  map (fun '(x, y, z) => sqrt (x * x + y * y + z * z))
      (combine (combine (sx (p_s (c_ph c))) (sy (p_s (c_ph c)))) (sz (p_s (c_ph c)))).
Definition distances_2d (c : cluster) : list R :=
  map (fun '(x, y) => sqrt (x * x + y * y)) (combine (sx (p_s (c_ph c))) (sy (p_s (c_ph c)))).

(* all per-star arrays have the same length *)
Definition aligned (c : cluster) : Prop :=
  let s := p_s (c_ph c) in let n := length (p_m (c_ph c)) in
  length (sx s) = n /\ length (sy s) = n /\ length (sz s) = n /\
  length (svx s) = n /\ length (svy s) = n /\ length (svz s) = n.
