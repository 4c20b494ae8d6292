(* Specification of the unit systems, written independently of the conversion functions: the size of one unit of
   time, mass, length and velocity of each system, measured in Myr, Msun, pc and km/s, and what it means that two
   sets of numbers describe the same physical quantities. *)
From Verif Require Import Base ModelCluster ModelOps.

Record usize := mkSize { in_Myr : R; in_Msun : R; in_pc : R; in_kms : R }.

(* 1 km/s = 1.022712165045695 pc/Myr = 1.022712165045695 kpc/Gyr *)
Definition kms_in_pcmyr : R := 1022712165045695 / 10 ^ 15.
(* the WDunits mass unit: 222288.4543021174 Msun *)
Definition wd_mass_in_msun : R := 2222884543021174 / 10 ^ 10.

(* All systems except radec, whose components are angles. *)
Definition unit_size (G : galpy) (s : scales) (u : usys) : usize :=
  match u with
  | Upckms | Uamuse | Uradec => mkSize 1 1 1 1
  | Upcmyr => mkSize 1 1 1 (1 / kms_in_pcmyr)
  | Ukpckms => mkSize 1000 1 1000 1
  | Ukpcgyr => mkSize 1000 1 1000 (1 / kms_in_pcmyr)
  | Unbody => mkSize (tbar s) (zmbar s) (rbar s) (vbar s)
  | Ugalpy => mkSize (1000 * time_in_Gyr G (ro s) (vo s)) (mass_in_msol G (ro s) (vo s)) (1000 * ro s) (vo s)
  | UWD => mkSize 1000 wd_mass_in_msun 1000 (vo s / velocity_in_kpcGyr G (vo s) (ro s))
  end.

Definition linear (u : usys) : Prop := u <> Uradec.

(* Scale factors are usable: none is zero. *)
Definition good_scales (G : galpy) (s : scales) : Prop :=
  zmbar s <> 0 /\ rbar s <> 0 /\ vbar s <> 0 /\ tbar s <> 0 /\ ro s <> 0 /\ vo s <> 0 /\
  time_in_Gyr G (ro s) (vo s) <> 0 /\ mass_in_msol G (ro s) (vo s) <> 0 /\
  velocity_in_kpcGyr G (vo s) (ro s) <> 0.

(* a (in units of size ka) and b (in units of size kb) are the same quantity *)
Definition same_q (ka kb a b : R) : Prop := a * ka = b * kb.

Definition same_6 (sa sb : usize) (a b : six R) : Prop :=
  same_q (in_pc sa) (in_pc sb) (sx a) (sx b) /\ same_q (in_pc sa) (in_pc sb) (sy a) (sy b) /\
  same_q (in_pc sa) (in_pc sb) (sz a) (sz b) /\ same_q (in_kms sa) (in_kms sb) (svx a) (svx b) /\
  same_q (in_kms sa) (in_kms sb) (svy a) (svy b) /\ same_q (in_kms sa) (in_kms sb) (svz a) (svz b).

Definition same_stars (sa sb : usize) (a b : six (list R)) : Prop :=
  Forall2 (same_q (in_pc sa) (in_pc sb)) (sx a) (sx b) /\
  Forall2 (same_q (in_pc sa) (in_pc sb)) (sy a) (sy b) /\
  Forall2 (same_q (in_pc sa) (in_pc sb)) (sz a) (sz b) /\
  Forall2 (same_q (in_kms sa) (in_kms sb)) (svx a) (svx b) /\
  Forall2 (same_q (in_kms sa) (in_kms sb)) (svy a) (svy b) /\
  Forall2 (same_q (in_kms sa) (in_kms sb)) (svz a) (svz b).

(* p in units sa and q in units sb are the same physical cluster *)
Definition same_physics (sa sb : usize) (p q : phys) : Prop :=
  same_q (in_Myr sa) (in_Myr sb) (p_t p) (p_t q) /\
  Forall2 (same_q (in_Msun sa) (in_Msun sb)) (p_m p) (p_m q) /\
  same_stars sa sb (p_s p) (p_s q) /\ same_6 sa sb (p_c p) (p_c q) /\ same_6 sa sb (p_g p) (p_g q).

(* A history of unit requests *)
Definition request_units (G : galpy) (us : list usys) (c : cluster) : cluster :=
  fold_left (fun c u => to_units G (Ureq u) c) us c.
