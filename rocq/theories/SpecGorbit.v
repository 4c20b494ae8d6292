(* Following a galpy orbit, in physical terms. *)
From Coq Require Import String Ascii.
From Verif Require Import Base ModelCluster ModelOps ModelStars ModelOutput SpecUnits ModelGorbit.
Open Scope R_scope.

(* The point p, in units u, is where the orbit is when it is t (in units u) by the clock of the cluster: the galpy time is
   the same time, and the point is the same point. *)
Definition on_orbit (G : galpy) (s : scales) (u : usys) (orb : gorbit) (t : R) (p : six R) : Prop :=
  exists tau, same_q (1000 * time_in_Gyr G solar_ro solar_vo) (in_Myr (unit_size G s u)) tau t /\
    same_6 (unit_size G s Ukpckms) (unit_size G s u) (orb tau) p.
(* the stars seen from a point *)
Definition seen_from (d : six R) (s : six (list R)) : six (list R) :=
  let m l a := map (fun x => x - a) l in
  mk6 (m (sx s) (sx d)) (m (sy s) (sy d)) (m (sz s) (sz d)) (m (svx s) (svx d)) (m (svy s) (svy d)) (m (svz s) (svz d)).
(* the stars of a cluster at galactocentric position g, with centre offset d, brought from origin o to the origin at g *)
Definition about_orbit (o : option osys) (g d : six R) (s : six (list R)) : six (list R) :=
  match o with
  | Some Ogalaxy => seen_from g s
  | Some Ocentre => seen_from (mk6 (- sx d) (- sy d) (- sz d) (- svx d) (- svy d) (- svz d)) s
  | _ => s
  end.
