(* Specification of paths on the sky. *)
From Verif Require Import Base ModelCluster ModelOps ModelEnergy ModelSkyPath.
From Verif Require Import SpecUnits SpecFrame SpecConv SpecEnergy SpecProfiles SpecDynamics SpecTail SpecOrbit SpecSky.
Set Implicit Arguments.

(* the path in space pth as seen on the sky: the same times, every point where view puts it *)
Definition sky_image (view : six R -> six R) (pth : list (R * six R)) : list (R * six R) := map (fun q => (fst q, view (snd q))) pth.
(* out has one point for every bin j that has members among the n stars, in order: the time mid j and where view puts the mean position and velocity of the
   members *)
Definition sky_points (n : nat) (member : nat -> nat -> Prop) (mid : list R) (pos : nat -> six R) (z : usize) (view : six R -> six R) (out : list (R * six R)) : Prop :=
  exists js, (forall a b, (a < b)%nat -> (b < length js)%nat -> (nth a js 0 < nth b js 0)%nat) /\
    (forall j, In j js <-> (j < length mid)%nat /\ exists i, (i < n)%nat /\ member j i) /\ length out = length js /\
    forall k, (k < length js)%nat -> let j := nth k js 0%nat in
      exists sel rest, Permutation (seq 0 n) (sel ++ rest) /\ Forall (member j) sel /\ Forall (fun i => ~ member j i) rest /\
        fst (nth k out (0, zero6)) * in_Myr z = 1000 * nth j mid 0 /\ snd (nth k out (0, zero6)) = view (mean6 (map pos sel)).
(* the cosine of the angle on the sky between two directions (right ascension and declination in degrees) *)
Definition sky_cosine (p q : six R) : R :=
  let d := PI / 180 in sin (sy p * d) * sin (sy q * d) + cos (sy p * d) * cos (sy q * d) * cos ((sx p - sx q) * d).
(* p is farther from s on the sky than q: angles below 180 degrees have a decreasing cosine *)
Definition farther_on_sky (p q s : six R) : Prop := sky_cosine p s < sky_cosine q s.
