(* Specification for cluster centres. *)
From Verif Require Import Base ModelCluster.

(* the stars of a cluster as a table: mass and the six phase-space coordinates of each *)
Definition star_table (c : cluster) : list (R * six R) :=
  map (fun i => (nth i (p_m (c_ph c)) 0, map6 (fun l => nth i l 0) (p_s (c_ph c)))) (seq 0 (length (p_m (c_ph c)))).

Definition table_mass (t : list (R * six R)) : R := sumR (map fst t).
(* p is the mass-weighted mean of the rows: the first moments about p vanish *)
Definition moment (f : six R -> R) (t : list (R * six R)) (p : six R) : R := sumR (map (fun r => fst r * (f (snd r) - f p)) t).
Definition mass_weighted_mean (t : list (R * six R)) (p : six R) : Prop :=
  table_mass t <> 0 /\
  moment (@sx R) t p = 0 /\ moment (@sy R) t p = 0 /\ moment (@sz R) t p = 0 /\
  moment (@svx R) t p = 0 /\ moment (@svy R) t p = 0 /\ moment (@svz R) t p = 0.

(* translate positions and boost velocities *)
Definition move (d p : six R) : six R :=
  mk6 (sx p + sx d) (sy p + sy d) (sz p + sz d) (svx p + svx d) (svy p + svy d) (svz p + svz d).
(* c' is c with every star moved by d; nothing is said about the rest of the state *)
Definition moved (d : six R) (c c' : cluster) : Prop :=
  p_m (c_ph c') = p_m (c_ph c) /\
  p_s (c_ph c') = mk6 (map (fun a => a + sx d) (sx (p_s (c_ph c)))) (map (fun a => a + sy d) (sy (p_s (c_ph c))))
                      (map (fun a => a + sz d) (sz (p_s (c_ph c)))) (map (fun a => a + svx d) (svx (p_s (c_ph c))))
                      (map (fun a => a + svy d) (svy (p_s (c_ph c)))) (map (fun a => a + svz d) (svz (p_s (c_ph c)))).

(* the row is strictly closer than rho to the position of q *)
Definition within (q : six R) (rho : R) (r : R * six R) : Prop :=
  (sx (snd r) - sx q) ^ 2 + (sy (snd r) - sy q) ^ 2 + (sz (snd r) - sz q) ^ 2 < rho ^ 2.
(* sub lists exactly the rows of t (with multiplicity, in order) that satisfy P *)
Inductive picked {A} (P : A -> Prop) : list A -> list A -> Prop :=
| picked_nil : picked P [] []
| picked_in a t s : P a -> picked P t s -> picked P (a :: t) (a :: s)
| picked_out a t s : ~ P a -> picked P t s -> picked P (a :: t) s.

(* ---- densities from neighbours *)
Definition row_distance (a b : R * six R) : R :=
  sqrt ((sx (snd b) - sx (snd a)) ^ 2 + (sy (snd b) - sy (snd a)) ^ 2 + (sz (snd b) - sz (snd a)) ^ 2).
Definition row_at (t : list (R * six R)) (i : nat) : R * six R := nth i t (0, mk6 0 0 0 0 0 0).
(* N are k nearest stars of star i (ties resolved in some way), and j is the farthest of them *)
Definition nearest_stars (t : list (R * six R)) (k i : nat) (N : list nat) (j : nat) : Prop :=
  NoDup N /\ length N = k /\ (forall a, In a N -> (a < length t)%nat) /\ In j N /\
  (forall a, In a N -> row_distance (row_at t i) (row_at t a) <= row_distance (row_at t i) (row_at t j)) /\
  (forall a, (a < length t)%nat -> ~ In a N -> row_distance (row_at t i) (row_at t j) <= row_distance (row_at t i) (row_at t a)).
(* mass of those stars except the farthest, over the cube of its distance *)
Definition neighbour_density (t : list (R * six R)) (k i : nat) (rho : R) : Prop :=
  exists N j, nearest_stars t k i N j /\ let d := row_distance (row_at t i) (row_at t j) in
    0 < d /\ rho * d ^ 3 = sumR (map (fun a => fst (row_at t a)) N) - fst (row_at t j).
(* rows with their mass replaced by a weight *)
Definition reweighted (w : list R) (t : list (R * six R)) : list (R * six R) :=
  map (fun i => (nth i w 0, snd (row_at t i))) (seq 0 (length t)).

(* the rows a boolean mask selects; no mask selects all *)
Definition masked_rows {A} (indx : option (list bool)) (t : list A) : list A :=
  match indx with
  | None => t
  | Some mk => map snd (filter fst (combine mk t))
  end.
(* two selections of the same stars, listed in any order *)
Definition same_selection (c c' : cluster) (i i' : option (list bool)) : Prop :=
  Permutation (masked_rows i (star_table c)) (masked_rows i' (star_table c')).
Definition mask_fits (indx : option (list bool)) (c : cluster) : Prop :=
  match indx with None => True | Some mk => length mk = length (p_m (c_ph c)) end.

(* p is the start, or the mass-weighted mean of more than nsphere of the stars, those inside some sphere wider than rmin *)
Definition found_from (t : list (R * six R)) (start p : six R) (nsphere : nat) (rmin : R) : Prop :=
  p = start \/ exists q rho sub, rmin < rho /\ picked (within q rho) t sub /\ (nsphere < length sub)%nat /\
    0 < table_mass sub /\ mass_weighted_mean sub p.

(* The refinement of Harfst et al.: starting at q with a sphere of radius rho, move to the mass-weighted mean of the stars
   inside and shrink the sphere by a factor 0.8, as long as rho > rmin, the sphere holds more than nsphere stars of
   positive total mass, and fewer than n steps were made; the last centre is p. *)
Inductive refined (t : list (R * six R)) (nsphere : nat) (rmin : R) : nat -> R -> six R -> six R -> Prop :=
| refined_limit rho q : refined t nsphere rmin 0 rho q q
| refined_small n rho q : rho <= rmin -> refined t nsphere rmin n rho q q
| refined_few n rho q sub : rmin < rho -> picked (within q rho) t sub -> (length sub <= nsphere)%nat \/ table_mass sub <= 0 ->
    refined t nsphere rmin n rho q q
| refined_step n rho q sub q' p : rmin < rho -> picked (within q rho) t sub -> (nsphere < length sub)%nat -> 0 < table_mass sub ->
    mass_weighted_mean sub q' -> refined t nsphere rmin n (rho * (8 / 10)) q' p -> refined t nsphere rmin (S n) rho q p.
(* the first sphere: as given, or reaching the farthest star from the start *)
Definition first_radius (t : list (R * six R)) (start : six R) (rmax : option R) (rho : R) : Prop :=
  match rmax with
  | Some r => rho = r
  | None => let d := map (fun r => sqrt ((sx (snd r) - sx start) ^ 2 + (sy (snd r) - sy start) ^ 2 + (sz (snd r) - sz start) ^ 2)) t in
      In rho d /\ forall v, In v d -> v <= rho
  end.
