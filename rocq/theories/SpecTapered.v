(* Specification of tapered power laws: dN/dm = A m^alpha (1 - exp(-(m/mc)^beta)). *)
From Verif Require Import Base ModelCluster ModelEnergy ModelRecipes ModelMassFunction ModelTapered SpecRecipes.
Set Implicit Arguments.

Definition tapered_law (A alpha mc beta m : R) : R := A * Rpower m alpha * (1 - exp (- Rpower (m / mc) beta)).
(* F is the tapered power law, wherever masses are positive *)
Definition is_tapered_law (F : R -> R -> R -> R -> R -> R) : Prop :=
  forall m A alpha mc beta, 0 < m -> 0 < mc -> F m A alpha mc beta = tapered_law A alpha mc beta m.
(* the bounds used unless others are given: A is not negative, mc lies between the smallest and the largest value *)
Definition bounds_of (all : list R) (lower upper : option (list num)) (lo hi : list num) : Prop :=
  exists a b, least all a /\ greatest all b /\
    (match lower with Some l => lo = l | None => lo = [Some 0; None; Some a; None] end) /\
    (match upper with Some l => hi = l | None => hi = [None; None; Some b; None] end).
(* the parameters p lie within bounds for A, alpha, mc, beta *)
Definition above (b : num) (x : R) : Prop := match b with Some a => a <= x | None => True end.
Definition below (b : num) (x : R) : Prop := match b with Some a => x <= a | None => True end.
Definition in_bounds (lo hi : list num) (p : tapered) : Prop :=
  forall k, (k < 4)%nat -> let x := nth k [tp_A p; tp_alpha p; tp_mc p; tp_beta p] 0 in above (nth k lo None) x /\ below (nth k hi None) x.
(* sum of squared distances of the densities from the values of F *)
Definition apart (F : R -> R -> R -> R -> R -> R) (x y : list R) (p : tapered) : R :=
  sumR (map (fun ab => (snd ab - F (fst ab) (tp_A p) (tp_alpha p) (tp_mc p) (tp_beta p)) ^ 2) (combine x y)).
(* a fitting routine that finds the best parameters within the bounds when it answers *)
Definition exact_fitter (fit : (R -> R -> R -> R -> R -> R) -> list R -> list R -> list num -> list num -> result tapered) : Prop :=
  forall F x y lo hi p, fit F x y lo hi = Ok p -> in_bounds lo hi p /\ forall p', in_bounds lo hi p' -> apart F x y p <= apart F x y p'.
(* sum of squared distances from the tapered power law with parameters p *)
Definition off_law (x y : list R) (p : tapered) : R := apart (fun m A alpha mc beta => tapered_law A alpha mc beta m) x y p.
