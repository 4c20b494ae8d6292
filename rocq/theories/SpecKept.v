(* Specification of the results a cluster keeps, for a history of calls. *)
From Coq Require Import String Ascii.
From Verif Require Import Base ModelCluster ModelOps ModelKept.
Set Implicit Arguments.
Open Scope string_scope. Open Scope list_scope. Open Scope R_scope.

(* the units in force after a history that starts in u *)
Definition units_after (u : usys) (l : list call) : usys := fold_left (fun u a => match a with Units v => v | _ => u end) l u.
(* a call for Lagrange radii, for the relaxation time, for the virial radius *)
Definition is_lagrange (a : call) := match a with Rlagrange _ _ => true | _ => false end.
Definition is_relaxation (a : call) := match a with Relaxation _ _ => true | _ => false end.
Definition is_virial (a : call) := match a with Virial _ _ _ => true | _ => false end.
(* a is the last call of its kind in the history l, made when the units were v *)
Definition last_call (kind : call -> bool) (u : usys) (l : list call) (a : call) (v : usys) : Prop :=
  exists l1 l2, l = l1 ++ a :: l2 /\ kind a = true /\ (forall b, In b l2 -> kind b = false) /\ v = units_after u l1.
Definition no_call (kind : call -> bool) (l : list call) : Prop := forall b, In b l -> kind b = false.
(* the projected flag a call uses *)
Definition flag_of (default : bool) (p : option bool) : bool := match p with Some b => b | None => default end.
(* calls that can be answered for N stars: projected ones only if b, at least one Lagrange radius, a Coulomb logarithm that is not zero, the method
   inverse_distance, units other than sky coordinates *)
Definition proper (b default : bool) (N : nat) (a : call) : Prop :=
  match a with
  | Rlagrange n p => (1 <= n)%nat /\ (flag_of default p = true -> b = true)
  | Relaxation k p => ln (k * INR N) <> 0 /\ (flag_of default p = true -> b = true)
  | Virial m _ p => m = "inverse_distance" /\ (flag_of default p = true -> b = true)
  | Units u => u <> Uradec
  end.
