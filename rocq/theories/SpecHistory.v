(* Specification of sessions: what each analysis gives when it is the only one made. *)
From Verif Require Import Base ModelCluster ModelOps ModelHistory SpecUnits SpecFrame.
Set Implicit Arguments.
Open Scope list_scope. Open Scope R_scope.

(* the changes of units and origin of a session, without its analyses *)
Fixpoint moves (l : list step) : list op :=
  match l with
  | [] => []
  | ToUnits u :: l => OpUnits u :: moves l
  | ToOrigin o :: l => OpOrigin o true :: moves l
  | Measure _ :: l => moves l
  end.
(* what the analysis a gives on a cluster, the cluster afterwards being thrown away *)
Definition alone (G : galpy) (a : analysis) (c : cluster) : result answer :=
  match measure G a c with Ok q => Ok (fst q) | Raise => Raise end.
(* how many analyses a session contains *)
Definition measured (l : list step) : nat := length (filter (fun s => match s with Measure _ => true | _ => false end) l).
(* changes to units other than sky coordinates and to origins other than the sky *)
Definition plain (s : step) : Prop := match s with ToUnits u => linear u | ToOrigin o => flat o | Measure _ => True end.
