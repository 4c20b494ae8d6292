(* Specification of sessions with surveys: what each step finds when it is the only one made. *)
From Verif Require Import Base ModelCluster ModelOps ModelStars ModelSubset ModelProfiles ModelHistory ModelSurvey SpecUnits SpecFrame SpecHistory.
Set Implicit Arguments.
Open Scope list_scope. Open Scope R_scope.

(* the changes of units and origin of a session *)
Fixpoint changes (l : list act) : list op :=
  match l with
  | [] => []
  | Unit_change u :: l => OpUnits u :: changes l
  | Origin_change o :: l => OpOrigin o true :: changes l
  | _ :: l => changes l
  end.
Definition manageable (x : act) : Prop := match x with Unit_change u => linear u | Origin_change o => flat o | _ => True end.
(* the catalogue after the changes of l and nothing else *)
Definition standing (G : galpy) (l : list act) (s : system) : system := sys_with s (run G (changes l) (g_c (y_k s))).
(* what the step x finds on a catalogue and masks it has for itself, and what it leaves in the masks *)
Definition by_itself (G : galpy) (x : act) (s : system) (e : masks) : result (option finding) :=
  match do_act G x s e with Ok y => Ok (fst (fst y)) | Raise => Raise end.
Definition leaves (G : galpy) (x : act) (s : system) (e : masks) : masks := match do_act G x s e with Ok y => snd y | Raise => e end.
(* the masks after the steps l, each of them made by itself *)
Fixpoint narrowed (G : galpy) (l : list act) (s : system) (e : masks) : masks :=
  match l with [] => e | x :: l => narrowed G l (standing G [x] s) (leaves G x s e) end.
(* the masks a session names, one entry for each use *)
Fixpoint named (l : list act) : list nat :=
  match l with [] => [] | Survey _ _ (Some k) :: l => k :: named l | _ :: l => named l end.
