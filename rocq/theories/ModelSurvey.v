(* Sessions with profiles and mass functions, the selections of which may share masks of the caller.  The surveys are the functions modelled in ModelProfiles
   (clustertools/analysis/profiles.py 34-388, 623-1493, 1837-2072), ModelMassFunction (clustertools/analysis/functions.py 1338-1509, 1678-1821 and
   profiles.py 390-620, 1495-1727), ModelMeqProf (profiles.py 1729-1834) and ModelRadii (functions.py 1840-1945), called one after the other, and mixed with
   the analyses of ModelHistory, on one cluster; `indx *= ` in cluster.py 3935 writes into the mask of the caller. *)
From Verif Require Import Base ModelCluster ModelOps ModelConv ModelEnergy ModelRecipes ModelStars ModelSubset ModelCoords ModelLagrange ModelProfiles ModelMassFunction ModelDynamics.
From Verif Require Import ModelOrbit ModelTail ModelCentre ModelRadii ModelMeqProf ModelHistory.
Set Implicit Arguments.
Open Scope list_scope. Open Scope R_scope.

Inductive survey :=
| Masses (user : option edges) (nrad : nat) (bt : bintype) (normalize cumulative : bool)                    (* m_prof *)
| Density (user : option edges) (nrad : nat) (bt : bintype) (normalize : bool)                              (* rho_prof *)
| Speeds (w : statistic) (coord : option vcoord) (user : option edges) (nrad : nat) (bt : bintype) (normalize : bool)  (* sigv_prof, v_prof, v2_prof *)
| Anisotropy (user : option edges) (nrad : nat) (bt : bintype) (normalize : bool)                           (* beta_prof *)
| Circular (user : option edges) (nrad : option nat) (bt : bintype) (normalize : bool)                      (* vcirc_prof *)
| MassFunction (nmass : nat) (bt : bintype) (mcorr : option (list R))                                       (* mass_function *)
| Slopes (nrad : nat) (bt : bintype) (nmass : nat) (mbt : bintype) (mcorr : option (list R)) (normalize : bool)  (* alpha_prof *)
| Equipartition (nmass : nat)                                                                               (* eta_function *)
| Dispersions (nrad : nat) (bt : bintype) (nmass : nat) (normalize : bool)                                  (* eta_prof *)
| Mequi (fit : R -> R -> list R -> list R -> result line_fit) (nmass : nat)                                 (* meq_function *)
| Mequis (fit : R -> R -> list R -> list R -> result line_fit) (nrad : nat) (bt : bintype) (nmass : nat) (normalize : bool).  (* meq_prof *)
Inductive finding :=
| Fmasses (r m : list R) (n : list nat) | Fdensity (r : list R) (d : list num) (n : list nat) | Fspeeds (r : list R) (v : list num)
| Fcircular (r v : list R) (rvmax vmax : R) | Ftable (t : mass_table) | Fslopes (r : list R) (a : list num) (f : option line_fit)
| Feta (t : eta_table) | Fmeq (m : list R) (s : list num) (f : line_fit) | Fmeqs (r m : list R) (f : option line_fit) | Fother (a : answer).

Section WithGalpy.
Variable G : galpy.
(* what is found, the catalogue afterwards, the caller's mask afterwards *)
Definition look (a : survey) (q : selection) (indx : option (list bool)) (s : system) : result (finding * system * option (list bool)) :=
  match a with
  | Masses user n bt norm cum => bind (m_prof G q indx user n bt norm cum s) (fun x => let '(r, m, k, s', i) := x in Ok (Fmasses r m k, s', i))
  | Density user n bt norm => bind (rho_prof G q indx user n bt norm s) (fun x => let '(r, d, k, s', i) := x in Ok (Fdensity r d k, s', i))
  | Speeds w c user n bt norm => bind (velocity_prof G w c q indx user n bt norm s) (fun x => let '(r, v, s', i) := x in Ok (Fspeeds r v, s', i))
  | Anisotropy user n bt norm => bind (beta_prof G q indx user n bt norm s) (fun x => let '(r, v, s', i) := x in Ok (Fspeeds r v, s', i))
  | Circular user n bt norm => bind (vcirc_prof G q indx user n bt norm s) (fun x => let '(r, v, rv, vm, s', i) := x in Ok (Fcircular r v rv vm, s', i))
  | MassFunction n bt mc => bind (mass_function G q indx n bt mc s) (fun x => let '(t, s', i) := x in Ok (Ftable t, s', i))
  | Slopes n bt k mbt mc norm => bind (alpha_prof G q indx n bt k mbt mc norm s) (fun x => let '(r, a, f, s', i) := x in Ok (Fslopes r a f, s', i))
  | Equipartition n => bind (eta_function G q indx n s) (fun x => let '(t, s', i) := x in Ok (Feta t, s', i))
  | Dispersions n bt k norm => bind (eta_prof G q indx n bt k norm s) (fun x => let '(r, a, f, s', i) := x in Ok (Fslopes r a f, s', i))
  | Mequi fit n => bind (meq_function G fit q indx n s) (fun x => let '((m, v, f), s', i) := x in Ok (Fmeq m v f, s', i))
  | Mequis fit n bt k norm => bind (meq_prof G fit q indx n bt k norm s) (fun x => let '(r, m, f, s', i) := x in Ok (Fmeqs r m f, s', i))
  end.

(* the masks of the caller, by name *)
Definition masks := nat -> list bool.
Definition write (k : nat) (m : option (list bool)) (e : masks) : masks := fun j => if Nat.eqb j k then match m with Some l => l | None => e j end else e j.
Inductive act := Unit_change (u : usys) | Origin_change (o : osys) | Simple (a : analysis) | Survey (a : survey) (q : selection) (mask : option nat).
(* one step: what is found (if anything is asked), catalogue and masks afterwards *)
Definition do_act (x : act) (s : system) (e : masks) : result (option finding * system * masks) :=
  match x with
  | Unit_change u => Ok (None, sys_with s (to_units G (Ureq u) (g_c (y_k s))), e)
  | Origin_change o => Ok (None, sys_with s (to_origin G (Oreq o) true (g_c (y_k s))), e)
  | Simple a => bind (measure G a (g_c (y_k s))) (fun y => Ok (Some (Fother (fst y)), sys_with s (snd y), e))
  | Survey a q None => bind (look a q None s) (fun y => let '(f, s', _) := y in Ok (Some f, s', e))
  | Survey a q (Some k) => bind (look a q (Some (e k)) s) (fun y => let '(f, s', i) := y in Ok (Some f, s', write k i e))
  end.
(* a whole session: what each step found, catalogue and masks at the end *)
Fixpoint work (l : list act) (s : system) (e : masks) : result (list (option finding) * system * masks) :=
  match l with
  | [] => Ok ([], s, e)
  | x :: l => bind (do_act x s e) (fun y => let '(f, s1, e1) := y in bind (work l s1 e1) (fun z => let '(fs, s2, e2) := z in Ok (f :: fs, s2, e2)))
  end.
End WithGalpy.
