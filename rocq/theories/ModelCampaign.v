(* Working through the snapshots of a simulation: load, analyse, advance, analyse, ...  Composes clustertools/io/load.py 354-647, 712-777 (advance_cluster:
   the next cluster is made from the keywords, units_init, origin_init and open files of the present one; for NBODY6++ groups in HDF5 files also from its
   scales and its centre, 444-459) with the routines a user calls in between (ModelSurvey).  A new cluster has no energies (cluster.py 359-361). *)
From Verif Require Import Base ModelCluster ModelOps ModelConv ModelEnergy ModelRecipes ModelStars ModelSubset ModelLagrange ModelProfiles ModelLoad ModelGyr ModelHdf5.
From Verif Require Import ModelOrbit ModelTail ModelCentre ModelRadii ModelHistory ModelSurvey.
Set Implicit Arguments.
Open Scope list_scope. Open Scope R_scope.

(* the cluster object as loaded, and the loaded cluster with another catalogue *)
Definition put_snapshot (v : loaded) (k : catalog) : loaded := mkLoaded k (v_set v) (v_units v) (v_origin v) (v_orbit v).
Definition put_gyr (v : nemo) (k : catalog) : nemo := mkNemo (put_snapshot (n_v v) k) (n_file v) (n_extra v).
Definition put_new (v : new_nemo) (k : catalog) : new_nemo := mkNew (put_snapshot (z_v v) k) (z_file v) (z_dt v) (z_extra v).
Definition put_group (v : h5) (k : catalog) : h5 :=
  mkH5 k (h5_pots v) (h5_nc v) (h5_rc v) (h5_rtide v) (h5_rscale v) (h5_np v) (h5_ngroups v) (h5_ngroup v) (h5_nsnap v) (h5_file v).
Definition unmeasured (k : catalog) : system := mkSys k [] [] [].

Section Any.
Variable G : galpy.
Variable V : Type.
Variable cat : V -> catalog.
Variable put : V -> catalog -> V.
Variable next : V -> result V.
(* one session for each snapshot, each with masks of its own; between two sessions the cluster is advanced *)
Fixpoint campaign (l : list (list act * masks)) (v : V) : result (list (list (option finding)) * V) :=
  match l with
  | [] => Ok ([], v)
  | x :: l =>
    bind (work G (fst x) (unmeasured (cat v)) (snd x)) (fun y => let '(f, s, _) := y in let v1 := put v (y_k s) in
    match l with
    | [] => Ok ([f], v1)
    | _ :: _ => bind (next v1) (fun v2 => bind (campaign l v2) (fun z => Ok (f :: fst z, snd z)))
    end)
  end.
(* advancing only *)
Fixpoint onwards (n : nat) (v : V) : result V := match n with O => Ok v | S n => bind (onwards n v) next end.
End Any.
