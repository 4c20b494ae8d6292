(* Specification of work through the snapshots of a simulation. *)
From Verif Require Import Base ModelCluster ModelOps ModelStars ModelSubset ModelLoad ModelGyr ModelNbody6 ModelNbody6pp ModelHdf5 ModelHistory ModelSurvey ModelCampaign.
From Verif Require Import SpecFrame SpecLoad.
Set Implicit Arguments.
Open Scope list_scope. Open Scope R_scope.

(* what the i-th session finds when it is the only one: on the cluster obtained by advancing i times without looking *)
Definition alone_on (G : galpy) (V : Type) (cat : V -> catalog) (next : V -> result V) (l : list (list act * masks)) (v : V) (i : nat)
    : result (list (option finding) * system * masks) :=
  bind (onwards next i v) (fun w => work G (fst (nth i l ([], fun _ => []))) (unmeasured (cat w)) (snd (nth i l ([], fun _ => [])))).
(* a campaign is its sessions made independently: all of them succeed and these are their findings, or one of them (or reading its snapshot) fails alone *)
Definition independent (G : galpy) (V : Type) (cat : V -> catalog) (next : V -> result V) (l : list (list act * masks)) (v : V)
    (r : result (list (list (option finding)) * V)) : Prop :=
  match r with
  | Ok (fs, v') =>
      length fs = length l /\
      (forall i, (i < length l)%nat -> exists s e, alone_on G cat next l v i = Ok (nth i fs [], s, e) /\ (S i = length l -> cat v' = y_k s))
  | Raise => exists i, (i < length l)%nat /\ alone_on G cat next l v i = Raise
  end.
(* the load_cluster call that opens snapshot n with the keywords o *)
Definition open_at (o : load_opts) (n : nat) : load_opts :=
  mkLO (set_nsnap (l_set o) n) (l_names o) (l_nums o) (l_units o) (l_origin o) (l_tphys o) (l_analyze o) (l_sort o) (l_proj o) (l_ro o) (l_vo o) (l_orbit o).
(* advance_cluster is given the keywords load_cluster was given *)
Definition same_keywords (o : load_opts) (a : adv_opts) (proj : bool) : Prop :=
  advance_columns a = (l_names o, l_nums o) /\ w_analyze a = l_analyze o /\ w_sort a = l_sort o /\ proj = l_proj o /\ w_tphys a = l_tphys o /\
  w_rovo a = (l_ro o, l_vo o) /\ w_orbit a = l_orbit o.
(* the galactic constants of the reader can be divided by *)
Definition galactic_constants (G : galpy) (o : h5_opts) : Prop :=
  y_ro o <> 0 /\ y_vo o <> 0 /\ time_in_Gyr G (y_ro o) (y_vo o) <> 0 /\ mass_in_msol G (y_ro o) (y_vo o) <> 0 /\ velocity_in_kpcGyr G (y_vo o) (y_ro o) <> 0.
(* the groups of an HDF5 file one after the other; group i is taken through the changes of units and origin h i before the next one is asked for *)
Definition worked (G : galpy) (D : decoder) (d : h5_disk) (o : h5_opts) (dt : number) (h : nat -> list op) (n : nat) (v : h5) : result h5 :=
  nat_rect (fun _ => result h5) (Ok v)
    (fun i w => bind w (fun w => advance_h5 G D d o dt (put_group w (set_cluster (h5_cat w) (run G (h i) (g_c (h5_cat w))))))) n.
