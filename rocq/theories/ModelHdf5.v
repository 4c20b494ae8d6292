(* NBODY6++ output in HDF5 files (snap.40), with or without the header of a conf.3 file.  Models clustertools/io/nbody6pp.py:55-161, 236-238, 457-493,
   the hdf5 branches of clustertools/io/load.py (189-206, 431-477, 733-754) and cluster.py:1063-1104 with a list.
   Simplifications: an HDF5 file is the list of its groups Step#0, Step#1, ...; the datasets of a group are read row by row, so all have the same length,
   and N_SINGLE, which is only kept as n_p, is one of its numbers.  L is positive (np.log10).  Orbit files, wdir and snapdir are those of
   ModelNbody6pp and are left out here. *)
From Coq Require Import String Ascii.
From Coq Require Import Init.Byte.
From Verif Require Import Base ModelCluster ModelOps ModelRecipes ModelEnergy ModelStars ModelLoad ModelDynamics ModelNbody6 ModelNbody6pp.
Set Implicit Arguments.
Open Scope list_scope. Open Scope R_scope.

(* NAM, X1..V3, M, KW, L, RS, POT: nbody6pp.py:465-471 (RC and TE are read and not used) *)
Record hstar := mkHS { hs_id : Z; hs_p : six R; hs_m : R; hs_kw : R; hs_lum : R; hs_rs : R; hs_pot : R }.
(* NAM1, NAM2, XC and VC, XR and VR, M1, M2, A, ECC, P, KW1, KW2, KWC, L1, L2, RS1, RS2, POT: nbody6pp.py:485-491 (G, MC, NAMC, RC and TE are not kept) *)
Record hpair := mkHP {
  hb_id1 : Z; hb_id2 : Z; hb_com : six R; hb_rel : six R; hb_m1 : R; hb_m2 : R; hb_a : R; hb_ecc : R; hb_P : R;
  hb_kw1 : R; hb_kw2 : R; hb_kwc : R; hb_L1 : R; hb_L2 : R; hb_rs1 : R; hb_rs2 : R; hb_pot : R }.
Record hstep := mkStep { n_time : R; n_single : nat; n_alone : list hstar; n_pairs : option (list hpair) }.

(* the numbers add_nbody6 takes: cluster.py:1063-1064 *)
Record nbinfo := mkNI {
  ni_nc : R; ni_rc : R; ni_rbar : R; ni_rtide : R; ni_xc : R; ni_yc : R; ni_zc : R; ni_zmbar : R; ni_vbar : R; ni_tbar : R; ni_rscale : R;
  ni_ns : nat; ni_nb : nat; ni_np : R }.
(* the cluster and pot, nc, rc, rtide, rscale, n_p, ngroups, ngroup, nsnap, sfile *)
Record h5 := mkH5 {
  h5_cat : catalog; h5_pots : list R; h5_nc : R; h5_rc : R; h5_rtide : R; h5_rscale : R; h5_np : R;
  h5_ngroups : nat; h5_ngroup : nat; h5_nsnap : Z; h5_file : list hstep }.

(* cluster.py:1063-1104 *)
Definition add_info (a : nbinfo) (k : catalog) : catalog :=
  add_nbody6 (ni_rbar a) (ni_xc a) (ni_yc a) (ni_zc a) (ni_zmbar a) (ni_vbar a) (ni_tbar a) (ni_ns a) (ni_nb a) k.
(* _get_nbody6pp_conf3(..., return_alist_only=True): nbody6pp.py:246-322.  Without stars, or when the file cannot be read, a tuple of 13 values is
   returned and alist[13] raises IndexError *)
Definition conf_scalars (D : decoder) (f : bytes) : result (list R) :=
  bind (get_conf3 D (Some f)) (fun v => if Z.ltb 0 (o3_n (v_out v)) then Ok (o3_a (v_out v)) else Raise).
(* nbody6pp.py:101-103 *)
Definition info_of (l : list R) (ntot nb : nat) : result nbinfo :=
  bind (al l 13) (fun nc => bind (al l 12) (fun rc => bind (al l 2) (fun rb => bind (al l 4) (fun rt =>
  bind (al l 6) (fun x => bind (al l 7) (fun y => bind (al l 8) (fun z => bind (al l 3) (fun zm =>
  bind (al l 11) (fun vb => bind (al l 10) (fun tb => bind (al l 17) (fun rs => bind (al l 1) (fun nn =>
  Ok (mkNI nc rc rb rt x y z zm vb tb rs ntot nb (INR ntot + nn)))))))))))))).
(* add_stars of arrays: nbody6pp.py:108, 138 *)
Definition six_cols (l : list (six R)) : six (arg R) :=
  mk6 (Array (map (@sx _) l)) (Array (map (@sy _) l)) (Array (map (@sz _) l))
      (Array (map (@svx _) l)) (Array (map (@svy _) l)) (Array (map (@svz _) l)).
Definition rows_args (s : list (six R)) (m : list R) (id : list Z) : star_args :=
  mkArgs (six_cols s) (Some (Array m)) (Some (Array id)) None None.
(* nbody6pp.py:119-133: the components about the centre of mass; bmr1 * xr and bmr2 * xr *)
Definition component1 (b : hpair) : six R := map6 (Rmult (hb_m2 b / (hb_m1 b + hb_m2 b))) (hb_rel b).
Definition component2 (b : hpair) : six R := map6 (Rmult (- hb_m1 b / (hb_m1 b + hb_m2 b))) (hb_rel b).
Definition with_pairs (nb : nat) (b : pairs) (k : catalog) : catalog :=
  let c := g_c k in
  mkCat (mkC (c_units c) (c_origin c) (c_bunits c) nb (c_ph c) (c_sc c) (c_bin c) (c_sky c) (c_der c) (c_id c))
        (g_m0 k) (g_npop k) b (g_sse k) (g_bse k) (g_ntot k) (g_ns k).
(* nbody6pp.py:80-82, 107-135.  add_binary_stars with set_com=False and without masses ends after cluster.py:757: mb1 and mb2 get ones *)
Definition add_pairs (l : list hpair) (k : catalog) : result catalog :=
  bind (add_stars 0 (rows_args (map hb_com l) (map (fun b => hb_m1 b + hb_m2 b) l) (map hb_id1 l)) true false false k) (fun k1 =>
  bind (add_bse (map hb_id1 l) (map hb_id2 l) (map hb_kw1 l) (map hb_kw2 l) (map hb_kwc l) (map hb_ecc l) (map hb_P l) (map hb_a l) (map hb_m1 l) (map hb_m2 l)
          (map (fun b => log10 (hb_L1 b)) l) (map (fun b => log10 (hb_L2 b)) l) (map hb_rs1 l) (map hb_rs2 l) k1) (fun k2 =>
  let k3 := set_cluster k2 (set_bin (g_c k2) (c_bin (g_c k2)) (Some Baudays)) in
  bind (add_sse (map hb_kw1 l) (map (fun b => log10 (pow10 (log10 (hb_L1 b)) + pow10 (log10 (hb_L2 b)))) l)
          (map (fun b => Rmax (hb_rs1 b) (hb_rs2 b)) l) None None None k3) (fun k4 =>
  bind (store_pairs (six_cols (map component1 l)) (six_cols (map component2 l)) None None (c_nb (g_c k4)) (g_b k4)) (fun r =>
  Ok (with_pairs (fst r) (snd r) k4))))).
(* cluster.xc *= cluster.rbar and tphys *= tbar: nbody6pp.py:147-150, 154-157 *)
Definition times_scales (c : cluster) : cluster :=
  let p := c_ph c in let o := p_c p in let s := c_sc c in
  set_ph c (mkP (p_t p * tbar s) (p_m p) (p_s p) (mk6 (sx o * rbar s) (sy o * rbar s) (sz o * rbar s) (svx o) (svy o) (svz o)) (p_g p)) (c_units c).
(* to_nbody(analyze=False) of a cluster in pc and km/s: operations.py:396-432 *)
Definition pckms_cluster_to_nbody (c : cluster) : cluster := bin_to_nbody (set_ph c (pckms_to_nbody (c_sc c) (c_ph c)) (Some Unbody)).
Definition set_nb (nb : nat) (c : cluster) : cluster :=
  mkC (c_units c) (c_origin c) (c_bunits c) nb (c_ph c) (c_sc c) (c_bin c) (c_sky c) (c_der c) (c_id c).
Record h5_opts := mkH5o { y_analyze : bool; y_sort : bool; y_ro : R; y_vo : R }.
Section WithGalpy.
Variable G : galpy.
(* nbody6pp.py:146-157 *)
Definition rescale_h5 (given advance : bool) (c : cluster) : result cluster :=
  if given then Ok (times_scales c)
  else if advance then Ok c
  else match reset_nbody_scale_method G true true true false false c with Ok c' => Ok (times_scales c') | Raise => Raise end.
(* nbody6pp.py:75-161, 236-238, 244.  conf3: the header of a conf.3 file; nlist: nbody6list *)
Definition get_h5 (o : h5_opts) (conf3 : option (result (list R))) (f : list hstep) (ngroup : nat) (nsnap : number) (advance : bool)
    (nlist : option nbinfo) : result h5 :=
  match nth_error f ngroup with
  | None => Raise                                         (* KeyError *)
  | Some s =>
    let l := match n_pairs s with Some l => l | None => [] end in
    let nb := length l in
    bind (match conf3 with
          | Some h => bind h (fun a => bind (info_of a (n_single s) nb) (fun i => Ok (Some i)))
          | None => Ok nlist end) (fun info =>
    let k0 := init_catalog (init_cluster (n_time s) (Some Upckms) (Some Ocluster) (y_ro o) (y_vo o)) in
    let k1 := match info with Some i => add_info i k0 | None => k0 end in
    bind (match n_pairs s with Some l => add_pairs l k1 | None => Ok k1 end) (fun k2 =>
    bind (add_stars 0 (rows_args (map hs_p (n_alone s)) (map hs_m (n_alone s)) (map hs_id (n_alone s))) true false false k2) (fun k3 =>
    bind (add_sse (map hs_kw (n_alone s)) (map (fun a => log10 (hs_lum a)) (n_alone s)) (map hs_rs (n_alone s)) None None None k3) (fun k4 =>
    bind (rescale_h5 (match info with Some _ => true | None => false end) advance (g_c k4)) (fun c5 =>
    let c6 := pckms_cluster_to_nbody c5 in
    let c7 := match n_pairs s with Some _ => set_nb nb c6 | None => c6 end in
    let c8 := if y_analyze o && Nat.ltb 0 (g_ntot k4) then analyze (y_sort o) false c7 else c7 in
    let '(nc, rc, rt, rs, np) := match info with Some i => (ni_nc i, ni_rc i, ni_rtide i, ni_rscale i, ni_np i) | None => (0, 0, 0, 1, 0) end in
    Ok (mkH5 (set_cluster k4 c8) (map hb_pot l ++ map hs_pot (n_alone s)) nc rc rt rs np (length f) ngroup (int_n nsnap) f))))))
  end.
(* the files of a directory *)
Record h5_disk := mkHD { q_conf : number -> option bytes; q_snap : number -> option (list hstep) }.
Definition header_on (D : decoder) (d : h5_disk) (n : number) : option (result (list R)) := option_map (conf_scalars D) (q_conf d n).
Definition open_h5 (D : decoder) (d : h5_disk) (o : h5_opts) (n : number) (advance : bool) : result h5 :=
  match q_snap d n with Some f => get_h5 o (header_on D d n) f 0 n advance None | None => Raise end.
(* load.py:189-206 with ngroup 0; the name has a float when dtout is one *)
Definition load_h5 (D : decoder) (d : h5_disk) (o : h5_opts) (dtout : number) (nsnap : Z) : result h5 :=
  open_h5 D d o (match dtout with Float _ => Float (IZR nsnap) | Whole _ => Whole nsnap end) false.
(* load.py:444-459: the cluster is taken to N-body units to read off its centre *)
Definition list_of (v : h5) : option nbinfo :=
  if Reqb (h5_nc v) 0 || Reqb (h5_np v) 0 then None
  else
    let c := match c_units (g_c (h5_cat v)) with Some Unbody => g_c (h5_cat v) | _ => to_nbody G (g_c (h5_cat v)) end in
    let s := c_sc c in let p := p_c (c_ph c) in
    Some (mkNI (h5_nc v) (h5_rc v) (rbar s) (h5_rtide v) (sx p) (sy p) (sz p) (zmbar s) (vbar s) (tbar s) (h5_rscale v)
               (Z.to_nat (g_ns (h5_cat v))) (c_nb c) (h5_np v)).
(* load.py:431-477, 733, 752-754 *)
Definition advance_h5 (D : decoder) (d : h5_disk) (o : h5_opts) (dtout : number) (v : h5) : result h5 :=
  let g := S (h5_ngroup v) in
  if Nat.ltb g (h5_ngroups v) then get_h5 o None (h5_file v) g (Whole (Z.max 0 (h5_nsnap v))) true (list_of v)
  else open_h5 D d o (plus_n (plus_n (Whole (Z.max 0 (h5_nsnap v) + 1)) dtout) (Whole (-1))) true.
Fixpoint advance_h5_times (D : decoder) (d : h5_disk) (o : h5_opts) (dtout : number) (n : nat) (v : h5) : result h5 :=
  match n with O => Ok v | S n' => bind (advance_h5_times D d o dtout n' v) (advance_h5 D d o dtout) end.
End WithGalpy.
