(* What an HDF5 snapshot of NBODY6++ holds: pairs, each seen as one star at its centre of mass, then single stars, in pc, km/s and Msun. *)
From Verif Require Import Base ModelCluster ModelRecipes ModelEnergy ModelStars ModelNbody6 ModelNbody6pp ModelHdf5.
Open Scope list_scope. Open Scope R_scope.
Record entry := mkE { x_name : Z; x_mass : R; x_place : six R; x_type : R; x_lum : R; x_radius : R; x_pot : R }.
Definition the_pairs (s : hstep) : list hpair := match n_pairs s with Some l => l | None => [] end.
Definition entries (s : hstep) : list entry :=
  map (fun b => mkE (hb_id1 b) (hb_m1 b + hb_m2 b) (hb_com b) (hb_kw1 b) (hb_L1 b + hb_L2 b) (Rmax (hb_rs1 b) (hb_rs2 b)) (hb_pot b)) (the_pairs s) ++
  map (fun a => mkE (hs_id a) (hs_m a) (hs_p a) (hs_kw a) (hs_lum a) (hs_rs a) (hs_pot a)) (n_alone s).
Definition luminous (s : hstep) : Prop :=
  (forall a, In a (n_alone s) -> 0 < hs_lum a) /\ (forall b, In b (the_pairs s) -> 0 < hb_L1 b /\ 0 < hb_L2 b).
(* the stars of a cluster in N-body units, in pc, km/s and Msun *)
Definition shown (v : h5) (i : nat) : entry :=
  let k := h5_cat v in let c := g_c k in let s := c_sc c in let p := p_s (c_ph c) in let e := g_sse k in
  mkE (nth i (c_id c) 0%Z) (nth i (p_m (c_ph c)) 0 * zmbar s)
      (mk6 (nth i (sx p) 0 * rbar s) (nth i (sy p) 0 * rbar s) (nth i (sz p) 0 * rbar s)
           (nth i (svx p) 0 * vbar s) (nth i (svy p) 0 * vbar s) (nth i (svz p) 0 * vbar s))
      (nth i (e_kw e) 0) (nth i (e_lum e) 0) (nth i (e_logr e) 0) (nth i (h5_pots v) 0).
(* a cluster in N-body units, centred on the cluster, with the stars of a group of the file and its time *)
Definition shows (s : hstep) (v : h5) : Prop :=
  let k := h5_cat v in let c := g_c k in let n := length (entries s) in
  c_units c = Some Unbody /\ c_origin c = Some Ocluster /\ g_ntot k = n /\ c_nb c = length (the_pairs s) /\ p_t (c_ph c) = n_time s /\
  length (c_id c) = n /\ length (p_m (c_ph c)) = n /\ map6 (@length R) (p_s (c_ph c)) = mk6 n n n n n n /\ length (h5_pots v) = n /\
  forall i, (i < n)%nat -> nth_error (entries s) i = Some (shown v i).
(* pairs with semi-major axes in AU, periods in days and masses in Msun, as the cluster shows them in its units *)
Definition shows_pairs (s : hstep) (v : h5) (au days : R) : Prop :=
  let c := g_c (h5_cat v) in let b := c_bin c in
  c_bunits c = Some (Bu Unbody) /\
  map (Rmult au) (b_semi b) = map hb_a (the_pairs s) /\ map (Rmult days) (b_pb b) = map hb_P (the_pairs s) /\
  map (Rmult (zmbar (c_sc c))) (b_m1 b) = map hb_m1 (the_pairs s) /\ map (Rmult (zmbar (c_sc c))) (b_m2 b) = map hb_m2 (the_pairs s) /\
  f_ecc (g_bse (h5_cat v)) = map hb_ecc (the_pairs s) /\ f_id1 (g_bse (h5_cat v)) = map hb_id1 (the_pairs s) /\ f_id2 (g_bse (h5_cat v)) = map hb_id2 (the_pairs s).
(* AU in a parsec *)
Definition au_in_pc : R := 648000 / PI.
(* the numbers of a conf.3 header *)
Record header := mkHd { hd_mass : R; hd_length : R; hd_speed : R; hd_time : R; hd_centre : R * R * R; hd_core : R; hd_tide : R; hd_rc : R; hd_rscale : R; hd_extra : R }.
Definition header_of (l : list R) (h : header) : Prop :=
  nth_error l 3 = Some (hd_mass h) /\ nth_error l 2 = Some (hd_length h) /\ nth_error l 11 = Some (hd_speed h) /\ nth_error l 10 = Some (hd_time h) /\
  nth_error l 6 = Some (fst (fst (hd_centre h))) /\ nth_error l 7 = Some (snd (fst (hd_centre h))) /\ nth_error l 8 = Some (snd (hd_centre h)) /\
  nth_error l 13 = Some (hd_core h) /\ nth_error l 4 = Some (hd_tide h) /\ nth_error l 12 = Some (hd_rc h) /\ nth_error l 17 = Some (hd_rscale h) /\
  nth_error l 1 = Some (hd_extra h).
Definition positive_header (h : header) : Prop := 0 < hd_mass h /\ 0 < hd_length h /\ 0 < hd_speed h /\ 0 < hd_time h.
(* the scales and the centre (in N-body units) are those of the header *)
Definition scaled_by (h : header) (v : h5) : Prop :=
  let c := g_c (h5_cat v) in let s := c_sc c in let o := p_c (c_ph c) in
  zmbar s = hd_mass h /\ rbar s = hd_length h /\ vbar s = hd_speed h /\ tbar s = hd_time h /\
  (sx o, sy o, sz o) = hd_centre h /\ h5_nc v = hd_core h /\ h5_rtide v = hd_tide h /\ h5_rc v = hd_rc h /\ h5_rscale v = hd_rscale h.
(* the stars of a group as points, in pc and Msun *)
Definition file_bodies (s : hstep) : list star4 :=
  map (fun e => mk4 (sx (x_place e)) (sy (x_place e)) (sz (x_place e)) (x_mass e)) (entries s).
