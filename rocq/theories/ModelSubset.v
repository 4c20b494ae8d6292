(* Selecting stars.  Models clustertools/cluster/cluster.py:836-1003 (add_orbit), 1519-1552 (subset),
   3838-3951 (_get_subset), 3953-4229 (sub_cluster), 4231-4277 (overlap_cluster). *)
From Verif Require Import Base ModelCluster ModelOps ModelConv ModelEnergy ModelRecipes ModelStars.
Set Implicit Arguments.

(* cluster.py:3838-3854 without indx *)
Record selection := mkSel {
  l_rmin : option R; l_rmax : option R; l_mmin : option R; l_mmax : option R; l_vmin : option R; l_vmax : option R;
  l_emin : option R; l_emax : option R; l_kwmin : R; l_kwmax : R; l_npop : option Z; l_projected : bool }.

(* a catalogue with its energies (cluster.py:359-361); gyrfalcon data, actions and file names are not kept *)
Record system := mkSys { y_k : catalog; y_kin : list R; y_pot : list num; y_etot : list num }.

(* elementwise comparisons of an array with a number; a comparison with nan is false *)
Definition at_least (a : R) (l : list R) : list bool := map (fun x => Rleb a x) l.
Definition at_most (b : R) (l : list R) : list bool := map (fun x => Rleb x b) l.
Definition nat_least (a : R) (l : list num) : list bool := map (fun x => match x with Some x => Rleb a x | None => false end) l.
Definition nat_most (b : R) (l : list num) : list bool := map (fun x => match x with Some x => Rleb x b | None => false end) l.
Definition bands (a b : list bool) : result (list bool) := np2 andb a b.     (* a * b of boolean arrays *)

(* indx *= x, in place: x must have the shape of indx or one entry; None is the exception caught at 3947 *)
Definition in_place_and (indx x : list bool) : option (list bool) :=
  if Nat.eqb (length x) (length indx) then Some (zip_with andb indx x)
  else match x with [b] => Some (map (fun a => a && b) indx) | _ => None end.

(* default limits, cluster.py:3894-3905: np.amin/np.amax raise on an empty array *)
Definition limit (o : option R) (d : option R) : result R :=
  match o, d with Some a, _ => Ok a | None, Some b => Ok b | None, None => Raise end.

Fixpoint bands_all (a : list bool) (l : list (list bool)) : result (list bool) :=
  match l with [] => Ok a | b :: t => bind (bands a b) (fun c => bands_all c t) end.

(* cluster.py:3838-3951.  Result: the value returned (None is -1, line 3949) and the contents, after the call, of the
   array the caller passed as indx: `indx *=` (3935) writes into it. *)
Definition get_subset (q : selection) (indx : option (list bool)) (s : system)
    : result (option (list bool) * option (list bool)) :=
  let k := y_k s in let d := c_der (g_c k) in let m := p_m (c_ph (g_c k)) in
  let r := if l_projected q then d_rpro d else d_r d in
  let v := if l_projected q then d_vpro d else d_v d in
  let ones := repeat true (g_ntot k) in
  bind (limit (l_rmin q) (amin r)) (fun rmin => bind (limit (l_rmax q) (amax r)) (fun rmax =>
  bind (limit (l_vmin q) (amin v)) (fun vmin => bind (limit (l_vmax q) (amax v)) (fun vmax =>
  bind (limit (l_mmin q) (amin m)) (fun mmin => bind (limit (l_mmax q) (amax m)) (fun mmax =>
  let npopindx := match l_npop q with None => ones | Some p => map (Z.eqb p) (g_npop k) end in
  bind (match l_emin q, l_emax q with
        | None, Some b => Ok (nat_most b (y_etot s))
        | Some a, None => Ok (nat_least a (y_etot s))
        | Some a, Some b => bands (nat_most b (y_etot s)) (nat_least a (y_etot s))
        | None, None => Ok ones end) (fun eindx =>
  bind (if Nat.ltb 0 (length (e_kw (g_sse k)))
        then bands (at_least (l_kwmin q) (e_kw (g_sse k))) (at_most (l_kwmax q) (e_kw (g_sse k)))
        else Ok ones) (fun kwindx =>
  let start := match indx with None => ones | Some l => l end in
  let answer :=
    match bands_all (at_least rmin r) [at_most rmax r; at_least mmin m; at_most mmax m; at_least vmin v; at_most vmax v;
                                       npopindx; kwindx; eindx] with
    | Ok x => in_place_and start x
    | Raise => None
    end in
  Ok (answer, match indx, answer with Some l, Some a => Some a | _, _ => indx end))))))))).

(* a[mask]: IndexError when the lengths differ *)
Definition masked {A} (msk : list bool) (l : list A) : result (list A) :=
  if Nat.eqb (length msk) (length l) then Ok (select msk l) else Raise.

(* np.isin(a, b) for integer arrays *)
Definition isin (a b : list Z) : list bool := map (fun x => existsb (Z.eqb x) b) a.

Definition with_cluster (k : catalog) (c : cluster) : catalog := set_cluster k c.
Definition with_stars_sky (k : catalog) (s : six (list R)) : catalog :=
  let c := g_c k in let q := c_sky c in
  set_cluster k (set_sky c (mkSk s (k_gc q) (k_c q) (k_orbit q) (k_orbits q) (k_xcn q))).

(* cluster.py:960-993, add_orbit without ounits, tphys and initialize: in sky coordinates an array of zeros gets the
   value of the orbit added *)
Definition zero_array (l : list R) : bool := forallb (fun a => Reqb a 0) l.
Definition fill_missing (a : R) (l : list R) : list R := if zero_array l then map (fun x => x + a) l else l.
Definition fill6 (g : six R) (s : six (list R)) : six (list R) :=
  mk6 (fill_missing (sx g) (sx s)) (fill_missing (sy g) (sy s)) (fill_missing (sz g) (sz s))
      (fill_missing (svx g) (svx s)) (fill_missing (svy g) (svy s)) (fill_missing (svz g) (svz s)).
Definition store_orbit (g : six R) (c : cluster) : cluster :=
  let p := c_ph c in
  let c1 := set_ph c (mkP (p_t p) (p_m p) (p_s p) (p_c p) g) (c_units c) in
  match c_units c with
  | Some Uradec =>
      let q := c_sky c in
      set_sky c1 (mkSk (match c_origin c with Some Osky => fill6 g (k_s q) | _ => k_s q end) g (k_c q)
                       (k_orbit q) (k_orbits q) (k_xcn q))
  | _ => c1
  end.

(* cluster.py:4191-4207 *)
Definition copy_centre (from c : cluster) : cluster :=
  let p := c_ph c in let q := c_sky c in
  set_sky (set_ph c (mkP (p_t p) (p_m p) (p_s p) (p_c (c_ph from)) (p_g p)) (c_units c))
          (mkSk (k_s q) (k_gc (c_sky from)) (k_c q) (k_orbit q) (k_orbits q) (k_xcn q)).

Definition masked6 (msk : list bool) (s : six (list R)) : result (six (list R)) := all6 (map6 (masked msk) s).

(* cluster.py:4051-4062: the arrays of the selected stars *)
Definition selected_args (msk : list bool) (k : catalog) : result star_args :=
  let c := g_c k in
  bind (masked6 msk (p_s (c_ph c))) (fun s6 => bind (masked msk (p_m (c_ph c))) (fun m =>
  bind (masked msk (c_id c)) (fun id => bind (masked msk (g_m0 k)) (fun m0 => bind (masked msk (g_npop k)) (fun np =>
  Ok (mkArgs (map6 Array s6) (Some (Array m)) (Some (Array id)) (Some (Array m0)) (Some (Array np)))))))).

(* cluster.py:4085-4101 *)
Definition copy_sse (msk : list bool) (from k : catalog) : result catalog :=
  let e := g_sse from in
  if Nat.ltb 0 (length (e_logl e)) then
    bind (masked msk (e_kw e)) (fun kw => bind (masked msk (e_logl e)) (fun logl => bind (masked msk (e_logr e)) (fun logr =>
    if Nat.eqb (length (e_ep e)) 0 || Nat.eqb (length (e_ospin e)) 0 then add_sse kw logl logr None None None k
    else bind (masked msk (e_ep e)) (fun ep => bind (masked msk (e_ospin e)) (fun os =>
         add_sse kw logl logr (Some ep) (Some os) None k)))))
  else if Nat.ltb 0 (length (e_kw e)) then
    bind (masked msk (e_kw e)) (fun kw =>
    let e' := g_sse k in
    Ok (mkCat (g_c k) (g_m0 k) (g_npop k) (g_b k)
          (mkSse kw (e_logl e') (e_logr e') (e_lum e') (e_ep e') (e_ospin e') (e_ltot e')) (g_bse k) (g_ntot k) (g_ns k)))
  else Ok k.

(* cluster.py:4104-4148; the parent's binaries with a component among the selected ids *)
Definition copy_bse (msk : list bool) (from k : catalog) : result catalog :=
  let e := g_bse from in let q := c_bin (g_c from) in
  if Nat.ltb 0 (length (f_id2 e)) then
    bind (masked msk (c_id (g_c from))) (fun ids =>
    bind (np2 orb (isin (f_id1 e) ids) (isin (f_id2 e) ids)) (fun b =>
    bind (masked b (f_id1 e)) (fun id1 => bind (masked b (f_id2 e)) (fun id2 =>
    bind (masked b (f_kw1 e)) (fun kw1 => bind (masked b (f_kw2 e)) (fun kw2 =>
    bind (masked b (f_kcm e)) (fun kcm => bind (masked b (f_ecc e)) (fun ecc =>
    bind (masked b (b_pb q)) (fun pb => bind (masked b (b_semi q)) (fun semi =>
    bind (masked b (b_m1 q)) (fun m1 => bind (masked b (b_m2 q)) (fun m2 =>
    bind (masked b (f_logl1 e)) (fun l1 => bind (masked b (f_logl2 e)) (fun l2 =>
    bind (masked b (f_logr1 e)) (fun r1 => bind (masked b (f_logr2 e)) (fun r2 =>
    add_bse id1 id2 kw1 kw2 kcm ecc pb semi m1 m2 l1 l2 r1 r2 k))))))))))))))))
  else Ok k.

(* cluster.py:4040-4207 with reset_centre=False and no reset_nbody*: the new StarCluster.  StarCluster() gets units and
   hence bunits (148); the stars are added with sortstars; add_nbody6 copies scales and counts (4077-4080). *)
Definition build_sub (sort : bool) (msk : list bool) (s : system) : result system :=
  let k := y_k s in let c := g_c k in let sc := c_sc c in let g := p_g (c_ph c) in let xc := p_c (c_ph c) in
  bind (selected_args msk k) (fun a =>
  bind (add_stars 0 a sort true true (init_catalog (init_cluster (p_t (c_ph c)) (c_units c) (c_origin c) (ro sc) (vo sc)))) (fun k1 =>
  bind (if Nat.eqb (length (sx (k_s (c_sky c)))) (length (sx (p_s (c_ph c))))
        then bind (masked6 msk (k_s (c_sky c))) (fun r => Ok (with_stars_sky k1 r)) else Ok k1) (fun k2 =>
  let k3 := add_nbody6 (rbar sc) (sx xc) (sy xc) (sz xc) (zmbar sc) (vbar sc) (tbar sc) (Z.to_nat (g_ns k)) (c_nb c) k2 in
  bind (copy_sse msk k k3) (fun k4 =>
  bind (copy_bse msk k k4) (fun k5 =>
  bind (if Nat.ltb 0 (length (y_etot s))
        then bind (masked msk (y_kin s)) (fun kin => bind (masked msk (y_pot s)) (fun pot =>
             let e := add_energies kin pot in Ok (e_kin e, e_pot e, e_etot e)))
        else Ok ([], [], [])) (fun r => let '(kin, pot, etot) := r in
  let k6 := set_cluster k5 (copy_centre c (store_orbit g (g_c k5))) in
  Ok (mkSys k6 kin pot etot))))))).

(* cluster.py:4219: StarCluster(cluster.tphys) *)
Definition nothing_selected (t : R) : system := mkSys (init_catalog (init_cluster t None None 8 220)) [] [] [].

Section WithGalpy.
Variable G : galpy.

(* cluster.py:3953-4229: the new cluster, the parent afterwards, the caller's mask afterwards.  units and origin of
   the new cluster are those of the parent, so 4222-4223 do nothing. *)
Definition sub_cluster (q : selection) (indx : option (list bool)) (sort : bool) (s : system)
    : result (system * system * option (list bool)) :=
  let c := g_c (y_k s) in
  bind (get_subset q indx s) (fun r => let '(answer, caller) := r in
  bind (match answer with
        | Some msk => if Nat.ltb 0 (count msk) then build_sub sort msk s else Ok (nothing_selected (p_t (c_ph c)))
        | None => Ok (nothing_selected (p_t (c_ph c))) end) (fun sub =>
  let sub' := if Nat.ltb 0 (g_ntot (y_k sub))
              then mkSys (set_cluster (y_k sub) (analyze sort true (g_c (y_k sub)))) (y_kin sub) (y_pot sub) (y_etot sub)
              else sub in
  let parent := mkSys (set_cluster (y_k s) (return_cluster G (save_cluster c) c)) (y_kin s) (y_pot s) (y_etot s) in
  Ok (sub', parent, caller))).

(* cluster.py:4256-4271: is star i of cluster1 closer than tol to a star of cluster2 *)
Definition near_any (tol : R) (projected : bool) (s1 s2 : six (list R)) (i : nat) : result bool :=
  let dx := map (fun b => nth i (sx s1) 0 - b) (sx s2) in
  let dy := map (fun b => nth i (sy s1) 0 - b) (sy s2) in
  let dz := map (fun b => nth i (sz s1) 0 - b) (sz s2) in
  bind (if projected then np2 (fun a b => sqrt (a ^ 2 + b ^ 2)) dx dy
        else bind (np2 (fun a b => a ^ 2 + b ^ 2) dx dy) (fun p => np2 (fun a b => sqrt (a + b ^ 2)) p dz)) (fun dr =>
  match amin dr with Some d => Ok (Rltb d tol) | None => Raise end).
Definition overlap_mask (tol : R) (projected : bool) (c1 c2 : cluster) : result (list bool) :=
  let s1 := p_s (c_ph c1) in let s2 := p_s (c_ph c2) in
  fold_right (fun i acc => bind (near_any tol projected s1 s2 i) (fun b => bind acc (fun l => Ok (b :: l)))) (Ok [])
             (seq 0 (length (sx s1))).

(* default limits of subset/sub_cluster *)
Definition select_default : selection := mkSel None None None None None None None None 0 15 None false.

(* cluster.py:4231-4277 *)
Definition overlap_cluster (tol : R) (projected : bool) (s1 s2 : system) : result (system * system) :=
  bind (overlap_mask tol projected (g_c (y_k s1)) (g_c (y_k s2))) (fun indx =>
  bind (sub_cluster select_default (Some indx) true s1) (fun r => let '(sub, parent, _) := r in Ok (sub, parent))).
End WithGalpy.
