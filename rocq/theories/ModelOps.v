(* Unit, origin and bookkeeping operations.  Models clustertools/cluster/operations.py. *)
From Verif Require Import Base ModelCluster.

(* galpy functions the code calls, as parameters:
   conversion.time_in_Gyr, mass_in_msol, velocity_in_kpcGyr (operations.py:180,181,265) and the astrometric
   transformation of an Orbit between galactocentric (kpc, km/s) and (ra,dec,dist,pmra,pmdec,vlos)
   (operations.py:482-501, 578-601). *)
Record galpy := mkG {
  time_in_Gyr : R -> R -> R; mass_in_msol : R -> R -> R; velocity_in_kpcGyr : R -> R -> R;
  to_radec6 : six R -> six R; of_radec6 : six R -> six R }.

(* 1.022712165045695, pc/Myr per km/s: operations.py:128-140 and throughout *)
Definition kms : R := 1022712165045695 / 1000000000000000.
(* mcon of operations.py:266,688 *)
Definition wd_mcon : R := 2222884543021174 / 10000000000.

Section WithGalpy.
Variable G : galpy.

(* vcon of operations.py:265,687 *)
Definition wd_vcon (s : scales) : R := vo s / velocity_in_kpcGyr G (vo s) (ro s).

(* operations.py:87-110, branch nbody of to_pckms *)
Definition nbody_to_pckms (s : scales) (p : phys) : phys :=
  let a := p_s p in let c := p_c p in let g := p_g p in
  mkP (p_t p * tbar s) (vmul (p_m p) (zmbar s))
    (mk6 (vmul (sx a) (rbar s)) (vmul (sy a) (rbar s)) (vmul (sz a) (rbar s))
         (vmul (svx a) (vbar s)) (vmul (svy a) (vbar s)) (vmul (svz a) (vbar s)))
    (mk6 (sx c * rbar s) (sy c * rbar s) (sz c * rbar s)
         (svx c * vbar s) (svy c * vbar s) (svz c * vbar s))
    (mk6 (sx g * rbar s) (sy g * rbar s) (sz g * rbar s)
         (svx g * vbar s) (svy g * vbar s) (svz g * vbar s)).

(* operations.py:113-126, branch kpckms of to_pckms *)
Definition kpckms_to_pckms (p : phys) : phys :=
  let a := p_s p in let c := p_c p in let g := p_g p in
  mkP (p_t p * 1000) (p_m p)
    (mk6 (vmul (sx a) 1000) (vmul (sy a) 1000) (vmul (sz a) 1000) (svx a) (svy a) (svz a))
    (mk6 (sx c * 1000) (sy c * 1000) (sz c * 1000) (svx c) (svy c) (svz c))
    (mk6 (sx g * 1000) (sy g * 1000) (sz g * 1000) (svx g) (svy g) (svz g)).

(* operations.py:129-140 and 250-260: divide velocities by 1.0227... (pcmyr -> pckms, kpcgyr -> kpckms) *)
Definition div_velocities (k : R) (p : phys) : phys :=
  let a := p_s p in let c := p_c p in let g := p_g p in
  mkP (p_t p) (p_m p)
    (mk6 (sx a) (sy a) (sz a) (vdiv (svx a) k) (vdiv (svy a) k) (vdiv (svz a) k))
    (mk6 (sx c) (sy c) (sz c) (svx c / k) (svy c / k) (svz c / k))
    (mk6 (sx g) (sy g) (sz g) (svx g / k) (svy g / k) (svz g / k)).

(* operations.py:310-320 and 351-361: multiply velocities by 1.0227... *)
Definition mul_velocities (k : R) (p : phys) : phys :=
  let a := p_s p in let c := p_c p in let g := p_g p in
  mkP (p_t p) (p_m p)
    (mk6 (sx a) (sy a) (sz a) (vmul (svx a) k) (vmul (svy a) k) (vmul (svz a) k))
    (mk6 (sx c) (sy c) (sz c) (svx c * k) (svy c * k) (svz c * k))
    (mk6 (sx g) (sy g) (sz g) (svx g * k) (svy g * k) (svz g * k)).

(* operations.py:179-201, branch galpy of to_kpckms *)
Definition galpy_to_kpckms (s : scales) (p : phys) : phys :=
  let a := p_s p in let c := p_c p in let g := p_g p in
  mkP (p_t p * time_in_Gyr G (ro s) (vo s)) (vmul (p_m p) (mass_in_msol G (ro s) (vo s)))
    (mk6 (vmul (sx a) (ro s)) (vmul (sy a) (ro s)) (vmul (sz a) (ro s))
         (vmul (svx a) (vo s)) (vmul (svy a) (vo s)) (vmul (svz a) (vo s)))
    (mk6 (sx c * ro s) (sy c * ro s) (sz c * ro s) (svx c * vo s) (svy c * vo s) (svz c * vo s))
    (mk6 (sx g * ro s) (sy g * ro s) (sz g * ro s) (svx g * vo s) (svy g * vo s) (svz g * vo s)).

(* operations.py:205-227, branch nbody of to_kpckms *)
Definition nbody_to_kpckms (s : scales) (p : phys) : phys :=
  let a := p_s p in let c := p_c p in let g := p_g p in
  let rk := rbar s / 1000 in
  mkP (p_t p * (tbar s / 1000)) (vmul (p_m p) (zmbar s))
    (mk6 (vmul (sx a) rk) (vmul (sy a) rk) (vmul (sz a) rk)
         (vmul (svx a) (vbar s)) (vmul (svy a) (vbar s)) (vmul (svz a) (vbar s)))
    (mk6 (sx c * rk) (sy c * rk) (sz c * rk) (svx c * vbar s) (svy c * vbar s) (svz c * vbar s))
    (mk6 (sx g * rk) (sy g * rk) (sz g * rk) (svx g * vbar s) (svy g * vbar s) (svz g * vbar s)).

(* operations.py:231-245, branch pckms of to_kpckms *)
Definition pckms_to_kpckms (p : phys) : phys :=
  let a := p_s p in let c := p_c p in let g := p_g p in
  mkP (p_t p / 1000) (p_m p)
    (mk6 (vdiv (sx a) 1000) (vdiv (sy a) 1000) (vdiv (sz a) 1000) (svx a) (svy a) (svz a))
    (mk6 (sx c / 1000) (sy c / 1000) (sz c / 1000) (svx c) (svy c) (svz c))
    (mk6 (sx g / 1000) (sy g / 1000) (sz g / 1000) (svx g) (svy g) (svz g)).

(* operations.py:264-277, branch WDunits of to_kpckms *)
Definition wd_to_kpckms (s : scales) (p : phys) : phys :=
  let a := p_s p in let c := p_c p in let g := p_g p in
  let k := wd_vcon s in
  mkP (p_t p) (vmul (p_m p) wd_mcon)
    (mk6 (sx a) (sy a) (sz a) (vmul (svx a) k) (vmul (svy a) k) (vmul (svz a) k))
    (mk6 (sx c) (sy c) (sz c) (svx c * k) (svy c * k) (svz c * k))
    (mk6 (sx g) (sy g) (sz g) (svx g * k) (svy g * k) (svz g * k)).

(* operations.py:396-417 *)
Definition pckms_to_nbody (s : scales) (p : phys) : phys :=
  let a := p_s p in let c := p_c p in let g := p_g p in
  mkP (p_t p / tbar s) (vdiv (p_m p) (zmbar s))
    (mk6 (vdiv (sx a) (rbar s)) (vdiv (sy a) (rbar s)) (vdiv (sz a) (rbar s))
         (vdiv (svx a) (vbar s)) (vdiv (svy a) (vbar s)) (vdiv (svz a) (vbar s)))
    (mk6 (sx c / rbar s) (sy c / rbar s) (sz c / rbar s)
         (svx c / vbar s) (svy c / vbar s) (svz c / vbar s))
    (mk6 (sx g / rbar s) (sy g / rbar s) (sz g / rbar s)
         (svx g / vbar s) (svy g / vbar s) (svz g / vbar s)).

(* operations.py:634-656 *)
Definition kpckms_to_galpy (s : scales) (p : phys) : phys :=
  let a := p_s p in let c := p_c p in let g := p_g p in
  mkP (p_t p / time_in_Gyr G (ro s) (vo s)) (vdiv (p_m p) (mass_in_msol G (ro s) (vo s)))
    (mk6 (vdiv (sx a) (ro s)) (vdiv (sy a) (ro s)) (vdiv (sz a) (ro s))
         (vdiv (svx a) (vo s)) (vdiv (svy a) (vo s)) (vdiv (svz a) (vo s)))
    (mk6 (sx c / ro s) (sy c / ro s) (sz c / ro s) (svx c / vo s) (svy c / vo s) (svz c / vo s))
    (mk6 (sx g / ro s) (sy g / ro s) (sz g / ro s) (svx g / vo s) (svy g / vo s) (svz g / vo s)).

(* operations.py:693-704 *)
Definition kpckms_to_wd (s : scales) (p : phys) : phys :=
  let a := p_s p in let c := p_c p in let g := p_g p in
  let k := wd_vcon s in
  mkP (p_t p) (vdiv (p_m p) wd_mcon)
    (mk6 (sx a) (sy a) (sz a) (vdiv (svx a) k) (vdiv (svy a) k) (vdiv (svz a) k))
    (mk6 (sx c) (sy c) (sz c) (svx c / k) (svy c / k) (svz c / k))
    (mk6 (sx g) (sy g) (sz g) (svx g / k) (svy g / k) (svz g / k)).

(* operations.py:763-808 from_amuse: value_in() strips the AMUSE unit; the AMUSE quantity is represented by its
   value in Myr, parsec, kms, MSun, so only the label changes *)
Definition from_amuse (c : cluster) : cluster :=
  match c_units c with Some Uamuse => set_ph c (c_ph c) (Some Upckms) | _ => c end.

(* to_sky, operations.py:1261-1269: restore sky arrays when already in radec *)
Definition to_sky_radec (c : cluster) : cluster :=
  match c_origin c with
  | None => c                       (* 1257: prints NO ORIGIN SPECIFIED *)
  | Some o =>
    match c_units c, o with
    | Some Uradec, Osky => analyze true true c
    | Some Uradec, _ => analyze true true (set_stars c (k_s (c_sky c)) (Some Osky))
    | _, _ => c                     (* non-radec units: see to_sky below *)
    end
  end.

(* np.column_stack of six arrays, and the x(), y(), ... accessors of a vector Orbit *)
Definition stack6 (s : six (list R)) : list (six R) :=
  zip_with (fun '(a, b, c) '(d, e, f) => mk6 a b c d e f)
    (combine (combine (sx s) (sy s)) (sz s)) (combine (combine (svx s) (svy s)) (svz s)).
Definition unstack6 (l : list (six R)) : six (list R) :=
  mk6 (map (@sx R) l) (map (@sy R) l) (map (@sz R) l)
      (map (@svx R) l) (map (@svy R) l) (map (@svz R) l).

(* operations.py:534-604 from_radec.  initialize_orbit(s) on radec units builds the Orbit from the sky data
   (analysis/orbits.py:74-89, 152-163). *)
Definition from_radec (c : cluster) : cluster :=
  let c := match c_units c, c_origin c with
           | Some Uradec, Some Osky => c
           | Some Uradec, _ => to_sky_radec c
           | _, _ => c
           end in
  match c_units c, c_origin c with
  | Some Uradec, Some Osky =>
    let k := c_sky c in let p := c_ph c in let s := c_sc c in
    let orb := match k_orbit k with Some o => o | None => of_radec6 G (k_gc k) end in
    let orbs := match k_orbits k with Some os => os | None => map (of_radec6 G) (stack6 (k_s k)) end in
    let cc := match k_xcn k with
              | Some (a, b, d) => mk6 (a * (rbar s / 1000)) (b * (rbar s / 1000)) (d * (rbar s / 1000)) 0 0 0
              | None => of_radec6 G (k_c k)
              end in
    let k' := mkSk (k_s k) (k_gc k) (k_c k) (Some orb) (Some orbs) (k_xcn k) in
    let c1 := set_ph c (mkP (p_t p) (p_m p) (unstack6 orbs) cc orb) (Some Ukpckms) in
    set_sky (set_stars c1 (unstack6 orbs) (Some Ogalaxy)) k'
  | _, _ => c
  end.

(* second part of to_pckms, operations.py:86-142 *)
Definition pckms_step (c : cluster) : cluster :=
  match c_units c with
  | Some Unbody => set_ph c (nbody_to_pckms (c_sc c) (c_ph c)) (Some Upckms)
  | Some Ukpckms => set_ph c (kpckms_to_pckms (c_ph c)) (Some Upckms)
  | Some Upcmyr => set_ph c (div_velocities kms (c_ph c)) (Some Upckms)
  | _ => c
  end.

(* second part of to_kpckms, operations.py:179-278 *)
Definition kpckms_step (c : cluster) : cluster :=
  match c_units c with
  | Some Ugalpy => set_ph c (galpy_to_kpckms (c_sc c) (c_ph c)) (Some Ukpckms)
  | Some Unbody => set_ph c (nbody_to_kpckms (c_sc c) (c_ph c)) (Some Ukpckms)
  | Some Upckms => set_ph c (pckms_to_kpckms (c_ph c)) (Some Ukpckms)
  | Some Ukpcgyr => set_ph c (div_velocities kms (c_ph c)) (Some Ukpckms)
  | Some UWD => set_ph c (wd_to_kpckms (c_sc c) (c_ph c)) (Some Ukpckms)
  | _ => c
  end.

(* operations.py:146-281 to_kpckms(analyze=False); its call to_pckms for pcmyr units (175) goes straight to the
   second part of to_pckms *)
Definition to_kpckms0 (c : cluster) : cluster :=
  kpckms_step
    match c_units c with
    | Some Uradec => from_radec c
    | Some Upcmyr => pckms_step c
    | Some Uamuse => from_amuse c
    | _ => c
    end.

(* operations.py:56-144 to_pckms(analyze=False) *)
Definition to_pckms0 (c : cluster) : cluster :=
  pckms_step
    match c_units c with
    | Some Ugalpy | Some Uradec | Some UWD | Some Ukpcgyr => to_kpckms0 c
    | Some Uamuse => from_amuse c
    | _ => c
    end.

(* the final `if analyze: cluster.analyze()` under the units-not-None branch *)
Definition analyze_if_units (c0 c : cluster) : cluster :=
  match c_units c0 with None => c | Some _ => analyze true true c end.

Definition to_pckms (c : cluster) : cluster := analyze_if_units c (to_pckms0 c).   (* 56-144 *)
Definition to_kpckms (c : cluster) : cluster := analyze_if_units c (to_kpckms0 c). (* 146-281 *)

(* operations.py:283-323 *)
Definition to_pcmyr (c : cluster) : cluster :=
  match c_units c with
  | None | Some Upcmyr => c
  | Some u =>
    let c1 := match u with Upckms => c | _ => to_pckms0 c end in
    analyze true true (set_ph c1 (mul_velocities kms (c_ph c1)) (Some Upcmyr))
  end.

(* operations.py:325-364 *)
Definition to_kpcgyr (c : cluster) : cluster :=
  match c_units c with
  | None | Some Ukpcgyr => c
  | Some u =>
    let c1 := match u with Ukpckms => c | _ => to_kpckms0 c end in
    analyze true true (set_ph c1 (mul_velocities kms (c_ph c1)) (Some Ukpcgyr))
  end.

(* operations.py:421-432: binaries to nbody units *)
Definition bin_to_nbody (c : cluster) : cluster :=
  let b := c_bin c in let s := c_sc c in
  match c_bunits c with
  | Some Baudays => if Nat.ltb 0 (c_nb c) then
      set_bin c (mkB (vdiv (b_semi b) (rbar_au s)) (vdiv (b_pb b) (tbar_days s))
                     (vdiv (b_m1 b) (zmbar s)) (vdiv (b_m2 b) (zmbar s))) (Some (Bu Unbody)) else c
  | Some Bsudays => if Nat.ltb 0 (c_nb c) then
      set_bin c (mkB (vdiv (b_semi b) (rbar_su s)) (vdiv (b_pb b) (tbar_days s))
                     (vdiv (b_m1 b) (zmbar s)) (vdiv (b_m2 b) (zmbar s))) (Some (Bu Unbody)) else c
  | _ => c
  end.

(* operations.py:367-434 *)
Definition to_nbody (c : cluster) : cluster :=
  match c_units c with
  | None => c
  | Some u =>
    let c1 := match u with Upckms | Unbody => c | _ => to_pckms0 c end in
    let c2 := match c_units c1 with
              | Some Unbody => c1
              | _ => set_ph c1 (pckms_to_nbody (c_sc c1) (c_ph c1)) (Some Unbody)
              end in
    analyze true true (bin_to_nbody c2)
  end.

(* operations.py:606-660 *)
Definition to_galpy (c : cluster) : cluster :=
  match c_units c with
  | None => c
  | Some u =>
    let c1 := match u with Ukpckms | Ugalpy => c | _ => to_kpckms0 c end in
    let c2 := match c_units c1 with
              | Some Ukpckms => set_ph c1 (kpckms_to_galpy (c_sc c1) (c_ph c1)) (Some Ugalpy)
              | _ => c1
              end in
    analyze true true c2
  end.

(* operations.py:662-708 *)
Definition to_WDunits (c : cluster) : cluster :=
  match c_units c with
  | None | Some UWD => c
  | Some u =>
    let c1 := match u with Ukpckms => c | _ => to_kpckms0 c end in
    analyze true true (set_ph c1 (kpckms_to_wd (c_sc c1) (c_ph c1)) (Some UWD))
  end.

(* operations.py:710-761 to_amuse; no test for units None here *)
Definition to_amuse (c : cluster) : cluster :=
  match c_units c with
  | Some Uamuse => c
  | _ => let c1 := to_pckms0 c in analyze true true (set_ph c1 (c_ph c1) (Some Uamuse))
  end.

(* ------------------------------------------------------------ origins *)
(* x += xc; ... (operations.py:1072-1077, 1222-1227) *)
Definition add6 (a : six (list R)) (o : six R) : six (list R) :=
  mk6 (vadd (sx a) (sx o)) (vadd (sy a) (sy o)) (vadd (sz a) (sz o))
      (vadd (svx a) (svx o)) (vadd (svy a) (svy o)) (vadd (svz a) (svz o)).
(* x -= xc; ... (operations.py:976-981, 1079-1084) *)
Definition sub6 (a : six (list R)) (o : six R) : six (list R) :=
  mk6 (vsub (sx a) (sx o)) (vsub (sy a) (sy o)) (vsub (sz a) (sz o))
      (vsub (svx a) (svx o)) (vsub (svy a) (svy o)) (vsub (svz a) (svz o)).

(* np.radians *)
Definition radians (d : R) : R := d * PI / 180.

(* default sky centring, operations.py:962-969 and 1062-1069: plate-carree offsets.
   The orthographic and VandeVen centring methods are in ModelProject. *)
Definition sky_offset (a : six (list R)) (o : six R) : six (list R) :=
  mk6 (map (fun x => (x - sx o) * cos (radians (sy o))) (sx a)) (vsub (sy a) (sy o)) (vsub (sz a) (sz o))
      (vsub (svx a) (svx o)) (vsub (svy a) (svy o)) (vsub (svz a) (svz o)).

(* operations.py:1013-1089 to_cluster *)
Definition to_cluster (sort : bool) (c : cluster) : cluster :=
  let go c1 s := analyze sort true (set_stars c1 s (Some Ocluster)) in
  match c_origin c with
  | None | Some Ocluster => c
  | Some o =>
    match c_units c with
    | Some Uradec =>
      let c1 := match o with Osky => c | _ => to_sky_radec c end in
      go c1 (sky_offset (p_s (c_ph c1)) (p_g (c_ph c1)))
    | _ =>
      match o with
      | Ocentre => go c (add6 (p_s (c_ph c)) (p_c (c_ph c)))
      | Ogalaxy => go c (sub6 (p_s (c_ph c)) (p_g (c_ph c)))
      | _ => go c (p_s (c_ph c))
      end
    end
  end.

(* operations.py:922-985 to_centre *)
Definition to_centre (sort : bool) (c : cluster) : cluster :=
  match c_origin c with
  | None | Some Ocentre => c
  | Some o =>
    match c_units c with
    | Some Uradec =>
      let c1 := match o with Osky => c | _ => to_sky_radec c end in
      analyze sort true (set_stars c1 (sky_offset (p_s (c_ph c1)) (p_c (c_ph c1))) (Some Ocentre))
    | _ =>
      let c1 := match o with Ocluster => c | _ => to_cluster true c end in
      analyze sort true (set_stars c1 (sub6 (p_s (c_ph c1)) (p_c (c_ph c1))) (Some Ocentre))
    end
  end.

(* operations.py:1189-1231 to_galaxy *)
Definition to_galaxy (sort : bool) (c : cluster) : cluster :=
  match c_origin c with
  | None => c
  | Some o =>
    match c_units c with
    | Some Uradec =>
      let c1 := match o with Osky => c | _ => to_sky_radec c end in
      analyze sort true (from_radec c1)
    | _ =>
      match o with
      | Ogalaxy => analyze sort true c
      | _ =>
        let c1 := match o with Ocentre => to_cluster false c | _ => c end in
        analyze sort true (set_stars c1 (add6 (p_s (c_ph c1)) (p_g (c_ph c1))) (Some Ogalaxy))
      end
    end
  end.

(* Orbit objects from the galactocentric state: analysis/orbits.py:90-115 and 167-187.  The code converts to
   galpy units, builds the Orbit and converts back (save_cluster/return_cluster); here the Orbit is read off the
   kpc, km/s values directly (simplification; called with units kpckms, origin galaxy). *)
Definition init_orbit (c : cluster) : six R := p_g (c_ph c).
Definition init_orbits (c : cluster) : list (six R) := stack6 (p_s (c_ph c)).

Definition plus6 (a b : six R) : six R :=
  mk6 (sx a + sx b) (sy a + sy b) (sz a + sz b) (svx a + svx b) (svy a + svy b) (svz a + svz b).

(* operations.py:436-532 to_radec *)
Definition to_radec (sort : bool) (c : cluster) : cluster :=
  match c_units c with
  | None | Some Uradec => c
  | Some _ =>
    let c1 := to_galaxy true (to_kpckms0 c) in
    let k := c_sky c1 in let p := c_ph c1 in
    let orb := match k_orbit k with Some o => o | None => init_orbit c1 end in        (* 472 *)
    let orbs := match k_orbits k with Some os => os | None => init_orbits c1 end in   (* 473 *)
    let oc := plus6 (p_g p) (p_c p) in                                               (* 475-480 *)
    let s' := unstack6 (map (to_radec6 G) orbs) in
    let g' := to_radec6 G orb in
    let cc' := to_radec6 G oc in
    let k' := mkSk s' g' cc' (Some orb) (Some orbs) (k_xcn k) in
    let c2 := set_ph c1 (mkP (p_t p) (p_m p) s' cc' g') (Some Uradec) in
    let c3 := set_sky (set_stars c2 s' (Some Osky)) k' in
    let c4 := match c_origin c with
              | Some Ocluster => to_cluster true c3
              | Some Ocentre => to_centre true c3
              | _ => c3
              end in
    analyze sort true c4
  end.

(* operations.py:1234-1275 to_sky *)
Definition to_sky (sort : bool) (c : cluster) : cluster :=
  match c_origin c with
  | None => c
  | Some o =>
    match c_units c, o with
    | Some Uradec, Osky => analyze sort true c
    | Some Uradec, _ => analyze sort true (set_stars c (k_s (c_sky c)) (Some Osky))
    | _, _ => analyze sort true (to_radec sort (to_galaxy true c))
    end
  end.

(* argument of to_units / to_origin: a supported string or anything else *)
Inductive ureq := Ureq (u : usys) | Uother.
Inductive oreq := Oreq (o : osys) | Oradec | Oother.

(* operations.py:811-851 *)
Definition to_units (q : ureq) (c : cluster) : cluster :=
  match c_units c with
  | None => c
  | Some _ =>
    match q with
    | Ureq Unbody => to_nbody c
    | Ureq Ugalpy => to_galpy c
    | Ureq Upckms => to_pckms c
    | Ureq Ukpckms => to_kpckms c
    | Ureq Uradec => to_radec false c
    | Ureq UWD => to_WDunits c
    | Ureq Upcmyr => to_pcmyr c
    | Ureq Ukpcgyr => to_kpcgyr c
    | Ureq Uamuse => to_amuse c
    | Uother => c
    end
  end.

(* operations.py:1277-1316 *)
Definition to_origin (q : oreq) (sort : bool) (c : cluster) : cluster :=
  match c_origin c with
  | None => c
  | Some _ =>
    analyze sort true
      match q with
      | Oreq Ocentre => to_centre sort c
      | Oreq Ocluster => to_cluster sort c
      | Oreq Ogalaxy => to_galaxy sort c
      | Oreq Osky => to_sky sort c
      | Oradec => to_radec sort c
      | Oother => c
      end
  end.

(* operations.py:1319-1337 *)
Record saved := mkSaved {
  sv_units : option usys; sv_origin : option osys;
  sv_rorder : option (list nat); sv_rorder_origin : option osys }.
Definition save_cluster (c : cluster) : saved :=
  mkSaved (c_units c) (c_origin c) (d_rorder (c_der c)) (d_rorder_origin (c_der c)).

Definition set_rorder (c : cluster) (o : option (list nat)) (oo : option osys) : cluster :=
  let d := c_der c in
  set_der c (mkD (d_r d) (d_rpro d) (d_v d) (d_vpro d) (d_mtot d) o oo (d_rproorder d)
                 (d_rm d) (d_r10 d) (d_rmpro d) (d_r10pro d)).

(* to_units(None), to_origin(None): no branch matches (reached from return_cluster) *)
Definition ureq_of (u : option usys) : ureq := match u with Some u => Ureq u | None => Uother end.
Definition oreq_of (o : option osys) : oreq := match o with Some o => Oreq o | None => Oother end.

(* operations.py:1340-1372 return_cluster(sortstars=False) *)
Definition return_cluster (sv : saved) (c : cluster) : cluster :=
  let c1 := if ousys_eq_dec (c_units c) (sv_units sv) then c else to_units (ureq_of (sv_units sv)) c in
  let c2 := if oosys_eq_dec (c_origin c1) (sv_origin sv) then c1
            else to_origin (oreq_of (sv_origin sv)) false c1 in
  analyze true true (set_rorder c2 (sv_rorder sv) (sv_rorder_origin sv)).

(* ------------------------------------------------------------ binary units *)
Definition bin_mul (kl : R) (s : scales) (b : bindata) : bindata :=
  mkB (vmul (b_semi b) kl) (vmul (b_pb b) (tbar_days s)) (vmul (b_m1 b) (zmbar s)) (vmul (b_m2 b) (zmbar s)).
Definition bin_div (kl : R) (s : scales) (b : bindata) : bindata :=
  mkB (vdiv (b_semi b) kl) (vdiv (b_pb b) (tbar_days s)) (vdiv (b_m1 b) (zmbar s)) (vdiv (b_m2 b) (zmbar s)).

(* operations.py:853-886 *)
Definition to_sudays (c : cluster) : cluster :=
  match c_bunits c with
  | None => c
  | Some u =>
    let c1 := match u with
              | Baudays => set_bin c (bin_div (rbar_au (c_sc c)) (c_sc c) (c_bin c)) (Some (Bu Unbody))
              | _ => c
              end in
    let c2 := match c_bunits c1 with
              | Some (Bu Unbody) => set_bin c1 (bin_mul (rbar_su (c_sc c)) (c_sc c) (c_bin c1)) (c_bunits c1)
              | _ => c1
              end in
    set_bin c2 (c_bin c2) (Some Bsudays)
  end.

(* operations.py:888-920 *)
Definition to_audays (c : cluster) : cluster :=
  match c_bunits c with
  | None => c
  | Some u =>
    let c1 := match u with
              | Bsudays => set_bin c (bin_div (rbar_su (c_sc c)) (c_sc c) (c_bin c)) (Some (Bu Unbody))
              | _ => c
              end in
    match c_bunits c1 with
    | Some (Bu Unbody) => set_bin c1 (bin_mul (rbar_au (c_sc c)) (c_sc c) (c_bin c1)) (Some Baudays)
    | _ => c1
    end
  end.

End WithGalpy.
