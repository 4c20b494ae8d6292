(* NBODY6++ output: conf.3 (binary), bev.82 and sev.83 (text).  Models clustertools/io/nbody6pp.py:164-454 and the nbody6++ branches of io/load.py
   (189-224, 431-434, 479-500, 618-622) without hdf5.  Files as in ModelNbody6.v. *)
From Coq Require Import String Ascii.
From Coq Require Import Init.Byte.
From Verif Require Import Base ModelCluster ModelOps ModelRecipes ModelEnergy ModelStars ModelLoad ModelNbody6.
Set Implicit Arguments.
Open Scope string_scope. Open Scope list_scope. Open Scope R_scope.

(* ------------------------------------------------------------------ conf.3 *)
(* what OUT3 has, and densities (rhos), distances of neighbours (xns) and potentials *)
Record conf3 := mkConf { v_out : out3; v_rhos : list R; v_xns : list R; v_pot : list R }.
(* return 0, np.zeros(20), 0, ...: nbody6pp.py:254, 322 *)
Definition no_conf : conf3 := mkConf no_out [] [] [].
(* nbody6pp.py:269-320; potentials are unpacked as integers: 306 *)
Definition read_conf (D : decoder) (n nk : Z) (f : bytes) : result conf3 :=
  let n' := Z.to_nat n in
  bind (read_int D f) (fun b0 =>
  bind (read_many (read_real D) (Z.to_nat nk) (snd b0)) (fun al =>
  bind (read_many (read_real D) n' (snd al)) (fun ms =>
  bind (read_many (read_real D) n' (snd ms)) (fun rh =>
  bind (read_many (read_real D) n' (snd rh)) (fun xn =>
  bind (read_many (read_three D) n' (snd xn)) (fun xs =>
  bind (read_many (read_three D) n' (snd xs)) (fun vs =>
  bind (read_many (read_int D) n' (snd vs)) (fun ph =>
  bind (read_many (read_int D) n' (snd ph)) (fun ids =>
  bind (read_int D (snd ids)) (fun b1 =>
  if Z.eqb (fst b0) (fst b1)
  then Ok (mkConf (mkOut n (fst al) (fst ms)
             (mk6 (map first3 (fst xs)) (map second3 (fst xs)) (map third3 (fst xs))
                  (map first3 (fst vs)) (map second3 (fst vs)) (map third3 (fst vs))) (fst ids)) (fst rh) (fst xn) (map IZR (fst ph)))
  else Raise)))))))))).                                 (* return -1, which the caller cannot unpack *)
(* nbody6pp.py:246-322; None: there is no file, and None.read fails inside the try of 251-254 *)
Definition get_conf3 (D : decoder) (f : option bytes) : result conf3 :=
  match f with
  | None => Ok no_conf
  | Some f =>
    match read_int D f with
    | Raise => Ok no_conf
    | Ok b0 =>
      bind (read_int D (snd b0)) (fun n => bind (read_int D (snd n)) (fun model => bind (read_int D (snd model)) (fun nrun =>
      bind (read_int D (snd nrun)) (fun nk => bind (read_int D (snd nk)) (fun b1 =>
      if Z.eqb (fst b0) (fst b1) then (if Z.ltb 0 (fst n) then read_conf D (fst n) (fst nk) (snd b1) else Ok no_conf) else Raise)))))
    end
  end.
(* nbody6pp.py:183-194: the values of two components are added, those of single stars follow; indices out of range raise *)
Definition pair_sums (nb : nat) (l : list R) : result (list R) :=
  bind (pick l (map (fun i => 2 * i)%nat (seq 0 nb))) (fun a => bind (pick l (map (fun i => 2 * i + 1)%nat (seq 0 nb))) (fun b =>
  Ok (zip_with Rplus a b ++ skipn (2 * nb) l))).
(* 0.5*m*v**2. with v = np.sqrt(vx**2.+vy**2.+vz**2.): nbody6pp.py:196-197 *)
Definition kinetic (k : catalog) : list R :=
  let s := p_s (c_ph (g_c k)) in
  zip_with (fun m v => 1/2 * m * v ^ 2) (p_m (c_ph (g_c k)))
    (zip_with (fun a z => sqrt (a + z ^ 2)) (zip_with (fun x y => x ^ 2 + y ^ 2) (svx s) (svy s)) (svz s)).

(* ------------------------------------------------------------------ bev.82 and sev.83 *)
(* .astype(int): towards zero *)
Definition truncate (x : R) : Z := if Rleb 0 x then Int_part x else Z.opp (Int_part (- x)).
(* np.loadtxt(name, skiprows=1): every line after the first, blank lines left out; an array of two dimensions when there are two rows or more.  NaN and
   comment lines are not modelled (simplification) *)
Fixpoint all_ok {A} (l : list (result A)) : result (list A) :=
  match l with [] => Ok [] | r :: t => bind r (fun a => bind (all_ok t) (fun q => Ok (a :: q))) end.
Definition row_numbers (rd : reader) (l : line) : result (list R) := all_ok (map (fun w => match float_of rd w with Some x => Ok x | None => Raise end) l).
Definition blank (l : line) : bool := match l with [] => true | _ => false end.
Definition loadtxt (rd : reader) (f : text) : result (list (list R)) :=
  bind (all_ok (map (row_numbers rd) (filter (fun l => negb (blank l)) (tl f)))) (fun rows =>
  if forallb (fun r => Nat.eqb (length r) (length (hd [] rows))) rows then Ok rows else Raise).
(* data[:, j] as numbers and as integers *)
Definition col (rows : list (list R)) (j : nat) : result (list R) := all_ok (map (fun r => match nth_error r j with Some x => Ok x | None => Raise end) rows).
Definition icol (rows : list (list R)) (j : nat) : result (list Z) := bind (col rows j) (fun l => Ok (map truncate l)).
(* header[0], header[1]: nbody6pp.py:340-341, 425-426 *)
Definition ev_header (rd : reader) (f : text) : result Z :=
  let '(h, _) := readline f in bind (int_at rd h 0) (fun n => bind (real_at rd h 1) (fun t => Ok n)).
Record bev := mkBev {
  be_arg1 : list Z; be_arg2 : list Z; be_id1 : list Z; be_id2 : list Z; be_kw1 : list Z; be_kw2 : list Z; be_kwb : list Z;
  be_rib : list R; be_ecc : list R; be_pb : list R; be_semi : list R; be_m1 : list R; be_m2 : list R;
  be_l1 : list R; be_l2 : list R; be_r1 : list R; be_r2 : list R; be_te1 : list R; be_te2 : list R }.
Definition no_bev : bev := mkBev [] [] [] [] [] [] [] [] [] [] [] [] [] [] [] [] [] [] [].
(* nbody6pp.py:340-377, 406-423: columns 14 to 19 are read when there are 14 ROWS or more *)
Definition get_bev (rd : reader) (f : text) : result bev :=
  bind (ev_header rd f) (fun nb =>
  if Z.ltb 0 nb then
    bind (loadtxt rd f) (fun d =>
    if (if Z.eqb nb 1 then Nat.eqb (length d) 1 else Nat.leb 2 (length d)) then
      bind (icol d 1) (fun a1 => bind (icol d 2) (fun a2 => bind (icol d 3) (fun i1 => bind (icol d 4) (fun i2 =>
      bind (icol d 5) (fun k1 => bind (icol d 6) (fun k2 => bind (icol d 7) (fun kb =>
      bind (col d 8) (fun rib => bind (col d 9) (fun ecc => bind (col d 10) (fun pb => bind (col d 11) (fun semi => bind (col d 12) (fun m1 => bind (col d 13) (fun m2 =>
      let go l1 l2 r1 r2 t1 t2 := Ok (mkBev a1 a2 i1 i2 k1 k2 kb rib ecc pb semi m1 m2 l1 l2 r1 r2 t1 t2) in
      let z := repeat 0 (length i1) in
      if Nat.leb 14 (length d)
      then bind (col d 14) (fun l1 => bind (col d 15) (fun l2 => bind (col d 16) (fun r1 => bind (col d 17) (fun r2 => bind (col d 18) (fun t1 => bind (col d 19) (fun t2 =>
           go l1 l2 r1 r2 t1 t2))))))
      else go z z z z z z)))))))))))))
    else Raise)
  else Ok no_bev).
Record sev := mkSev { se_arg : list Z; se_id : list Z; se_kw : list Z; se_ri : list R; se_m : list R; se_l : list Z; se_r : list R; se_te : list R }.
(* nbody6pp.py:425-441: one row makes a one-dimensional array, and data[:,1] fails; zl1 is made an integer *)
Definition get_sev (rd : reader) (f : text) : result sev :=
  bind (ev_header rd f) (fun _ => bind (loadtxt rd f) (fun d =>
  if Nat.leb 2 (length d) then
    bind (icol d 1) (fun a => bind (icol d 2) (fun i => bind (icol d 3) (fun k => bind (col d 4) (fun ri => bind (col d 5) (fun m =>
    bind (icol d 6) (fun l => bind (col d 7) (fun r => bind (col d 8) (fun te => Ok (mkSev a i k ri m l r te)))))))))
  else Raise)).
(* a1[0], a2[0], a1[1], a2[1], ...: nbody6pp.py:388-404 *)
Fixpoint alternate {A} (a b : list A) : list A := match a, b with x :: a', y :: b' => x :: y :: alternate a' b' | _, _ => [] end.
(* l[idx] = v with numpy's negative indices *)
Definition index_of (n : nat) (z : Z) : nat := if Z.ltb z 0 then (if Z.leb 0 (Z.of_nat n + z) then Z.to_nat (Z.of_nat n + z) else n) else Z.to_nat z.
Definition assign_z (l : list R) (idx : list Z) (v : list R) : result (list R) := assign l (map (index_of (length l)) idx) v.
(* nbody6pp.py:200-230; n objects, nb of them binaries *)
Definition evolve_pp (rd : reader) (n nb : nat) (f82 f83 : text) (k : catalog) : result catalog :=
  bind (get_bev rd f82) (fun b => bind (get_sev rd f83) (fun s =>
  let arg := alternate (be_arg1 b) (be_arg2 b) ++ se_arg s in
  let kw := map IZR (alternate (be_kw1 b) (be_kw2 b) ++ se_kw s) in
  let zl := alternate (be_l1 b) (be_l2 b) ++ map IZR (se_l s) in
  let r := alternate (be_r1 b) (be_r2 b) ++ se_r s in
  let start := repeat (-10) (n - nb) in
  let args := if Nat.ltb 0 nb then map (fun a => a - Z.of_nat nb - 1)%Z (skipn (2 * nb) arg) else map (fun a => a - 1)%Z arg in
  let fill (pair : list R) (l : list R) := bind (if Nat.ltb 0 nb then assign start (seq 0 nb) pair else Ok start) (fun x => assign_z x args (skipn (2 * nb) l)) in
  bind (fill (map IZR (zip_with Z.max (be_kw1 b) (be_kw2 b))) kw) (fun kws =>
  bind (fill (zip_with Rplus (be_l1 b) (be_l2 b)) zl) (fun zls =>
  bind (fill (zip_with Rplus (be_r1 b) (be_r2 b)) r) (fun rs =>
  bind (add_sse kws zls rs None None None k) (fun k1 =>
  let sc := c_sc (g_c k1) in
  add_bse (be_id1 b) (be_id2 b) (map IZR (be_kw1 b)) (map IZR (be_kw2 b)) (map IZR (be_kwb b)) (be_ecc b)
    (map (fun x => pow10 x / tbar_days sc) (be_pb b)) (map (fun x => pow10 x / rbar_su sc) (be_semi b))
    (map (fun x => x / zmbar sc) (be_m1 b)) (map (fun x => x / zmbar sc) (be_m2 b)) (be_l1 b) (be_l2 b) (be_r1 b) (be_r2 b) k1)))))).

(* ------------------------------------------------------------------ the cluster *)
(* a Python number; names made with str() differ: conf.3_1 and conf.3_1.0 *)
Inductive number := Whole (z : Z) | Float (x : R).
Definition amount (a : number) : R := match a with Whole z => IZR z | Float x => x end.
Definition plus_n (a b : number) : number := match a, b with Whole x, Whole y => Whole (x + y)%Z | _, _ => Float (amount a + amount b) end.
Definition int_n (a : number) : Z := match a with Whole z => z | Float x => truncate x end.
(* the cluster with rhos, kin, pot, ...; nsnap, wdir and snapdir of the StarCluster; the orbit file left *)
Record pp := mkPP { u_cat : catalog; u_rhos : list R; u_energy : option energy; u_nsnap : Z; u_wdir : string; u_snapdir : string; u_ofile : option text }.
Record pp_opts := mkPO { h_dtout : number; h_orbit : orbit_opts; h_analyze : bool; h_sort : bool; h_ro : R; h_vo : R }.
Section WithGalpy.
Variable G : galpy.
(* nbody6pp.py:177-198 *)
Definition fill_pp (c : conf3) (k : catalog) : result (catalog * list R * option energy) :=
  if Z.ltb 0 (o3_n (v_out c)) then
    bind (scale_nbody6 (v_out c) k) (fun k1 =>
    bind (al (o3_a (v_out c)) 1) (fun x => let nb := count_of x in
    bind (add_stars nb (out_args (v_out c)) true false false k1) (fun k2 =>
    bind (pair_sums nb (v_rhos c)) (fun rh => bind (pair_sums nb (v_pot c)) (fun po =>
    Ok (k2, rh, Some (add_energies (kinetic k2) (map Some po))))))))
  else Ok (k, [], None).
(* nbody6pp.py:18, 55-69, 164-244 (conf.3 branch).  The StarCluster is made without snapdir: 167-175.  nb is not defined without stars (202) *)
Definition get_nbody6pp (D : decoder) (rd : reader) (o : pp_opts) (nsnap : number) (wdir : string) (conf : option bytes) (f82 f83 : option text)
    (ofile : option text) (advance : bool) : result pp :=
  bind (get_conf3 D conf) (fun c =>
  bind (al (o3_a (v_out c)) 0) (fun t =>
  bind (fill_pp c (init_catalog (init_cluster t (Some Unbody) (Some Ocluster) (h_ro o) (h_vo o)))) (fun r => let '(k, rhos, en) := r in
  bind (match f82, f83 with
        | Some a, Some b =>
            if Z.ltb 0 (o3_n (v_out c))
            then bind (al (o3_a (v_out c)) 1) (fun x => evolve_pp rd (Z.to_nat (o3_n (v_out c))) (count_of x) a b k)
            else Raise
        | _, _ => Ok k end) (fun k1 =>
  let k2 := if h_analyze o && Nat.ltb 0 (g_ntot k1) then set_cluster k1 (analyze (h_sort o) false (g_c k1)) else k1 in
  let done k f := Ok (mkPP k rhos en (int_n nsnap) (with_slash wdir) "" f) in
  match ofile with
  | None => done k2 None
  | Some f => bind (get_cluster_orbit G rd (h_orbit o) (Z.to_nat (truncate (amount nsnap / amount (h_dtout o)))) advance f (g_c k2)) (fun q =>
              done (set_cluster k2 (fst q)) (Some (snd q)))
  end)))).
(* the files of a directory, by the number in their name *)
Record pp_disk := mkPD { k_conf : string -> number -> option bytes; k_82 : string -> number -> option text; k_83 : string -> number -> option text }.
Definition place (wdir snapdir : string) : string := append (with_slash wdir) (with_slash snapdir).
(* load.py:189-224, 287-289.  The name has a float when dtout is one (196-197); nsnap itself stays an integer *)
Definition load_pp (D : decoder) (rd : reader) (d : pp_disk) (o : pp_opts) (nsnap : Z) (wdir snapdir : string) (ofile : option text) : result pp :=
  let name := match h_dtout o with Float _ => Float (IZR nsnap) | Whole _ => Whole nsnap end in
  let w := place wdir snapdir in
  get_nbody6pp D rd o (Whole nsnap) wdir (k_conf d w name) (k_82 d w name) (k_83 d w name) ofile false.
(* load.py:431-434, 479-500, 712-754: wdir and snapdir of the cluster unless given; restarts in cont/ are not modelled *)
Definition advance_pp (D : decoder) (rd : reader) (d : pp_disk) (o : pp_opts) (snapdir : option string) (v : pp) : result pp :=
  let name := plus_n (plus_n (Whole (Z.max 0 (u_nsnap v) + 1)) (h_dtout o)) (Whole (-1)) in
  let w := place (u_wdir v) (match snapdir with Some s => s | None => u_snapdir v end) in
  get_nbody6pp D rd o name (u_wdir v) (k_conf d w name) (k_82 d w name) (k_83 d w name) (u_ofile v) true.
Fixpoint advance_pp_times (D : decoder) (rd : reader) (d : pp_disk) (o : pp_opts) (snapdir : option string) (n : nat) (v : pp) : result pp :=
  match n with O => Ok v | S n' => bind (advance_pp_times D rd d o snapdir n' v) (advance_pp D rd d o snapdir) end.
End WithGalpy.
