(* Adding stars, binaries and stellar-evolution data to a StarCluster.
   Models clustertools/cluster/cluster.py:408-834, 1005-1270.
   Arrays are real (float) arrays; the AMUSE branches (451-454, 476-489, 682-683) are not modelled. *)
From Verif Require Import Base ModelCluster ModelRecipes.
Set Implicit Arguments.

(* An argument is a Python number or an array: the test at cluster.py:456 and 731. *)
Inductive arg (A : Type) := Scalar (a : A) | Array (l : list A).
Arguments Scalar {A}. Arguments Array {A}.

(* The StarCluster attributes of cluster.py:186-216, 327-356, 391 that are not in `cluster`:
   m0, npop; the binary components; id1..npop2; the stellar evolution arrays; ntot and ns. *)
Record ssedata := mkSse {
  e_kw : list R; e_logl : list R; e_logr : list R; e_lum : list R; e_ep : list R; e_ospin : list R; e_ltot : R }.
Record bsedata := mkBse {
  f_id1 : list Z; f_id2 : list Z; f_kw1 : list R; f_kw2 : list R; f_kcm : list R; f_ecc : list R;
  f_logl1 : list R; f_logl2 : list R; f_logr1 : list R; f_logr2 : list R;
  f_m01 : list R; f_m02 : list R; f_npop1 : list Z; f_npop2 : list Z; f_eb : list R }.
Record pairs := mkPairs { b_1 : six (list R); b_2 : six (list R); b_mb1 : list R; b_mb2 : list R }.
Record catalog := mkCat {
  g_c : cluster; g_m0 : list R; g_npop : list Z; g_b : pairs; g_sse : ssedata; g_bse : bsedata;
  g_ntot : nat; g_ns : Z }.

(* StarCluster() : cluster.py:120-406 *)
Definition init_pairs := mkPairs nil6 nil6 [] [].
Definition init_sse := mkSse [] [] [] [] [] [] 0.
Definition init_bse := mkBse [] [] [] [] [] [] [] [] [] [] [] [] [] [] [].
Definition init_catalog (c : cluster) : catalog := mkCat c [] [] init_pairs init_sse init_bse 0 0.

(* the ten arrays whose lengths add_stars compares, cluster.py:589-602 *)
Record columns := mkCol { t_id : list Z; t_m : list R; t_s : six (list R); t_m0 : list R; t_npop : list Z }.
Definition columns_of (k : catalog) : columns :=
  mkCol (c_id (g_c k)) (p_m (c_ph (g_c k))) (p_s (c_ph (g_c k))) (g_m0 k) (g_npop k).
Definition put_cluster (c : cluster) (t : columns) (nb : nat) : cluster :=
  mkC (c_units c) (c_origin c) (c_bunits c) nb
      (mkP (p_t (c_ph c)) (t_m t) (t_s t) (p_c (c_ph c)) (p_g (c_ph c)))
      (c_sc c) (c_bin c) (c_sky c) (c_der c) (t_id t).
Definition put_columns (k : catalog) (t : columns) : catalog :=
  mkCat (put_cluster (g_c k) t (c_nb (g_c k))) (t_m0 t) (t_npop t) (g_b k) (g_sse k) (g_bse k) (g_ntot k) (g_ns k).

Record star_args := mkArgs {
  a_s : six (arg R); a_m : option (arg R); a_id : option (arg Z);
  a_m0 : option (arg R); a_npop : option (arg Z) }.

(* cluster.py:448-460: 1 for a number, len(p) otherwise, 0 when absent *)
Definition arg_len {A} (p : arg A) : nat := match p with Scalar _ => 1 | Array l => length l end.
Definition opt_len {A} (p : option (arg A)) : nat := match p with None => 0 | Some p => arg_len p end.
Definition npmax (a : star_args) : nat :=
  let s := a_s a in
  list_max [arg_len (sx s); arg_len (sy s); arg_len (sz s); arg_len (svx s); arg_len (svy s); arg_len (svz s);
            opt_len (a_m a); opt_len (a_id a); opt_len (a_m0 a); opt_len (a_npop a)].
(* cluster.py:462-471: np.ones(npmax)*p for a number *)
Definition expand {A} (n : nat) (p : arg A) : list A := match p with Scalar a => repeat a n | Array l => l end.

(* a[i] and a[idx]: IndexError when out of range *)
Fixpoint pick {A} (l : list A) (idx : list nat) : result (list A) :=
  match idx with
  | [] => Ok []
  | i :: idx' => match nth_error l i, pick l idx' with Some a, Ok r => Ok (a :: r) | _, _ => Raise end
  end.

(* numpy arithmetic of two 1-d arrays, or of a number (taken as one entry) and a 1-d array *)
Definition np2 {A B C} (f : A -> B -> C) (l : list A) (k : list B) : result (list C) :=
  if Nat.eqb (length l) (length k) then Ok (zip_with f l k)
  else match l, k with
       | [a], _ => Ok (map (f a) k)
       | _, [b] => Ok (map (fun a => f a b) l)
       | _, _ => Raise
       end.
Definition as_list {A} (p : arg A) : list A := match p with Scalar a => [a] | Array l => l end.
Definition bind {A B} (r : result A) (f : A -> result B) : result B := match r with Ok a => f a | Raise => Raise end.

(* np.append(self.q, q), component by component *)
Definition app6 (s t : six (list R)) : six (list R) :=
  mk6 (sx s ++ sx t) (sy s ++ sy t) (sz s ++ sz t) (svx s ++ svx t) (svy s ++ svy t) (svz s ++ svz t).
Definition all6 {A} (s : six (result A)) : result (six A) :=
  bind (sx s) (fun a => bind (sy s) (fun b => bind (sz s) (fun c =>
  bind (svx s) (fun d => bind (svy s) (fun e => bind (svz s) (fun f => Ok (mk6 a b c d e f))))))).

(* cluster.py:731-757, the part of add_binary_stars common to all its modes: nb, xb1.., mb1, mb2 are extended.
   Lines 753 and 757 call len() on the component, which raises on a number. *)
Definition mass_or_ones (m : option (arg R)) (x : arg R) : result (list R) :=
  match m, x with
  | Some m, _ => Ok (as_list m)
  | None, Array l => Ok (repeat 1 (length l))
  | None, Scalar _ => Raise
  end.
Definition store_pairs (x1 x2 : six (arg R)) (m1 m2 : option (arg R)) (nb : nat) (b : pairs) : result (nat * pairs) :=
  bind (mass_or_ones m1 (sx x1)) (fun l1 => bind (mass_or_ones m2 (sx x2)) (fun l2 =>
  Ok (nb + arg_len (sx x1), mkPairs (app6 (b_1 b) (map6 (@as_list R) x1)) (app6 (b_2 b) (map6 (@as_list R) x2))
                                    (b_mb1 b ++ l1) (b_mb2 b ++ l2))%nat)).

(* cluster.py:760-766, 826-832: centres of mass, computed with the whole self.mb1 and self.mb2 *)
Definition com1 (b : pairs) (x1 x2 : list R) : result (list R) :=
  bind (np2 Rmult x1 (b_mb1 b)) (fun p => bind (np2 Rmult x2 (b_mb2 b)) (fun q =>
  bind (np2 Rplus p q) (fun s => bind (np2 Rplus (b_mb1 b) (b_mb2 b)) (fun m => np2 Rdiv s m)))).
Definition coms (b : pairs) (x1 x2 : six (arg R)) : result (six (list R) * list R) :=
  let f (g : six (arg R) -> arg R) := com1 b (as_list (g x1)) (as_list (g x2)) in
  bind (all6 (mk6 (f (@sx _)) (f (@sy _)) (f (@sz _)) (f (@svx _)) (f (@svy _)) (f (@svz _)))) (fun s =>
  bind (np2 Rplus (b_mb1 b) (b_mb2 b)) (fun m => Ok (s, m))).

(* np.amax of a non-empty integer array *)
Fixpoint zmax (d : Z) (l : list Z) : Z := match l with [] => d | a :: t => zmax (Z.max d a) t end.
(* cluster.py:515-518, 571-576, 777-780 *)
Definition id_start (extra : bool) (ids : list Z) : Z :=
  match ids with [] => 0 | a :: t => zmax a t + 1 + (if extra then 1 else 0) end%Z.
(* np.arange(0, 2*n-1, 2) and np.arange(0, n) *)
Definition evens (n : nat) : list Z := map (fun i => 2 * Z.of_nat i)%Z (seq 0 n).
Definition zrange (n : nat) : list Z := map Z.of_nat (seq 0 n).

(* x[arg1] and x[arg2] of cluster.py:494-503: numbers when nb is 1, arrays otherwise *)
Definition pick_pair {A} (nb second : nat) (l : list A) : result (arg A) :=
  if Nat.eqb nb 1
  then match nth_error l second with Some a => Ok (Scalar a) | None => Raise end
  else bind (pick l (map (fun i => 2 * i + second)%nat (seq 0 nb))) (fun r => Ok (Array r)).
Definition pick6 (nb second : nat) (s : six (list R)) : result (six (arg R)) :=
  all6 (map6 (pick_pair nb second) s).
Definition pick_opt {A} (nb second : nat) (l : option (list A)) : result (option (arg A)) :=
  match l with None => Ok None | Some l => bind (pick_pair nb second l) (fun a => Ok (Some a)) end.

(* cluster.py:493-536 *)
Definition add_binary_rows (nb : nat) (s : six (list R)) (m : option (list R)) (id : option (list Z))
    (m0 : option (list R)) (npop : option (list Z)) (k : catalog) : result catalog :=
  bind (pick6 nb 0 s) (fun x1 => bind (pick6 nb 1 s) (fun x2 =>
  bind (pick_opt nb 0 m) (fun m1 => bind (pick_opt nb 1 m) (fun m2 =>
  bind (store_pairs x1 x2 m1 m2 (c_nb (g_c k)) (g_b k)) (fun r => let '(nb', b) := r in
  bind (coms b x1 x2) (fun r => let '(sc, mc) := r in
  let t := columns_of k in
  bind (match id with None => Ok (map (Z.add (id_start false (t_id t))) (evens nb))
                    | Some id => bind (pick_pair nb 0 id) (fun a => Ok (as_list a)) end) (fun ids =>
  bind (match m0 with None => Ok (repeat 0 nb)
                    | Some m0 => bind (pick_pair nb 0 m0) (fun a => bind (pick_pair nb 1 m0) (fun c =>
                                   np2 Rplus (as_list a) (as_list c))) end) (fun m0b =>
  bind (match npop with None => Ok (repeat 1%Z nb)
                      | Some np => bind (pick_pair nb 0 np) (fun a => Ok (as_list a)) end) (fun npb =>
  let t' := mkCol (ids ++ t_id t) (mc ++ t_m t) (app6 sc (t_s t)) (m0b ++ t_m0 t) (npb ++ t_npop t) in
  Ok (mkCat (put_cluster (g_c k) t' nb') (t_m0 t') (t_npop t') b (g_sse k) (g_bse k) (g_ntot k) (g_ns k))
  ))))))))).

(* cluster.py:544-584 *)
Definition add_single_rows (args : nat) (s : six (list R)) (m : option (list R)) (id : option (list Z))
    (m0 : option (list R)) (npop : option (list Z)) (k : catalog) : catalog :=
  let t := columns_of k in
  let n := length (skipn args (sx s)) in
  let or_default {A} (o : option (list A)) (d : list A) := match o with Some l => skipn args l | None => d end in
  put_columns k (mkCol
    (t_id t ++ or_default id
       (map (Z.add (id_start (negb (Nat.eqb (c_nb (g_c k)) 0)) (t_id t))) (zrange n)))
    (t_m t ++ or_default m (repeat 1 n))
    (app6 (t_s t) (map6 (skipn args) s))
    (t_m0 t ++ or_default m0 (repeat 0 n))
    (t_npop t ++ or_default npop (repeat 1%Z n))).

(* cluster.py:588-671: an array of one entry is repeated, other mismatches are only printed *)
Definition stretch {A} (nmax : nat) (l : list A) : list A :=
  match l with [a] => repeat a nmax | _ => l end.
Definition lengths (t : columns) : list nat :=
  let s := t_s t in
  [length (t_id t); length (t_m t); length (sx s); length (sy s); length (sz s);
   length (svx s); length (svy s); length (svz s); length (t_m0 t); length (t_npop t)].
Definition list_min (l : list nat) : nat := fold_right Nat.min (hd 0%nat l) l.
Definition check_lengths (t : columns) : columns :=
  let nmax := list_max (lengths t) in
  if Nat.eqb nmax (list_min (lengths t)) then t
  else mkCol (match t_id t with [_] => zrange nmax | l => l end)
             (stretch nmax (t_m t)) (map6 (stretch nmax) (t_s t)) (stretch nmax (t_m0 t)) (stretch nmax (t_npop t)).

(* cluster.py:673-679: in sky coordinates the arguments are also appended to ra, dec, ... *)
Definition add_sky_rows (s : six (list R)) (c : cluster) : cluster :=
  match c_units c, c_origin c with
  | Some Uradec, Some Osky =>
      let q := c_sky c in
      set_sky c (mkSk (app6 (k_s q) s) (k_gc q) (k_c q) (k_orbit q) (k_orbits q) (k_xcn q))
  | _, _ => c
  end.

Definition set_cluster (k : catalog) (c : cluster) : catalog :=
  mkCat c (g_m0 k) (g_npop k) (g_b k) (g_sse k) (g_bse k) (g_ntot k) (g_ns k).
(* cluster.py:688-689, 822-823 *)
Definition set_counts (k : catalog) : catalog :=
  let n := length (sx (p_s (c_ph (g_c k)))) in
  mkCat (g_c k) (g_m0 k) (g_npop k) (g_b k) (g_sse k) (g_bse k) n (Z.of_nat n - Z.of_nat (c_nb (g_c k))).

(* cluster.py:408-689 add_stars(..., nb, sortstars, analyze); `proj` is self.projected *)
Definition add_stars (nb : nat) (a : star_args) (sort an proj : bool) (k : catalog) : result catalog :=
  let n := npmax a in
  let s := map6 (expand n) (a_s a) in
  let m := option_map (expand n) (a_m a) in
  let id := option_map (expand n) (a_id a) in
  let m0 := option_map (expand n) (a_m0 a) in
  let np := option_map (expand n) (a_npop a) in
  bind (if Nat.eqb nb 0 then Ok k else add_binary_rows nb s m id m0 np k) (fun k1 =>
  let k2 := add_single_rows (2 * nb) s m id m0 np k1 in
  let k3 := put_columns k2 (check_lengths (columns_of k2)) in
  let k4 := set_cluster k3 (add_sky_rows s (g_c k3)) in
  Ok (set_counts (set_cluster k4 (if an then analyze sort proj (g_c k4) else g_c k4)))).

(* cluster.py:691-823 add_binary_stars(..., set_com=True, return_com=False).
   m01/m02, npop1/npop2 given as numbers or arrays. *)
Record pair_args := mkPA {
  q_1 : six (arg R); q_2 : six (arg R); q_m1 : option (arg R); q_m2 : option (arg R);
  q_id1 : option (arg Z); q_id2 : option (arg Z); q_m01 : option (arg R); q_m02 : option (arg R);
  q_np1 : option (arg Z); q_np2 : option (arg Z) }.
Definition opt_list {A} (o : option (arg A)) : list A := match o with Some p => as_list p | None => [] end.
Definition add_binary_stars (q : pair_args) (k : catalog) : result catalog :=
  bind (store_pairs (q_1 q) (q_2 q) (q_m1 q) (q_m2 q) (c_nb (g_c k)) (g_b k)) (fun r => let '(nb', b) := r in
  bind (coms b (q_1 q) (q_2 q)) (fun r => let '(sc, mc) := r in
  let t := columns_of k in
  let n := length (sx sc) in
  let ids := match q_id1 q with None => map (Z.add (id_start false (t_id t))) (evens n) | Some i => as_list i end in
  bind (match q_m01 q, q_m02 q with
        | Some p, Some r => np2 Rplus (as_list p) (as_list r)
        | _, _ => Ok (repeat 0 n) end) (fun m0b =>
  bind (match q_np1 q, q_np2 q with
        | Some p, Some r => np2 Z.max (as_list p) (as_list r)
        | _, _ => Ok [] end) (fun npb =>
  let pop (o : option (arg Z)) := match o with None => repeat 1%Z n | Some (Scalar a) => repeat a n | Some (Array l) => l end in
  let e := g_bse k in
  let e' := mkBse (f_id1 e ++ opt_list (q_id1 q))
                  (f_id2 e ++ match q_id2 q with Some i => as_list i | None => map (Z.add 1) ids end)
                  (f_kw1 e) (f_kw2 e) (f_kcm e) (f_ecc e) (f_logl1 e) (f_logl2 e) (f_logr1 e) (f_logr2 e)
                  (opt_list (q_m01 q) ++ f_m01 e) (opt_list (q_m02 q) ++ f_m02 e)
                  (pop (q_np1 q) ++ f_npop1 e) (pop (q_np2 q) ++ f_npop2 e) (f_eb e) in
  let t' := mkCol (ids ++ t_id t) (mc ++ t_m t) (app6 sc (t_s t)) (m0b ++ t_m0 t) (npb ++ t_npop t) in
  Ok (set_counts (mkCat (put_cluster (g_c k) t' nb') (t_m0 t') (t_npop t') b (g_sse k) e' (g_ntot k) (g_ns k))))))).

(* a[idx] = v for an integer index array and an array of values: IndexError when out of range, ValueError when the
   number of values is neither one nor the number of slots; the last write to a slot wins *)
Fixpoint assign_at (l : list R) (idx : list nat) (v : list R) : result (list R) :=
  match idx, v with
  | i :: idx', a :: v' => if Nat.ltb i (length l) then assign_at (put l i a) idx' v' else Raise
  | [], [] => Ok l
  | _, _ => Raise
  end.
Definition assign (l : list R) (idx : list nat) (v : list R) : result (list R) :=
  match v with
  | [a] => assign_at l idx (repeat a (length idx))
  | _ => assign_at l idx v
  end.

(* cluster.py:1106-1183 add_sse(kw, logl, logr, ep, ospin, arg); np.array(None) assigned at 1164-1165 raises *)
Definition add_sse (kw logl logr : list R) (ep ospin : option (list R)) (at_ : option (list nat)) (k : catalog)
    : result catalog :=
  let e := g_sse k in
  let z := repeat 0 (length kw) in
  bind (match at_ with
        | Some idx =>
            let idx' := map (Nat.add (length (e_kw e))) idx in
            bind (assign (e_kw e ++ z) idx' kw) (fun kw' =>
            bind (assign ((if Nat.eqb (length (e_kw e)) 0 then [] else e_logl e) ++ z) idx' logl) (fun logl' =>
            bind (assign ((if Nat.eqb (length (e_kw e)) 0 then [] else e_logr e) ++ z) idx' logr) (fun logr' =>
            bind (match ep with Some v => assign ((if Nat.eqb (length (e_kw e)) 0 then [] else e_ep e) ++ z) idx' v
                              | None => Raise end) (fun ep' =>
            bind (match ospin with Some v => assign ((if Nat.eqb (length (e_kw e)) 0 then [] else e_ospin e) ++ z) idx' v
                                 | None => Raise end) (fun os' =>
            Ok (kw', logl', logr', ep', os'))))))
        | None => Ok (e_kw e ++ kw, e_logl e ++ logl, e_logr e ++ logr, e_ep e, e_ospin e)
        end) (fun r => let '(kw', logl', logr', ep', os') := r in
  let lum := map pow10 logl' in
  Ok (mkCat (g_c k) (g_m0 k) (g_npop k) (g_b k)
        (mkSse kw' logl' logr' lum (ep' ++ match ep with Some v => v | None => z end)
               (os' ++ match ospin with Some v => v | None => z end) (sumR lum))
        (g_bse k) (g_ntot k) (g_ns k))).

(* cluster.py:1185-1270 add_bse; ep1.. ospin2 are not kept *)
Definition add_bse (id1 id2 : list Z) (kw1 kw2 kcm ecc pb semi m1 m2 logl1 logl2 logr1 logr2 : list R) (k : catalog)
    : result catalog :=
  let e := g_bse k in
  let c := g_c k in
  let q := c_bin c in
  let q' := mkB (b_semi q ++ semi) (b_pb q ++ pb) (b_m1 q ++ m1) (b_m2 q ++ m2) in
  bind (np2 Rmult (map (Rmult (1/2)) (b_m1 q')) (b_m2 q')) (fun p => bind (np2 Rdiv p (b_semi q')) (fun eb =>
  let e' := mkBse (f_id1 e ++ id1) (f_id2 e ++ id2) (f_kw1 e ++ kw1) (f_kw2 e ++ kw2) (f_kcm e ++ kcm) (f_ecc e ++ ecc)
                  (f_logl1 e ++ logl1) (f_logl2 e ++ logl2) (f_logr1 e ++ logr1) (f_logr2 e ++ logr2)
                  (f_m01 e) (f_m02 e) (f_npop1 e) (f_npop2 e) eb in
  Ok (mkCat (mkC (c_units c) (c_origin c) (c_bunits c) (length (f_id1 e')) (c_ph c) (c_sc c) q' (c_sky c) (c_der c) (c_id c))
        (g_m0 k) (g_npop k) (g_b k) (g_sse k) e' (g_ntot k) (g_ns k)))).

(* cluster.py:1005-1104 add_nbody6: scale factors and the binary time and length scales; nc, rc, rtide, rscale, n_p
   are not kept.  au_to_cm 1097, pc_to_cm 1098, rsun_to_cm 1102. *)
Definition au_to_cm : R := 149597870700 * 100.
Definition pc_to_cm : R := 1296000 / (2 * PI) * au_to_cm.
Definition rsun_to_cm : R := 69570000000.
Definition add_nbody6 (rbar_ xc yc zc zmbar_ vbar_ tbar_ : R) (ns nb : nat) (k : catalog) : catalog :=
  let c := g_c k in
  let s := c_sc c in
  let years := rpow (rbar_ * 1296000 / (2 * PI)) (3/2) / sqrt zmbar_ in
  let sc := mkSc zmbar_ rbar_ vbar_ tbar_ (pc_to_cm / rsun_to_cm * rbar_) (pc_to_cm / au_to_cm * rbar_)
                 (365.25 * years) (ro s) (vo s) in
  let pc := p_c (c_ph c) in
  let ph := mkP (p_t (c_ph c)) (p_m (c_ph c)) (p_s (c_ph c)) (mk6 xc yc zc (svx pc) (svy pc) (svz pc)) (p_g (c_ph c)) in
  let q := c_sky c in
  let sk := mkSk (k_s q) (k_gc q) (k_c q) (k_orbit q) (k_orbits q) (Some (xc, yc, zc)) in
  mkCat (mkC (c_units c) (c_origin c) (c_bunits c) nb ph sc (c_bin c) sk (c_der c) (c_id c))
        (g_m0 k) (g_npop k) (g_b k) (g_sse k) (g_bse k) (g_ntot k) (Z.of_nat ns).
