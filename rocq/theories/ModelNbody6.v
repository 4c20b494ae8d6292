(* NBODY6 output: OUT3, OUT33 (binary), fort.82, fort.83 (text).  Models clustertools/io/nbody6.py and the nbody6 branches of
   io/load.py (164-187, 426-429, 618-622).  An open binary file is the list of the bytes left, a text file as in ModelLoad.v. *)
From Coq Require Import String Ascii.
From Coq Require Import Init.Byte.
From Verif Require Import Base ModelCluster ModelOps ModelRecipes ModelStars ModelLoad.
Set Implicit Arguments.
Open Scope string_scope. Open Scope list_scope. Open Scope R_scope.

Definition bytes := list byte.
(* struct.unpack('i', .)[0] and struct.unpack('f', .)[0] on four bytes (machine dependent) *)
Record decoder := mkDec { d_int : byte -> byte -> byte -> byte -> Z; d_real : byte -> byte -> byte -> byte -> R }.
(* f.read(4) then unpack: fewer than four bytes raise *)
Definition read_int (D : decoder) (f : bytes) : result (Z * bytes) :=
  match f with a :: b :: c :: d :: f' => Ok (d_int D a b c d, f') | _ => Raise end.
Definition read_real (D : decoder) (f : bytes) : result (R * bytes) :=
  match f with a :: b :: c :: d :: f' => Ok (d_real D a b c d, f') | _ => Raise end.
(* for i in range(n): append *)
Fixpoint read_many {A} (rd : bytes -> result (A * bytes)) (n : nat) (f : bytes) : result (list A * bytes) :=
  match n with
  | O => Ok ([], f)
  | S n' => bind (rd f) (fun r => bind (read_many rd n' (snd r)) (fun q => Ok (fst r :: fst q, snd q)))
  end.
Definition read_three (D : decoder) (f : bytes) : result ((R * R * R) * bytes) :=
  bind (read_real D f) (fun x => bind (read_real D (snd x)) (fun y => bind (read_real D (snd y)) (fun z =>
  Ok ((fst x, fst y, fst z), snd z)))).
Record out3 := mkOut { o3_n : Z; o3_a : list R; o3_m : list R; o3_s : six (list R); o3_id : list Z }.
Definition first3 (t : R * R * R) : R := fst (fst t).
Definition second3 (t : R * R * R) : R := snd (fst t).
Definition third3 (t : R * R * R) : R := snd t.
(* return 0, np.zeros(20), ...: nbody6.py:112, 175, 227 *)
Definition no_out : out3 := mkOut 0 (repeat 0 20) [] nil6 [].
(* nbody6.py:126-167, 190-225: the data block *)
Definition read_data (D : decoder) (n nk : Z) (f : bytes) : result (out3 * bytes) :=
  bind (read_int D f) (fun b0 =>
  bind (read_many (read_real D) (Z.to_nat nk) (snd b0)) (fun al =>
  bind (read_many (read_real D) (Z.to_nat n) (snd al)) (fun ms =>
  bind (read_many (read_three D) (Z.to_nat n) (snd ms)) (fun xs =>
  bind (read_many (read_three D) (Z.to_nat n) (snd xs)) (fun vs =>
  bind (read_many (read_int D) (Z.to_nat n) (snd vs)) (fun ids =>
  bind (read_int D (snd ids)) (fun b1 =>
  if Z.eqb (fst b0) (fst b1)
  then Ok (mkOut n (fst al) (fst ms)
             (mk6 (map first3 (fst xs)) (map second3 (fst xs)) (map third3 (fst xs))
                  (map first3 (fst vs)) (map second3 (fst vs)) (map third3 (fst vs))) (fst ids), snd b1)
  else Raise))))))).                                    (* return -1, which the caller cannot unpack *)
(* nbody6.py:106-167 *)
Definition get_out3 (D : decoder) (f : bytes) : result (out3 * bytes) :=
  match read_int D f with
  | Raise => Ok (no_out, [])
  | Ok b0 =>
    bind (read_int D (snd b0)) (fun n => bind (read_int D (snd n)) (fun model => bind (read_int D (snd model)) (fun nrun =>
    bind (read_int D (snd nrun)) (fun nk => bind (read_int D (snd nk)) (fun b1 =>
    if Z.eqb (fst b0) (fst b1) then read_data D (fst n) (fst nk) (snd b1) else Raise)))))
  end.
(* nbody6.py:169-227 *)
Definition get_out33 (D : decoder) (f : bytes) : result (out3 * bytes) :=
  match read_int D f with
  | Raise => Ok (no_out, [])
  | Ok b0 =>
    bind (read_int D (snd b0)) (fun n => bind (read_int D (snd n)) (fun model =>
    bind (read_int D (snd model)) (fun nk => bind (read_int D (snd nk)) (fun b1 =>
    if Z.eqb (fst b0) (fst b1)
    then if Z.ltb 0 (fst n) then read_data D (fst n) (fst nk) (snd b1) else Ok (no_out, snd b1)
    else Raise))))
  end.

(* ------------------------------------------------------------------ fort.82 and fort.83 *)
Record binrow := mkBR {
  r_id1 : Z; r_id2 : Z; r_kw1 : Z; r_kw2 : Z; r_kwb : Z;
  r_rib : R; r_ecc : R; r_pb : R; r_semi : R; r_m1 : R; r_m2 : R;
  r_l1 : R; r_l2 : R; r_r1 : R; r_r2 : R; r_te1 : R; r_te2 : R }.
Record sinrow := mkSR { y_id : Z; y_kw : Z; y_ri : R; y_m : R; y_l : R; y_r : R; y_te : R }.
(* data[i], int(data[i]), float(data[i]) *)
Definition word_at (l : line) (i : nat) : result string := match nth_error l i with Some s => Ok s | None => Raise end.
Definition int_at (rd : reader) (l : line) (i : nat) : result Z :=
  bind (word_at l i) (fun s => match int_of rd s with Some z => Ok z | None => Raise end).
Definition real_at (rd : reader) (l : line) (i : nat) : result R :=
  bind (word_at l i) (fun s => match float_of rd s with Some x => Ok x | None => Raise end).
(* nbody6.py:269-294 *)
Definition bin_row (rd : reader) (l : line) : result binrow :=
  bind (int_at rd l 0) (fun a => bind (int_at rd l 1) (fun b => bind (int_at rd l 2) (fun c => bind (int_at rd l 3) (fun d => bind (int_at rd l 4) (fun e =>
  bind (real_at rd l 5) (fun f => bind (real_at rd l 6) (fun g => bind (real_at rd l 7) (fun h => bind (real_at rd l 8) (fun i =>
  bind (real_at rd l 9) (fun j => bind (real_at rd l 10) (fun k => bind (word_at l 11) (fun w =>
  let go (p q r s t u : R) := mkBR a b c d e f g h i j k p q r s t u in
  if String.eqb w "NaN" then Ok (go 0 0 0 0 0 0)
  else bind (real_at rd l 11) (fun p => bind (real_at rd l 12) (fun q => bind (real_at rd l 13) (fun r => bind (real_at rd l 14) (fun s =>
       bind (real_at rd l 15) (fun t => bind (real_at rd l 16) (fun u => Ok (go p q r s t u)))))))
  )))))))))))).
(* nbody6.py:317-329 *)
Definition sin_row (rd : reader) (l : line) : result sinrow :=
  bind (int_at rd l 0) (fun a => bind (int_at rd l 1) (fun b => bind (real_at rd l 2) (fun c => bind (real_at rd l 3) (fun d => bind (word_at l 4) (fun w =>
  if String.eqb w "NaN" then Ok (mkSR a b c d 0 0 0)
  else bind (real_at rd l 4) (fun p => bind (real_at rd l 5) (fun q => bind (real_at rd l 6) (fun r => Ok (mkSR a b c d p q r))))))))).
(* the arrays filled while reading: rows read so far, and kw, zl1, r1 *)
Record sestate := mkSE { w_bin : list binrow; w_sin : list sinrow; w_kw : list R; w_zl : list R; w_r : list R }.
(* np.log10(10.0**zl1b + 10.0**zl2b) *)
Definition pair_log (b : binrow) : R := log10 (pow10 (r_l1 b) + pow10 (r_l2 b)).
(* nbody6.py:296-300: the whole array lbtot is appended each time *)
Definition add_bin (b : binrow) (s : sestate) : sestate :=
  let bins := w_bin s ++ [b] in
  mkSE bins (w_sin s) (w_kw s ++ [IZR (r_kwb b)]) (w_zl s ++ map pair_log bins) (w_r s ++ [Rmax (r_r1 b) (r_r2 b)]).
Definition add_sin (y : sinrow) (s : sestate) : sestate :=
  mkSE (w_bin s) (w_sin s ++ [y]) (w_kw s ++ [IZR (y_kw y)]) (w_zl s ++ [y_l y]) (w_r s ++ [y_r y]).
(* nbody6.py:265-300, 313-329: `data` is the line read last *)
Section Loop.
Variable rowOf : line -> result (sestate -> sestate).
Fixpoint se_loop (n : nat) (f : text) (data : line) (s : sestate) : result (text * line * sestate) :=
  match n with
  | O => Ok (f, data, s)
  | S n' =>
    let '(l, f') := readline f in
    bind (word_at l 0) (fun w =>
    if String.eqb w "##" then Ok (f', l, s)
    else bind (rowOf l) (fun g => se_loop n' f' l (g s)))
  end.
End Loop.
(* nbody6.py:302-303, 331-332 *)
Definition se_footer (f : text) (data : line) : result (text * line) :=
  bind (word_at data 0) (fun w =>
  if String.eqb w "##" then Ok (f, data) else let '(l, f') := readline f in Ok (f', l)).
(* nbody6.py:260-261, 310-311 *)
Definition se_header (rd : reader) (f : text) : result (Z * text) :=
  let '(h, f') := readline f in
  bind (int_at rd h 2) (fun n => bind (real_at rd h 3) (fun t => Ok (n, f'))).
(* nbody6.py:229-334; the results are what is left of the two files and the arrays *)
Definition get_nbody6se (rd : reader) (f82 f83 : text) : result (text * text * sestate) :=
  bind (se_header rd f82) (fun h =>
  bind (if Z.ltb 0 (fst h)
        then bind (se_loop (fun l => bind (bin_row rd l) (fun b => Ok (add_bin b))) (Z.to_nat (fst h)) (snd h) [] (mkSE [] [] [] [] [])) (fun r =>
             let '(f, data, s) := r in bind (se_footer f data) (fun q => Ok (fst q, snd q, s)))
        else let '(l, f) := readline (snd h) in Ok (f, l, mkSE [] [] [] [] [])) (fun r =>
  let '(f82', data, s) := r in
  bind (se_header rd f83) (fun h3 =>
  bind (se_loop (fun l => bind (sin_row rd l) (fun y => Ok (add_sin y))) (Z.to_nat (fst h3)) (snd h3) data s) (fun r =>
  let '(f, data', s') := r in bind (se_footer f data') (fun q => Ok (f82', fst q, s')))))).

(* ------------------------------------------------------------------ the cluster *)
Definition out_args (o : out3) : star_args :=
  mkArgs (map6 (@Array R) (o3_s o)) (Some (Array (o3_m o))) (Some (Array (o3_id o))) None None.
Definition al (l : list R) (i : nat) : result R := match nth_error l i with Some x => Ok x | None => Raise end.
(* a number of stars given as a float: its integer part *)
Definition count_of (x : R) : nat := Z.to_nat (Int_part x).
Record n6 := mkN6 { x_cat : catalog; x_out3 : bytes; x_out33 : option bytes; x_82 : option text; x_83 : option text; x_ofile : option text }.
Record n6_opts := mkNO { j_nsnap : nat; j_orbit : orbit_opts; j_analyze : bool; j_sort : bool; j_ro : R; j_vo : R }.
Section WithGalpy.
Variable G : galpy.
(* nbody6.py:64-67 *)
Definition scale_nbody6 (o : out3) (k : catalog) : result catalog :=
  if Z.ltb 0 (o3_n o) then
    bind (al (o3_a o) 13) (fun nc => bind (al (o3_a o) 12) (fun rc => bind (al (o3_a o) 2) (fun rb => bind (al (o3_a o) 4) (fun rt =>
    bind (al (o3_a o) 6) (fun xc => bind (al (o3_a o) 7) (fun yc => bind (al (o3_a o) 8) (fun zc => bind (al (o3_a o) 3) (fun zm =>
    bind (al (o3_a o) 11) (fun vb => bind (al (o3_a o) 10) (fun tb => bind (al (o3_a o) 17) (fun rs => bind (al (o3_a o) 1) (fun nb =>
    Ok (add_nbody6 rb xc yc zc zm vb tb (Z.to_nat (o3_n o)) (count_of nb) k)))))))))))))
  else Ok k.
(* nbody6.py:71-79 *)
Definition binaries_nbody6 (D : decoder) (f : option bytes) (k : catalog) : result (catalog * option bytes) :=
  match f with
  | None => Ok (k, None)
  | Some f =>
    bind (get_out33 D f) (fun r => let '(o, f') := r in
    if Z.ltb 0 (o3_n o) then
      bind (add_stars 0 (out_args o) true true false k) (fun k1 =>
      bind (al (o3_a o) 0) (fun x => bind (al (o3_a o) 1) (fun y => bind (al (o3_a o) 2) (fun z =>
      bind (al (o3_a o) 3) (fun vx => bind (al (o3_a o) 4) (fun vy => bind (al (o3_a o) 5) (fun vz =>
      Ok (set_cluster k1 (add_orbit G (mk6 x y z vx vy vz) None None (g_c k1)), Some f'))))))))
    else Ok (k, Some f'))
  end.
(* nbody6.py:84-95 *)
Definition evolve_nbody6 (rd : reader) (f82 f83 : option text) (k : catalog) : result (catalog * option text * option text) :=
  match f82, f83 with
  | Some a, Some b =>
    bind (get_nbody6se rd a b) (fun r => let '(a', b', s) := r in
    bind (add_sse (w_kw s) (w_zl s) (w_r s) None None None k) (fun k1 =>
    let sc := c_sc (g_c k1) in
    let m {A} (f : binrow -> A) := map f (w_bin s) in
    bind (add_bse (m r_id1) (m r_id2) (m (fun b => IZR (r_kw1 b))) (m (fun b => IZR (r_kw2 b))) (m (fun b => IZR (r_kwb b))) (m r_ecc)
            (m (fun b => pow10 (r_pb b) / tbar_days sc)) (m (fun b => pow10 (r_semi b) / rbar_su sc))
            (m (fun b => r_m1 b / zmbar sc)) (m (fun b => r_m2 b / zmbar sc)) (m r_l1) (m r_l2) (m r_r1) (m r_r2) k1) (fun k2 =>
    Ok (k2, Some a', Some b'))))
  | _, _ => Ok (k, None, None)
  end.
(* nbody6.py:12-104.  The StarCluster is made without keywords, so projected is False. *)
Definition get_nbody6 (D : decoder) (rd : reader) (o : n6_opts) (out3 : bytes) (out33 : option bytes) (f82 f83 : option text)
    (ofile : option text) (advance : bool) : result n6 :=
  bind (get_out3 D out3) (fun r => let '(s, out3') := r in
  bind (al (o3_a s) 0) (fun t =>
  bind (scale_nbody6 s (init_catalog (init_cluster t (Some Unbody) (Some Ocluster) (j_ro o) (j_vo o)))) (fun k1 =>
  bind (binaries_nbody6 D out33 k1) (fun r => let '(k2, out33') := r in
  bind (if Z.ltb 0 (o3_n s) then add_stars 0 (out_args s) true true false k2 else Ok k2) (fun k3 =>
  bind (evolve_nbody6 rd f82 f83 k3) (fun r => let '(k4, a, b) := r in
  let k5 := if j_analyze o && Nat.ltb 0 (g_ntot k4) then set_cluster k4 (analyze (j_sort o) false (g_c k4)) else k4 in
  match ofile with
  | None => Ok (mkN6 k5 out3' out33' a b None)
  | Some f => bind (get_cluster_orbit G rd (j_orbit o) (j_nsnap o) advance f (g_c k5)) (fun q =>
              Ok (mkN6 (set_cluster k5 (fst q)) out3' out33' a b (Some (snd q))))
  end)))))).
(* load.py:164-187, 287-289 *)
Definition load_nbody6 (D : decoder) (rd : reader) (o : n6_opts) (out3 : bytes) (out33 : option bytes) (f82 f83 : option text)
    (ofile : option text) : result n6 := get_nbody6 D rd o out3 out33 f82 f83 ofile false.
(* load.py:426-429, 618-622; restarts in cont/ are not modelled *)
Definition advance_nbody6 (D : decoder) (rd : reader) (o : n6_opts) (v : n6) : result n6 :=
  get_nbody6 D rd o (x_out3 v) (x_out33 v) (x_82 v) (x_83 v) (x_ofile v) true.
Fixpoint advance_nbody6_times (D : decoder) (rd : reader) (o : n6_opts) (n : nat) (v : n6) : result n6 :=
  match n with O => Ok v | S n' => bind (advance_nbody6_times D rd o n' v) (advance_nbody6 D rd o) end.
End WithGalpy.
