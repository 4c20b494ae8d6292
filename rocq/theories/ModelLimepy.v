(* Clusters sampled from limepy models, by parameters or by the name of a Galactic globular cluster. *)
From Coq Require Import String Ascii.
From Verif Require Import Base ModelCluster ModelOps ModelRecipes ModelStars ModelOutput ModelLoad ModelGorbit ModelNbody6pp ModelParticles ModelKing.
Open Scope string_scope. Open Scope list_scope. Open Scope R_scope.

(* a limepy model: central potential, truncation, mass, and the radius that sets its size; lm_one: G = 1 *)
Inductive lradius := LRt (r : R) | LRv (r : R) | LRh (r : R) | LR0 (r : R).
Record lime := mkLime { lm_phi0 : R; lm_g : R; lm_M : R; lm_r : lradius; lm_one : bool }.
(* limepy's sample(model, N): positions, velocities and masses.  Random; one outcome is taken. *)
Definition sampler := lime -> nat -> list (six R * R).
(* the keywords of load_cluster('limepy') read by _sample_limepy; `model` and `projected` are not modelled *)
Record lime_kw := mkLK {
  kw_W0 : option R; kw_phi0 : option R; kw_g : R; kw_M : option R;
  kw_rt : option R; kw_rv : option R; kw_rh : option R; kw_rm : option R; kw_r0 : option R; kw_rc : option R;
  kw_mbar : R; kw_N : option R }.
(* limepydf.py:191-210 *)
Definition size_of (q : lime_kw) : lradius :=
  match kw_rt q with Some r => LRt r | None =>
  match kw_rv q with Some r => LRv r | None =>
  match kw_rh q with Some r => LRh r | None =>
  match kw_rm q with Some r => LRh r | None =>
  match kw_r0 q with Some r => LR0 r | None =>
  match kw_rc q with Some r => LR0 r | None => LRv 1 end end end end end end.
(* 181-213; float(None) raises *)
Definition model_of (q : lime_kw) : result lime :=
  match (match kw_W0 q with Some w => Some w | None => kw_phi0 q end) with
  | None => Raise
  | Some w => match kw_M q with
              | Some M => Ok (mkLime w (kw_g q) M (size_of q) false)
              | None => Ok (mkLime w (kw_g q) 1 (LRv 1) true)
              end
  end.
(* 216: int(kwargs.get("N", M/mbar)) *)
Definition star_count (N : option R) (M mbar : R) : nat := Z.to_nat (truncate (match N with Some n => n | None => M / mbar end)).
Definition sampled (l : list (six R * R)) : six (list R) :=
  mk6 (map (fun p => sx (fst p)) l) (map (fun p => sy (fst p)) l) (map (fun p => sz (fst p)) l)
      (map (fun p => svx (fst p)) l) (map (fun p => svy (fst p)) l) (map (fun p => svz (fst p)) l).
Definition set_units (u : option usys) (c : cluster) : cluster :=
  mkC u (c_origin c) (option_map Bu u) (c_nb c) (c_ph c) (c_sc c) (c_bin c) (c_sky c) (c_der c) (c_id c).

Section WithGalpy.
Variable G : galpy.
Variable S : sampler.
(* limepydf.py:218-234 *)
Definition sample_model (m : lime) (N : nat) : result catalog :=
  let l := S m N in
  bind (add_stars 0 (mkArgs (six_arrays (sampled l)) (Some (Array (map snd l))) (Some (Array (from_one N))) None None)
          true true false (init_catalog (init_cluster 0 None (Some Ocluster) solar_ro solar_vo))) (fun k =>
  bind (find_centre_default G (g_c k)) (fun c => Ok (set_cluster k c))).
(* limepydf.py:147-234 *)
Definition sample_limepy (q : lime_kw) : result catalog :=
  bind (model_of q) (fun m => sample_model m (star_count (kw_N q) (lm_M m) (kw_mbar q))).
Definition as_request (o : option osys) : oreq := match o with Some w => Oreq w | None => Oother end.
(* limepydf.py:98-99, 106-107 *)
Definition move_to (o : option osys) (c : cluster) : cluster :=
  if oosys_eqb (c_origin c) o then c else to_origin G (as_request o) true c.
(* limepydf.py:109-133.  In this module _get_cluster_orbit is the function of one name at 927, so the call at 128 raises TypeError.
   to_galaxy does nothing but analyze when the origin is the Galaxy already. *)
Definition finish (o : option osys) (orb : option gorbit) (ofile : option text) (c : cluster) : result cluster :=
  bind (match orb, ofile with
        | Some orb, _ => Ok (add_orbit G (orb ((p_t (c_ph c) / 1000) / time_in_Gyr G solar_ro solar_vo)) (Some Ukpckms) None c)
        | None, Some _ => Raise
        | None, None => Ok c
        end) (fun c1 =>
  Ok (analyze true false (if oosys_eqb o (Some Ogalaxy) then to_galaxy G true c1 else c1))).
(* limepydf.py:101-144, load.py:280-281 *)
Definition get_limepy (u : option usys) (o : option osys) (q : lime_kw) (orb : option gorbit) (ofile : option text) : result catalog :=
  bind (sample_limepy q) (fun k =>
  let c := move_to o (set_units u (g_c k)) in
  if Nat.eqb (g_ntot k) 0 then Ok (set_cluster k c) else bind (finish o orb ofile c) (fun c' => Ok (set_cluster k c'))).
(* load.py:280-344: load_cluster('limepy', ..., orbit=orb) *)
Definition load_limepy (u : option usys) (o : option osys) (q : lime_kw) (orb : option gorbit) (ofile : option text) : result catalog :=
  bind (get_limepy u o q orb ofile) (fun k =>
  match orb with None => Ok k | Some w => bind (load_orbit G w (g_c k)) (fun c => Ok (set_cluster k c)) end).

(* -------------------------------------------------------------- Galactic globular clusters *)
(* rows of deBoer2019.dat (name; W, g, rt, M) and harris2010.dat (two names; M, rc, rh, rt) *)
Record drow := mkDR { dr_name : string; dr_W : R; dr_g : R; dr_rt : R; dr_M : R }.
Record hrow := mkHR { hr_1 : string; hr_2 : string; hr_M : R; hr_rc : R; hr_rh : R; hr_rt : R }.
Definition upper_char (c : ascii) : ascii :=
  let n := nat_of_ascii c in if (Nat.leb 97 n && Nat.leb n 122)%bool then ascii_of_nat (n - 32) else c.
Fixpoint upper (s : string) : string :=
  match s with EmptyString => EmptyString | String c t => String (upper_char c) (upper t) end.
(* "default"; contains "deboer" or "deBoer"; contains "harris" or "Harris"; anything else *)
Inductive source := Sdefault | Sdeboer | Sharris | Sother.
Variable named_orbit : string -> option (six R).    (* galpy's Orbit.from_name; an unknown name raises *)
Definition deboer_row (d : list drow) (n : string) : option drow := find (fun r => String.eqb (dr_name r) n) d.
Definition by_first (h : list hrow) (n : string) : option hrow := find (fun r => String.eqb (hr_1 r) n) h.
Definition by_second (h : list hrow) (n : string) : option hrow := find (fun r => String.eqb (hr_2 r) n) h.
Definition by_either (h : list hrow) (n : string) : option hrow := find (fun r => (String.eqb (hr_1 r) n || String.eqb (hr_2 r) n)%bool) h.
(* limepydf.py:844-863, 906-925 *)
Definition on_its_orbit (n : string) (k : catalog) : result catalog :=
  match named_orbit n with
  | None => Raise
  | Some p => Ok (set_cluster k (add_orbit G p (Some Ukpckms) None (set_units (Some Upckms) (g_c k))))
  end.
(* limepydf.py:791-863: the keyword N is not used *)
Definition deboer_cluster (d : list drow) (n : string) (mbar : R) : result catalog :=
  match deboer_row d n with
  | None => Raise                                                       (* IndexError at 820 *)
  | Some r => bind (sample_model (mkLime (dr_W r) (dr_g r) (dr_M r) (LRt (dr_rt r)) false) (star_count None (dr_M r) mbar)) (on_its_orbit n)
  end.
(* limepydf.py:866-925 *)
Definition harris_cluster (h : list hrow) (n : string) (mbar : R) (N : option R) : result catalog :=
  match by_either h n with
  | None => Raise
  | Some r => bind (c_to_w0 (log10 (hr_rt r / hr_rc r))) (fun w =>
              bind (sample_model (mkLime w 1 (hr_M r) (LRt (hr_rt r)) false) (star_count N (hr_M r) mbar)) (on_its_orbit n))
  end.
Definition empty_cluster : catalog := init_catalog (init_cluster 0 None None solar_ro solar_vo).
(* limepydf.py:705-789; where no branch of 768-775 is taken the name `cluster` has no value *)
Definition get_cluster (d : list drow) (h : list hrow) (name : string) (s : source) (mbar : R) (N : option R) : result catalog :=
  let n := upper name in
  match s with
  | Sdefault | Sdeboer =>
    match deboer_row d n with
    | Some _ => deboer_cluster d n mbar
    | None => match by_first h n with
              | Some r => deboer_cluster d (hr_2 r) mbar
              | None => match by_second h n with Some r => deboer_cluster d (hr_1 r) mbar | None => Raise end
              end
    end
  | Sharris => match by_either h n with Some _ => harris_cluster h n mbar N | None => Ok empty_cluster end
  | Sother => Ok empty_cluster
  end.
(* limepydf.py:89-99, 109-144, in pckms; other units (94-96) are not modelled *)
Definition get_named (d : list drow) (h : list hrow) (name : string) (s : source) (mbar : R) (N : option R) (o : option osys) : result catalog :=
  bind (get_cluster d h name s mbar N) (fun k =>
  let c := move_to o (g_c k) in
  if Nat.eqb (g_ntot k) 0 then Ok (set_cluster k c) else bind (finish o None None c) (fun c' => Ok (set_cluster k c'))).
End WithGalpy.
