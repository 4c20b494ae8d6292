(* C85, C86: NBODY6++ output files. *)
From Coq Require Import String Ascii.
From Coq Require Import Init.Byte.
From Verif Require Import Base ModelCluster ModelOps ModelRecipes ModelEnergy ModelStars ModelLoad ModelNbody6 ModelNbody6pp
  SpecUnits SpecStars SpecLoad SpecNbody6 SpecNbody6pp ProofsNbody6 ProofsNbody62 ProofsNbody63 ProofsLoad2 ProofsLoad3 ProofsLoad4 ProofsRecipes2
  ProofsNbody6pp ProofsNbody6pp2 ProofsNbody6pp3 ProofsNbody6pp4 ProofsNbody6pp5 ProofsNbody6pp6 PropLoad PropNbody6.
Open Scope string_scope. Open Scope list_scope. Open Scope R_scope.

(* C85: files conf.3_a, conf.3_(a+dt), conf.3_(a+2dt), ... of a directory: load_cluster and then k calls of advance_cluster give the stars of file number a+k dt: pairs
   by their centre of mass, single stars as they are, scales, densities and kinetic energies *)
Theorem C85_series :
  forall (G : galpy) (D : decoder) (rd : reader) (d : pp_disk) (o : pp_opts) (a dt : Z) (wdir snapdir w s : string) (scs : nat -> list R) (ps : nat -> list (body * body))
      (ss : nat -> list body) (phis fs rest : nat -> bytes) (m : nat),
    (0 <= a)%Z -> (0 <= dt)%Z -> amount (h_dtout o) = IZR dt -> slashed wdir w -> slashed snapdir s ->
    (forall j, (j <= m)%nat -> conf3_record D (scs j) (listed (ps j) (ss j)) (phis j) (fs j) /\ (18 <= length (scs j))%nat /\ nth 1 (scs j) 0 = INR (length (ps j)) /\ listed (ps j) (ss j) <> [] /\
       let n := numbered (h_dtout o) (a + Z.of_nat j * dt) in
       k_conf d (append w s) n = Some (fs j ++ rest j) /\ k_82 d (append w s) n = None /\ k_83 d (append w s) n = None) ->
    forall k, (k <= m)%nat ->
    exists v x, load_pp G D rd d o a wdir snapdir None = Ok v /\ advance_pp_times G D rd d o (Some snapdir) k v = Ok x /\
      conf_loaded (scs k) (ps k) (ss k) x /\ u_nsnap x = (a + Z.of_nat k * dt)%Z.
Proof.
  intros G D rd d o a dt wdir snapdir w s scs ps ss phis fs rest m Ha Hd HT W S0 H k Hk. apply slashed_unique in W. apply slashed_unique in S0. subst w s.
  destruct (@many_pp G D rd d o a dt wdir snapdir scs ps ss phis fs rest m Ha Hd HT H k Hk) as [v [x [E1 [E2 [CL [N _]]]]]].
  exists v, x. split; [exact E1|]. split; [exact E2|]. split; [exact CL|exact N].
Qed.
Print Assumptions C85_series.
(* C85: without a file, or with one too short for its first mark, there is an empty cluster; this ends a series *)
Theorem C85_no_file :
  forall (G : galpy) (D : decoder) (rd : reader) (o : pp_opts) (ns : number) (wdir : string) (conf : option bytes) (f82 f83 : option text) (advance : bool),
    match conf with None => True | Some f => (length f < 4)%nat end -> f82 = None \/ f83 = None ->
    exists v, get_nbody6pp G D rd o ns wdir conf f82 f83 None advance = Ok v /\ g_ntot (u_cat v) = 0%nat /\ p_m (c_ph (g_c (u_cat v))) = [] /\ u_energy v = None.
Proof.
  intros G D rd o ns wdir conf f82 f83 adv HC H. rewrite (pp_no_file G D rd o ns wdir f82 f83 adv HC). destruct f82 as [a|]; destruct f83 as [b|]; try (eexists; split; [reflexivity|now split]). destruct H; discriminate.
Qed.
Print Assumptions C85_no_file.
(* C85, what the code does: bev.82 and sev.83 without conf.3 raise *)
Theorem C85_lone_evolution_refuted :
  forall (G : galpy) (D : decoder) (rd : reader) (o : pp_opts) (ns : number) (wdir : string) (conf : option bytes) (f82 f83 : text) (advance : bool),
    match conf with None => True | Some f => (length f < 4)%nat end -> get_nbody6pp G D rd o ns wdir conf (Some f82) (Some f83) None advance = Raise.
Proof. intros G D rd o ns wdir conf f82 f83 adv HC. now rewrite (pp_no_file G D rd o ns wdir (Some f82) (Some f83) adv HC). Qed.
Print Assumptions C85_lone_evolution_refuted.
(* C85: marks that differ, and a file cut short after its first mark, raise *)
Theorem C85_marks :
  forall (G : galpy) (D : decoder) (rd : reader) (o : pp_opts) (ns : number) (wdir : string) (a b : Z) (scalars : list R) (bs : list body) (phi f rest : bytes)
      (f82 f83 ofile : option text) (advance : bool),
    conf3_marked D a b scalars bs phi f -> bs <> [] -> a <> b -> get_nbody6pp G D rd o ns wdir (Some (f ++ rest)) f82 f83 ofile advance = Raise.
Proof. intros. eapply pp_marks; eassumption. Qed.
Print Assumptions C85_marks.
Theorem C85_truncated :
  forall (G : galpy) (D : decoder) (rd : reader) (o : pp_opts) (ns : number) (wdir : string) (scalars : list R) (bs : list body) (phi f1 f2 : bytes)
      (f82 f83 ofile : option text) (advance : bool),
    conf3_record D scalars bs phi (f1 ++ f2) -> bs <> [] -> f2 <> [] -> (4 <= length f1)%nat -> get_nbody6pp G D rd o ns wdir (Some f1) f82 f83 ofile advance = Raise.
Proof.
  intros G D rd o ns wdir sc bs phi f1 f2 f82 f83 fo adv H NE N L. unfold get_nbody6pp. now rewrite (@conf3_truncated D sc bs phi (f1 ++ f2) f1 f2 H NE eq_refl N L).
Qed.
Print Assumptions C85_truncated.
(* C85: an orbit file: for load_cluster, line nsnap/dtout *)
Theorem C85_orbit :
  forall (G : galpy) (D : decoder) (rd : reader) (o : pp_opts) (m : nat) (nsnap : Z) (wdir : string) (conf : option bytes) (f82 f83 : option text) (fo : text) (v : pp) (t : R) (p : six R),
    get_nbody6pp G D rd o (Whole nsnap) wdir conf f82 f83 None false = Ok v -> c_units (g_c (u_cat v)) = Some Unbody ->
    amount (h_dtout o) <> 0 -> IZR nsnap = INR m * amount (h_dtout o) ->
    orbit_at rd (q_cols (h_orbit o)) fo m t p -> q_units (h_orbit o) = None \/ q_units (h_orbit o) = Some Unbody ->
    exists x, get_nbody6pp G D rd o (Whole nsnap) wdir conf f82 f83 (Some fo) false = Ok x /\
      p_g (c_ph (g_c (u_cat x))) = p /\ p_t (c_ph (g_c (u_cat x))) = (if q_time (h_orbit o) then t else p_t (c_ph (g_c (u_cat v)))) /\
      p_m (c_ph (g_c (u_cat x))) = p_m (c_ph (g_c (u_cat v))) /\ p_s (c_ph (g_c (u_cat x))) = p_s (c_ph (g_c (u_cat v))) /\ c_id (g_c (u_cat x)) = c_id (g_c (u_cat v)).
Proof.
  intros G D rd o m nsnap wdir conf f82 f83 fo v t p E U NZ M [l [N L]] Q. unfold get_nbody6pp in E |- *.
  destruct (get_conf3 D conf) as [c|]; [|discriminate E]; cbn [bind] in E |- *. destruct (al (o3_a (v_out c)) 0) as [t0|]; [|discriminate E]; cbn [bind] in E |- *.
  destruct (fill_pp c _) as [[[k rh] en]|]; [|discriminate E]; cbn [bind] in E |- *. match type of E with bind ?y _ = _ => destruct y as [k1|] end; [|discriminate E]; cbn [bind] in E |- *.
  match type of E with Ok ?x = _ => assert (x = v) as E' by congruence end. subst v. cbn [u_cat] in U |- *.
  set (k5 := if (h_analyze o && Nat.ltb 0 (g_ntot k1))%bool then set_cluster k1 (analyze (h_sort o) false (g_c k1)) else k1) in U |- *. clearbody k5. clear E.
  assert (Z.to_nat (truncate (amount (Whole nsnap) / amount (h_dtout o))) = m) as ->.
  { cbn [amount]. rewrite M. replace (INR m * amount (h_dtout o) / amount (h_dtout o)) with (IZR (Z.of_nat m)) by (rewrite -INR_IZR_INZ; field; exact NZ). rewrite truncate_IZR. lia. }
  assert (nth_error fo (line_number m false) = Some l) as N' by exact N.
  rewrite (get_cluster_orbit_ok G (g_c k5) N' L). cbn [bind fst snd]. eexists. split; [reflexivity|]. cbn [u_cat set_cluster g_c].
  assert (plain (g_c k5)) as PL by (unfold plain; now rewrite U).
  set (tt := if q_time (h_orbit o) then Some t else None).
  destruct (add_orbit_plain G p (q_units (h_orbit o)) tt PL) as [M0 [X0 [I0 [N0 [U0 [O0 [S0 [K0 [PC0 T0]]]]]]]]].
  assert (p_g (c_ph (add_orbit G p (q_units (h_orbit o)) tt (g_c k5))) = p /\ (forall t0, tt = Some t0 -> p_t (c_ph (add_orbit G p (q_units (h_orbit o)) tt (g_c k5))) = t0)) as [PG PT].
  { destruct Q as [-> | ->]; [exact (add_orbit_none G p tt (g_c k5))|exact (add_orbit_same G p tt U)]. }
  split; [exact PG|]. split; [|now rewrite M0 X0 I0]. unfold tt in PT, T0 |- *. destruct (q_time (h_orbit o)); [now apply PT|now apply T0].
Qed.
Print Assumptions C85_orbit.
(* C85, what the code does: the four bytes of each potential are read as an integer; e_pot of a single star is that integer *)
Theorem C85_potentials_refuted :
  forall (G : galpy) (D : decoder) (rd : reader) (o : pp_opts) (ns : number) (wdir : string) (scalars : list R) (pairs : list (body * body)) (singles : list body)
      (zs : list Z) (phi f : bytes) (advance : bool) (j : nat) (y : body) (z : Z),
    conf3_record D scalars (listed pairs singles) phi f -> (18 <= length scalars)%nat -> nth 1 scalars 0 = INR (length pairs) ->
    ints D zs phi -> nth_error singles j = Some y -> nth_error zs (2 * length pairs + j) = Some z -> IZR z <> y_phi y ->
    exists v e, get_nbody6pp G D rd o ns wdir (Some f) None None None advance = Ok v /\ u_energy v = Some e /\
      nth_error (e_pot e) (length pairs + j) = Some (Some (IZR z)) /\ nth_error (e_pot e) (length pairs + j) <> Some (Some (y_phi y)).
Proof.
  intros G D rd o ns wdir sc pairs singles zs phi f adv j y z H L NB IZ NJ NZ DI.
  assert (listed pairs singles <> []) as NE. { intros Q. pose proof (listed_single pairs NJ) as Q'. rewrite Q in Q'. destruct (2 * length pairs + j)%nat; discriminate Q'. }
  destruct (@get_pp_ok G D rd o ns wdir sc pairs singles phi f [] adv H L NB NE) as [v [zs' [po [E [CL [_ [_ [_ [_ [IZ' [PO [EP _]]]]]]]]]]]].
  assert (zs' = zs) as -> by exact (ints_unique IZ' IZ). rewrite app_nil_r in E.
  destruct CL as [_ [_ [_ [_ [_ [_ [_ [_ [_ [e [EE _]]]]]]]]]]]. exists v, e. split; [exact E|]. split; [exact EE|]. rewrite (EP e EE).
  assert (2 * length pairs <= length (map IZR zs))%nat as LZ. { rewrite map_length. assert (2 * length pairs + j < length zs)%nat by (apply nth_error_Some; rewrite NZ; discriminate). lia. }
  rewrite (pair_sums_ok LZ) in PO. injection PO as <-.
  assert (nth_error (map Some (map (fun i => nth (2 * i) (map IZR zs) 0 + nth (2 * i + 1) (map IZR zs) 0) (seq 0 (length pairs)) ++ skipn (2 * length pairs) (map IZR zs))) (length pairs + j) = Some (Some (IZR z))) as Q.
  { rewrite nth_error_map nth_error_app2; [rewrite map_length seq_length; lia|]. rewrite map_length seq_length. replace (length pairs + j - length pairs)%nat with j by lia.
    rewrite skipn_map nth_error_map. assert (nth_error (skipn (2 * length pairs) zs) j = Some z) as ->; [|reflexivity].
    rewrite <- NZ. rewrite <- (firstn_skipn (2 * length pairs) zs) at 2. rewrite map_length in LZ. pose proof (firstn_length_le zs LZ) as FL. rewrite nth_error_app2; rewrite FL; [lia|f_equal; lia]. }
  cbn zeta in Q |- *. split; [exact Q|]. rewrite Q. congruence.
Qed.
Print Assumptions C85_potentials_refuted.
(* C85, what the code does: without bev.82 and sev.83 binaries are counted twice *)
Theorem C85_binary_count_refuted :
  forall (G : galpy) (D : decoder) (rd : reader) (o : pp_opts) (ns : number) (wdir : string) (scalars : list R) (pairs : list (body * body)) (singles : list body) (phi f : bytes) (advance : bool),
    conf3_record D scalars (listed pairs singles) phi f -> (18 <= length scalars)%nat -> nth 1 scalars 0 = INR (length pairs) -> pairs <> [] ->
    exists v, get_nbody6pp G D rd o ns wdir (Some f) None None None advance = Ok v /\
      c_nb (g_c (u_cat v)) = (2 * length pairs)%nat /\ c_nb (g_c (u_cat v)) <> length pairs /\ g_ns (u_cat v) <> Z.of_nat (length singles).
Proof.
  intros G D rd o ns wdir sc pairs singles phi f adv H L NB NP. assert (listed pairs singles <> []) as NE by (destruct pairs; [congruence|discriminate]).
  destruct (@get_pp_ok G D rd o ns wdir sc pairs singles phi f [] adv H L NB NE) as [v [zs' [po [E [_ [_ [_ [_ [_ [_ [_ [_ [BN [NS _]]]]]]]]]]]]]]. rewrite app_nil_r in E.
  exists v. split; [exact E|]. split; [exact BN|]. rewrite NS BN. destruct pairs as [|q pairs]; [congruence|]. cbn [length]. split; lia.
Qed.
Print Assumptions C85_binary_count_refuted.
(* C85, what the code does: for an interval between 0 and 1 every advance_cluster after the first gives the same cluster again *)
Theorem C85_fractional_interval_refuted :
  forall (G : galpy) (D : decoder) (rd : reader) (d : pp_disk) (o : pp_opts) (dt : R) (a : Z) (wdir snapdir : string) (again : option string) (v x : pp) (n : nat),
    h_dtout o = Float dt -> 0 < dt < 1 -> (0 <= a)%Z ->
    load_pp G D rd d o a wdir snapdir None = Ok v -> advance_pp G D rd d o again v = Ok x -> advance_pp_times G D rd d o again (S n) v = Ok x.
Proof.
  intros G D rd d o dt a wdir snapdir again v x n HX X Ha E1 E2.
  assert (u_nsnap v = a /\ u_wdir v = with_slash wdir /\ u_ofile v = None /\ u_snapdir v = "") as [N [W [O S0]]].
  { unfold load_pp, get_nbody6pp in E1. destruct (get_conf3 D _) as [c|]; [|discriminate E1]; cbn [bind] in E1. destruct (al _ 0); [|discriminate E1]; cbn [bind] in E1.
    destruct (fill_pp c _) as [[[k rh] en]|]; [|discriminate E1]; cbn [bind] in E1. match type of E1 with bind ?y _ = _ => destruct y as [k1|] end; [|discriminate E1]. cbn [bind] in E1.
    match type of E1 with Ok ?y = _ => assert (y = v) as Q' by congruence end. now rewrite <- Q'. }
  destruct (@fractional_pp G D rd d o dt again v x HX X) as [_ F]; try assumption; [now rewrite N|now rewrite W slash_once|].
  induction n as [|n IH]; [cbn [advance_pp_times bind]; exact E2|]. cbn [advance_pp_times] in IH |- *. rewrite IH. cbn [bind]. exact F.
Qed.
Print Assumptions C85_fractional_interval_refuted.
(* C85, what the code does: the directory of snapshots is forgotten: without it, advance_cluster looks for the next file in wdir alone *)
Theorem C85_snapdir_forgotten_refuted :
  forall (G : galpy) (D : decoder) (rd : reader) (d : pp_disk) (o : pp_opts) (a : Z) (wdir snapdir w : string) (v : pp),
    slashed wdir w -> load_pp G D rd d o a wdir snapdir None = Ok v -> (forall n, k_conf d w n = None /\ k_82 d w n = None) ->
    exists x, advance_pp G D rd d o None v = Ok x /\ g_ntot (u_cat x) = 0%nat.
Proof.
  intros G D rd d o a wdir snapdir w v W E1 H. apply slashed_unique in W. subst w.
  assert (u_wdir v = with_slash wdir /\ u_ofile v = None /\ u_snapdir v = "") as [W [O S0]].
  { unfold load_pp, get_nbody6pp in E1. destruct (get_conf3 D _) as [c|]; [|discriminate E1]; cbn [bind] in E1. destruct (al _ 0); [|discriminate E1]; cbn [bind] in E1.
    destruct (fill_pp c _) as [[[k rh] en]|]; [|discriminate E1]; cbn [bind] in E1. match type of E1 with bind ?y _ = _ => destruct y as [k1|] end; [|discriminate E1]. cbn [bind] in E1.
    match type of E1 with Ok ?y = _ => assert (y = v) as Q' by congruence end. now rewrite <- Q'. }
  unfold advance_pp. cbv zeta. rewrite O S0 W. unfold place. rewrite slash_once.
  assert (forall s, append s "" = s) as AE by (induction s as [|c s IH]; cbn [append]; [reflexivity|now rewrite IH]).
  change (with_slash "") with "". rewrite AE. set (n := plus_n _ _). destruct (H n) as [-> ->]. rewrite pp_no_file; [exact Logic.I|]. eexists. split; [reflexivity|reflexivity].
Qed.
Print Assumptions C85_snapdir_forgotten_refuted.

(* C86: with bev.82 and sev.83 the stars are as before, the type of a binary is the larger of its two, single stars have their own type and radius at the row of their address,
   and the table of binaries has the columns of the file, in the units of the cluster *)
Theorem C86_evolution :
  forall (G : galpy) (D : decoder) (rd : reader) (o : pp_opts) (ns : number) (wdir : string) (scalars : list R) (pairs : list (body * body)) (singles : list body) (phi f : bytes)
      (bs : list (Z * Z * binrow)) (ss : list (Z * sinrow)) (f82 f83 : text) (advance : bool),
    conf3_record D scalars (listed pairs singles) phi f -> (18 <= length scalars)%nat -> nth 1 scalars 0 = INR (length pairs) ->
    ev_file (bev_line rd) rd bs f82 -> ev_file (sev_line rd) rd ss f83 -> length bs = length pairs -> length ss = length singles -> (2 <= length ss)%nat ->
    addressed (length bs) (map fst ss) (length ss) ->
    exists v, get_nbody6pp G D rd o ns wdir (Some f) (Some f82) (Some f83) None advance = Ok v /\ conf_loaded scalars pairs singles v /\ pp_evolved bs ss (u_cat v).
Proof.
  intros G D rd o ns wdir sc pairs singles phi f bs ss f82 f83 adv H L NB F82 F83 LB LS N2 AD.
  assert (listed pairs singles <> []) as NE. { intros Q. apply (f_equal (@length body)) in Q. rewrite listed_length in Q. cbn [length] in Q. lia. }
  destruct (@get_pp_evolved G D rd o ns wdir sc pairs singles phi f [] adv bs ss f82 f83 H L NB NE F82 F83 LB LS N2 AD) as [v [E [CL [PE _]]]]. rewrite app_nil_r in E.
  exists v. now split.
Qed.
Print Assumptions C86_evolution.
(* C86, what the code does: logarithms of luminosities of single stars are cut to integers; those of fewer than fourteen binaries are all 0, as their radii;
   for fourteen and more, the logarithms of the two stars are added, so that the luminosities are multiplied *)
Theorem C86_luminosities_refuted :
  forall (G : galpy) (D : decoder) (rd : reader) (o : pp_opts) (ns : number) (wdir : string) (scalars : list R) (pairs : list (body * body)) (singles : list body) (phi f : bytes)
      (bs : list (Z * Z * binrow)) (ss : list (Z * sinrow)) (f82 f83 : text) (advance : bool),
    conf3_record D scalars (listed pairs singles) phi f -> (18 <= length scalars)%nat -> nth 1 scalars 0 = INR (length pairs) ->
    ev_file (bev_line rd) rd bs f82 -> ev_file (sev_line rd) rd ss f83 -> length bs = length pairs -> length ss = length singles -> (2 <= length ss)%nat ->
    addressed (length bs) (map fst ss) (length ss) ->
    exists v, get_nbody6pp G D rd o ns wdir (Some f) (Some f82) (Some f83) None advance = Ok v /\
      let e := g_sse (u_cat v) in let q := g_bse (u_cat v) in
      (forall a y, In (a, y) ss -> 0 <= y_l y -> (forall z, y_l y <> IZR z) -> let i := object_of (length bs) a in
         nth i (e_logl e) 0 < y_l y < nth i (e_logl e) 0 + 1 /\ nth i (e_lum e) 0 < Rpower 10 (y_l y)) /\
      ((length bs < 14)%nat -> f_logl1 q = repeat 0 (length bs) /\ f_logl2 q = repeat 0 (length bs) /\ f_logr1 q = repeat 0 (length bs) /\ f_logr2 q = repeat 0 (length bs) /\
         forall i, (i < length bs)%nat -> nth i (e_lum e) 0 = 1) /\
      ((14 <= length bs)%nat -> f_logl1 q = map (fun b => r_l1 (snd b)) bs /\ f_logl2 q = map (fun b => r_l2 (snd b)) bs /\
         forall i a1 a2 r, nth_error bs i = Some (a1, a2, r) -> nth i (e_lum e) 0 = Rpower 10 (r_l1 r) * Rpower 10 (r_l2 r)).
Proof.
  intros G D rd o ns wdir sc pairs singles phi f bs ss f82 f83 adv H L NB F82 F83 LB LS N2 AD.
  assert (listed pairs singles <> []) as NE. { intros Q. apply (f_equal (@length body)) in Q. rewrite listed_length in Q. cbn [length] in Q. lia. }
  destruct (@get_pp_evolved G D rd o ns wdir sc pairs singles phi f [] adv bs ss f82 f83 H L NB NE F82 F83 LB LS N2 AD) as [v [E [_ [_ [PL _]]]]]. rewrite app_nil_r in E.
  exists v. split; [exact E|]. cbv zeta. destruct PL as [L1 [L2 [R1 [R2 [BI [SI [LL LU]]]]]]]. rewrite LU.
  assert (forall i, (i < length bs + length ss)%nat -> nth i (map (Rpower 10) (e_logl (g_sse (u_cat v)))) 0 = Rpower 10 (nth i (e_logl (g_sse (u_cat v))) 0)) as NM.
  { intros i Hi. rewrite (nth_indep _ 0 (Rpower 10 0)); [rewrite map_length LL; exact Hi|]. apply (map_nth (Rpower 10)). }
  split; [|split].
  - intros a y IN Y0 NI. assert (object_of (length bs) a < length bs + length ss)%nat as HO.
    { assert (In a (map fst ss)) as IA by (apply in_map_iff; now exists (a, y)). apply (object_in AD N2 IA). }
    rewrite (NM _ HO) (SI a y IN). unfold truncate. rewrite (proj2 (Rleb_spec 0 (y_l y)) Y0). destruct (base_Int_part (y_l y)) as [B1 B2].
    assert (IZR (Int_part (y_l y)) < y_l y) as B3 by (pose proof (NI (Int_part (y_l y))); lra). split; [lra|]. apply Rpower_lt; lra.
  - intros F. assert (forall g, many bs g = repeat 0 (length bs)) as MZ by (intros g; unfold many; now rewrite (proj2 (Nat.leb_gt _ _) F)).
    rewrite L1 L2 R1 R2 !MZ. do 4 (split; [reflexivity|]). intros i Hi. rewrite NM; [lia|]. destruct (BI i Hi) as [-> _]. rewrite !MZ !nth_repeat. replace (0 + 0) with 0 by lra. rewrite Rpower_O; lra.
  - intros F. assert (forall g, many bs g = map g (map snd bs)) as MZ by (intros g; unfold many; now rewrite (proj2 (Nat.leb_le _ _) F)).
    rewrite L1 L2 !MZ !map_map. do 2 (split; [reflexivity|]). intros i a1 a2 r N. assert (i < length bs)%nat as Hi by (apply nth_error_Some; rewrite N; discriminate).
    rewrite NM; [lia|]. destruct (BI i Hi) as [-> _]. rewrite !MZ -Rpower_plus. assert (nth_error (map snd bs) i = Some r) as N' by (rewrite nth_error_map N; reflexivity).
    now rewrite !(nth_of _ 0 N').
Qed.
Print Assumptions C86_luminosities_refuted.
(* C86, what the code does: one row in sev.83 raises *)
Theorem C86_one_single_refuted :
  forall (rd : reader) (n nb : nat) (bs : list (Z * Z * binrow)) (s : Z * sinrow) (f82 f83 : text) (k : catalog),
    ev_file (bev_line rd) rd bs f82 -> ev_file (sev_line rd) rd [s] f83 -> evolve_pp rd n nb f82 f83 k = Raise.
Proof. intros. eapply evolve_one; eassumption. Qed.
Print Assumptions C86_one_single_refuted.

(* ------------------------------------------------------------------ non-vacuity *)
(* words hold twice the real *)
Definition half_decoder : decoder := mkDec demo_word (fun a b c d => IZR (demo_word a b c d) / 2).
Definition half_of (n : nat) : R := IZR (Z.of_nat n) / 2.
Lemma half_ints l : Forall (fun n => (n < 256)%nat) l -> ints half_decoder (map Z.of_nat l) (words l).
Proof.
  intros F. induction F as [|n l H F IH]; [constructor|]. unfold words. cbn [map concat]. fold (words l).
  destruct (word_value n H) as [b [-> V]]. apply ints_cons; [exact V|exact IH].
Qed.
Lemma half_reals l : Forall (fun n => (n < 256)%nat) l -> reals half_decoder (map half_of l) (words l).
Proof.
  intros F. induction F as [|n l H F IH]; [constructor|]. unfold words. cbn [map concat]. fold (words l).
  destruct (word_value n H) as [b [-> V]]. apply reals_cons; [cbn [half_decoder d_real]; now rewrite V|exact IH].
Qed.
Definition half_six (a : nat) : six R := mk6 (half_of a) (half_of (a + 1)) (half_of (a + 2)) (half_of (a + 3)) (half_of (a + 4)) (half_of (a + 5)).
Definition demo_body (n : nat) : body := mkBody (mkPt (half_of n) (half_six (10 * n)) (Z.of_nat (50 + n))) (half_of (60 + n)) (half_of (70 + n)) (half_of (80 + n)).
Definition demo_pairs : list (body * body) := [(demo_body 1, demo_body 2)].
Definition demo_alone : list body := [demo_body 3; demo_body 4].
Definition demo_scalars : list nat := [0; 2; 4; 6; 8; 10; 12; 14; 16; 18; 20; 22; 24; 26; 28; 30; 32; 34]%nat.
Definition demo_conf (b : nat) : bytes :=
  words [16; 4; 1; 1; 18; 16]%nat ++ words [100]%nat ++ words demo_scalars ++ words [1; 2; 3; 4]%nat ++ words [61; 62; 63; 64]%nat ++ words [71; 72; 73; 74]%nat ++
  words [10; 11; 12; 20; 21; 22; 30; 31; 32; 40; 41; 42]%nat ++ words [13; 14; 15; 23; 24; 25; 33; 34; 35; 43; 44; 45]%nat ++ words [81; 82; 83; 84]%nat ++
  words [51; 52; 53; 54]%nat ++ words [b]%nat.
Lemma demo_conf_marked b : (b < 256)%nat -> conf3_marked half_decoder 100 (Z.of_nat b) (map half_of demo_scalars) (listed demo_pairs demo_alone) (words [81; 82; 83; 84]%nat) (demo_conf b).
Proof.
  intros H. exists 16%Z, 1%Z, 1%Z. do 10 eexists. split; [reflexivity|].
  split; [apply (@half_ints [16; 4; 1; 1; 18; 16]%nat); small|]. split; [apply (@half_ints [100]%nat); small|]. split; [apply half_reals; unfold demo_scalars; small|].
  split; [apply (@half_reals [1; 2; 3; 4]%nat); small|]. split; [apply (@half_reals [61; 62; 63; 64]%nat); small|]. split; [apply (@half_reals [71; 72; 73; 74]%nat); small|].
  split; [apply (@half_reals [10; 11; 12; 20; 21; 22; 30; 31; 32; 40; 41; 42]%nat); small|]. split; [apply (@half_reals [13; 14; 15; 23; 24; 25; 33; 34; 35; 43; 44; 45]%nat); small|].
  split; [apply (@half_reals [81; 82; 83; 84]%nat); small|]. split; [apply (@half_ints [51; 52; 53; 54]%nat); small|]. apply (@half_ints [b]%nat). small.
Qed.
Lemma demo_conf_record : conf3_record half_decoder (map half_of demo_scalars) (listed demo_pairs demo_alone) (words [81; 82; 83; 84]%nat) (demo_conf 100).
Proof. exists 100%Z. apply (@demo_conf_marked 100). lia. Qed.
Lemma demo_binary_number : nth 1 (map half_of demo_scalars) 0 = INR (length demo_pairs).
Proof. cbn. unfold half_of. cbn. lra. Qed.
(* files number 3 and 5 *)
Definition demo_pp_disk : pp_disk :=
  mkPD (fun w n => if String.eqb w "run/snaps/" then match n with Whole z => if (Z.eqb z 3 || Z.eqb z 5)%bool then Some (demo_conf 100) else None | Float _ => None end else None)
       (fun _ _ => None) (fun _ _ => None).
Definition demo_pp_opts (dt : number) : pp_opts := mkPO dt (mkOO [] None false) true true 8 220.
Example C85_series_hypotheses_met :
  amount (h_dtout (demo_pp_opts (Whole 2))) = IZR 2 /\ slashed "run" "run/" /\ slashed "snaps" "snaps/" /\
  forall j, (j <= 1)%nat -> conf3_record half_decoder (map half_of demo_scalars) (listed demo_pairs demo_alone) (words [81; 82; 83; 84]%nat) (demo_conf 100) /\
    (18 <= length (map half_of demo_scalars))%nat /\ nth 1 (map half_of demo_scalars) 0 = INR (length demo_pairs) /\ listed demo_pairs demo_alone <> [] /\
    let n := numbered (h_dtout (demo_pp_opts (Whole 2))) (3 + Z.of_nat j * 2) in
    k_conf demo_pp_disk (append "run/" "snaps/") n = Some (demo_conf 100 ++ []) /\ k_82 demo_pp_disk (append "run/" "snaps/") n = None /\ k_83 demo_pp_disk (append "run/" "snaps/") n = None.
Proof.
  split; [reflexivity|]. split; [rewrite (_ : "run/" = with_slash "run"); [reflexivity|]; apply ProofsLoad.with_slash_ok|].
  split; [rewrite (_ : "snaps/" = with_slash "snaps"); [reflexivity|]; apply ProofsLoad.with_slash_ok|].
  intros j H. split; [exact demo_conf_record|]. split; [cbn; lia|]. split; [exact demo_binary_number|]. split; [discriminate|]. rewrite app_nil_r.
  destruct j as [|[|j]]; [| |lia]; now split.
Qed.
Example C85_marks_hypotheses_met :
  conf3_marked half_decoder 100 101 (map half_of demo_scalars) (listed demo_pairs demo_alone) (words [81; 82; 83; 84]%nat) (demo_conf 101) /\ 100%Z <> 101%Z.
Proof. split; [apply (@demo_conf_marked 101); lia|lia]. Qed.
Example C85_truncated_hypotheses_met :
  conf3_record half_decoder (map half_of demo_scalars) (listed demo_pairs demo_alone) (words [81; 82; 83; 84]%nat) (words [16; 4; 1]%nat ++ skipn 12 (demo_conf 100)) /\ skipn 12 (demo_conf 100) <> [] /\
  (4 <= length (words [16; 4; 1]%nat))%nat.
Proof. split; [exact demo_conf_record|]. split; [discriminate|cbn; lia]. Qed.
Example C85_potentials_hypotheses_met :
  ints half_decoder [81; 82; 83; 84]%Z (words [81; 82; 83; 84]%nat) /\ nth_error demo_alone 1 = Some (demo_body 4) /\ nth_error [81; 82; 83; 84]%Z (2 * length demo_pairs + 1) = Some 84%Z /\
  IZR 84 <> y_phi (demo_body 4).
Proof. split; [apply (@half_ints [81; 82; 83; 84]%nat); small|]. split; [reflexivity|]. split; [reflexivity|]. cbn [demo_body y_phi]. unfold half_of. cbn. lra. Qed.
(* load_cluster and one advance_cluster, half an interval apart *)
Example C85_fractional_interval_hypotheses_met (G : galpy) :
  let d := mkPD (fun _ _ => Some (demo_conf 100)) (fun _ _ => None) (fun _ _ => None) in
  exists v x, load_pp G half_decoder demo_reader d (demo_pp_opts (Float (1/2))) 3 "run" "snaps" None = Ok v /\
    advance_pp G half_decoder demo_reader d (demo_pp_opts (Float (1/2))) None v = Ok x /\ g_ntot (u_cat x) = 3%nat.
Proof.
  cbv zeta. assert (18 <= length (map half_of demo_scalars))%nat as L by (cbn; lia). assert (listed demo_pairs demo_alone <> []) as NE by discriminate.
  destruct (@get_pp_ok G half_decoder demo_reader (demo_pp_opts (Float (1/2))) (Whole 3) "run" _ _ _ _ _ [] false demo_conf_record L demo_binary_number NE) as [v [zs [po [E [_ [_ [_ [_ [O _]]]]]]]]].
  exists v. unfold load_pp. cbn [k_conf k_82 k_83]. rewrite app_nil_r in E. unfold advance_pp. rewrite O. cbn [k_conf k_82 k_83].
  set (n := plus_n _ _).
  destruct (@get_pp_ok G half_decoder demo_reader (demo_pp_opts (Float (1/2))) n (u_wdir v) _ _ _ _ _ [] true demo_conf_record L demo_binary_number NE) as [x [zs' [po' [E' [CL _]]]]].
  rewrite app_nil_r in E'. exists x. split; [exact E|]. split; [exact E'|]. apply CL.
Qed.
(* one binary and two single stars, the second of them first in the file *)
Definition pp_reader : reader := mkReader (fun s => option_map (fun n => IZR (Z.of_nat n)) (digits_value 0 s)) (fun s => option_map Z.of_nat (digits_value 0 s)).
Definition demo_bev : text := [["1"; "7"]; ["7"; "1"; "2"; "51"; "52"; "1"; "3"; "14"; "3"; "0"; "4"; "2"; "5"; "6"; "1"; "2"; "3"; "2"; "1"; "1"]].
Definition demo_sev : text := [["2"; "7"]; ["7"; "4"; "54"; "2"; "1"; "1"; "3"; "2"; "9"]; ["7"; "3"; "53"; "1"; "1"; "2"; "0"; "1"; "8"]].
Definition demo_bev_rows : list (Z * Z * binrow) := [(1, 2, mkBR 51 52 1 3 14 (IZR 3) (IZR 0) (IZR 4) (IZR 2) (IZR 5) (IZR 6) (IZR 1) (IZR 2) (IZR 3) (IZR 2) (IZR 1) (IZR 1))]%Z.
Definition demo_sev_rows : list (Z * sinrow) := [(4, mkSR 54 2 (IZR 1) (IZR 1) (IZR 3) (IZR 2) (IZR 9)); (3, mkSR 53 1 (IZR 1) (IZR 2) (IZR 0) (IZR 1) (IZR 8))]%Z.
Ltac pp_words := match goal with |- word_whole _ _ _ _ => eexists; split; reflexivity | |- word_int _ _ _ _ => eexists; split; reflexivity | |- word_real _ _ _ _ => eexists; split; reflexivity end.
Ltac all_numbers := let i := fresh in let w := fresh in let N := fresh in intros i w N; do 20 (destruct i as [|i]; [injection N as <-; eexists; reflexivity|]); destruct i; discriminate N.
Ltac nine_numbers := let i := fresh in let w := fresh in let N := fresh in intros i w N; do 9 (destruct i as [|i]; [injection N as <-; eexists; reflexivity|]); destruct i; discriminate N.
Example C86_hypotheses_met :
  ev_file (bev_line pp_reader) pp_reader demo_bev_rows demo_bev /\ ev_file (sev_line pp_reader) pp_reader demo_sev_rows demo_sev /\
  length demo_bev_rows = length demo_pairs /\ length demo_sev_rows = length demo_alone /\ (2 <= length demo_sev_rows)%nat /\ addressed (length demo_bev_rows) (map fst demo_sev_rows) (length demo_sev_rows).
Proof.
  split; [|split; [|split; [reflexivity|split; [reflexivity|split; [cbn; lia|]]]]].
  - eexists. eexists. split; [reflexivity|]. split; [pp_words|]. split; [eexists; pp_words|]. constructor; [|constructor].
    split; [reflexivity|]. split; [all_numbers|]. do 18 (split; [pp_words|]). pp_words.
  - eexists. eexists. split; [reflexivity|]. split; [pp_words|]. split; [eexists; pp_words|]. constructor; [|constructor; [|constructor]].
    + split; [reflexivity|]. split; [nine_numbers|]. do 7 (split; [pp_words|]). pp_words.
    + split; [reflexivity|]. split; [nine_numbers|]. do 7 (split; [pp_words|]). pp_words.
  - unfold addressed. cbn. apply perm_swap.
Qed.
(* the cluster of these files *)
Example C86_demo (G : galpy) : exists v, get_nbody6pp G half_decoder pp_reader (demo_pp_opts (Whole 1)) (Whole 3) "run" (Some (demo_conf 100)) (Some demo_bev) (Some demo_sev) None false = Ok v /\
  e_kw (g_sse (u_cat v)) = [3; 1; 2] /\ c_id (g_c (u_cat v)) = [51; 53; 54]%Z.
Proof.
  destruct C86_hypotheses_met as [F82 [F83 [LB [LS [N2 AD]]]]]. assert (18 <= length (map half_of demo_scalars))%nat as L by (cbn; lia).
  destruct (@C86_evolution G half_decoder pp_reader (demo_pp_opts (Whole 1)) (Whole 3) "run" _ _ _ _ _ _ _ _ _ false demo_conf_record L demo_binary_number F82 F83 LB LS N2 AD) as [v [E [CL [L1 [_ [BI [SI _]]]]]]].
  exists v. split; [exact E|]. split.
  - pose proof (BI 0%nat 1%Z 2%Z _ eq_refl) as K0. destruct (SI 4%Z _ (or_introl eq_refl)) as [K2 _]. destruct (SI 3%Z _ (or_intror (or_introl eq_refl))) as [K1 _].
    change (object_of (length demo_bev_rows) 4) with 2%nat in K2. change (object_of (length demo_bev_rows) 3) with 1%nat in K1. destruct (e_kw (g_sse (u_cat v))) as [|a [|b [|c [|]]]]; cbn in L1; try discriminate L1. cbn in K0, K1, K2. now rewrite K0 K1 K2.
  - destruct CL as [AL [_ [PA [SI' _]]]]. destruct (PA 0%nat _ eq_refl) as [_ [_ I0]]. destruct (SI' 0%nat _ eq_refl) as [_ [_ I1]]. destruct (SI' 1%nat _ eq_refl) as [_ [_ I2]].
    destruct AL as [_ [_ [LI _]]]. cbn in LI. unfold star_at in I0, I1, I2. cbn [w_id] in I0, I1, I2. cbn in I0, I1, I2.
    destruct (c_id (g_c (u_cat v))) as [|a [|b [|c [|]]]]; cbn in LI; try discriminate LI. cbn in I0, I1, I2. now rewrite I0 I1 I2.
Qed.
