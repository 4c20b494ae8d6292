(* Proofs: NBODY6++ HDF5 snapshots. *)
From Coq Require Import String Ascii.
From Verif Require Import Base ModelCluster ModelOps ModelRecipes ModelEnergy ModelStars ModelLoad ModelDynamics ModelNbody6 ModelNbody6pp ModelHdf5.
From Verif Require Import SpecUnits SpecStars SpecRecipes SpecHdf5 ProofsUnits ProofsRecipes ProofsRecipes2 ProofsStars.
Set Implicit Arguments. Unset Strict Implicit.
Open Scope list_scope. Open Scope R_scope.

Definition six_lists (l : list (six R)) : six (list R) :=
  mk6 (map (@sx _) l) (map (@sy _) l) (map (@sz _) l) (map (@svx _) l) (map (@svy _) l) (map (@svz _) l).
Definition with_rows (k : catalog) (s : list (six R)) (m : list R) (id : list Z) : catalog :=
  let c := g_c k in
  set_counts (put_columns k (mkCol (c_id c ++ id) (p_m (c_ph c) ++ m) (app6 (p_s (c_ph c)) (six_lists s))
    (g_m0 k ++ repeat 0 (length s)) (g_npop k ++ repeat 1%Z (length s)))).
Lemma add_rows (s : list (six R)) m id k n : columns_length (columns_of k) n -> length m = length s -> length id = length s ->
  c_units (g_c k) <> Some Uradec ->
  add_stars 0 (rows_args s m id) true false false k = Ok (with_rows k s m id).
Proof.
  move=> L Lm Li U. unfold add_stars.
  have NP : npmax (rows_args s m id) = length s.
  { rewrite /npmax /rows_args /six_cols /opt_len /arg_len. cbn [a_s a_m a_id a_m0 a_npop sx sy sz svx svy svz].
    rewrite !map_length Lm Li. cbn [list_max fold_right]. lia. }
  rewrite NP. cbn [Nat.eqb bind].
  set k2 := add_single_rows _ _ _ _ _ _ _.
  have E2 : columns_of k2 = mkCol (c_id (g_c k) ++ id) (p_m (c_ph (g_c k)) ++ m) (app6 (p_s (c_ph (g_c k))) (six_lists s))
              (g_m0 k ++ repeat 0 (length s)) (g_npop k ++ repeat 1%Z (length s)).
  { rewrite /k2 /add_single_rows /rows_args /six_cols. cbn [a_s a_m a_id a_m0 a_npop option_map map6 sx sy sz svx svy svz expand skipn Nat.mul].
    rewrite /columns_of /put_columns /put_cluster. cbn [g_c c_id c_ph p_m p_s g_m0 g_npop t_id t_m t_s t_m0 t_npop sx]. by rewrite map_length. }
  have P2 : put_columns k2 (columns_of k2) = put_columns k (columns_of k2) by rewrite E2 /k2.
  have CL : check_lengths (columns_of k2) = columns_of k2.
  { apply (@check_lengths_id _ (n + length s)%nat). rewrite E2. destruct L as [[A1 [A2 [A3 [A4 [A5 A6]]]]] [A7 [A8 [A9 A10]]]].
    unfold columns_of in *. cbn [t_s t_m t_id t_m0 t_npop] in *.
    rewrite /columns_length /six_length /app6 /six_lists. cbn [t_s t_m t_id t_m0 t_npop sx sy sz svx svy svz].
    rewrite !app_length !map_length !repeat_length. repeat split; lia. }
  rewrite CL P2 E2. rewrite /with_rows.
  set k3 := put_columns k _. have U3 : c_units (g_c k3) = c_units (g_c k) by [].
  have SK : add_sky_rows (map6 (expand (length s)) (a_s (rows_args s m id))) (g_c k3) = g_c k3.
  { rewrite /add_sky_rows U3. destruct (c_units (g_c k)) as [[]|]; try reflexivity. congruence. }
  rewrite SK. destruct k3; reflexivity.
Qed.

(* ------------------------------------------------------------------ the content before scaling *)
Definition fresh (t : R) (nb : nat) (cen : six R) (sc : scales) (sky : skydata) (ns : Z) : catalog :=
  mkCat (mkC (Some Upckms) (Some Ocluster) (Some (Bu Upckms)) nb (mkP t [] nil6 cen zero6) sc (mkB [] [] [] []) sky empty_derived [])
        [] [] init_pairs init_sse init_bse 0 ns.
Definition ids_in (s : hstep) : list Z := map hb_id1 (the_pairs s) ++ map hs_id (n_alone s).
Definition masses_in (s : hstep) : list R := map (fun b => hb_m1 b + hb_m2 b) (the_pairs s) ++ map hs_m (n_alone s).
Definition places_in (s : hstep) : list (six R) := map hb_com (the_pairs s) ++ map hs_p (n_alone s).
Definition kws_in (s : hstep) : list R := map hb_kw1 (the_pairs s) ++ map hs_kw (n_alone s).
Definition logl_in (s : hstep) : list R :=
  map (fun b => log10 (pow10 (log10 (hb_L1 b)) + pow10 (log10 (hb_L2 b)))) (the_pairs s) ++ map (fun a => log10 (hs_lum a)) (n_alone s).
Definition rs_in (s : hstep) : list R := map (fun b => Rmax (hb_rs1 b) (hb_rs2 b)) (the_pairs s) ++ map hs_rs (n_alone s).
Definition bin_in (s : hstep) : bindata :=
  mkB (map hb_a (the_pairs s)) (map hb_P (the_pairs s)) (map hb_m1 (the_pairs s)) (map hb_m2 (the_pairs s)).
Definition components_in (s : hstep) : pairs :=
  mkPairs (six_lists (map component1 (the_pairs s))) (six_lists (map component2 (the_pairs s)))
          (repeat 1 (length (the_pairs s))) (repeat 1 (length (the_pairs s))).
Definition fill (k : catalog) (s : hstep) : result catalog :=
  bind (match n_pairs s with Some l => add_pairs l k | None => Ok k end) (fun k2 =>
  bind (add_stars 0 (rows_args (map hs_p (n_alone s)) (map hs_m (n_alone s)) (map hs_id (n_alone s))) true false false k2) (fun k3 =>
  add_sse (map hs_kw (n_alone s)) (map (fun a => log10 (hs_lum a)) (n_alone s)) (map hs_rs (n_alone s)) None None None k3)).
Definition twice_nb (nb : nat) (s : hstep) : nat := match n_pairs s with Some l => length l + length l | None => nb end.
Definition filled (t : R) (nb : nat) (cen : six R) (sc : scales) (sky : skydata) (s : hstep) (k : catalog) : Prop :=
  exists bse m0 np, k = mkCat (mkC (Some Upckms) (Some Ocluster) (match n_pairs s with Some _ => Some Baudays | None => Some (Bu Upckms) end) (twice_nb nb s)
      (mkP t (masses_in s) (six_lists (places_in s)) cen zero6) sc (bin_in s) sky empty_derived (ids_in s))
    m0 np (components_in s)
    (mkSse (kws_in s) (logl_in s) (rs_in s) (map pow10 (logl_in s)) (repeat 0 (length (kws_in s))) (repeat 0 (length (kws_in s))) (sumR (map pow10 (logl_in s))))
    bse (length (places_in s)) (Z.of_nat (length (places_in s)) - Z.of_nat (twice_nb nb s)) /\
    f_ecc bse = map hb_ecc (the_pairs s) /\ f_id1 bse = map hb_id1 (the_pairs s) /\ f_id2 bse = map hb_id2 (the_pairs s).
Lemma np2_same {A B C} (f : A -> B -> C) l k : length l = length k -> np2 f l k = Ok (zip_with f l k).
Proof. move=> E. by rewrite /np2 E Nat.eqb_refl. Qed.
Lemma six_lists_app a b : six_lists (a ++ b) = app6 (six_lists a) (six_lists b).
Proof. by rewrite /six_lists /app6 !map_app. Qed.
Lemma pairs_added t nb cen sc sky ns l : exists bse m0 np,
  add_pairs l (fresh t nb cen sc sky ns) = Ok (mkCat (mkC (Some Upckms) (Some Ocluster) (Some Baudays) (length l + length l)
      (mkP t (map (fun b => hb_m1 b + hb_m2 b) l) (six_lists (map hb_com l)) cen zero6) sc
      (mkB (map hb_a l) (map hb_P l) (map hb_m1 l) (map hb_m2 l)) sky empty_derived (map hb_id1 l))
    m0 np (mkPairs (six_lists (map component1 l)) (six_lists (map component2 l)) (repeat 1 (length l)) (repeat 1 (length l)))
    (let lg := map (fun b => log10 (pow10 (log10 (hb_L1 b)) + pow10 (log10 (hb_L2 b)))) l in
     mkSse (map hb_kw1 l) lg (map (fun b => Rmax (hb_rs1 b) (hb_rs2 b)) l) (map pow10 lg) (repeat 0 (length l)) (repeat 0 (length l)) (sumR (map pow10 lg)))
    bse (length l) (Z.of_nat (length l) - Z.of_nat nb)) /\ length m0 = length l /\ length np = length l /\
    f_ecc bse = map hb_ecc l /\ f_id1 bse = map hb_id1 l /\ f_id2 bse = map hb_id2 l.
Proof.
  unfold add_pairs. erewrite (@add_rows _ _ _ (fresh t nb cen sc sky ns) 0%nat); [| |by rewrite !map_length|by rewrite !map_length|done];
    [|by repeat split].
  cbn [bind]. rewrite /with_rows /fresh. cbn [g_c c_id c_ph p_m p_s g_m0 g_npop app].
  unfold add_bse. cbn [g_c g_bse set_counts put_columns put_cluster c_bin b_m1 b_m2 b_semi b_pb app].
  rewrite np2_same; [by rewrite !map_length|]. cbn [bind]. rewrite np2_same; [by rewrite zip_with_length !map_length Nat.min_id|].
  cbn [bind]. unfold add_sse. cbn [bind g_sse set_cluster set_counts put_columns put_cluster g_c c_bin].
  unfold store_pairs, mass_or_ones, six_cols. cbn [sx sy sz svx svy svz bind fst snd].
  rewrite !map_length. do 3 eexists. split.
  - cbn [f_id1 init_bse app g_c c_nb]. rewrite /with_pairs /app6 /six_lists /set_bin. cbn. rewrite !map_length. reflexivity.
  - cbn. rewrite ?repeat_length ?map_length. by repeat split.
Qed.
Lemma content_filled t nb cen sc sky ns s : exists k, fill (fresh t nb cen sc sky ns) s = Ok k /\ filled t nb cen sc sky s k.
Proof.
  unfold fill, filled, twice_nb, masses_in, ids_in, places_in, kws_in, logl_in, rs_in, bin_in, components_in, the_pairs.
  destruct (n_pairs s) as [l|].
  - have [bse [m0 [np [E [L1 [L2 [F1 [F2 F3]]]]]]]] := @pairs_added t nb cen sc sky ns l. rewrite E. cbn [bind].
    erewrite (@add_rows _ _ _ _ (length l)); [| |by rewrite !map_length|by rewrite !map_length|done].
    2:{ rewrite /columns_of /columns_length /six_length /six_lists. cbn [g_c c_ph c_id p_m p_s g_m0 g_npop t_s t_m t_id t_m0 t_npop sx sy sz svx svy svz].
        rewrite !map_length L1 L2. by repeat split. }
    cbn [bind]. unfold add_sse. cbn [bind]. eexists. split; [reflexivity|]. exists bse. do 2 eexists. split; [|by split].
    rewrite /with_rows /set_counts /put_columns /put_cluster.
    cbn [g_c c_id c_ph p_m p_s g_m0 g_npop g_sse g_bse g_b e_kw e_logl e_logr e_ep e_ospin e_ltot c_units c_origin c_bunits c_nb c_sc c_bin c_sky c_der p_t p_c p_g t_id t_m t_s t_m0 t_npop].
    rewrite -six_lists_app !map_app !app_length !map_length !repeat_app. cbn [six_lists sx]. rewrite ?map_length ?app_length ?map_length. match goal with |- mkCat ?a _ _ ?b ?c _ ?d ?e = mkCat ?a' _ _ ?b' ?c' _ ?d' ?e' => have Ea : a = a'; [try reflexivity|]; have Eb : b = b'; [try reflexivity|]; have Ec : c = c'; [try reflexivity|]; have Ed : d = d'; [try reflexivity|]; have Ee : e = e'; [try reflexivity|] end. reflexivity.
  - cbn [bind]. erewrite (@add_rows _ _ _ _ 0%nat); [| |by rewrite !map_length|by rewrite !map_length|done]; [|by repeat split].
    cbn [bind]. unfold add_sse. cbn [bind]. eexists. split; [reflexivity|]. exists init_bse. do 2 eexists. split; [|by repeat split].
    rewrite /with_rows /fresh /set_counts /put_columns /put_cluster.
    cbn [g_c c_id c_ph p_m p_s g_m0 g_npop g_sse g_bse g_b init_sse init_pairs e_kw e_logl e_logr e_ep e_ospin e_ltot c_units c_origin c_bunits c_nb c_sc c_bin c_sky c_der p_t p_c p_g t_id t_m t_s t_m0 t_npop app].
    cbn [map app]. rewrite !map_length. reflexivity.
Qed.
