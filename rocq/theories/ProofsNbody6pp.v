(* Reading conf.3; the cluster made from it. *)
From Coq Require Import String Ascii.
From Coq Require Import Init.Byte.
From Verif Require Import Base ModelCluster ModelOps ModelRecipes ModelEnergy ModelCoords ModelCentre ModelStars SpecStars ModelLoad SpecLoad
  ProofsRecipes ProofsRecipes3 ProofsStars ProofsStars2 ProofsUnits ProofsFrame ProofsEnergy ProofsLoad ProofsLoad2 ProofsLoad3 ProofsLoad4 ModelNbody6 SpecNbody6 ProofsNbody6 ProofsNbody62 ProofsNbody63
  ModelNbody6pp SpecNbody6pp.
Set Implicit Arguments.
Unset Strict Implicit.
Open Scope string_scope. Open Scope list_scope. Open Scope R_scope.

(* ------------------------------------------------------------------ the file *)
Lemma reals_as_ints D l f : reals D l f -> exists zs, ints D zs f /\ length zs = length l.
Proof.
  move=> H. induction H as [|a b c d x l f E H [zs [I L]]]; [by exists []; split; [constructor|]|].
  exists (d_int D a b c d :: zs). split; [by constructor|]. by rewrite /= L.
Qed.
Lemma ints_unique D zs zs' f : ints D zs f -> ints D zs' f -> zs = zs'.
Proof.
  move=> H. move: zs'. induction H as [|a b c d x l f E H IH] => zs' H'; inversion H' => //. subst. f_equal. by apply IH.
Qed.
Definition conf_read (scalars : list R) (bs : list body) (zs : list Z) : conf3 :=
  mkConf (read_record scalars (map y_p bs)) (map y_rho bs) (map y_xn bs) (map IZR zs).
Lemma flat_y (g : particle -> list R) (bs : list body) : flat_map (fun y => g (y_p y)) bs = flat_map g (map y_p bs).
Proof. elim: bs => [|y bs IH] //. cbn [flat_map map]. by rewrite IH. Qed.
Lemma count_y (bs : list body) : count (map y_p bs) = count bs. Proof. by rewrite /count map_length. Qed.
Lemma conf_header D a n model nrun nk f rest : ints D [a; n; model; nrun; nk; a] f ->
  get_conf3 D (Some (f ++ rest)) = if Z.ltb 0 n then read_conf D n nk rest else Ok no_conf.
Proof.
  move=> H. rewrite /get_conf3.
  have [h1 [E1 H1]] := ints_cons_inv H. have [h2 [E2 H2]] := ints_cons_inv H1. have [h3 [E3 H3]] := ints_cons_inv H2.
  have [h4 [E4 H4]] := ints_cons_inv H3. have [h5 [E5 H5]] := ints_cons_inv H4.
  rewrite E1; cbn [snd]. rewrite E2; cbn [bind snd]. rewrite E3; cbn [bind snd]. rewrite E4; cbn [bind snd]. rewrite E5; cbn [bind snd].
  rewrite (read_one _ H5); cbn [bind fst snd]. by rewrite Z.eqb_refl.
Qed.
Lemma read_conf_ok D a b sc bs zs b1 b2 b3 b4 b5 b6 b7 phi b8 b9 rest :
  ints D [a] b1 -> reals D sc b2 -> reals D (map (fun y => pt_m (y_p y)) bs) b3 -> reals D (map y_rho bs) b4 -> reals D (map y_xn bs) b5 ->
  reals D (flat_map (fun y => let s := pt_s (y_p y) in [sx s; sy s; sz s]) bs) b6 ->
  reals D (flat_map (fun y => let s := pt_s (y_p y) in [svx s; svy s; svz s]) bs) b7 ->
  ints D zs phi -> length zs = length bs -> ints D (map (fun y => pt_id (y_p y)) bs) b8 -> ints D [b] b9 ->
  read_conf D (count bs) (count sc) (b1 ++ b2 ++ b3 ++ b4 ++ b5 ++ b6 ++ b7 ++ phi ++ b8 ++ b9 ++ rest) = if Z.eqb a b then Ok (conf_read sc bs zs) else Raise.
Proof.
  move=> I1 I2 I3 I4 I5 I6 I7 IP LP I8 I9. rewrite /read_conf !count_nat; cbv zeta. rewrite (read_one _ I1); cbn [bind fst snd].
  rewrite (read_reals _ I2); cbn [bind fst snd].
  have L (A : Type) (f : body -> A) : length bs = length (map f bs) by rewrite map_length.
  rewrite {1}(L _ (fun y => pt_m (y_p y))) (read_reals _ I3); cbn [bind fst snd]. rewrite {1}(L _ y_rho) (read_reals _ I4); cbn [bind fst snd].
  rewrite {1}(L _ y_xn) (read_reals _ I5); cbn [bind fst snd]. rewrite (read_threes _ I6); cbn [bind fst snd]. rewrite (read_threes _ I7); cbn [bind fst snd].
  rewrite -{1}LP (read_ints _ IP); cbn [bind fst snd]. rewrite {1}(L _ (fun y => pt_id (y_p y))) (read_ints _ I8); cbn [bind fst snd].
  rewrite (read_one _ I9); cbn [bind fst snd]. destruct (Z.eqb a b) => //.
  by rewrite /conf_read /read_record count_y !map_map.
Qed.
Lemma conf3_marks_ok D a b sc bs phi f rest : conf3_marked D a b sc bs phi f -> bs <> [] ->
  exists zs, ints D zs phi /\ length zs = length bs /\ get_conf3 D (Some (f ++ rest)) = if Z.eqb a b then Ok (conf_read sc bs zs) else Raise.
Proof.
  move=> [mark [model [nrun [h [b1 [b2 [b3 [b4 [b5 [b6 [b7 [b8 [b9 [-> [H [I1 [I2 [I3 [I4 [I5 [I6 [I7 [IP [I8 I9]]]]]]]]]]]]]]]]]]]]]]]] NE.
  have [zs [IZ LZ]] := reals_as_ints IP. rewrite map_length in LZ. exists zs. split => //. split => //.
  rewrite -!app_assoc (conf_header _ H). have -> : Z.ltb 0 (count bs) = true by apply Z.ltb_lt; rewrite /count; destruct bs => //=; lia.
  exact (read_conf_ok rest I1 I2 I3 I4 I5 I6 I7 IZ LZ I8 I9).
Qed.

(* ------------------------------------------------------------------ binaries already counted *)
Definition with_nb (b : nat) (k : catalog) : catalog :=
  let c := g_c k in
  mkCat (mkC (c_units c) (c_origin c) (c_bunits c) b (c_ph c) (c_sc c) (c_bin c) (c_sky c) (c_der c) (c_id c)) (g_m0 k) (g_npop k) (g_b k) (g_sse k) (g_bse k) (g_ntot k) (g_ns k).
Lemma store_nb x1 x2 m1 m2 nb b q : store_pairs x1 x2 m1 m2 (q + nb) b =
  match store_pairs x1 x2 m1 m2 nb b with Ok r => Ok ((q + fst r)%nat, snd r) | Raise => Raise end.
Proof.
  rewrite /store_pairs. destruct (mass_or_ones m1 (sx x1)) => //; cbn [bind]. destruct (mass_or_ones m2 (sx x2)) => //; cbn [bind fst snd]. by rewrite Nat.add_assoc.
Qed.
Lemma binary_rows_nb nb s m id m0 np k q : add_binary_rows nb s m id m0 np (with_nb q k) =
  match add_binary_rows nb s m id m0 np (with_nb 0 k) with Ok k' => Ok (with_nb (q + c_nb (g_c k')) k') | Raise => Raise end.
Proof.
  rewrite /add_binary_rows. destruct (pick6 nb 0 s) as [x1|] => //; cbn [bind]. destruct (pick6 nb 1 s) as [x2|] => //; cbn [bind].
  destruct (pick_opt nb 0 m) as [m1|] => //; cbn [bind]. destruct (pick_opt nb 1 m) as [m2|] => //; cbn [bind].
  cbn [with_nb g_c c_nb g_b]. rewrite -{1}(Nat.add_0_r q) store_nb. destruct (store_pairs x1 x2 m1 m2 0 (g_b k)) as [[nb' b]|] => //; cbn [bind fst snd].
  destruct (coms b x1 x2) as [[sc mc]|] => //; cbn [bind].
  rewrite /columns_of; cbn [with_nb g_c c_id c_ph t_id t_m t_s t_m0 t_npop g_m0 g_npop].
  match goal with |- context [bind ?x _] => destruct x as [ids|] => // end; cbn [bind].
  match goal with |- context [bind ?x _] => destruct x as [m0b|] => // end; cbn [bind].
  match goal with |- context [bind ?x _] => destruct x as [npb|] => // end.
Qed.
Lemma add_stars_nb nb a sort proj k q : a_id a <> None -> c_units (g_c k) <> Some Uradec -> (1 <= nb)%nat ->
  add_stars nb a sort false proj (with_nb q k) =
  match add_stars nb a sort false proj (with_nb 0 k) with Ok k' => Ok (set_counts (with_nb (q + c_nb (g_c k')) k')) | Raise => Raise end.
Proof.
  move=> NI U H. rewrite /add_stars. have -> : Nat.eqb nb 0 = false by apply Nat.eqb_neq; lia.
  set s := map6 _ _. rewrite (binary_rows_nb _ _ _ _ _ _ _ q). 
  have UB : forall k1, add_binary_rows nb s (option_map (expand (npmax a)) (a_m a)) (option_map (expand (npmax a)) (a_id a)) (option_map (expand (npmax a)) (a_m0 a))
    (option_map (expand (npmax a)) (a_npop a)) (with_nb 0 k) = Ok k1 -> c_units (g_c k1) = c_units (g_c k).
  { move=> k1. rewrite /add_binary_rows. repeat (match goal with |- context [bind ?x _] => destruct x as [?|]; cbn [bind]; try discriminate end;
      repeat match goal with p : (_ * _)%type |- _ => destruct p end). move=> E. match type of E with Ok ?x = _ => have E' : x = k1 by congruence end. by rewrite -E'. }
  match goal with |- context [add_binary_rows ?a1 ?a2 ?a3 ?a4 ?a5 ?a6 ?a7] => destruct (add_binary_rows a1 a2 a3 a4 a5 a6 a7) as [k1|] eqn:EB => // end.
  cbn [bind]. have U1 := UB _ eq_refl. destruct (a_id a) as [i|] => //. cbn [option_map].
  have R : forall k0, c_units (g_c k0) = c_units (g_c k) -> add_sky_rows s (g_c k0) = g_c k0.
  { move=> k0 E0. rewrite /add_sky_rows E0. by destruct (c_units (g_c k)) as [[]|]. }
  rewrite !R //.
Qed.
