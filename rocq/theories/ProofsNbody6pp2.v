(* The cluster made from one conf.3 record. *)
From Coq Require Import String Ascii.
From Coq Require Import Init.Byte.
From Verif Require Import Base ModelCluster ModelOps ModelRecipes ModelEnergy ModelCoords ModelCentre ModelStars SpecStars ModelLoad SpecLoad
  ProofsRecipes ProofsRecipes2 ProofsRecipes3 ProofsStars ProofsStars2 ProofsUnits ProofsFrame ProofsEnergy ProofsLoad ProofsLoad2 ProofsLoad3 ProofsLoad4 ModelNbody6 SpecNbody6 ProofsNbody6 ProofsNbody62 ProofsNbody63
  ModelNbody6pp SpecNbody6pp ProofsNbody6pp.
Set Implicit Arguments.
Unset Strict Implicit.
Open Scope string_scope. Open Scope list_scope. Open Scope R_scope.

(* ------------------------------------------------------------------ lists *)
Lemma pick_all (l : list R) idx : Forall (fun i => (i < length l)%nat) idx -> pick l idx = Ok (map (fun i => nth i l 0) idx).
Proof.
  elim: idx => [|i idx IH] F //. inversion F; subst. cbn [pick map]. rewrite IH //. by rewrite (nth_error_nth' l 0).
Qed.
Lemma zip_maps (f g : nat -> R) idx : zip_with Rplus (map f idx) (map g idx) = map (fun i => f i + g i) idx.
Proof. elim: idx => [|i idx IH] //. cbn [map zip_with]. by rewrite -IH. Qed.
Lemma pair_sums_ok nb l : (2 * nb <= length l)%nat ->
  pair_sums nb l = Ok (map (fun i => nth (2 * i) l 0 + nth (2 * i + 1) l 0) (seq 0 nb) ++ skipn (2 * nb) l).
Proof.
  move=> H. rewrite /pair_sums. rewrite pick_all; [by apply Forall_forall => i /in_map_iff [j [<- /in_seq Hj]]; lia|].
  rewrite pick_all; [by apply Forall_forall => i /in_map_iff [j [<- /in_seq Hj]]; lia|]. cbn [bind]. rewrite !map_map zip_maps. done.
Qed.
Lemma listed_length pairs singles : length (listed pairs singles) = (2 * length pairs + length singles)%nat.
Proof. rewrite /listed app_length. f_equal. elim: pairs => [|q pairs IH] //. cbn [flat_map app length]. lia. Qed.
Lemma listed_pair pairs singles i q : nth_error pairs i = Some q ->
  nth_error (listed pairs singles) (2 * i) = Some (fst q) /\ nth_error (listed pairs singles) (2 * i + 1) = Some (snd q).
Proof.
  move: i. induction pairs as [|p pairs IH]; move=> [|i] //= N; [by injection N as ->|].
  have [A B] := IH i N. have -> : (i + S (i + 0) = S (2 * i))%nat by lia. by split.
Qed.
Lemma listed_single pairs singles j y : nth_error singles j = Some y -> nth_error (listed pairs singles) (2 * length pairs + j) = Some y.
Proof.
  move=> N. rewrite /listed nth_error_app2; first (elim: pairs => [|q pairs IH] //=; cbn [flat_map app length] in *; lia).
  rewrite -N. f_equal. elim: pairs => [|q pairs IH] //=; cbn [flat_map app length] in *; lia.
Qed.
Lemma listed_skip pairs singles : skipn (2 * length pairs) (listed pairs singles) = singles.
Proof.
  induction pairs as [|q pairs IH] => //. cbn [length]. have -> : (2 * S (length pairs) = S (S (2 * length pairs)))%nat by lia. cbn. exact IH.
Qed.
Lemma sums_listed (f : body -> R) pairs singles : pair_sums (length pairs) (map f (listed pairs singles)) = Ok (objects f pairs singles).
Proof.
  rewrite pair_sums_ok; [by rewrite map_length listed_length; lia|]. rewrite skipn_map listed_skip /objects. do 2 f_equal.
  apply (nth_ext _ _ 0 0); rewrite !map_length ?seq_length //. move=> i Hi.
  have [q N] : exists q, nth_error pairs i = Some q by destruct (nth_error pairs i) as [q|] eqn:E; [exists q|apply nth_error_None in E; lia].
  rewrite (nth_of _ 0 N). rewrite (nth_indep _ 0 (nth (2 * 0) (map f (listed pairs singles)) 0 + nth (2 * 0 + 1) (map f (listed pairs singles)) 0)) ?map_length ?seq_length //.
  rewrite (map_nth (fun i => nth (2 * i) (map f (listed pairs singles)) 0 + nth (2 * i + 1) (map f (listed pairs singles)) 0)) seq_nth //.
  have [A B] := listed_pair singles N. cbn [Nat.add]. by rewrite (nth_of _ 0 A) (nth_of _ 0 B).
Qed.

(* ------------------------------------------------------------------ stars *)
Definition conf_cat (sc : list R) (pairs : list (body * body)) (singles : list body) (k : catalog) : Prop :=
  let nb := length pairs in let n := (nb + length singles)%nat in
  aligned k n /\ g_ntot k = n /\
  (forall i q, nth_error pairs i = Some q -> pair_at k i (y_p (fst q)) (y_p (snd q))) /\
  (forall j y, nth_error singles j = Some y -> particle_at k (nb + j) (y_p y)) /\
  scaled_by sc k /\ c_units (g_c k) = Some Unbody /\ c_origin (g_c k) = Some Ocluster /\ p_g (c_ph (g_c k)) = mk6 0 0 0 0 0 0.
Lemma add_stars_keeps_nb nb a sort proj k k' : add_stars nb a sort false proj k = Ok k' -> c_units (g_c k) <> Some Uradec ->
  p_t (c_ph (g_c k')) = p_t (c_ph (g_c k)) /\ p_c (c_ph (g_c k')) = p_c (c_ph (g_c k)) /\ p_g (c_ph (g_c k')) = p_g (c_ph (g_c k)) /\
  c_sc (g_c k') = c_sc (g_c k) /\ g_sse k' = g_sse k /\ g_bse k' = g_bse k /\ c_bin (g_c k') = c_bin (g_c k) /\
  c_units (g_c k') = c_units (g_c k) /\ c_origin (g_c k') = c_origin (g_c k).
Proof.
  move=> E U. rewrite /add_stars in E.
  set KEEP := fun k0 : catalog => p_t (c_ph (g_c k0)) = p_t (c_ph (g_c k)) /\ p_c (c_ph (g_c k0)) = p_c (c_ph (g_c k)) /\ p_g (c_ph (g_c k0)) = p_g (c_ph (g_c k)) /\
    c_sc (g_c k0) = c_sc (g_c k) /\ g_sse k0 = g_sse k /\ g_bse k0 = g_bse k /\ c_bin (g_c k0) = c_bin (g_c k) /\
    c_units (g_c k0) = c_units (g_c k) /\ c_origin (g_c k0) = c_origin (g_c k).
  match type of E with bind ?x _ = _ => destruct x as [k1|] eqn:E1 end; [|discriminate E]. cbn [bind] in E.
  have K1 : KEEP k1.
  { destruct (Nat.eqb nb 0); [by injection E1 as <-|]. move: E1. rewrite /add_binary_rows.
    repeat (match goal with |- context [bind ?x _] => destruct x as [?|]; cbn [bind]; try discriminate end;
      repeat match goal with p : (_ * _)%type |- _ => destruct p end). move=> E1. match type of E1 with Ok ?x = _ => have E' : x = k1 by congruence end. by rewrite -E'. }
  match type of E with Ok ?x = _ => have E' : x = k' by congruence end. subst k'. clear E.
  set k2 := add_single_rows _ _ _ _ _ _ _. set k3 := put_columns k2 _. have U3 : c_units (g_c k3) = c_units (g_c k) by apply K1.
  have -> : add_sky_rows (map6 (expand (npmax a)) (a_s a)) (g_c k3) = g_c k3 by rewrite /add_sky_rows U3; destruct (c_units (g_c k)) as [[]|].
  exact K1.
Qed.
Lemma count_INR n : count_of (INR n) = n. Proof. by rewrite /count_of Int_part_INR Nat2Z.id. Qed.

Lemma counted_base k n b : aligned k n -> aligned (set_counts (with_nb b k)) n /\ g_ntot (set_counts (with_nb b k)) = n.
Proof. move=> A. split; [exact A|]. cbn [set_counts with_nb g_c c_ph g_ntot]. by case: A => [[A _] _]. Qed.
Lemma value_array (A : Type) (d : A) (f : body -> A) bs j y : nth_error bs j = Some y -> value d (Array (map f bs)) j = f y.
Proof. move=> N. rewrite /value. by apply nth_of. Qed.
Lemma args_pair bs zs sc j j' p q w : nth_error bs j = Some p -> nth_error bs j' = Some q -> is_pair (out_args (v_out (conf_read sc bs zs))) j j' w ->
  let c f := weighted (pt_m (y_p p)) (pt_m (y_p q)) (f (pt_s (y_p p))) (f (pt_s (y_p q))) in
  w_m w = pt_m (y_p p) + pt_m (y_p q) /\ w_s w = mk6 (c (@sx R)) (c (@sy R)) (c (@sz R)) (c (@svx R)) (c (@svy R)) (c (@svz R)) /\ w_id w = pt_id (y_p p).
Proof.
  move=> N N'. rewrite /is_pair /out_args /conf_read /read_record !map_map; cbn [v_out o3_s o3_m o3_id a_s a_m a_id a_m0 a_npop map6 sx sy sz svx svy svz value_or].
  rewrite !(value_array _ _ N) !(value_array _ _ N'). move=> [W [M [_ [_ I]]]]. have := I _ eq_refl. rewrite (value_array _ _ N) => E. cbv zeta. by rewrite M W E.
Qed.
Lemma args_given bs zs sc j y w : nth_error bs j = Some y -> is_given (out_args (v_out (conf_read sc bs zs))) j w ->
  w_m w = pt_m (y_p y) /\ w_s w = pt_s (y_p y) /\ w_id w = pt_id (y_p y).
Proof.
  move=> N. rewrite /is_given /out_args /conf_read /read_record !map_map; cbn [v_out o3_s o3_m o3_id a_s a_m a_id a_m0 a_npop map6 sx sy sz svx svy svz value_or].
  rewrite !(value_array _ _ N). move=> [W [M [_ [_ I]]]]. have := I _ eq_refl. rewrite (value_array _ _ N) => E. rewrite W M E. split; [reflexivity|]. split; [|reflexivity]. rewrite /map6; cbn [sx sy sz svx svy svz]. rewrite !(value_array _ _ N). by destruct (pt_s (y_p y)).
Qed.
Lemma describes_conf sc bs zs : bs <> [] -> describes_stars (out_args (v_out (conf_read sc bs zs))) (length bs).
Proof. move=> NE. rewrite -(map_length y_p bs). apply describes_out. by destruct bs. Qed.

Section Fill.
Variables (sc : list R) (pairs : list (body * body)) (singles : list body) (zs : list Z) (t a b : R).
Hypothesis H1 : (18 <= length sc)%nat.
Hypothesis H2 : nth 1 sc 0 = INR (length pairs).
Hypothesis H3 : listed pairs singles <> [].
Hypothesis H4 : t = nth 0 sc 0.
Hypothesis H5 : length zs = length (listed pairs singles).
Let k0 := init_catalog (init_cluster t (Some Unbody) (Some Ocluster) a b).
Let bs := listed pairs singles.
Let nb := length pairs.

Lemma fill_stars : let v i := nth i sc 0 in
  let k1 := add_nbody6 (v 2%nat) (v 6%nat) (v 7%nat) (v 8%nat) (v 3%nat) (v 11%nat) (v 10%nat) (length bs) nb k0 in
  exists k2, add_stars nb (out_args (v_out (conf_read sc bs zs))) true false false k1 = Ok k2 /\ conf_cat sc pairs singles k2 /\ c_nb (g_c k2) = (2 * nb)%nat /\
    g_ns k2 = (Z.of_nat (length pairs + length singles) - Z.of_nat (2 * nb))%Z /\ fresh k2.
Proof.
  cbv zeta. set k1 := add_nbody6 _ _ _ _ _ _ _ _ _ _.
  have [S1 [C1 [U1 [O1 [P1 [E1 [B1 Q1]]]]]]] := @scaled_add sc (length bs) t a b H4. rewrite H2 count_INR -/nb -/k0 -/k1 in S1 C1 U1 O1 P1 E1 B1 Q1.
  have UR : c_units (g_c k1) <> Some Uradec by rewrite U1.
  have AL1 : aligned k1 0 by apply S1. have DS := describes_conf sc zs H3. rewrite -/bs in DS.
  have LB : length bs = (2 * nb + length singles)%nat by exact (listed_length pairs singles).
  have K0 : exists k2, add_stars nb (out_args (v_out (conf_read sc bs zs))) true false false k1 = Ok k2 /\ aligned k2 (nb + length singles) /\ g_ntot k2 = (nb + length singles)%nat /\
    (forall i, (i < nb)%nat -> is_pair (out_args (v_out (conf_read sc bs zs))) (2 * i) (2 * i + 1) (star_at k2 i)) /\
    (forall j, (j < length singles)%nat -> is_given (out_args (v_out (conf_read sc bs zs))) (2 * nb + j) (star_at k2 (nb + j))) /\ c_nb (g_c k2) = (2 * nb)%nat /\
    g_ns k2 = (Z.of_nat (length pairs + length singles) - Z.of_nat (2 * nb))%Z.
  { destruct (Nat.eq_dec nb 0) as [Z0|NZ].
    - have [k2 [E [AL [_ [NEW [NT [NS [NB _]]]]]]]] := add_singles_rows true false false DS AL1. rewrite Z0. cbn [Nat.add] in AL, NT, NS.
      have -> : length singles = length bs by lia. exists k2. split; [exact E|]. split; [exact AL|]. split; [exact NT|]. split; [by move=> i Hi; lia|].
      split; [by move=> j Hj; apply (NEW j Hj)|]. have LP : length pairs = 0%nat := Z0. have NB' : c_nb (g_c k1) = 0%nat := Z0. rewrite LP. cbn [Nat.mul Nat.add].
      split; [congruence|]. rewrite NS NB'. cbn. lia.
    - have NO : no_binaries (with_nb 0 k1) by split. have AL0 : aligned (with_nb 0 k1) 0 := AL1.
      have G1 : (1 <= nb)%nat by lia. have G2 : (2 * nb <= length bs)%nat by lia. have G3 : nb = 1%nat -> a_m (out_args (v_out (conf_read sc bs zs))) <> None by discriminate.
      have [k2 [E [AL [PA [_ [NEW [NT [_ [NB _]]]]]]]]] := add_binaries_rows true false false DS AL0 NO G1 G2 G3.
      have EQ : with_nb nb k1 = k1 by []. rewrite -EQ. rewrite add_stars_nb //. rewrite E. 
      have -> : (nb + c_nb (g_c k2) = 2 * nb)%nat by lia. rewrite LB in AL, NEW, NT. have L0 : (nb + 0 + (2 * nb + length singles - 2 * nb) = nb + length singles)%nat by lia. rewrite L0 in AL, NT.
      have [AL' NT'] := @counted_base k2 _ (2 * nb) AL. eexists. split; [reflexivity|]. split; [exact AL'|]. split; [exact NT'|]. split; [exact PA|]. split; [|split; [by []|]].
      + move=> j Hj. have := NEW j ltac:(lia). by rewrite Nat.add_0_r.
      + cbn [set_counts g_ns with_nb g_c c_nb c_ph]. case: AL' => [[A1 _] _]. cbn [set_counts with_nb g_c c_ph] in A1. by rewrite A1. }
  have [k2 [E [AL [NT [PA [SI [NB NS]]]]]]] := K0. exists k2. split; [exact E|].
  have [T [PC [PG [SC [SS [BS [BN [U' O']]]]]]]] := add_stars_keeps_nb E UR.
  split; [|split; [exact NB|split; [exact NS|]]].
  - split; [exact AL|]. split; [exact NT|]. split; [|split; [|split; [|split; [|split]]]].
    + move=> i q N. have Hi : (i < nb)%nat by apply nth_error_Some; rewrite N. have [N1 N2] := listed_pair singles N. exact (args_pair N1 N2 (PA i Hi)).
    + move=> j y N. have Hj : (j < length singles)%nat by apply nth_error_Some; rewrite N. exact (args_given (listed_single pairs N) (SI j Hj)).
    + move: C1. rewrite /scaled_by. by rewrite SC PC T.
    + congruence.
    + congruence.
    + congruence.
  - rewrite /fresh. by rewrite SS BS BN E1 B1 Q1.
Qed.
Lemma kinetic_rows k n : aligned k n -> kinetic k = map (row_kinetic k) (seq 0 n).
Proof.
  move=> [[L1 [L2 [L3 [L4 [L5 L6]]]]] [LM _]]. rewrite /kinetic; cbv zeta.
  apply (nth_ext _ _ 0 0); rewrite ?map_length ?seq_length.
  { by rewrite !zip_with_length L4 L5 L6 LM !Nat.min_id. }
  move=> i Hi. rewrite !zip_with_length L4 L5 L6 LM !Nat.min_id in Hi.
  rewrite (nth_zip_with _ 0 0 0) ?zip_with_length ?L4 ?L5 ?L6 ?LM ?Nat.min_id //. rewrite (nth_zip_with _ 0 0 0) ?zip_with_length ?L4 ?L5 ?L6 ?Nat.min_id //.
  rewrite (nth_zip_with _ 0 0 0) ?L4 ?L5 //. rewrite nth_map_seq //. rewrite /row_kinetic /star_at /map6; cbn [w_m w_s svx svy svz].
  rewrite pow2_sqrt //. nra.
Qed.
(* what is kept by fill_pp *)
Lemma fill_pp_ok : exists k2 po, fill_pp (conf_read sc bs zs) k0 = Ok (k2, objects y_rho pairs singles, Some (add_energies (kinetic k2) (map Some po))) /\
    pair_sums nb (map IZR zs) = Ok po /\ conf_cat sc pairs singles k2 /\ c_nb (g_c k2) = (2 * nb)%nat /\
    g_ns k2 = (Z.of_nat (length pairs + length singles) - Z.of_nat (2 * nb))%Z /\ fresh k2.
Proof.
  have [k2 [E [CC [NB [NS FR]]]]] := fill_stars. rewrite /fill_pp. rewrite {1}/conf_read; cbn [v_out read_record o3_n]. rewrite count_y.
  have -> : Z.ltb 0 (count bs) = true by apply Z.ltb_lt; rewrite /count; move: H3; rewrite -/bs; destruct bs => //=; lia.
  have NE : map y_p bs <> [] by move: H3; rewrite -/bs; destruct bs. rewrite /conf_read; cbn [v_out v_rhos v_pot]. rewrite (scale_ok k0 H1 NE); cbv zeta. cbn [bind]. rewrite al_ok; [cbn; lia|].
  cbn [bind read_record o3_a]. rewrite H2 count_INR map_length -/nb. cbn [conf_read v_out] in E. rewrite E. cbn [bind]. rewrite (sums_listed y_rho pairs singles). cbn [bind].
  have P : (2 * nb <= length (map IZR zs))%nat by rewrite map_length H5 listed_length -/nb; lia.
  rewrite (pair_sums_ok P). cbn [bind]. eexists. eexists. split; [reflexivity|]. split; [reflexivity|]. by [].
Qed.
End Fill.
