(* bev.82 and sev.83. *)
From Coq Require Import String Ascii.
From Coq Require Import Init.Byte.
From Verif Require Import Base ModelCluster ModelOps ModelRecipes ModelEnergy ModelCoords ModelCentre ModelStars SpecStars ModelLoad SpecLoad
  ProofsRecipes ProofsRecipes2 ProofsRecipes3 ProofsStars ProofsStars2 ProofsStars5 ProofsUnits ProofsFrame ProofsEnergy ProofsLoad ProofsLoad2 ProofsLoad3 ProofsLoad4 ModelNbody6 SpecNbody6 ProofsNbody6 ProofsNbody62 ProofsNbody63
  ModelNbody6pp SpecNbody6pp ProofsNbody6pp ProofsNbody6pp2 ProofsNbody6pp3.
Set Implicit Arguments.
Unset Strict Implicit.
Open Scope string_scope. Open Scope list_scope. Open Scope R_scope.

(* ------------------------------------------------------------------ text *)
Lemma row_numbers_ok rd l : numbers_only rd l ->
  exists xs, row_numbers rd l = Ok xs /\ length xs = length l /\ forall i x, word_real rd l i x -> nth_error xs i = Some x.
Proof.
  rewrite /row_numbers. induction l as [|w l IH] => N.
  - exists []. split => //. split => // i x [u [U _]]. by rewrite nth_error_nil in U || by destruct i.
  - have [x0 X0] := N 0%nat w eq_refl. have [xs [E [L P]]] := IH (fun i u U => N (S i) u U). exists (x0 :: xs). cbn [map all_ok]. rewrite X0. cbn [bind]. rewrite E. cbn [bind].
    split => //. split; [by cbn; rewrite L|]. move=> [|i] x [u [U V]]; cbn [nth_error] in *; [congruence|]. apply P. by exists u.
Qed.
Lemma loadtxt_ok A (row : line -> A -> Prop) rd w data (rows : list A) (h : line) : (0 < w)%nat -> (forall l b, row l b -> length l = w /\ numbers_only rd l) -> Forall2 row data rows ->
  exists xss, loadtxt rd (h :: data) = Ok xss /\ Forall2 (fun xs b => exists l, row l b /\ row_numbers rd l = Ok xs) xss rows.
Proof.
  move=> W H F.
  have [xss [E [F2 L]]] : exists xss, all_ok (map (row_numbers rd) (filter (fun l => negb (blank l)) data)) = Ok xss /\ Forall2 (fun xs b => exists l, row l b /\ row_numbers rd l = Ok xs) xss rows /\
    Forall (fun xs => length xs = w) xss.
  { induction F as [|l b data rows R0 F IH]; [by exists []; split => //; split; constructor|]. have [xss [E [F2 L]]] := IH. have [LW NO] := H l b R0.
    have [xs [E1 [L1 _]]] := row_numbers_ok NO. exists (xs :: xss). cbn [filter]. have -> : blank l = false by destruct l => //; cbn in LW; lia. cbn [negb map all_ok].
    rewrite E1. cbn [bind]. rewrite E. cbn [bind]. split => //. split; constructor => //; [by exists l|congruence]. }
  exists xss. split => //. rewrite /loadtxt; cbn [tl]. rewrite E. cbn [bind].
  have -> : forallb (fun r => Nat.eqb (length r) (length (hd [] xss))) xss = true.
  { apply forallb_forall => r Hr. apply Nat.eqb_eq. rewrite Forall_forall in L. rewrite (L r Hr). destruct xss as [|x0 xss] => //. symmetry. apply L. by left. }
  by [].
Qed.
Lemma col_ok A (rows : list A) xss j (f : A -> R) : Forall2 (fun xs b => nth_error xs j = Some (f b)) xss rows -> col xss j = Ok (map f rows).
Proof. rewrite /col. move=> F. induction F as [|xs b xss rows E F IH] => //. cbn [map all_ok]. rewrite E. cbn [bind]. by rewrite IH. Qed.
Lemma icol_ok A (rows : list A) xss j (f : A -> Z) : Forall2 (fun xs b => nth_error xs j = Some (IZR (f b))) xss rows -> icol xss j = Ok (map f rows).
Proof.
  move=> F. rewrite /icol (col_ok (f := fun b => IZR (f b)) F). cbn [bind]. rewrite map_map. f_equal. apply map_ext => b. apply truncate_IZR.
Qed.
Lemma Forall2_len (A B : Type) (P : A -> B -> Prop) l k : Forall2 P l k -> length l = length k. Proof. move=> F; induction F => //=; congruence. Qed.
Lemma Forall2_imp (A B : Type) (P Q : A -> B -> Prop) l k : (forall a b, P a b -> Q a b) -> Forall2 P l k -> Forall2 Q l k.
Proof. move=> H F; induction F; constructor => //; auto. Qed.
Lemma reads A (row : line -> A -> Prop) rd xss rows j (f : A -> R) : (forall l b, row l b -> numbers_only rd l /\ word_real rd l j (f b)) ->
  Forall2 (fun xs b => exists l, row l b /\ row_numbers rd l = Ok xs) xss rows -> Forall2 (fun xs b => nth_error xs j = Some (f b)) xss rows.
Proof.
  move=> H. apply Forall2_imp => xs b [l [R0 E]]. have [N W] := H l b R0. have [ys [E' [_ P]]] := row_numbers_ok N. have -> : xs = ys by congruence. by apply P.
Qed.
Lemma header_ok rd h data n : word_int rd h 0 n -> (exists t, word_real rd h 1 t) -> ev_header rd (h :: data) = Ok n.
Proof.
  move=> [w [W I0]] [t [u [U T]]]. rewrite /ev_header; cbn [readline]. rewrite /int_at /real_at /word_at W. cbn [bind]. rewrite I0. cbn [bind]. rewrite U. cbn [bind]. by rewrite T.
Qed.

(* ------------------------------------------------------------------ the two files *)
Definition many (bs : list (Z * Z * binrow)) (f : binrow -> R) : list R := if Nat.leb 14 (length bs) then map f (map snd bs) else repeat 0 (length bs).
Definition bev_of (bs : list (Z * Z * binrow)) : bev :=
  let rows := map snd bs in
  mkBev (map (fun b => fst (fst b)) bs) (map (fun b => snd (fst b)) bs) (map r_id1 rows) (map r_id2 rows) (map r_kw1 rows) (map r_kw2 rows) (map r_kwb rows)
    (map r_rib rows) (map r_ecc rows) (map r_pb rows) (map r_semi rows) (map r_m1 rows) (map r_m2 rows)
    (many bs r_l1) (many bs r_l2) (many bs r_r1) (many bs r_r2) (many bs r_te1) (many bs r_te2).
Lemma get_bev_ok rd bs f : ev_file (bev_line rd) rd bs f -> get_bev rd f = Ok (bev_of bs).
Proof.
  move=> [h [data [-> [H0 [H1 F]]]]]. rewrite /get_bev (header_ok data H0 H1). cbn [bind].
  destruct bs as [|b0 bs0]; [by []|]. set bs := b0 :: bs0 in F *. have LB : (1 <= length bs)%nat by cbn; lia.
  have -> : Z.ltb 0 (Z.of_nat (length bs)) = true by apply Z.ltb_lt; lia.
  have [xss [-> X]] : exists xss, loadtxt rd (h :: data) = Ok xss /\ Forall2 (fun xs b => exists l, bev_line rd l b /\ row_numbers rd l = Ok xs) xss bs.
  { apply (@loadtxt_ok _ (bev_line rd) rd 20); [lia| |exact F]. by move=> l [[a1 a2] r] [L [N _]]. }
  cbn [bind]. have LX := Forall2_len X.
  have -> : (if Z.eqb (Z.of_nat (length bs)) 1 then Nat.eqb (length xss) 1 else Nat.leb 2 (length xss)) = true.
  { rewrite LX. destruct (Z.eqb_spec (Z.of_nat (length bs)) 1); [apply Nat.eqb_eq|apply Nat.leb_le]; lia. }
  have RI j (g : Z * Z * binrow -> Z) : (forall l b, bev_line rd l b -> numbers_only rd l /\ word_real rd l j (IZR (g b))) -> icol xss j = Ok (map g bs).
  { move=> H. apply icol_ok. exact (reads H X). }
  have RR j (g : Z * Z * binrow -> R) : (forall l b, bev_line rd l b -> numbers_only rd l /\ word_real rd l j (g b)) -> col xss j = Ok (map g bs).
  { move=> H. apply col_ok. exact (reads H X). }
  rewrite (RI 1%nat (fun b => fst (fst b))); [by move=> l [[a1 a2] r] Q; split; apply Q|]. cbn [bind].
  rewrite (RI 2%nat (fun b => snd (fst b))); [by move=> l [[a1 a2] r] Q; split; apply Q|]. cbn [bind].
  rewrite (RI 3%nat (fun b => r_id1 (snd b))); [by move=> l [[a1 a2] r] Q; split; apply Q|]. cbn [bind].
  rewrite (RI 4%nat (fun b => r_id2 (snd b))); [by move=> l [[a1 a2] r] Q; split; apply Q|]. cbn [bind].
  rewrite (RI 5%nat (fun b => r_kw1 (snd b))); [by move=> l [[a1 a2] r] Q; split; apply Q|]. cbn [bind].
  rewrite (RI 6%nat (fun b => r_kw2 (snd b))); [by move=> l [[a1 a2] r] Q; split; apply Q|]. cbn [bind].
  rewrite (RI 7%nat (fun b => r_kwb (snd b))); [by move=> l [[a1 a2] r] Q; split; apply Q|]. cbn [bind].
  rewrite (RR 8%nat (fun b => r_rib (snd b))); [by move=> l [[a1 a2] r] Q; split; apply Q|]. cbn [bind].
  rewrite (RR 9%nat (fun b => r_ecc (snd b))); [by move=> l [[a1 a2] r] Q; split; apply Q|]. cbn [bind].
  rewrite (RR 10%nat (fun b => r_pb (snd b))); [by move=> l [[a1 a2] r] Q; split; apply Q|]. cbn [bind].
  rewrite (RR 11%nat (fun b => r_semi (snd b))); [by move=> l [[a1 a2] r] Q; split; apply Q|]. cbn [bind].
  rewrite (RR 12%nat (fun b => r_m1 (snd b))); [by move=> l [[a1 a2] r] Q; split; apply Q|]. cbn [bind].
  rewrite (RR 13%nat (fun b => r_m2 (snd b))); [by move=> l [[a1 a2] r] Q; split; apply Q|]. cbn [bind]. cbv zeta.
  rewrite /bev_of /many LX !map_map map_length. destruct (Nat.leb 14 (length bs)); [|by []].
  rewrite (RR 14%nat (fun b => r_l1 (snd b))); [by move=> l [[a1 a2] r] Q; split; apply Q|]. cbn [bind].
  rewrite (RR 15%nat (fun b => r_l2 (snd b))); [by move=> l [[a1 a2] r] Q; split; apply Q|]. cbn [bind].
  rewrite (RR 16%nat (fun b => r_r1 (snd b))); [by move=> l [[a1 a2] r] Q; split; apply Q|]. cbn [bind].
  rewrite (RR 17%nat (fun b => r_r2 (snd b))); [by move=> l [[a1 a2] r] Q; split; apply Q|]. cbn [bind].
  rewrite (RR 18%nat (fun b => r_te1 (snd b))); [by move=> l [[a1 a2] r] Q; split; apply Q|]. cbn [bind].
  rewrite (RR 19%nat (fun b => r_te2 (snd b))); [by move=> l [[a1 a2] r] Q; split; apply Q|]. by [].
Qed.
Definition sev_of (ss : list (Z * sinrow)) : sev :=
  let rows := map snd ss in
  mkSev (map fst ss) (map y_id rows) (map y_kw rows) (map y_ri rows) (map y_m rows) (map (fun y => truncate (y_l y)) rows) (map y_r rows) (map y_te rows).
Lemma get_sev_ok rd ss f : ev_file (sev_line rd) rd ss f -> get_sev rd f = if Nat.leb 2 (length ss) then Ok (sev_of ss) else Raise.
Proof.
  move=> [h [data [-> [H0 [H1 F]]]]]. rewrite /get_sev (header_ok data H0 H1). cbn [bind].
  have [xss [-> X]] : exists xss, loadtxt rd (h :: data) = Ok xss /\ Forall2 (fun xs b => exists l, sev_line rd l b /\ row_numbers rd l = Ok xs) xss ss.
  { apply (@loadtxt_ok _ (sev_line rd) rd 9); [lia| |exact F]. by move=> l [a r] [L [N _]]. }
  cbn [bind]. rewrite (Forall2_len X). destruct (Nat.leb 2 (length ss)) => //.
  have RI j (g : Z * sinrow -> Z) : (forall l b, sev_line rd l b -> numbers_only rd l /\ word_real rd l j (IZR (g b))) -> icol xss j = Ok (map g ss).
  { move=> H. apply icol_ok. exact (reads H X). }
  have RR j (g : Z * sinrow -> R) : (forall l b, sev_line rd l b -> numbers_only rd l /\ word_real rd l j (g b)) -> col xss j = Ok (map g ss).
  { move=> H. apply col_ok. exact (reads H X). }
  rewrite (RI 1%nat fst); [by move=> l [a r] Q; split; apply Q|]. cbn [bind].
  rewrite (RI 2%nat (fun b => y_id (snd b))); [by move=> l [a r] Q; split; apply Q|]. cbn [bind].
  rewrite (RI 3%nat (fun b => y_kw (snd b))); [by move=> l [a r] Q; split; apply Q|]. cbn [bind].
  rewrite (RR 4%nat (fun b => y_ri (snd b))); [by move=> l [a r] Q; split; apply Q|]. cbn [bind].
  rewrite (RR 5%nat (fun b => y_m (snd b))); [by move=> l [a r] Q; split; apply Q|]. cbn [bind].
  rewrite {1}/icol (RR 6%nat (fun b => y_l (snd b))); [by move=> l [a r] Q; split; apply Q|]. cbn [bind].
  rewrite (RR 7%nat (fun b => y_r (snd b))); [by move=> l [a r] Q; split; apply Q|]. cbn [bind].
  rewrite (RR 8%nat (fun b => y_te (snd b))); [by move=> l [a r] Q; split; apply Q|]. cbn [bind].
  by rewrite /sev_of !map_map.
Qed.

(* ------------------------------------------------------------------ places *)
Lemma alternate_length (A : Type) (a b : list A) : length a = length b -> length (alternate a b) = (2 * length a)%nat.
Proof. move: b. induction a as [|x a IH]; move=> [|y b] //= H. rewrite IH; [congruence|]. lia. Qed.
Lemma skip_pairs (A : Type) (a b l : list A) nb : length a = nb -> length b = nb -> skipn (2 * nb) (alternate a b ++ l) = l.
Proof. move=> H1 H2. rewrite -H1 -(@alternate_length _ a b); [congruence|]. by rewrite skipn_app skipn_all Nat.sub_diag. Qed.
Lemma assign_front nb l v : length v = nb -> (nb <= length l)%nat ->
  exists l', assign l (seq 0 nb) v = Ok l' /\ length l' = length l /\ (forall i, (i < nb)%nat -> nth i l' 0 = nth i v 0).
Proof.
  move=> LV LL. have AS : assign l (seq 0 nb) v = assign_at l (seq 0 nb) v.
  { rewrite /assign. destruct v as [|a [|b v]] => //. cbn in LV. by rewrite -LV. }
  have [l' [E [L [P _]]]] := @assign_at_ok (seq 0 nb) l v ltac:(by rewrite seq_length) ltac:(by move=> i /in_seq; lia) (seq_NoDup nb 0).
  exists l'. rewrite AS. split => //. split => // i Hi. have := P i. rewrite seq_length seq_nth //. by apply.
Qed.
Section Fill2.
Variables (nb ns : nat) (args : list Z).
Hypothesis AD : addressed nb args ns.
Hypothesis N2 : (2 <= ns)%nat.
Lemma object_in a : In a args -> (nb <= object_of nb a < nb + ns)%nat /\ (0 <= a - Z.of_nat nb - 1)%Z.
Proof.
  move=> H. have := Permutation_in _ AD H. move=> /in_map_iff [i [<- /in_seq Hi]]. rewrite /object_of. lia.
Qed.
Lemma objects_nodup : NoDup (map (object_of nb) args).
Proof.
  apply (Permutation_NoDup (Permutation_map (object_of nb) (Permutation_sym AD))). rewrite map_map.
  have -> : map (fun x => object_of nb (Z.of_nat (2 * nb + 1 + x))) (seq 0 ns) = seq nb ns.
  { rewrite -(Nat.add_0_l nb) -{1}(seq_shift' nb 0 ns) || idtac. apply (nth_ext _ _ 0%nat 0%nat); rewrite ?map_length ?seq_length //.
    move=> i Hi. rewrite nth_map_seq // seq_nth //. rewrite /object_of. lia. }
  apply seq_NoDup.
Qed.
Lemma args_length : length args = ns. Proof. by rewrite (Permutation_length AD) map_length seq_length. Qed.
Definition their_args : list Z := if Nat.ltb 0 nb then map (fun a => a - Z.of_nat nb - 1)%Z args else map (fun a => a - 1)%Z args.
Lemma their_objects (l : list R) : length l = (nb + ns)%nat -> map (index_of (length l)) their_args = map (object_of nb) args.
Proof.
  move=> L. rewrite /their_args. have IO z : (0 <= z)%Z -> index_of (length l) z = Z.to_nat z by rewrite /index_of => H; destruct (Z.ltb_spec z 0) => //; lia.
  destruct (Nat.ltb_spec 0 nb) as [P|P]; rewrite map_map; apply map_ext_in => a /object_in [H0 H1]; rewrite /object_of; rewrite IO //; try lia.

Qed.
Lemma fill_ok pair v : length pair = nb -> length v = ns ->
  exists l, bind (if Nat.ltb 0 nb then assign (repeat (-10) (nb + ns)) (seq 0 nb) pair else Ok (repeat (-10) (nb + ns))) (fun x => assign_z x their_args v) = Ok l /\
    length l = (nb + ns)%nat /\ (forall i, (i < nb)%nat -> nth i l 0 = nth i pair 0) /\ (forall j a, nth_error args j = Some a -> nth (object_of nb a) l 0 = nth j v 0).
Proof.
  move=> LP LV. have [x [E [LX PX]]] : exists x, (if Nat.ltb 0 nb then assign (repeat (-10) (nb + ns)) (seq 0 nb) pair else Ok (repeat (-10) (nb + ns))) = Ok x /\ length x = (nb + ns)%nat /\
     (forall i, (i < nb)%nat -> nth i x 0 = nth i pair 0).
  { destruct (Nat.ltb_spec 0 nb) as [P|P].
    - have [l' [E [L Q]]] := @assign_front nb (repeat (-10) (nb + ns)) pair LP ltac:(rewrite repeat_length; lia). exists l'. by rewrite L repeat_length.
    - eexists. split; [reflexivity|]. split; [by rewrite repeat_length|]. move=> i; lia. }
  rewrite E. cbn [bind]. rewrite /assign_z their_objects //.
  have AS : assign x (map (object_of nb) args) v = assign_at x (map (object_of nb) args) v by rewrite /assign; destruct v as [|a [|b v']] => //; cbn in LV; lia.
  have B1 : length (map (object_of nb) args) = length v by rewrite map_length args_length.
  have B2 : forall i, In i (map (object_of nb) args) -> (i < length x)%nat by move=> i /in_map_iff [a [<- /object_in [H _]]]; lia.
  have [l [E2 [L2 [P2 Q2]]]] := assign_at_ok B1 B2 objects_nodup. exists l. rewrite AS. split => //. split; [congruence|]. split.
  - move=> i Hi. rewrite Q2; [|by apply PX]. move=> /in_map_iff [a [EA /object_in [H _]]]. lia.
  - move=> j a NA. have Hj : (j < length args)%nat by apply nth_error_Some; rewrite NA. have := P2 j. rewrite map_length => /(_ Hj).
    by rewrite (nth_of _ 0%nat NA).
Qed.
End Fill2.
