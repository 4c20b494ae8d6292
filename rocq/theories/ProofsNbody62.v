(* fort.82 and fort.83. *)
From Coq Require Import String Ascii.
From Coq Require Import Init.Byte.
From Verif Require Import Base ModelCluster ModelRecipes ModelStars SpecStars ModelLoad SpecLoad ModelNbody6 SpecNbody6.
Set Implicit Arguments.
Unset Strict Implicit.
Open Scope string_scope. Open Scope list_scope. Open Scope R_scope.

Lemma int_at_ok rd l i z : word_int rd l i z -> int_at rd l i = Ok z.
Proof. move=> [w [E I]]. by rewrite /int_at /word_at E /= I. Qed.
Lemma real_at_ok rd l i x : word_real rd l i x -> real_at rd l i = Ok x.
Proof. move=> [w [E I]]. by rewrite /real_at /word_at E /= I. Qed.
Lemma bin_row_ok rd l b : binary_line rd l b -> bin_row rd l = Ok b.
Proof.
  move=> [_ [I0 [I1 [I2 [I3 [I4 [R5 [R6 [R7 [R8 [R9 [R10 [[w W] N]]]]]]]]]]]]]. rewrite /bin_row.
  rewrite (int_at_ok I0) (int_at_ok I1) (int_at_ok I2) (int_at_ok I3) (int_at_ok I4).
  rewrite (real_at_ok R5) (real_at_ok R6) (real_at_ok R7) (real_at_ok R8) (real_at_ok R9) (real_at_ok R10). cbn [bind].
  have -> : word_at l 11 = Ok w by rewrite /word_at W. cbn [bind].
  case: N => [[NN V]|[NN V]].
  - have -> : w = "NaN" by congruence. cbn. case: V => E1 E2 E3 E4 E5 E6. destruct b; cbn in *; by subst.
  - have -> : String.eqb w "NaN" = false by apply String.eqb_neq => E; rewrite E in W.
    rewrite (real_at_ok (V 0%nat _ eq_refl)) (real_at_ok (V 1%nat _ eq_refl)) (real_at_ok (V 2%nat _ eq_refl))
      (real_at_ok (V 3%nat _ eq_refl)) (real_at_ok (V 4%nat _ eq_refl)) (real_at_ok (V 5%nat _ eq_refl)). by destruct b.
Qed.
Lemma sin_row_ok rd l y : single_line rd l y -> sin_row rd l = Ok y.
Proof.
  move=> [_ [I0 [I1 [R2 [R3 [[w W] N]]]]]]. rewrite /sin_row.
  rewrite (int_at_ok I0) (int_at_ok I1) (real_at_ok R2) (real_at_ok R3). cbn [bind].
  have -> : word_at l 4 = Ok w by rewrite /word_at W. cbn [bind].
  case: N => [[NN V]|[NN V]].
  - have -> : w = "NaN" by congruence. cbn. case: V => E1 E2 E3. destruct y; cbn in *; by subst.
  - have -> : String.eqb w "NaN" = false by apply String.eqb_neq => E; rewrite E in W.
    rewrite (real_at_ok (V 0%nat _ eq_refl)) (real_at_ok (V 1%nat _ eq_refl)) (real_at_ok (V 2%nat _ eq_refl)). by destruct y.
Qed.
Definition nonfooter (l : line) : Prop := exists w, nth_error l 0 = Some w /\ w <> "##".
Lemma binary_nonfooter rd l b : binary_line rd l b -> nonfooter l.
Proof. move=> [N [[w [E _]] _]]. exists w. split => // Q. apply N. by rewrite /footer E Q. Qed.
Lemma single_nonfooter rd l b : single_line rd l b -> nonfooter l.
Proof. move=> [N [[w [E _]] _]]. exists w. split => // Q. apply N. by rewrite /footer E Q. Qed.
Lemma nonfooter_word l : nonfooter l -> exists w, word_at l 0 = Ok w /\ String.eqb w "##" = false.
Proof. move=> [w [E N]]. exists w. rewrite /word_at E. split => //. by apply String.eqb_neq. Qed.
Lemma last_cons A (a : A) l d : last (a :: l) d = last l a.
Proof. elim: l a d => [|b l IH] a d //. have E : last (a :: b :: l) d = last (b :: l) d by []. by rewrite E IH (IH b a). Qed.
Lemma se_loop_ok A (row : line -> A -> Prop) (rowOf : line -> result (sestate -> sestate)) (upd : A -> sestate -> sestate) :
  (forall l a, row l a -> nonfooter l /\ rowOf l = Ok (upd a)) ->
  forall rows data rest d s, Forall2 row data rows ->
  se_loop rowOf (length rows) (data ++ rest) d s = Ok (rest, last data d, fold_left (fun s a => upd a s) rows s).
Proof.
  move=> H rows data rest d s F. elim: F d s => [|l a data' rows' Q F IH] d s //. cbn [length app se_loop readline].
  have [NF E] := H _ _ Q. have [w [W N]] := nonfooter_word NF. rewrite W; cbn [bind]. rewrite N E; cbn [bind]. rewrite IH. cbn [fold_left].
  by rewrite last_cons.
Qed.
Lemma footer_read f l : nonfooter l -> forall e rest, f = e :: rest -> se_footer f l = Ok (rest, e).
Proof. move=> NF e rest ->. have [w [W N]] := nonfooter_word NF. by rewrite /se_footer W /= N. Qed.
Lemma footer_seen f l : footer l -> se_footer f l = Ok (f, l).
Proof. move=> F. by rewrite /se_footer /word_at F. Qed.
Lemma last_nonfooter A (row : line -> A -> Prop) data rows d : (forall l a, row l a -> nonfooter l) -> Forall2 row data rows -> rows <> [] -> nonfooter (last data d).
Proof.
  move=> H F. elim: F => [|l a data' rows' Q F IH] // _. destruct data' as [|l' data']; [exact (H _ _ Q)|]. apply IH. inversion F; by subst.
Qed.
Lemma se_header_ok rd n h f : header_line rd n h -> se_header rd (h :: f) = Ok (Z.of_nat n, f).
Proof. move=> [I [t T]]. by rewrite /se_header; cbn [readline]; rewrite (int_at_ok I) (real_at_ok T). Qed.

(* the arrays *)
Definition se0 : sestate := mkSE [] [] [] [] [].
Definition bins (rows : list binrow) (s : sestate) : sestate := fold_left (fun s a => add_bin a s) rows s.
Definition sins (rows : list sinrow) (s : sestate) : sestate := fold_left (fun s a => add_sin a s) rows s.
Lemma bins_fields rows s : w_bin (bins rows s) = w_bin s ++ rows /\ w_sin (bins rows s) = w_sin s /\
  w_kw (bins rows s) = w_kw s ++ map (fun b => IZR (r_kwb b)) rows /\ w_r (bins rows s) = w_r s ++ map (fun b => Rmax (r_r1 b) (r_r2 b)) rows.
Proof.
  elim: rows s => [|b rows IH] s; [by rewrite /= !app_nil_r|]. rewrite /bins; cbn [fold_left]; rewrite -/(bins rows _).
  have [-> [-> [-> ->]]] := IH (add_bin b s). cbn [add_bin w_bin w_sin w_kw w_r map]. by rewrite -!app_assoc.
Qed.
Lemma sins_fields rows s : w_bin (sins rows s) = w_bin s /\ w_sin (sins rows s) = w_sin s ++ rows /\
  w_kw (sins rows s) = w_kw s ++ map (fun b => IZR (y_kw b)) rows /\ w_r (sins rows s) = w_r s ++ map y_r rows /\
  w_zl (sins rows s) = w_zl s ++ map y_l rows.
Proof.
  elim: rows s => [|b rows IH] s; [by rewrite /= !app_nil_r|]. rewrite /sins; cbn [fold_left]; rewrite -/(sins rows _).
  have [-> [-> [-> [-> ->]]]] := IH (add_sin b s). cbn [add_sin w_bin w_sin w_kw w_r w_zl map]. by rewrite -!app_assoc.
Qed.
Lemma bins_zl rows s : w_zl (bins rows s) = w_zl s ++ concat (map (fun i => map pair_log (w_bin s ++ firstn (S i) rows)) (seq 0 (length rows))).
Proof.
  elim: rows s => [|b rows IH] s; [by rewrite /= !app_nil_r|]. rewrite /bins; cbn [fold_left]; rewrite -/(bins rows _).
  rewrite IH. cbn [add_bin w_bin w_zl length seq map concat]. rewrite -app_assoc. do 2 f_equal. rewrite -seq_shift map_map. f_equal. apply map_ext => i.
  cbn [firstn]. by rewrite -app_assoc.
Qed.
(* the list of luminosities of the binaries is a list of prefixes *)
Definition prefixes (l : list R) : list R := concat (map (fun i => firstn (S i) l) (seq 0 (length l))).
Lemma bins_zl0 rows : w_zl (bins rows se0) = prefixes (map pair_log rows).
Proof.
  rewrite bins_zl /prefixes map_length. cbn [se0 w_zl w_bin app]. f_equal. apply map_ext => i. by rewrite firstn_map.
Qed.
Lemma prefixes_length l : (2 * length (prefixes l) = length l * (length l + 1))%nat.
Proof.
  rewrite /prefixes.
  have H : forall m, (m <= length l)%nat -> (2 * length (concat (map (fun i => firstn (S i) l) (seq 0 m))) = m * (m + 1))%nat.
  { elim=> [|m IH] Hm //. rewrite seq_S map_app concat_app app_length. cbn [map concat plus]. rewrite app_nil_r firstn_length Nat.min_l; [|lia].
    have Q := IH ltac:(lia). lia. }
  by apply H.
Qed.
(* one section of each file *)
Lemma get_se_ok rd bs ss f82 r82 f83 r83 : section (binary_line rd) rd bs f82 -> section (single_line rd) rd ss f83 -> ss <> [] ->
  get_nbody6se rd (f82 ++ r82) (f83 ++ r83) = Ok (r82, r83, sins ss (bins bs se0)).
Proof.
  move=> [h [data [e [-> [H [F E]]]]]] [h3 [data3 [e3 [-> [H3 [F3 E3]]]]]] NE. rewrite /get_nbody6se. cbn [app].
  rewrite (se_header_ok _ H); cbn [bind fst snd].
  have HB : forall l a, binary_line rd l a -> nonfooter l /\ bind (bin_row rd l) (fun b => Ok (add_bin b)) = Ok (add_bin a).
  { move=> l a Q. split; [exact (binary_nonfooter Q)|]. by rewrite (bin_row_ok Q). }
  have HS : forall l a, single_line rd l a -> nonfooter l /\ bind (sin_row rd l) (fun b => Ok (add_sin b)) = Ok (add_sin a).
  { move=> l a Q. split; [exact (single_nonfooter Q)|]. by rewrite (sin_row_ok Q). }
  have X : exists d, (if Z.ltb 0 (Z.of_nat (length bs))
     then bind (se_loop (fun l => bind (bin_row rd l) (fun b => Ok (add_bin b))) (Z.to_nat (Z.of_nat (length bs))) ((data ++ [e]) ++ r82) [] (mkSE [] [] [] [] [])) (fun r =>
             let '(f, data, s) := r in bind (se_footer f data) (fun q => Ok (fst q, snd q, s)))
     else let '(l, f) := readline ((data ++ [e]) ++ r82) in Ok (f, l, mkSE [] [] [] [] [])) = Ok (r82, d, bins bs se0).
  { destruct bs as [|b bs].
    - inversion F; subst. cbn. by eexists.
    - have -> : Z.ltb 0 (Z.of_nat (length (b :: bs))) = true by apply Z.ltb_lt; cbn [length]; lia.
      rewrite Nat2Z.id -app_assoc (se_loop_ok HB _ _ _ F). cbn [bind].
      have LN : nonfooter (last data []) by apply: (last_nonfooter _ _ F) => // l a; apply binary_nonfooter.
      rewrite (footer_read LN eq_refl). cbn [bind fst snd]. by eexists. }
  have [d ->] := X. cbn [bind]. rewrite (se_header_ok _ H3); cbn [bind fst snd].
  rewrite Nat2Z.id -app_assoc (se_loop_ok HS _ _ _ F3). cbn [bind].
  have LN : nonfooter (last data3 d) by apply: (last_nonfooter _ _ F3) => // l a; apply single_nonfooter.
  rewrite (footer_read LN eq_refl). by [].
Qed.
(* without single stars the footer of fort.83 is left *)
Lemma get_se_empty rd bs f82 r82 f83 r83 : section (binary_line rd) rd bs f82 -> section (single_line rd) rd [] f83 ->
  exists e, footer e /\ get_nbody6se rd (f82 ++ r82) (f83 ++ r83) = Ok (r82, e :: r83, bins bs se0).
Proof.
  move=> [h [data [e [-> [H [F E]]]]]] [h3 [data3 [e3 [-> [H3 [F3 E3]]]]]]. inversion F3; subst. exists e3. split => //. rewrite /get_nbody6se. cbn [app].
  rewrite (se_header_ok _ H); cbn [bind fst snd].
  have HB : forall l a, binary_line rd l a -> nonfooter l /\ bind (bin_row rd l) (fun b => Ok (add_bin b)) = Ok (add_bin a).
  { move=> l a Q. split; [exact (binary_nonfooter Q)|]. by rewrite (bin_row_ok Q). }
  have X : exists d, footer d /\ (if Z.ltb 0 (Z.of_nat (length bs))
     then bind (se_loop (fun l => bind (bin_row rd l) (fun b => Ok (add_bin b))) (Z.to_nat (Z.of_nat (length bs))) ((data ++ [e]) ++ r82) [] (mkSE [] [] [] [] [])) (fun r =>
             let '(f, data, s) := r in bind (se_footer f data) (fun q => Ok (fst q, snd q, s)))
     else let '(l, f) := readline ((data ++ [e]) ++ r82) in Ok (f, l, mkSE [] [] [] [] [])) = Ok (r82, d, bins bs se0).
  { exists e. split => //. destruct bs as [|b bs].
    - inversion F; subst. by [].
    - have -> : Z.ltb 0 (Z.of_nat (length (b :: bs))) = true by apply Z.ltb_lt; cbn [length]; lia.
      rewrite Nat2Z.id -app_assoc (se_loop_ok HB _ _ _ F). cbn [bind].
      have LN : nonfooter (last data []) by apply: (last_nonfooter _ _ F) => // l a; apply binary_nonfooter.
      by rewrite (footer_read LN eq_refl). }
  have [d [FD ->]] := X. cbn [bind]. rewrite (se_header_ok _ H3); cbn [bind fst snd length Z.of_nat Z.to_nat se_loop app]. by rewrite (footer_seen _ FD).
Qed.
