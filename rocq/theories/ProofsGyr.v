(* Parsing gyrfalcON files. *)
From Coq Require Import String Ascii.
From Verif Require Import Base ModelCluster ModelOps ModelRecipes ModelStars SpecStars ModelLoad SpecLoad ProofsLoad ModelGyr SpecGyr.
Set Implicit Arguments.
Unset Strict Implicit.
Open Scope string_scope. Open Scope list_scope. Open Scope R_scope.

Lemma prefix_split p s : String.prefix p s = true <-> exists b, s = append p b.
Proof.
  elim: p s => [|c p IH] [|c' s] /=; split => //; try (by move=> _; eexists); try (by move=> [b Hb]).
  - destruct (ascii_dec c c') as [->|] => //. move/IH => [b ->]. by exists b.
  - move=> [b [-> ->]]. destruct (ascii_dec c c) => //. apply IH. by exists b.
Qed.
Lemma contains_split p s : contains p s = true <-> exists a b, s = append a (append p b).
Proof.
  rewrite /contains. elim: s => [|c s IH].
  - destruct p as [|x p]; split => //=; [move=> _; by exists "", ""|]. move=> [[|y a] [b H]] //.
  - have E : String.index 0 p (String c s) = if String.prefix p (String c s) then Some 0%nat else match String.index 0 p s with Some n => Some (S n) | None => None end by [].
    rewrite E. destruct (String.prefix p (String c s)) eqn:P.
    + split => // _. move/prefix_split: P => [b ->]. by exists "", b.
    + have -> : match match String.index 0 p s with Some n => Some (S n) | None => None end with Some _ => true | None => false end
        = match String.index 0 p s with Some _ => true | None => false end by destruct (String.index 0 p s).
      rewrite IH. split; move=> [a [b H]].
      * exists (String c a), b. by rewrite H.
      * destruct a as [|y a].
        -- have : String.prefix p (String c s) = true by apply prefix_split; exists b. by rewrite P.
        -- exists a, b. by case: H.
Qed.
Lemma any_contains_mentions p l : any_contains p l = true <-> mentions p l.
Proof.
  rewrite /any_contains existsb_exists. split.
  - move=> [w [I /contains_split [a [b H]]]]. by exists w, a, b.
  - move=> [w [a [b [I H]]]]. exists w. split => //. apply contains_split. by exists a, b.
Qed.
Lemma hashed_in l : hashed l = true <-> In "#" l.
Proof.
  rewrite /hashed existsb_exists. split.
  - by move=> [w [I /String.eqb_eq ->]].
  - move=> I. exists "#". by rewrite String.eqb_refl.
Qed.
Lemma hashed_not l : ~ In "#" l -> hashed l = false.
Proof. move=> N. destruct (hashed l) eqn:E => //. by move/hashed_in: E. Qed.
Lemma drop_last_app u c : drop_last (append u (String c EmptyString)) = u.
Proof. elim: u => [|x u IH] //=. destruct (append u (String c EmptyString)) eqn:E; [by destruct u|]. by rewrite IH. Qed.

(* the effect of header lines on one of the two numbers *)
Definition upd {A} (pat : string) (tok : string -> result A) (l : line) (z : A) : result A :=
  if any_contains pat l then match nth_error l 2 with Some s => tok s | None => Raise end else Ok z.
Fixpoint scan {A} (pat : string) (tok : string -> result A) (h : text) (z : A) : result A :=
  match h with [] => Ok z | l :: h' => bind (upd pat tok l z) (scan pat tok h') end.
Lemma scan_app A pat (tok : string -> result A) a b z : scan pat tok (a ++ b) z = bind (scan pat tok a z) (scan pat tok b).
Proof. elim: a z => [|l a IH] z //=. destruct (upd pat tok l z) => //=. Qed.
Lemma scan_silent A pat (tok : string -> result A) h z : Forall (fun l => ~ mentions pat l) h -> scan pat tok h z = Ok z.
Proof.
  elim: h z => [|l h IH] z //=. move=> F. inversion F as [|? ? N F']; subst. rewrite /upd.
  destruct (any_contains pat l) eqn:E; [by move/any_contains_mentions: E|]. cbn [bind]. by apply IH.
Qed.
Lemma scan_announced A pat (tok : string -> result A) h z v (val : string -> Prop) :
  announced pat h val -> (forall w, val w -> tok w = Ok v) -> scan pat tok h z = Ok v.
Proof.
  move=> [pre [l [post [w [-> [M [N [V F]]]]]]]] T. apply Forall_app in F. destruct F as [F1 F2].
  rewrite scan_app scan_silent //. cbn [bind scan]. rewrite /upd. move/any_contains_mentions: M => ->. rewrite N (T w V). cbn [bind].
  by apply scan_silent.
Qed.
Lemma gyr_header_scan rd hdr : forall n rest z t z' t', Forall (In "#") hdr -> (length hdr <= n)%nat ->
  scan "Ntot" (int_token rd) hdr z = Ok z' -> scan "time" (real_token rd) hdr t = Ok t' ->
  gyr_header rd n (hdr ++ rest) z t = gyr_header rd (n - length hdr) rest z' t'.
Proof.
  elim: hdr => [|l h IH] n rest z t z' t' F L S1 S2.
  - cbn in S1, S2. case: S1 => ->. case: S2 => ->. by rewrite Nat.sub_0_r.
  - inversion F as [|? ? H F']; subst. destruct n as [|n]; [cbn in L; lia|]. cbn [scan] in S1, S2.
    destruct (upd "Ntot" (int_token rd) l z) as [z1|] eqn:E1 => //. destruct (upd "time" (real_token rd) l t) as [t1|] eqn:E2 => //.
    cbn [bind] in S1, S2. cbn [app gyr_header readline length Nat.sub]. destruct l as [|w l]; [by case: H|].
    have -> : hashed (w :: l) = true by apply hashed_in. cbn [negb].
    rewrite /upd in E1 E2. rewrite E1; cbn [bind]. rewrite E2; cbn [bind]. apply IH => //. cbn in L; lia.
Qed.
Lemma header_values rd hdr n t : nemo_header rd hdr n t ->
  scan "Ntot" (int_token rd) hdr 0%Z = Ok (Z.of_nat n) /\ scan "time" (real_token rd) hdr 0 = Ok t.
Proof.
  move=> [_ [A B]]. split; [apply: (scan_announced _ A)|apply: (scan_announced _ B)].
  - move=> w [u [c [-> I]]]. by rewrite /int_token drop_last_app I.
  - move=> w I. by rewrite /real_token I.
Qed.

Lemma given_columns g : seq 0 7 ++ extra_columns g = seq 0 (columns_given g).
Proof. by destruct g. Qed.
Lemma line_values rd l r : Forall2 (fun w v => float_of rd w = Some v) l r -> mapM (orbit_value rd l) (seq 0 (length r)) = Some r.
Proof.
  move=> F. apply mapM_Forall2.
  have H : forall pre, Forall2 (fun i v => orbit_value rd (pre ++ l) i = Some v) (seq (length pre) (length r)) r.
  { elim: F => [|w v l' r' W F IH] pre; cbn [length seq]; constructor.
    - by rewrite /orbit_value nth_error_app2 // Nat.sub_diag.
    - have := IH (pre ++ [w]). by rewrite app_length -app_assoc Nat.add_1_r. }
  exact (H []).
Qed.
Lemma gyr_data_ok rd g data rows rest : Forall2 (nemo_line rd) data rows -> Forall (fun r => length r = columns_given g) rows ->
  gyr_data rd (seq 0 7 ++ extra_columns g) (length rows) None (data ++ rest) = Ok (rows, rest).
Proof.
  rewrite given_columns. move=> F. elim: F => [|l r data' rows' [N V] F IH] W //. inversion W as [|? ? Wr W']; subst.
  cbn [length app gyr_data readline]. rewrite hashed_not //. rewrite -Wr line_values //. rewrite Wr IH //.
Qed.
Lemma gyr_data_over rd cols n l f : gyr_data rd cols (S n) (Some l) f = gyr_data rd cols (S n) None (l :: f).
Proof. by []. Qed.
(* one record is parsed, and the file is left at the next *)
Lemma gyr_record rd skip g t rows f rest : nemo_record rd skip g t rows f ->
  exists over r, gyr_header rd skip (f ++ rest) 0%Z 0 = Ok (Hdone (Z.of_nat (length rows)) t over r) /\
    gyr_data rd (seq 0 7 ++ extra_columns g) (length rows) over r = Ok (rows, rest).
Proof.
  move=> [hdr [data [-> [L [NE [H [F W]]]]]]]. have [S1 S2] := header_values H. have [FH _] := H.
  rewrite -app_assoc (gyr_header_scan _ FH L S1 S2).
  have D := gyr_data_ok rest F W.
  match goal with |- context [gyr_header rd ?n _ _ _] => destruct n as [|k] end; [exists None, (data ++ rest); split; [reflexivity|exact D]|].
  destruct F as [|l r data' rows' [N V] F']; [by case: NE|]. cbn [app gyr_header readline].
  have NL : l <> [].
  { move=> E0. have Wr := Forall_inv W. rewrite E0 in V. inversion V as [E3 E4|]. rewrite -E4 in Wr. by destruct g. }
  destruct l as [|w l] => //. rewrite hashed_not //. cbn [negb]. exists (Some (w :: l)), (data' ++ rest). split; [reflexivity|exact D].
Qed.
(* no more records *)
Lemma gyr_record_end rd skip : (0 < skip)%nat -> gyr_header rd skip [] 0%Z 0 = Ok Hend.
Proof. by destruct skip; [lia|]. Qed.
