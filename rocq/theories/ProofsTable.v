(* Proofs for clusters from tables: finding the columns. *)
From Coq Require Import String Ascii.
From Verif Require Import Base ModelCluster ModelOps ModelStars SpecStars ModelLoad SpecLoad ProofsLoad ProofsLoad2 ModelTable SpecTable.
Set Implicit Arguments.
Unset Strict Implicit.
Open Scope string_scope. Open Scope list_scope. Open Scope R_scope.

Lemma lower_char_ok c : (65 <= nat_of_ascii c <= 90)%nat -> nat_of_ascii (lower_char c) = (nat_of_ascii c + 32)%nat.
Proof.
  move=> H. rewrite /lower_char. have -> : Nat.leb 65 (nat_of_ascii c) = true by apply Nat.leb_le; lia.
  have -> : Nat.leb (nat_of_ascii c) 90 = true by apply Nat.leb_le; lia. cbn [andb]. apply nat_ascii_embedding. lia.
Qed.
Lemma lower_char_other c : ~ (65 <= nat_of_ascii c <= 90)%nat -> lower_char c = c.
Proof.
  move=> H. rewrite /lower_char. destruct (Nat.leb 65 (nat_of_ascii c)) eqn:A => //. destruct (Nat.leb (nat_of_ascii c) 90) eqn:B => //.
  apply Nat.leb_le in A, B. case: H. lia.
Qed.
Lemma small_lower s : small s (lower s).
Proof.
  induction s as [|c s IH]; cbn [lower]; [constructor|].
  have [H|H] : (65 <= nat_of_ascii c <= 90)%nat \/ ~ (65 <= nat_of_ascii c <= 90)%nat by lia.
  - apply small_capital => //. by apply lower_char_ok.
  - rewrite (lower_char_other H). by apply small_other.
Qed.
Lemma nat_ascii_inj a b : nat_of_ascii a = nat_of_ascii b -> a = b.
Proof. move=> E. by rewrite -(ascii_nat_embedding a) -(ascii_nat_embedding b) E. Qed.
Lemma small_is s v : small s v -> lower s = v.
Proof.
  induction 1 as [|c c' s s' H1 H2 _ IH|c s s' H1 _ IH]; cbn [lower]; [by []| |].
  - rewrite IH. congr (String _ _). apply nat_ascii_inj. by rewrite lower_char_ok.
  - by rewrite IH lower_char_other.
Qed.
Lemma small_iff s v : small s v <-> lower s = v.
Proof. split; [exact (@small_is s v)|move=> <-; exact (small_lower s)]. Qed.

Lemma lookup_in A (l : list (string * A)) n a : NoDup (map fst l) -> In (n, a) l -> lookup n l = Some a.
Proof.
  induction l as [|[n' a'] l IH]; cbn [map fst lookup] => N; [by []|]. inversion N as [|? ? N1 N2]; subst. move=> [E|I].
  - injection E as E1 E2; subst. by rewrite String.eqb_refl.
  - destruct (String.eqb n' n) eqn:E; [|by apply IH]. apply String.eqb_eq in E. subst. case: N1. by apply (in_map fst) in I.
Qed.
Lemma lookup_none A (l : list (string * A)) n : ~ In n (map fst l) -> lookup n l = None.
Proof.
  induction l as [|[n' a'] l IH]; cbn [map fst lookup] => N; [by []|]. destruct (String.eqb n' n) eqn:E.
  - apply String.eqb_eq in E. case: N. by left.
  - apply IH => I. apply N. by right.
Qed.
Lemma lookup_some A (l : list (string * A)) n a : lookup n l = Some a -> In (n, a) l.
Proof.
  induction l as [|[n' a'] l IH]; cbn [lookup]; [by []|]. destruct (String.eqb n' n) eqn:E.
  - apply String.eqb_eq in E. case=> ->. rewrite E. by left.
  - move=> H. right. by apply IH.
Qed.
Lemma index_absent v l : ~ In v l -> index_of_name v l = None.
Proof. exact (@index_of_name_none v l). Qed.
Lemma unnamed_index t v : unnamed t v -> ~ In v (map (fun p : string * tcol => lower (fst p)) t).
Proof. move=> U. rewrite in_map_iff. move=> [[n c] [E I]]. apply (U n c I). by apply small_iff. Qed.
Lemma helper_none t vs : not_found t vs -> helper t vs = Ok None.
Proof.
  induction vs as [|v vs IH]; cbn [helper] => N; [by []|]. inversion N as [|? ? N1 N2]; subst.
  rewrite (index_absent (unnamed_index N1)). by apply IH.
Qed.
Lemma helper_some t vs c : NoDup (map fst t) -> found t vs c -> helper t vs = Ok (Some c).
Proof.
  move=> ND [pre [v [post [-> [N [before [n [after [Et [S U]]]]]]]]]]. move: N.
  induction pre as [|w pre IH] => N; cbn [app helper].
  - have E : map (fun p : string * tcol => lower (fst p)) t = map (fun p : string * tcol => lower (fst p)) before ++ v :: map (fun p : string * tcol => lower (fst p)) after.
    { rewrite Et map_app; cbn [map fst]. by rewrite (small_is S). }
    rewrite E (index_of_name_split _ (unnamed_index U)) map_length.
    have E2 : nth (length before) (map fst t) "" = n.
    { rewrite Et map_app app_nth2 map_length; [lia|]. by rewrite Nat.sub_diag. }
    rewrite E2 (@lookup_in _ t n c) //. rewrite Et. apply in_or_app. right. by left.
  - inversion N as [|? ? N1 N2]; subst. rewrite (index_absent (unnamed_index N1)). by apply IH.
Qed.
Lemma required_some t vs c : NoDup (map fst t) -> found t vs c -> required t vs = Ok c.
Proof. move=> ND F. by rewrite /required (helper_some ND F). Qed.
Lemma required_none t vs : not_found t vs -> required t vs = Raise.
Proof. move=> N. by rewrite /required (helper_none N). Qed.

(* every search ends one way or the other *)
Lemma unnamed_dec t v : unnamed t v \/ exists c, first_named t v c.
Proof.
  induction t as [|[n c] t IH]; [left; by []|].
  destruct (string_dec (lower n) v) as [E|E].
  - right. exists c, [], n, t. split; [by []|]. split; [by apply small_iff|by []].
  - case: IH => [U|[c' [b [n' [a [-> [S U]]]]]]].
    + left. move=> n' c' [I|I]; [injection I as I1 I2; subst n' c'|exact (U n' c' I)]. by rewrite small_iff.
    + right. exists c', ((n, c) :: b), n', a. split; [by []|]. split; [by []|]. move=> n2 c2 [I|I]; [injection I as I1 I2; subst n2 c2; by rewrite small_iff|exact (U n2 c2 I)].
Qed.
Lemma search_total t vs : not_found t vs \/ exists c, found t vs c.
Proof.
  induction vs as [|v vs IH]; [by left; constructor|].
  case: (unnamed_dec t v) => [U|[c F]]; [|right; by exists c, [], v, vs].
  case: IH => [N|[c [pre [w [post [-> [N F]]]]]]]; [left; by constructor|]. right. exists c, (v :: pre), w, post. split; [by []|]. split; [by constructor|by []].
Qed.
Lemma helper_ok t vs : NoDup (map fst t) -> exists o, helper t vs = Ok o.
Proof. move=> ND. case: (search_total t vs) => [N|[c F]]; eexists; [exact (helper_none N)|exact (helper_some ND F)]. Qed.
Lemma required_cases t vs : NoDup (map fst t) -> not_found t vs /\ required t vs = Raise \/ exists c, found t vs c /\ required t vs = Ok c.
Proof.
  move=> ND. case: (search_total t vs) => [N|[c F]]; [left; split => //; exact (required_none N)|right; exists c; split => //; exact (required_some ND F)].
Qed.
Lemma missing_column t u o : NoDup (map fst t) ->
  (exists f, In f [@sx (list string); @sy (list string); @sz (list string); @svx (list string); @svy (list string); @svz (list string)] /\ not_found t (f (candidates u o))) -> find_columns t u o = Raise.
Proof.
  move=> ND [f [I N]]. rewrite /find_columns. have [id ->] := helper_ok ["id"] ND. have [m ->] := helper_ok ["m"; "mass"] ND. cbn [bind]. cbv zeta.
  have D := required_none N. move: (candidates u o) D => q D. clear N.
  have C vs : required t vs = Raise \/ exists c, required t vs = Ok c by case: (required_cases vs ND) => [[_ ->]|[c [_ ->]]]; [by left|right; by eexists].
  case: (C (sx q)) => [->|[x Ex]]; [by []|]. rewrite Ex; cbn [bind].
  case: (C (sy q)) => [->|[y Ey]]; [by []|]. rewrite Ey; cbn [bind].
  case: (C (sz q)) => [->|[z Ez]]; [by []|]. rewrite Ez; cbn [bind].
  case: (C (svx q)) => [->|[vx Evx]]; [by []|]. rewrite Evx; cbn [bind].
  case: (C (svy q)) => [->|[vy Evy]]; [by []|]. rewrite Evy; cbn [bind].
  case: (C (svz q)) => [->|[vz Evz]]; [by []|].
  cbn [In] in I. exfalso. destruct I as [I|[I|[I|[I|[I|[I|I]]]]]]; try (by []); subst f; congruence.
Qed.

(* mappers *)
Lemma lookup_remove_other k k' m : k <> k' -> lookup k (remove k' m) = lookup k m.
Proof.
  move=> N. induction m as [|[n a] m IH]; cbn [lookup remove]; [by []|]. destruct (String.eqb n k') eqn:E; cbn [lookup].
  - apply String.eqb_eq in E. subst. rewrite IH. destruct (String.eqb k' k) eqn:E2 => //. apply String.eqb_eq in E2. by case: N.
  - by rewrite IH.
Qed.
Lemma in_remove k m p : In p (remove k m) <-> In p m /\ fst p <> k.
Proof.
  induction m as [|[n a] m IH]; cbn [remove In]; [tauto|]. destruct (String.eqb n k) eqn:E.
  - apply String.eqb_eq in E. rewrite IH. split; [tauto|]. move=> [[Q|Q] N]; [subst p; by case: N|tauto].
  - apply String.eqb_neq in E. cbn [In]. rewrite IH. split; [|tauto]. move=> [Q|[Q N]]; [subst p; tauto|tauto].
Qed.
Lemma nodup_remove k m : NoDup (map fst m) -> NoDup (map fst (remove k m)).
Proof.
  induction m as [|[n a] m IH]; cbn [map fst remove]; [by []|]. move=> N. inversion N as [|? ? N1 N2]; subst.
  destruct (String.eqb n k); [by apply IH|]. cbn [map fst]. constructor; [|by apply IH]. rewrite in_map_iff. move=> [p [E I]].
  apply in_remove in I. apply N1. apply in_map_iff. exists p. tauto.
Qed.
Lemma mapped_remove t m k k' c : k <> k' -> mapped t m k c -> mapped t (remove k' m) k c.
Proof. move=> N [n [I J]]. exists n. split => //. by apply in_remove. Qed.
Lemma unkeyed_remove (m : mapper) k k' : k <> k' -> ~ In k (map fst m) -> ~ In k (map fst (remove k' m)).
Proof. move=> N. rewrite !in_map_iff. move=> H [p [E I]]. apply H. exists p. split => //. by apply in_remove in I; case: I. Qed.
Lemma take_column_ok A t m key c (k : tcol -> mapper -> result A * mapper) : NoDup (map fst t) -> NoDup (map fst m) -> mapped t m key c ->
  take_column t key m k = k c (remove key m).
Proof. move=> T M [n [I J]]. by rewrite /take_column (lookup_in M I) (lookup_in T J). Qed.
Definition option_mapped (t : atable) (m : mapper) (key : string) (o : option tcol) : Prop :=
  match o with Some c => mapped t m key c | None => ~ In key (map fst m) end.
Lemma remove_absent k (m : mapper) : ~ In k (map fst m) -> remove k m = m.
Proof.
  induction m as [|[n a] m IH]; cbn [map fst remove] => N; [by []|]. destruct (String.eqb n k) eqn:E.
  - apply String.eqb_eq in E. case: N. by left.
  - rewrite IH // => I. apply N. by right.
Qed.
Lemma take_optional_ok A t m key o (k : option tcol -> mapper -> result A * mapper) : NoDup (map fst t) -> NoDup (map fst m) -> option_mapped t m key o ->
  take_optional t key m k = k o (remove key m).
Proof.
  move=> T M. rewrite /option_mapped /take_optional. destruct o as [c|].
  - move=> H. have [n [I J]] := H. rewrite (lookup_in M I). by rewrite (take_column_ok _ T M H).
  - move=> H. by rewrite (lookup_none H) (remove_absent H).
Qed.
Lemma option_remove t m k k' o : k <> k' -> option_mapped t m k o -> option_mapped t (remove k' m) k o.
Proof. rewrite /option_mapped. destruct o; [exact (@mapped_remove t m k k' _)|exact (@unkeyed_remove m k k')]. Qed.
Definition used_keys : list string := ["x"; "y"; "z"; "vx"; "vy"; "vz"; "m"; "id"].
Lemma map_columns_ok t m (h : six tcol) hm hid : NoDup (map fst t) -> NoDup (map fst m) ->
  mapped t m "x" (sx h) -> mapped t m "y" (sy h) -> mapped t m "z" (sz h) -> mapped t m "vx" (svx h) -> mapped t m "vy" (svy h) -> mapped t m "vz" (svz h) ->
  option_mapped t m "m" hm -> option_mapped t m "id" hid ->
  exists m', map_columns t m = (Ok (mkCC h hm hid), m') /\ forall p, In p m' <-> In p m /\ ~ In (fst p) used_keys.
Proof.
  move=> T M H1 H2 H3 H4 H5 H6 H7 H8. exists (fold_left (fun m k => remove k m) used_keys m). split.
  - rewrite /map_columns /used_keys; cbn [fold_left].
    rewrite (@take_column_ok _ t m "x" (sx h) _ T); [by repeat apply nodup_remove|by repeat (apply mapped_remove; [discriminate|]); exact H1|].
    rewrite (@take_column_ok _ t (remove "x" m) "y" (sy h) _ T); [by repeat apply nodup_remove|by repeat (apply mapped_remove; [discriminate|]); exact H2|].
    rewrite (@take_column_ok _ t (remove "y" (remove "x" m)) "z" (sz h) _ T); [by repeat apply nodup_remove|by repeat (apply mapped_remove; [discriminate|]); exact H3|].
    rewrite (@take_column_ok _ t (remove "z" (remove "y" (remove "x" m))) "vx" (svx h) _ T); [by repeat apply nodup_remove|by repeat (apply mapped_remove; [discriminate|]); exact H4|].
    rewrite (@take_column_ok _ t (remove "vx" (remove "z" (remove "y" (remove "x" m)))) "vy" (svy h) _ T); [by repeat apply nodup_remove|by repeat (apply mapped_remove; [discriminate|]); exact H5|].
    rewrite (@take_column_ok _ t (remove "vy" (remove "vx" (remove "z" (remove "y" (remove "x" m))))) "vz" (svz h) _ T); [by repeat apply nodup_remove|by repeat (apply mapped_remove; [discriminate|]); exact H6|].
    rewrite (@take_optional_ok _ t (remove "vz" (remove "vy" (remove "vx" (remove "z" (remove "y" (remove "x" m)))))) "m" (hm) _ T); [by repeat apply nodup_remove|by repeat (apply option_remove; [discriminate|]); exact H7|].
    rewrite (@take_optional_ok _ t (remove "m" (remove "vz" (remove "vy" (remove "vx" (remove "z" (remove "y" (remove "x" m))))))) "id" (hid) _ T); [by repeat apply nodup_remove|by repeat (apply option_remove; [discriminate|]); exact H8|].
    by destruct h.
  - move=> p. clear. have F : forall ks m, In p (fold_left (fun m k => remove k m) ks m) <-> In p m /\ ~ In (fst p) ks.
    { induction ks as [|k ks IH] => m'; cbn [fold_left In]; [tauto|]. rewrite IH in_remove. split.
      - move=> [[A B] C]. split => //. move=> [D|D]; [by apply B|by apply C].
      - move=> [A B]. split; [split => // D; apply B; by left|]. move=> D. apply B. by right. }
    apply F.
Qed.
Lemma spent_mapper t m : ~ In "x" (map fst m) -> map_columns t m = (Raise, m).
Proof. move=> N. by rewrite /map_columns /take_column (lookup_none N). Qed.

(* a key without an entry, or whose entry names no column *)
Definition dangling (t : atable) (m : mapper) (key : string) : Prop := forall n, In (key, n) m -> forall c, ~ In (n, c) t.
Lemma dangling_remove t m key k : dangling t m key -> dangling t (remove k m) key.
Proof. move=> D n I. apply in_remove in I. by apply D; case: I. Qed.
Lemma take_dangling A t m key (k : tcol -> mapper -> result A * mapper) : dangling t m key -> fst (take_column t key m k) = Raise.
Proof.
  move=> D. rewrite /take_column. destruct (lookup key m) as [n|] eqn:E => //. destruct (lookup n t) as [c|] eqn:F => //.
  case: (D n (lookup_some E) c). exact (lookup_some F).
Qed.
Lemma take_through A t m key (k : tcol -> mapper -> result A * mapper) : (forall c, fst (k c (remove key m)) = Raise) -> fst (take_column t key m k) = Raise.
Proof. move=> H. rewrite /take_column. destruct (lookup key m) as [n|] => //. by destruct (lookup n t). Qed.
Lemma optional_dangling A t m key (k : option tcol -> mapper -> result A * mapper) : dangling t m key -> In key (map fst m) -> fst (take_optional t key m k) = Raise.
Proof.
  move=> D I. rewrite /take_optional. destruct (lookup key m) as [n|] eqn:E; [by apply take_dangling|].
  apply in_map_iff in I. case: I => [[k1 n] [E1 I]]. cbn [fst] in E1. subst k1. exfalso. move: E I. clear. 
  induction m as [|[a b] m IH]; cbn [lookup In]; [by []|]. destruct (String.eqb a key) eqn:Q => //. move=> E [I|I]; [|by apply IH].
  injection I as I1 I2. subst. by rewrite String.eqb_refl in Q.
Qed.
Lemma optional_through A t m key (k : option tcol -> mapper -> result A * mapper) : (forall o m', m' = m \/ m' = remove key m -> fst (k o m') = Raise) -> fst (take_optional t key m k) = Raise.
Proof.
  move=> H. rewrite /take_optional. destruct (lookup key m) as [n|]; [|by apply H; left]. apply take_through => c. apply H. by right.
Qed.
Lemma dangling_raises t m key : In key ["x"; "y"; "z"; "vx"; "vy"; "vz"] -> dangling t m key -> fst (map_columns t m) = Raise.
Proof.
  move=> I D. rewrite /map_columns. cbn [In] in I.
  destruct I as [I|I]; [subst key; by apply take_dangling|]. apply take_through => x. have {D} D := dangling_remove (k := "x") D.
  destruct I as [I|I]; [subst key; by apply take_dangling|]. apply take_through => y. have {D} D := dangling_remove (k := "y") D.
  destruct I as [I|I]; [subst key; by apply take_dangling|]. apply take_through => z. have {D} D := dangling_remove (k := "z") D.
  destruct I as [I|I]; [subst key; by apply take_dangling|]. apply take_through => vx. have {D} D := dangling_remove (k := "vx") D.
  destruct I as [I|I]; [subst key; by apply take_dangling|]. apply take_through => vy. have {D} D := dangling_remove (k := "vy") D.
  destruct I as [I|I]; [subst key; by apply take_dangling|]. by [].
Qed.
Lemma key_remove key k (m : mapper) : key <> k -> In key (map fst m) -> In key (map fst (remove k m)).
Proof. move=> N. rewrite !in_map_iff. move=> [p [E I]]. exists p. split => //. apply in_remove. split => //. by rewrite E. Qed.
Lemma dangling_optional t m key : In key ["m"; "id"] -> In key (map fst m) -> dangling t m key -> fst (map_columns t m) = Raise.
Proof.
  move=> I K D. rewrite /map_columns. cbn [In] in I.
  have N : forall k, In k ["x"; "y"; "z"; "vx"; "vy"; "vz"] -> key <> k.
  { move=> k Hk E. subst k. cbn [In] in Hk. intuition (subst; discriminate). }
  apply take_through => x. have {D} D := dangling_remove (k := "x") D. have {K} K := key_remove (N "x" ltac:(cbn; tauto)) K.
  apply take_through => y. have {D} D := dangling_remove (k := "y") D. have {K} K := key_remove (N "y" ltac:(cbn; tauto)) K.
  apply take_through => z. have {D} D := dangling_remove (k := "z") D. have {K} K := key_remove (N "z" ltac:(cbn; tauto)) K.
  apply take_through => vx. have {D} D := dangling_remove (k := "vx") D. have {K} K := key_remove (N "vx" ltac:(cbn; tauto)) K.
  apply take_through => vy. have {D} D := dangling_remove (k := "vy") D. have {K} K := key_remove (N "vy" ltac:(cbn; tauto)) K.
  apply take_through => vz. have {D} D := dangling_remove (k := "vz") D. have {K} K := key_remove (N "vz" ltac:(cbn; tauto)) K.
  destruct I as [I|[I|I]]; [subst key; by apply optional_dangling| |by []]. subst key.
  apply optional_through => o m' [->|->]; apply optional_dangling => //; [by apply dangling_remove|by apply key_remove].
Qed.
