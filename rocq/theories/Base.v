(* Numpy-like helpers shared by the model files.  Nothing here models code of
   /repo by itself; each helper names the numpy operation it stands for. *)
From Coq Require Export Reals List Lia Lra ZArith Bool Permutation.
From Coq Require Export ssreflect.
#[global] Open Scope general_if_scope.
Export ListNotations.
#[global] Open Scope R_scope.
Set Implicit Arguments.

(* Boolean comparisons on R (numpy elementwise <, <=, ==). *)
Definition Rltb (a b : R) : bool := if Rlt_dec a b then true else false.
Definition Rleb (a b : R) : bool := if Rle_dec a b then true else false.
Definition Reqb (a b : R) : bool := if Req_EM_T a b then true else false.

Lemma Rltb_spec a b : Rltb a b = true <-> a < b.
Proof. rewrite /Rltb; destruct (Rlt_dec a b); split; congruence || auto. Qed.
Lemma Rleb_spec a b : Rleb a b = true <-> a <= b.
Proof. rewrite /Rleb; destruct (Rle_dec a b); split; congruence || auto. Qed.
Lemma Reqb_spec a b : Reqb a b = true <-> a = b.
Proof. rewrite /Reqb; destruct (Req_EM_T a b); split; congruence || auto. Qed.
Lemma Rltb_false a b : Rltb a b = false <-> b <= a.
Proof. rewrite /Rltb; destruct (Rlt_dec a b); split; intros; try lra; congruence. Qed.
Lemma Rleb_false a b : Rleb a b = false <-> b < a.
Proof. rewrite /Rleb; destruct (Rle_dec a b); split; intros; try lra; congruence. Qed.
Lemma Reqb_false a b : Reqb a b = false <-> a <> b.
Proof. rewrite /Reqb; destruct (Req_EM_T a b); split; intros; congruence. Qed.

(* array op scalar *)
Definition vmul (l : list R) (k : R) : list R := map (fun a => a * k) l.
Definition vdiv (l : list R) (k : R) : list R := map (fun a => a / k) l.
Definition vadd (l : list R) (k : R) : list R := map (fun a => a + k) l.
Definition vsub (l : list R) (k : R) : list R := map (fun a => a - k) l.

(* np.sum *)
Fixpoint sumR (l : list R) : R := match l with [] => 0 | a :: t => a + sumR t end.

(* elementwise binary operation on two arrays of equal length *)
Fixpoint zip_with {A B C} (f : A -> B -> C) (l : list A) (k : list B) : list C :=
  match l, k with
  | a :: l', b :: k' => f a b :: zip_with f l' k'
  | _, _ => []
  end.

(* boolean mask indexing  a[mask] *)
Fixpoint select {A} (mask : list bool) (l : list A) : list A :=
  match mask, l with
  | b :: mask', a :: l' => if b then a :: select mask' l' else select mask' l'
  | _, _ => []
  end.

(* np.sum(mask) *)
Definition count (mask : list bool) : nat := length (filter (fun b => b) mask).

(* Six phase-space components x,y,z,vx,vy,vz *)
Record six (A : Type) := mk6 { sx : A; sy : A; sz : A; svx : A; svy : A; svz : A }.
Arguments mk6 {A}.

Definition map6 {A B} (f : A -> B) (s : six A) : six B :=
  mk6 (f (sx s)) (f (sy s)) (f (sz s)) (f (svx s)) (f (svy s)) (f (svz s)).

(* outcome of a call that may raise *)
Inductive result (A : Type) := Ok (a : A) | Raise.
Arguments Ok {A}. Arguments Raise {A}.

(* ------------------------------------------------------------------ lemmas *)
Lemma sumR_app l k : sumR (l ++ k) = sumR l + sumR k.
Proof. induction l as [|a l IH] => /=; [lra|]. rewrite IH; lra. Qed.

Lemma sumR_map_mul l k : sumR (map (fun a => a * k) l) = sumR l * k.
Proof. induction l as [|a l IH] => /=; [lra|]. rewrite IH; lra. Qed.

Lemma sumR_perm l k : Permutation l k -> sumR l = sumR k.
Proof. induction 1 => /=; lra. Qed.

Lemma sumR_nonneg l : (forall a, In a l -> 0 <= a) -> 0 <= sumR l.
Proof.
  induction l as [|a l IH] => /= H; [lra|].
  have Ha : 0 <= a by apply H; left. have Hl : 0 <= sumR l by apply IH => b Hb; apply H; right. lra.
Qed.

Lemma vmul_length l k : length (vmul l k) = length l.
Proof. apply map_length. Qed.
Lemma vdiv_length l k : length (vdiv l k) = length l.
Proof. apply map_length. Qed.
Lemma vadd_length l k : length (vadd l k) = length l.
Proof. apply map_length. Qed.
Lemma vsub_length l k : length (vsub l k) = length l.
Proof. apply map_length. Qed.

Lemma map_id_ext {A} (f : A -> A) l : (forall a, f a = a) -> map f l = l.
Proof. move=> H; rewrite -[RHS]map_id; apply map_ext => a; apply H. Qed.

Lemma zip_with_length {A B C} (f : A -> B -> C) l k :
  length (zip_with f l k) = Nat.min (length l) (length k).
Proof. revert k; induction l as [|a l IH]; destruct k => //=. by rewrite IH. Qed.

Lemma select_map {A B} (f : A -> B) mask l : select mask (map f l) = map f (select mask l).
Proof. revert l; induction mask as [|b mask IH]; destruct l => //=; destruct b; rewrite IH //. Qed.

Lemma select_length {A} mask (l : list A) :
  length mask = length l -> length (select mask l) = count mask.
Proof.
  revert l; induction mask as [|b mask IH]; destruct l => //= [[H]].
  rewrite /count /=. destruct b => /=; rewrite IH //.
Qed.
