(** Lemmas about lists and decidable equalities. *)
From Verif Require Export Types.
Global Arguments Nat.ltb : simpl never.
Global Arguments Nat.leb : simpl never.

Lemma list_set_length {A} (l : list A) i x : length (list_set l i x) = length l.
Proof.
  revert i; induction l as [|h t IH]; intros [|i]; cbn; auto.
Qed.

Lemma nth_error_list_set {A} (l : list A) i j x :
  nth_error (list_set l i x) j =
  if Nat.eqb i j then (if Nat.ltb i (length l) then Some x else None)
  else nth_error l j.
Proof.
  revert i j; induction l as [|h t IH]; intros [|i] [|j]; cbn; auto.
  - destruct (Nat.eqb i j); reflexivity.
  - rewrite IH. reflexivity.
Qed.

Lemma nth_error_list_set_eq {A} (l : list A) i x :
  i < length l -> nth_error (list_set l i x) i = Some x.
Proof.
  intros H. rewrite nth_error_list_set, Nat.eqb_refl.
  destruct (Nat.ltb_spec i (length l)); [reflexivity | lia].
Qed.

Lemma nth_error_list_set_neq {A} (l : list A) i j x :
  i <> j -> nth_error (list_set l i x) j = nth_error l j.
Proof.
  intros H. rewrite nth_error_list_set. destruct (Nat.eqb_spec i j); congruence.
Qed.

Lemma nth_error_lt {A} (l : list A) i x : nth_error l i = Some x -> i < length l.
Proof. intros H. apply nth_error_Some. congruence. Qed.

Lemma list_set_same {A} (l : list A) i x :
  nth_error l i = Some x -> list_set l i x = l.
Proof.
  revert i; induction l as [|h t IH]; intros [|i] H; cbn in *; try congruence.
  rewrite IH by assumption. reflexivity.
Qed.

Lemma nth_error_ext {A} (l1 l2 : list A) :
  (forall i, nth_error l1 i = nth_error l2 i) -> l1 = l2.
Proof.
  revert l2; induction l1 as [|x l1 IH]; intros [|y l2] H; auto.
  - specialize (H 0); discriminate.
  - specialize (H 0); discriminate.
  - f_equal; [specialize (H 0); cbn in H; congruence|].
    apply IH. intros i. exact (H (S i)).
Qed.

Lemma index_eqb_spec (a b : index) : reflect (a = b) (index_eqb a b).
Proof.
  destruct a as [i g], b as [j k]; unfold index_eqb; cbn.
  destruct (Nat.eqb_spec i j); destruct (N.eqb_spec g k); cbn; constructor; congruence.
Qed.

Lemma index_eqb_eq a b : index_eqb a b = true <-> a = b.
Proof. destruct (index_eqb_spec a b); split; congruence. Qed.

Lemma index_eqb_refl a : index_eqb a a = true.
Proof. apply index_eqb_eq; reflexivity. Qed.

Lemma index_eq_dec (a b : index) : {a = b} + {a <> b}.
Proof. destruct (index_eqb_spec a b); [left | right]; assumption. Qed.

Lemma prim_eqb_spec (a b : prim) : reflect (a = b) (prim_eqb a b).
Proof. destruct a, b; cbn; constructor; congruence. Qed.

Lemma ptype_eqb_spec (a b : ptype) : reflect (a = b) (ptype_eqb a b).
Proof.
  destruct a as [p|p], b as [q|q]; cbn; try (constructor; congruence);
    destruct (prim_eqb_spec p q); constructor; congruence.
Qed.

Lemma ptype_eqb_refl t : ptype_eqb t t = true.
Proof. destruct (ptype_eqb_spec t t); congruence. Qed.

Lemma ptype_eqb_eq a b : ptype_eqb a b = true <-> a = b.
Proof. destruct (ptype_eqb_spec a b); split; congruence. Qed.

Lemma ptype_eq_dec (a b : ptype) : {a = b} + {a <> b}.
Proof. destruct (ptype_eqb_spec a b); [left | right]; assumption. Qed.
