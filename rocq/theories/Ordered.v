(** Handles and times as keys of ordered maps and sets: what [Ord] and [PartialOrd] of the
    key types do, and a search tree that knows its keys through them only. *)
From Verif Require Import Arena ArenaIter Time.
From Coq Require Import ZArith.
Open Scope list_scope.
Open Scope nat_scope.

(** ** [Ord] and [PartialOrd]

    crates/datastructures/arena/src/lib.rs:166-176: both delegate to
    [generational_arena::Index], which derives them (slot, then generation): [index_cmp]
    of ArenaIter.v.
    client/rust/src/time/mod.rs:6 [Ticks], 115 [ChannelTime], 129 [RealmTime]: derived, one
    field each, down to the i32. *)
Inductive okind : Type := OHandle | OTicks | OChannelTime | ORealmTime.
Definition okey (k : okind) : Type :=
  match k with OHandle => index | OTicks | OChannelTime | ORealmTime => ticks end.
Definition okey_cmp (k : okind) : okey k -> okey k -> comparison :=
  match k with
  | OHandle => index_cmp
  | OTicks | OChannelTime | ORealmTime => Z.compare
  end.
(** lib.rs:166-170 [partial_cmp]; derived for the times. *)
Definition okey_partial_cmp (k : okind) (a b : okey k) : option comparison := Some (okey_cmp k a b).
(** lib.rs:158-162 [PartialEq], derived for the times. *)
Definition okey_eqb (k : okind) : okey k -> okey k -> bool :=
  match k with
  | OHandle => index_eqb
  | OTicks | OChannelTime | ORealmTime => Z.eqb
  end.
(** The operators [<], [<=], [>], [>=], provided by [PartialOrd]; [max], [min], provided by
    [Ord] ([max] returns the second of two equal ones, [min] the first). *)
Definition okey_lt (k : okind) (a b : okey k) : bool := match okey_partial_cmp k a b with Some Lt => true | _ => false end.
Definition okey_le (k : okind) (a b : okey k) : bool := match okey_partial_cmp k a b with Some Lt | Some Eq => true | _ => false end.
Definition okey_gt (k : okind) (a b : okey k) : bool := match okey_partial_cmp k a b with Some Gt => true | _ => false end.
Definition okey_ge (k : okind) (a b : okey k) : bool := match okey_partial_cmp k a b with Some Gt | Some Eq => true | _ => false end.
Definition okey_max (k : okind) (a b : okey k) : okey k := match okey_cmp k a b with Gt => a | _ => b end.
Definition okey_min (k : okind) (a b : okey k) : okey k := match okey_cmp k a b with Gt => b | _ => a end.

(** ** A search tree: [std::collections::BTreeMap], [BTreeSet] (values are units).
    Simplified to nodes of one entry; that the library splits and merges its nodes is
    modelled by rotations, at any node, at any time.  A key is only looked for along the
    path its comparisons select. *)
Section Tree.
Context {K V : Type} (cmp : K -> K -> comparison).

Inductive tree : Type := Leaf | Node (l : tree) (k : K) (v : V) (r : tree).

Fixpoint t_get (t : tree) (k : K) : option V :=
  match t with
  | Leaf => None
  | Node l k' v r => match cmp k k' with Lt => t_get l k | Gt => t_get r k | Eq => Some v end
  end.
(** An equal key already there is kept and its value is replaced. *)
Fixpoint t_put (t : tree) (k : K) (v : V) : tree :=
  match t with
  | Leaf => Node Leaf k v Leaf
  | Node l k' v' r =>
      match cmp k k' with
      | Lt => Node (t_put l k v) k' v' r
      | Gt => Node l k' v' (t_put r k v)
      | Eq => Node l k' v r
      end
  end.
Fixpoint t_first (t : tree) : option (K * V) :=
  match t with
  | Leaf => None
  | Node l k v _ => match t_first l with Some p => Some p | None => Some (k, v) end
  end.
Fixpoint t_last (t : tree) : option (K * V) :=
  match t with
  | Leaf => None
  | Node _ k v r => match t_last r with Some p => Some p | None => Some (k, v) end
  end.
Fixpoint t_del_first (t : tree) : tree :=
  match t with
  | Leaf => Leaf
  | Node Leaf _ _ r => r
  | Node l k v r => Node (t_del_first l) k v r
  end.
Fixpoint t_del (t : tree) (k : K) : tree :=
  match t with
  | Leaf => Leaf
  | Node l k' v' r =>
      match cmp k k' with
      | Lt => Node (t_del l k) k' v' r
      | Gt => Node l k' v' (t_del r k)
      | Eq => match t_first r with
              | Some (k1, v1) => Node l k1 v1 (t_del_first r)
              | None => l
              end
      end
  end.
Fixpoint t_iter (t : tree) : list (K * V) :=
  match t with Leaf => [] | Node l k v r => t_iter l ++ (k, v) :: t_iter r end.
(** [range(lo..hi)]: only the subtrees that can hold such keys are visited. *)
Fixpoint t_range (t : tree) (lo hi : K) : list (K * V) :=
  match t with
  | Leaf => []
  | Node l k v r =>
      match cmp lo k, cmp k hi with
      | Gt, _ => t_range r lo hi
      | _, Lt => t_range l lo hi ++ (k, v) :: t_range r lo hi
      | _, _ => t_range l lo hi
      end
  end.

(** Rebalancing at the node a path leads to. *)
Definition rotate_left (t : tree) : tree :=
  match t with
  | Node a k v (Node b k' v' c) => Node (Node a k v b) k' v' c
  | _ => t
  end.
Definition rotate_right (t : tree) : tree :=
  match t with
  | Node (Node a k v b) k' v' c => Node a k v (Node b k' v' c)
  | _ => t
  end.
Fixpoint t_rotate (t : tree) (path : list bool) (left : bool) : tree :=
  match path, t with
  | [], _ => if left then rotate_left t else rotate_right t
  | _, Leaf => Leaf
  | true :: p, Node l k v r => Node (t_rotate l p left) k v r
  | false :: p, Node l k v r => Node l k v (t_rotate r p left)
  end.

Inductive top : Type :=
| TGet (k : K) | TInsert (k : K) (v : V) | TRemove (k : K) | TFirst | TLast | TPopFirst
| TIter | TRange (lo hi : K) | TBalance (path : list bool) (left : bool).
Inductive tret : Type := TVal (v : option V) | TPair (p : option (K * V)) | TList (l : list (K * V)) | TNone | TPanics.
(** [range] panics if the range starts after its end. *)
Definition tstep (t : tree) (o : top) : tret * tree :=
  match o with
  | TGet k => (TVal (t_get t k), t)
  | TInsert k v => (TVal (t_get t k), t_put t k v)
  | TRemove k => (TVal (t_get t k), t_del t k)
  | TFirst => (TPair (t_first t), t)
  | TLast => (TPair (t_last t), t)
  | TPopFirst => (TPair (t_first t), t_del_first t)
  | TIter => (TList (t_iter t), t)
  | TRange lo hi => (match cmp lo hi with Gt => TPanics | _ => TList (t_range t lo hi) end, t)
  | TBalance p b => (TNone, t_rotate t p b)
  end.
Fixpoint trun (t : tree) (l : list top) : list tret * tree :=
  match l with
  | [] => ([], t)
  | o :: r => let (x, u) := tstep t o in let (xs, w) := trun u r in (x :: xs, w)
  end.
(** A tree built from entries in the order given ([collect], [extend]). *)
Definition t_collect (l : list (K * V)) : tree := fold_left (fun t p => t_put t (fst p) (snd p)) l Leaf.

(** [slice::binary_search] over a sorted slice: [Ok] of a position of the key, or [Err] of
    the place to insert it.  Halving as in the library until 1.82 (core/src/slice/mod.rs
    [binary_search_by]): [left], [right], the middle one compared with the key. *)
Fixpoint bsearch (fuel : nat) (l : list K) (x : K) (left right : nat) : nat + nat :=
  match fuel with
  | O => inr left
  | S f =>
      if Nat.ltb left right then
        let mid := left + (right - left) / 2 in
        match nth_error l mid with
        | None => inr left
        | Some m => match cmp m x with
                    | Lt => bsearch f l x (mid + 1) right
                    | Gt => bsearch f l x left mid
                    | Eq => inl mid
                    end
        end
      else inr left
  end.
Definition binary_search (l : list K) (x : K) : nat + nat := bsearch (S (length l)) l x 0 (length l).
End Tree.
Arguments TGet {K V} k.
Arguments TInsert {K V} k v.
Arguments TRemove {K V} k.
Arguments TFirst {K V}.
Arguments TLast {K V}.
Arguments TPopFirst {K V}.
Arguments TIter {K V}.
Arguments TRange {K V} lo hi.
Arguments TBalance {K V} path left.
Arguments TVal {K V} v.
Arguments TPair {K V} p.
Arguments TList {K V} l.
Arguments TNone {K V}.
Arguments TPanics {K V}.
Arguments Leaf {K V}.
Arguments Node {K V} l k v r.
