(** The arena's iterators and indexing operators.
    crates/datastructures/arena/src/lib.rs:83-115, 146-243, delegating to
    generational-arena 0.2.8 ([Iter], [IterMut], [IntoIter]: a counter of elements
    left over a double-ended [Enumerate<slice::Iter<Entry<T>>>]). *)
From Verif Require Export Arena.
Open Scope nat_scope.

(** [core::cmp::Ord for Index] (lib.rs:172-176): derived on ga::Index, the slot
    first, then the generation. *)
Definition index_cmp (a b : index) : comparison :=
  match Nat.compare (ix a) (ix b) with Eq => N.compare (gen a) (gen b) | c => c end.

Section Iter.
Context {A : Type}.

(** A cursor: the slots not yet visited, the position of the first of them
    ([Enumerate]'s counter), and the field [len]. *)
Record cursor : Type := mkCursor {
  cu_start : nat;
  cu_slots : list (entry A);
  cu_len : nat
}.

(** lib.rs:55-57 [Arena::iter]. *)
Definition iter (a : arena A) : cursor := mkCursor 0 (items a) (alen a).

(** lib.rs:193-195 [ExactSizeIterator::len]; also both ends of [size_hint]
    (lib.rs:183-185). *)
Definition cursor_len (c : cursor) : nat := cu_len c.

(** lib.rs:180-182 [next] / ga::Iter::next: skip free slots; [len -= 1] panics on
    underflow; at the end [debug_assert_eq!(self.len, 0)]. *)
Fixpoint next_loop (start : nat) (l : list (entry A)) (n : nat) : outcome (option (index * A) * cursor) :=
  match l with
  | [] => if Nat.eqb n 0 then Ok (None, mkCursor start [] n) else Panic
  | Free _ :: t => next_loop (S start) t n
  | Occ g v :: t => if Nat.eqb n 0 then Panic
                    else Ok (Some (mkIndex start g, v), mkCursor (S start) t (n - 1))
  end.
Definition next (c : cursor) : outcome (option (index * A) * cursor) :=
  next_loop (cu_start c) (cu_slots c) (cu_len c).

(** lib.rs:188-190 [next_back] / ga::Iter::next_back.  [rl] is the unvisited part
    reversed; [Enumerate::next_back] numbers the popped slot [start + remaining]. *)
Fixpoint next_back_loop (start : nat) (rl : list (entry A)) (n : nat) : outcome (option (index * A) * cursor) :=
  match rl with
  | [] => if Nat.eqb n 0 then Ok (None, mkCursor start [] n) else Panic
  | Free _ :: t => next_back_loop start t n
  | Occ g v :: t => if Nat.eqb n 0 then Panic
                    else Ok (Some (mkIndex (start + length t) g, v), mkCursor start (rev t) (n - 1))
  end.
Definition next_back (c : cursor) : outcome (option (index * A) * cursor) :=
  next_back_loop (cu_start c) (rev (cu_slots c)) (cu_len c).

(** Any mix of calls; the answer to each, and the length reported after it. *)
Inductive dir : Type := Front | Back.
Definition pull (d : dir) (c : cursor) := match d with Front => next c | Back => next_back c end.
Fixpoint pulls (c : cursor) (ds : list dir) : outcome (list (option (index * A) * nat)) :=
  match ds with
  | [] => Ok []
  | d :: t =>
      match pull d c with
      | Ok (x, c') =>
          match pulls c' t with Ok r => Ok ((x, cursor_len c') :: r) | e => e end
      | Err e => Err e
      | Panic => Panic
      end
  end.

(** lib.rs:59-61, 208-235 [iter_mut]: same traversal; the client may store through
    each reference it is given.  The slots already visited are kept on both sides
    so that the arena left behind can be read off. *)
Record cursor_mut : Type := mkMut {
  mu_before : list (entry A);
  mu_cur : cursor;
  mu_after : list (entry A)
}.
Definition iter_mut (a : arena A) : cursor_mut := mkMut [] (iter a) [].
(** [upd] is what the client stores, given the handle and the old value. *)
Fixpoint next_mut_loop (upd : index -> A -> A) (before : list (entry A)) (l : list (entry A))
    (n : nat) (after : list (entry A)) : outcome (option (index * A) * cursor_mut) :=
  match l with
  | [] => if Nat.eqb n 0 then Ok (None, mkMut before (mkCursor (length before) [] n) after) else Panic
  | Free f :: t => next_mut_loop upd (before ++ [Free f]) t n after
  | Occ g v :: t =>
      if Nat.eqb n 0 then Panic
      else let h := mkIndex (length before) g in
           Ok (Some (h, v), mkMut (before ++ [Occ g (upd h v)])
                                  (mkCursor (S (length before)) t (n - 1)) after)
  end.
Fixpoint next_back_mut_loop (upd : index -> A -> A) (before : list (entry A)) (rl : list (entry A))
    (n : nat) (after : list (entry A)) : outcome (option (index * A) * cursor_mut) :=
  match rl with
  | [] => if Nat.eqb n 0 then Ok (None, mkMut before (mkCursor (length before) [] n) after) else Panic
  | Free f :: t => next_back_mut_loop upd before t n (Free f :: after)
  | Occ g v :: t =>
      if Nat.eqb n 0 then Panic
      else let h := mkIndex (length before + length t) g in
           Ok (Some (h, v), mkMut before (mkCursor (length before) (rev t) (n - 1))
                                  (Occ g (upd h v) :: after))
  end.
Definition pull_mut (d : dir) (upd : index -> A -> A) (m : cursor_mut) :=
  match d with
  | Front => next_mut_loop upd (mu_before m) (cu_slots (mu_cur m)) (cu_len (mu_cur m)) (mu_after m)
  | Back => next_back_mut_loop upd (mu_before m) (rev (cu_slots (mu_cur m))) (cu_len (mu_cur m)) (mu_after m)
  end.
Fixpoint pulls_mut (m : cursor_mut) (ds : list (dir * (index -> A -> A)))
  : outcome (list (option (index * A) * nat) * cursor_mut) :=
  match ds with
  | [] => Ok ([], m)
  | (d, u) :: t =>
      match pull_mut d u m with
      | Ok (x, m') =>
          match pulls_mut m' t with
          | Ok (r, m2) => Ok ((x, cu_len (mu_cur m')) :: r, m2)
          | Err e => Err e
          | Panic => Panic
          end
      | Err e => Err e
      | Panic => Panic
      end
  end.
(** The arena once the mutable borrow ends. *)
Definition after_mut (a : arena A) (m : cursor_mut) : arena A :=
  mkArena (mu_before m ++ cu_slots (mu_cur m) ++ mu_after m) (agen a) (free_head a) (alen a).

(** lib.rs:83-91 [into_iter]: ga::IntoIter, the same traversal by value. *)
Definition into_iter (a : arena A) : cursor := iter a.
Definition value_of (x : option (index * A)) : option A := option_map snd x.

(** lib.rs:110-115 [from_iter] for an iterator whose [size_hint] gives [hint] (the
    upper bound if there is one, else the lower bound). *)
Definition from_iter (hint : nat) (l : list A) : outcome (arena A) :=
  extend (with_capacity (Nat.max hint 1)) l.

(** lib.rs:97-103 [arena[idx]]: [.expect("No element at index")]. *)
Definition index_op (a : arena A) (h : index) : outcome A :=
  match get a h with Some v => Ok v | None => Panic end.
(** lib.rs:104-108 [arena[idx] = v]. *)
Definition index_set_op (a : arena A) (h : index) (v : A) : outcome (arena A) :=
  match set a h v with Some a' => Ok a' | None => Panic end.

End Iter.
Arguments cursor A : clear implicits.
Arguments cursor_mut A : clear implicits.
