(** The generational arena.

    crates/datastructures/arena/src/lib.rs:22-115 wraps
    [generational_arena::Arena] (crate version 0.2.8 per Cargo.lock:1681-1684,
    not part of /repo).  Every wrapper method is a one-line delegation, so each
    definition below models the wrapper and the delegated-to method together;
    the external method is modelled from its published algorithm:

      struct Arena<T> { items: Vec<Entry<T>>, generation: u64,
                        free_list_head: Option<usize>, len: usize }
      enum Entry<T> { Free { next_free: Option<usize> },
                      Occupied { generation: u64, value: T } } *)
From Verif Require Export Types.

Inductive entry (A : Type) : Type :=
| Free (next_free : option nat)
| Occ (g : N) (v : A).
Arguments Free {A} next_free.
Arguments Occ {A} g v.

Record arena (A : Type) : Type := mkArena {
  items : list (entry A);
  agen : N;
  free_head : option nat;
  alen : nat
}.
Arguments mkArena {A} items agen free_head alen.
Arguments items {A} _.
Arguments agen {A} _.
Arguments free_head {A} _.
Arguments alen {A} _.

Section Arena.
Context {A : Type}.

(** ga::Arena::reserve; the new slots [start..end) are chained in order, the
    last one pointing to the old head, and the head is set to [start] even when
    no slot is added.  Wrapper: lib.rs:75-77. *)
Definition reserve (a : arena A) (extra : nat) : arena A :=
  let start := length (items a) in
  let fresh :=
    map (fun i => if Nat.eqb (S i) (start + extra)
                  then Free (free_head a)
                  else Free (Some (S i)))
        (seq start extra) in
  mkArena (items a ++ fresh) (agen a) (Some start) (alen a).

(** ga::Arena::with_capacity; wrapper lib.rs:43-45. *)
Definition with_capacity (n : nat) : arena A :=
  reserve (mkArena [] 0%N None 0) (Nat.max n 1).

(** ga::Arena::new, DEFAULT_CAPACITY = 4; wrapper lib.rs:27-29. *)
Definition arena_new : arena A := with_capacity 4.

(** ga::Arena::try_insert / try_alloc_next_index: [None] when full; panics on a
    corrupt free list (slot out of range or occupied). *)
Definition try_insert (a : arena A) (v : A) : outcome (option (arena A * index)) :=
  match free_head a with
  | None => Ok None
  | Some i =>
      match nth_error (items a) i with
      | Some (Free nf) =>
          Ok (Some (mkArena (list_set (items a) i (Occ (agen a) v))
                            (agen a) nf (S (alen a)),
                    mkIndex i (agen a)))
      | Some (Occ _ _) => Panic
      | None => Panic
      end
  end.

(** ga::Arena::insert / insert_slow_path; wrapper lib.rs:31-33. *)
Definition insert (a : arena A) (v : A) : outcome (arena A * index) :=
  match try_insert a v with
  | Ok (Some r) => Ok r
  | Ok None =>
      let n := length (items a) in
      match try_insert (reserve a (if Nat.eqb n 0 then 1 else n)) v with
      | Ok (Some r) => Ok r
      | _ => Panic
      end
  | _ => Panic
  end.

(** ga::Arena::get; wrapper lib.rs:35-37. *)
Definition get (a : arena A) (h : index) : option A :=
  match nth_error (items a) (ix h) with
  | Some (Occ g v) => if N.eqb g (gen h) then Some v else None
  | _ => None
  end.

(** ga::Arena::contains; wrapper lib.rs:51-53. *)
Definition contains (a : arena A) (h : index) : bool :=
  match get a h with Some _ => true | None => false end.

(** Writing through the reference returned by ga::Arena::get_mut (wrapper
    lib.rs:39-41); [None] when the handle does not resolve. *)
Definition set (a : arena A) (h : index) (v : A) : option (arena A) :=
  match get a h with
  | Some _ => Some (mkArena (list_set (items a) (ix h) (Occ (gen h) v))
                            (agen a) (free_head a) (alen a))
  | None => None
  end.

(** ga::Arena::remove; wrapper lib.rs:47-49. *)
Definition aremove (a : arena A) (h : index) : arena A * option A :=
  match nth_error (items a) (ix h) with
  | Some (Occ g v) =>
      if N.eqb g (gen h) then
        (mkArena (list_set (items a) (ix h) (Free (free_head a)))
                 (agen a + 1)%N (Some (ix h)) (pred (alen a)),
         Some v)
      else (a, None)
  | _ => (a, None)
  end.

(** ga::Iter (wrapper lib.rs:55-57, 182-192): occupied slots in slot order. *)
Fixpoint iter_from (i : nat) (l : list (entry A)) : list (index * A) :=
  match l with
  | [] => []
  | Free _ :: t => iter_from (S i) t
  | Occ g v :: t => (mkIndex i g, v) :: iter_from (S i) t
  end.
Definition aiter (a : arena A) : list (index * A) := iter_from 0 (items a).

(** lib.rs:63-73. *)
Definition len (a : arena A) : nat := alen a.
Definition is_empty (a : arena A) : bool := Nat.eqb (alen a) 0.
Definition capacity (a : arena A) : nat := length (items a).

(** ga::Arena::extend / from_iter (wrapper lib.rs:110-115): capacity from the
    iterator's size hint (exact for the list iterators modelled here), then one
    insert per element. *)
Fixpoint extend (a : arena A) (l : list A) : outcome (arena A) :=
  match l with
  | [] => Ok a
  | v :: t => match insert a v with Ok (a', _) => extend a' t | Err e => Err e | Panic => Panic end
  end.
Definition from_list (l : list A) : outcome (arena A) :=
  extend (with_capacity (Nat.max (length l) 1)) l.

End Arena.
