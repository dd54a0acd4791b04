(** [object_create] with the iterators the caller passes: code of the caller that may be endless,
    lie about its size, or panic. *)
From Verif Require Export Baseline.

(** One call of [Iterator::next] on an iterator of the caller. *)
Inductive pull (A : Type) : Type := Item (a : A) | Done | Throws.
Arguments Item {A} a.
Arguments Done {A}.
Arguments Throws {A}.

(** An [impl Iterator<Item = A>]: the lower bound [size_hint] reports ([None]: it panics), and what
    the calls of [next] do, the first one first.  Nothing is assumed of either. *)
Record source (A : Type) : Type := mkSource { hint : option N; next : nat -> pull A }.
Arguments mkSource {A} hint next.
Arguments hint {A} s.
Arguments next {A} s n.

(** [Vec::with_capacity(size)] (baseline.rs:141-143): panics when the buffer would be larger than
    [isize::MAX] bytes.  Simplified: that the allocator itself may give up (which ends the process) is not modelled. *)
Definition capacity_ok (bytes size : N) : bool := (size * bytes <=? 2 ^ 63 - 1)%N.

(** baseline.rs:142-158 [zip_longest(types).enumerate().try_fold(..)] from field [i] on: the items,
    and how often [next] was called.  itertools 0.10.5 [ZipLongest::next] asks the caller's iterator first. *)
Fixpoint collect {A} (ty : A -> ptype) (nx : nat -> pull A) (i : nat) (ts : list ptype) : outcome (list A) * nat :=
  match nx i, ts with
  | Throws, _ => (Panic, S i)
  | Item a, t :: ts' =>
      if ptype_eqb (ty a) t
      then match collect ty nx (S i) ts' with
           | (Ok l, n) => (Ok (a :: l), n)
           | (r, n) => (r, n)
           end
      else (Err (EFieldTypeMismatch i), S i)
  | Done, [] => (Ok [], S i)
  | _, _ => (Err EFieldCountMismatch, S i)
  end.

(** baseline.rs:139-162 [check_types!]. *)
Definition check_source {A} (bytes : N) (ty : A -> ptype) (s : source A) (ts : list ptype) : outcome (list A) * nat :=
  match hint s with
  | None => (Panic, 0)
  | Some size => if capacity_ok bytes size then collect ty (next s) 0 ts else (Panic, 0)
  end.

(** baseline.rs:125-191, with [sb] and [cb] the sizes in bytes of [DynTpProperty] and [DynChannel]:
    the answer, the baseline, and the number of calls of [next] on either iterator.  What follows the checks is
    [object_create] on the collected vectors (which pass its checks again). *)
Definition object_create_from (sb cb : N) (b : baseline) (c : contract_inst) (ss : source dynprop) (cs : source channel)
  : outcome index * baseline * (nat * nat) :=
  if negb (contains (b_contracts b) (ci_handle c)) then (Err ENoSuchContract, b, (0, 0))
  else
    match check_source sb prop_type ss (ct_states (ci_ty c)) with
    | (Ok vs, n) =>
        match check_source cb ch_type cs (ct_chans (ci_ty c)) with
        | (Ok ks, m) => (object_create b c vs ks, (n, m))
        | (Err e, m) => (Err e, b, (n, m))
        | (Panic, m) => (Panic, b, (n, m))
        end
    | (Err e, n) => (Err e, b, (n, 0))
    | (Panic, n) => (Panic, b, (n, 0))
    end.

(** ** Specification *)

(** The iterator that gives exactly these items (a vector's, say), reporting [h] as its size. *)
Definition of_list {A} (h : N) (l : list A) : source A :=
  mkSource (Some h) (fun i => match nth_error l i with Some a => Item a | None => Done end).
(** An iterator that never ends ([repeat], a range without end, [cycle]). *)
Definition endless {A} (s : source A) : Prop := forall i, exists a, next s i = Item a.
(** The first [n] items are given, and have these types. *)
Definition gives {A} (ty : A -> ptype) (s : source A) (ts : list ptype) : Prop :=
  forall i t, nth_error ts i = Some t -> exists a, next s i = Item a /\ ty a = t.
(** Rust's iterators report [usize::MAX] when they do not end ([std::iter::Repeat], [RangeFrom], [Cycle]). *)
Definition usize_max : N := (2 ^ 64 - 1)%N.

(** The buffer for that many items ([bytes] each) fits in [isize::MAX] bytes, and the iterator gives one item of each of these types, in order, and then ends. *)
Definition fits {A} (bytes : N) (ty : A -> ptype) (s : source A) (ts : list ptype) : Prop :=
  (exists size, hint s = Some size /\ (size * bytes < 2 ^ 63)%N) /\
  gives ty s ts /\ next s (length ts) = Done.
(** Its size does not fit, or asking for an item it is asked for panics. *)
Definition blows {A} (bytes : N) (ty : A -> ptype) (s : source A) (ts : list ptype) : Prop :=
  (forall size, hint s = Some size -> (2 ^ 63 <= size * bytes)%N) \/
  exists k, k <= length ts /\ next s k = Throws /\ gives ty s (firstn k ts).

