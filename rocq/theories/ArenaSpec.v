(** An independent specification of a handle map: what a user of the arena may
    rely on, with no mention of slots being reused, free lists or generations. *)
From Verif Require Export Arena.

(** The operations of the public API and what each returns. *)
Inductive aop (A : Type) : Type :=
| AInsert (v : A)
| AGet (h : index)
| ASet (h : index) (v : A)      (* get_mut followed by a write *)
| ARemove (h : index)
| AContains (h : index)
| AReserve (k : nat)
| AIter
| ALen
| AIsEmpty
| ACapacity.
Arguments AInsert {A} v.
Arguments AGet {A} h.
Arguments ASet {A} h v.
Arguments ARemove {A} h.
Arguments AContains {A} h.
Arguments AReserve {A} k.
Arguments AIter {A}.
Arguments ALen {A}.
Arguments AIsEmpty {A}.
Arguments ACapacity {A}.

Inductive aout (A : Type) : Type :=
| OHandle (h : index)
| OVal (v : option A)
| OBool (b : bool)
| OUnit
| OList (l : list (index * A))
| ONat (n : nat)
| OPanic.
Arguments OHandle {A} h.
Arguments OVal {A} v.
Arguments OBool {A} b.
Arguments OUnit {A}.
Arguments OList {A} l.
Arguments ONat {A} n.
Arguments OPanic {A}.

Section Spec.
Context {A : Type}.

(** Running the modelled arena. *)
Definition astep (a : arena A) (o : aop A) : arena A * aout A :=
  match o with
  | AInsert v =>
      match insert a v with
      | Ok (a', h) => (a', OHandle h)
      | _ => (a, OPanic)
      end
  | AGet h => (a, OVal (get a h))
  | ASet h v =>
      match set a h v with
      | Some a' => (a', OBool true)
      | None => (a, OBool false)
      end
  | ARemove h => let '(a', r) := aremove a h in (a', OVal r)
  | AContains h => (a, OBool (contains a h))
  | AReserve k => (reserve a k, OUnit)
  | AIter => (a, OList (aiter a))
  | ALen => (a, ONat (len a))
  | AIsEmpty => (a, OBool (is_empty a))
  | ACapacity => (a, ONat (capacity a))
  end.

Fixpoint arun (a : arena A) (os : list (aop A)) : list (aout A) :=
  match os with
  | [] => []
  | o :: t => let '(a', r) := astep a o in r :: arun a' t
  end.

Fixpoint afinal (a : arena A) (os : list (aop A)) : arena A :=
  match os with
  | [] => a
  | o :: t => afinal (fst (astep a o)) t
  end.

(** ** The abstract handle map *)
Record hmap : Type := mkHmap {
  live : index -> option A;      (* the current contents *)
  issued : index -> Prop;        (* every handle ever returned by insert *)
  cap : nat                      (* capacity *)
}.

(** [l] lists each live pair exactly once. *)
Definition enumerates (m : index -> option A) (l : list (index * A)) : Prop :=
  NoDup (map fst l) /\ forall h v, In (h, v) l <-> m h = Some v.

Fixpoint slots_increasing (l : list (index * A)) : Prop :=
  match l with
  | [] => True
  | (h, _) :: t => (forall h' v', In (h', v') t -> ix h < ix h') /\ slots_increasing t
  end.

Definition isSome {B} (o : option B) : bool :=
  match o with Some _ => true | None => false end.

Inductive hstep : hmap -> aop A -> aout A -> hmap -> Prop :=
| h_insert m v h m' l :
    ~ issued m h ->                                   (* never returned before *)
    live m' h = Some v ->
    (forall h', h' <> h -> live m' h' = live m h') -> (* nothing else changes *)
    (forall h', issued m' h' <-> issued m h' \/ h' = h) ->
    enumerates (live m) l ->
    cap m' = (if Nat.ltb (length l) (cap m) then cap m else 2 * cap m) ->
    hstep m (AInsert v) (OHandle h) m'
| h_get m h : hstep m (AGet h) (OVal (live m h)) m
| h_contains m h : hstep m (AContains h) (OBool (isSome (live m h))) m
| h_set_live m h v m' old :
    live m h = Some old ->
    live m' h = Some v ->
    (forall h', h' <> h -> live m' h' = live m h') ->
    (forall h', issued m' h' <-> issued m h') -> cap m' = cap m ->
    hstep m (ASet h v) (OBool true) m'
| h_set_dead m h v :
    live m h = None -> hstep m (ASet h v) (OBool false) m
| h_remove m h m' :
    live m' h = None ->
    (forall h', h' <> h -> live m' h' = live m h') ->
    (forall h', issued m' h' <-> issued m h') -> cap m' = cap m ->
    hstep m (ARemove h) (OVal (live m h)) m'
| h_reserve m k m' :
    (forall h', live m' h' = live m h') ->
    (forall h', issued m' h' <-> issued m h') -> cap m' = cap m + k ->
    hstep m (AReserve k) OUnit m'
| h_iter m l :
    enumerates (live m) l -> slots_increasing l ->
    hstep m AIter (OList l) m
| h_len m l :
    enumerates (live m) l -> length l <= cap m ->
    hstep m ALen (ONat (length l)) m
| h_is_empty m l :
    enumerates (live m) l ->
    hstep m AIsEmpty (OBool (Nat.eqb (length l) 0)) m
| h_capacity m : hstep m ACapacity (ONat (cap m)) m.

Inductive hrun : hmap -> list (aop A) -> list (aout A) -> Prop :=
| hrun_nil m : hrun m [] []
| hrun_cons m o r m' os rs :
    hstep m o r m' -> hrun m' os rs -> hrun m (o :: os) (r :: rs).

(** The empty map. *)
Definition hempty (n : nat) : hmap := mkHmap (fun _ => None) (fun _ => False) n.

(** Only [reserve] with a positive amount is covered: see
    [arena_reserve_zero_refuted]. *)
Definition aop_ok (o : aop A) : Prop :=
  match o with AReserve k => 0 < k | _ => True end.

(** The handles a run returned, in order. *)
Fixpoint handles (rs : list (aout A)) : list index :=
  match rs with
  | [] => []
  | OHandle h :: t => h :: handles t
  | _ :: t => handles t
  end.

End Spec.
Arguments hmap A : clear implicits.
