(** Handles, ids and contract ids as keys of hash maps: what [Eq] and [Hash] of the key
    types do, and the maps and sets the repository keeps them in. *)
From Verif Require Import Types Contract Baseline DynEnum.
From Coq Require Strings.Ascii.
Open Scope list_scope.
Open Scope nat_scope.

(** ** [Hash]: the sequence of writes to the [Hasher], each with its width in bytes *)
Inductive word : Type := Word (width : nat) (value : N).

(** crates/datastructures/arena/src/lib.rs:153-157: [self.inner.hash(state)], where
    [generational_arena::Index] derives [Hash]: [index] as usize, [generation] as u64. *)
Definition hash_index (h : index) : list word := [Word 8 (N.of_nat (ix h)); Word 8 (gen h)].

(** client/serialize/rust/src/types/mod.rs:5-15, derived [Hash] of [ObjectsIdx],
    [ContractsIdx] and [StatesIdx]: one usize. *)
Definition hash_pos (n : nat) : list word := [Word 8 (N.of_nat n)].

(** client/rust/src/contract/properties/states/id.rs:13-18 and channels/mod.rs:47-52,
    derived: [idx], [contract], and nothing for the [PhantomData].  The pair is
    (idx, contract) of a [StateId<T>] or a [ChannelId<T>] of one [T]. *)
Definition hash_id (d : nat * index) : list word := hash_pos (fst d) ++ hash_index (snd d).
Definition id_eqb (a b : nat * index) : bool :=
  Nat.eqb (fst a) (fst b) && index_eqb (snd a) (snd b).

(** client/rust/src/contract/mod.rs:18-27, derived: the name (its bytes, then 0xff, as
    [str] hashes itself), then the three u16. *)
Definition hash_str (s : string) : list word :=
  map (fun a => Word 1 (Coq.Strings.Ascii.N_of_ascii a)) (Coq.Strings.String.list_ascii_of_string s)
  ++ [Word 1 255].
Definition hash_cid (c : contract_id) : list word :=
  let '(a, b, d) := cid_ver c in hash_str (cid_name c) ++ [Word 2 a; Word 2 b; Word 2 d].

(** client/rust/src/contract/properties/states/dyn_handle.rs:13-16 with
    dynamic/__macro.rs:24-100: three enums deriving [Hash]: the number of the variant
    (isize), then its payload. *)
Definition variant (n : N) (payload : list word) : list word := Word 8 n :: payload.
Definition hash_enum_prim (e : enum_prim index) : list word :=
  match e with
  | EU8 h => variant 0 (hash_index h) | EU16 h => variant 1 (hash_index h)
  | EU32 h => variant 2 (hash_index h) | EU64 h => variant 3 (hash_index h)
  | EI8 h => variant 4 (hash_index h) | EI16 h => variant 5 (hash_index h)
  | EI32 h => variant 6 (hash_index h) | EI64 h => variant 7 (hash_index h)
  | EBool h => variant 8 (hash_index h) | EF32 h => variant 9 (hash_index h)
  | EF64 h => variant 10 (hash_index h) | EString h => variant 11 (hash_index h)
  | EObjectHandle h => variant 12 (hash_index h) | EContractDataHandle h => variant 13 (hash_index h)
  end.
Definition hash_enum_vec (e : enum_vec index) : list word :=
  match e with
  | FU8 h => variant 0 (hash_index h) | FU16 h => variant 1 (hash_index h)
  | FU32 h => variant 2 (hash_index h) | FU64 h => variant 3 (hash_index h)
  | FI8 h => variant 4 (hash_index h) | FI16 h => variant 5 (hash_index h)
  | FI32 h => variant 6 (hash_index h) | FI64 h => variant 7 (hash_index h)
  | FBool h => variant 8 (hash_index h) | FF32 h => variant 9 (hash_index h)
  | FF64 h => variant 10 (hash_index h) | FString h => variant 11 (hash_index h)
  | FObjectHandle h => variant 12 (hash_index h) | FContractDataHandle h => variant 13 (hash_index h)
  end.
Definition hash_enum (e : dyn_enum index) : list word :=
  match e with
  | EPrim p => variant 0 (hash_enum_prim p)
  | EVec v => variant 1 (hash_enum_vec v)
  end.

(** The key types: arena handles of one kind (objects, contracts, states of one type,
    channels of one type), field ids of one type, dynamic state handles, contract ids,
    positions in a buffer. *)
Inductive keykind : Type := KHandle | KId | KDyn | KContract | KPos.
Definition key (k : keykind) : Type :=
  match k with
  | KHandle => index | KId => nat * index | KDyn => dyn_enum index
  | KContract => contract_id | KPos => nat
  end.
Definition key_eqb (k : keykind) : key k -> key k -> bool :=
  match k with
  | KHandle => index_eqb | KId => id_eqb | KDyn => enum_eqb index_eqb
  | KContract => contract_id_eqb | KPos => Nat.eqb
  end.
Definition key_hash (k : keykind) : key k -> list word :=
  match k with
  | KHandle => hash_index | KId => hash_id | KDyn => hash_enum
  | KContract => hash_cid | KPos => hash_pos
  end.

(** ** A hash table: [std::collections::HashMap], [HashSet] (values are units) and the two
    halves of [bimap::BiHashMap], simplified to chains of entries in buckets.  The hasher
    is any function of what was written to it ([hf]); a key is only looked for in the bucket its hash
    selects, and there with [==]; growing redistributes all entries. *)
Section Table.
Context {K V : Type} (eqb : K -> K -> bool) (feed : K -> list word) (hf : list word -> nat).

Definition table : Type := list (list (K * V)).
Definition bucket (t : table) (k : K) : nat := hf (feed k) mod (length t).

Fixpoint chain_get (l : list (K * V)) (k : K) : option V :=
  match l with
  | [] => None
  | (k', v) :: r => if eqb k k' then Some v else chain_get r k
  end.
(** An equal key already there is kept and its value is replaced. *)
Fixpoint chain_put (l : list (K * V)) (k : K) (v : V) : list (K * V) :=
  match l with
  | [] => [(k, v)]
  | (k', v') :: r => if eqb k k' then (k', v) :: r else (k', v') :: chain_put r k v
  end.
Fixpoint chain_del (l : list (K * V)) (k : K) : list (K * V) :=
  match l with
  | [] => []
  | (k', v') :: r => if eqb k k' then r else (k', v') :: chain_del r k
  end.

Definition ht_new (n : nat) : table := repeat [] (S n).
Definition ht_get (t : table) (k : K) : option V := chain_get (nth (bucket t k) t []) k.
Definition ht_insert (t : table) (k : K) (v : V) : option V * table :=
  (ht_get t k, list_set t (bucket t k) (chain_put (nth (bucket t k) t []) k v)).
Definition ht_remove (t : table) (k : K) : option V * table :=
  (ht_get t k, list_set t (bucket t k) (chain_del (nth (bucket t k) t []) k)).
Definition ht_iter (t : table) : list (K * V) := concat t.
Definition ht_grow (t : table) (n : nat) : table :=
  fold_left (fun u p => snd (ht_insert u (fst p) (snd p))) (ht_iter t) (ht_new n).

Inductive hop : Type := HGet (k : K) | HInsert (k : K) (v : V) | HRemove (k : K) | HGrow (n : nat) | HIter.
Inductive hret : Type := RVal (v : option V) | RNone | RList (l : list (K * V)).
Definition hstep (t : table) (o : hop) : hret * table :=
  match o with
  | HGet k => (RVal (ht_get t k), t)
  | HInsert k v => let (r, u) := ht_insert t k v in (RVal r, u)
  | HRemove k => let (r, u) := ht_remove t k in (RVal r, u)
  | HGrow n => (RNone, ht_grow t n)
  | HIter => (RList (ht_iter t), t)
  end.
Fixpoint hrun (t : table) (l : list hop) : list hret * table :=
  match l with
  | [] => ([], t)
  | o :: r => let (x, u) := hstep t o in let (xs, w) := hrun u r in (x :: xs, w)
  end.
End Table.
Arguments HGet {K V} k.
Arguments HInsert {K V} k v.
Arguments HRemove {K V} k.
Arguments HGrow {K V} n.
Arguments HIter {K V}.
Arguments RVal {K V} v.
Arguments RNone {K V}.
Arguments RList {K V} l.

(** ** [bimap::BiHashMap]: one table for each direction, kept in step (bimap 0.6, hash.rs). *)
Section TwoWay.
Context {A B : Type} (eqa : A -> A -> bool) (eqb : B -> B -> bool) (feeda : A -> list word) (feedb : B -> list word)
        (hf : list word -> nat).
Definition two_way : Type := table (K := A) (V := B) * table (K := B) (V := A).
Definition tw_new (n n' : nat) : two_way := (ht_new n, ht_new n').
Definition tw_left (t : two_way) (a : A) : option B := ht_get eqa feeda hf (fst t) a.
Definition tw_right (t : two_way) (b : B) : option A := ht_get eqb feedb hf (snd t) b.
(** [remove_by_left], [remove_by_right]: from one table, and the partner found there from
    the other. *)
Definition tw_remove_left (t : two_way) (a : A) : two_way :=
  match ht_remove eqa feeda hf (fst t) a with
  | (Some b, l) => (l, snd (ht_remove eqb feedb hf (snd t) b))
  | (None, l) => (l, snd t)
  end.
Definition tw_remove_right (t : two_way) (b : B) : two_way :=
  match ht_remove eqb feedb hf (snd t) b with
  | (Some a, r) => (snd (ht_remove eqa feeda hf (fst t) a), r)
  | (None, r) => (fst t, r)
  end.
(** [insert_unchecked]. *)
Definition tw_link (t : two_way) (a : A) (b : B) : two_way :=
  (snd (ht_insert eqa feeda hf (fst t) a b), snd (ht_insert eqb feedb hf (snd t) b a)).
(** [insert]; the answer is whether nothing was overwritten. *)
Definition tw_insert (t : two_way) (a : A) (b : B) : bool * two_way :=
  let t1 := tw_remove_left t a in
  (match tw_left t a, tw_right t1 b with None, None => true | _, _ => false end,
   tw_link (tw_remove_right t1 b) a b).
(** [insert_no_overwrite]. *)
Definition tw_insert_new (t : two_way) (a : A) (b : B) : bool * two_way :=
  match tw_left t a, tw_right t b with
  | None, None => (true, tw_link t a b)
  | _, _ => (false, t)
  end.
End TwoWay.
