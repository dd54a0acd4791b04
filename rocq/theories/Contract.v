(** Contracts, property ids and field iterators. *)
From Verif Require Export Types.

(** client/rust/src/contract/mod.rs:24-27 [ContractId]. *)
Record contract_id : Type := mkCid { cid_name : string; cid_ver : N * N * N }.

(** Derived [PartialEq] (contract/mod.rs:18). *)
Definition contract_id_eqb (a b : contract_id) : bool :=
  let '(a1, a2, a3) := cid_ver a in
  let '(b1, b2, b3) := cid_ver b in
  string_eqb (cid_name a) (cid_name b) &&
  (N.eqb a1 b1 && N.eqb a2 b2 && N.eqb a3 b3).

(** contract/mod.rs:39-72: a type implementing [Contract].  Its static data are
    [ID] and [enumerate_types()]/[field_names()] of [States] and [Channels]
    (states/iter.rs:7-11, channels/mod.rs:75-79).  An implementor is assumed to
    return the same static data every time. *)
Record contract_ty : Type := mkCty {
  ct_id : contract_id;
  ct_states : list ptype;
  ct_state_names : list string;
  ct_chans : list ptype;
  ct_chan_names : list string
}.

(** contract/mod.rs:45-49: a value of a contract type; [C::new(h).handle()] is
    assumed to be [h] (all implementations in the repository satisfy this). *)
Record contract_inst : Type := mkCinst { ci_ty : contract_ty; ci_handle : index }.

(** contract/mod.rs:80-102 [ContractData]; the [HashSet<ObjectHandle>] is a
    duplicate-free list whose order is not observable (every iteration takes
    the order as a parameter). *)
Record contract_data : Type := mkCdata { cd_id : contract_id; cd_objects : list index }.

(** [HashSet::insert]. *)
Definition set_insert (h : index) (l : list index) : list index :=
  if existsb (index_eqb h) l then l else l ++ [h].

(** states/id.rs:14-38 [StateId<T>], channels/mod.rs:48-73 [ChannelId<T>]; the
    type argument is a field.  The same record is the dynamic id
    ([DynStateId], dynamic/__macro.rs:110-166), whose variant is the type. *)
Record prop_id : Type := mkPid { pid_type : ptype; pid_idx : nat; pid_contract : index }.

(** dynamic/__macro.rs:116-161 [DynXId::new(contract, idx, typ)]: each arm of the
    match builds [Container::<T>::new(idx, contract)] for the [T] named by
    [typ]. *)
Definition dyn_id_new (contract : index) (idx : nat) (typ : ptype) : prop_id :=
  mkPid typ idx contract.

(** ** Field iterators: the [prop_iter!] macro,
    client/rust/src/contract/properties/mod.rs:6-54, instantiated as
    [StatesIter] (states/iter.rs:27) and [ChannelsIter] (channels/mod.rs:97).
    [types] is [S::enumerate_types()]. *)
Record prop_iter : Type := mkIter { pi_contract : index; pi_pos : nat }.

(** mod.rs:14-20. *)
Definition iter_new (contract : index) : prop_iter := mkIter contract 0.

(** mod.rs:26-31. *)
Definition iter_next (types : list ptype) (it : prop_iter) : option prop_id * prop_iter :=
  match nth_error types (pi_pos it) with
  | None => (None, it)
  | Some t => (Some (dyn_id_new (pi_contract it) (pi_pos it) t),
               mkIter (pi_contract it) (S (pi_pos it)))
  end.

(** mod.rs:33-36; usize subtraction (the model truncates at 0, Rust would
    panic or wrap: excluded by the invariant [pos <= len], see the theorem). *)
Definition iter_size_hint (types : list ptype) (it : prop_iter) : nat * option nat :=
  let n := length types - pi_pos it in (n, Some n).

(** mod.rs:38-51; [self.pos + n] is checked (64-bit usize, overflow checks on). *)
Definition iter_nth (types : list ptype) (it : prop_iter) (n : nat)
  : outcome (option prop_id) * prop_iter :=
  let n_fields := length types in
  let new_pos := pi_pos it + n in
  if N.leb 18446744073709551616 (N.of_nat new_pos) then (Panic, it)
  else if Nat.leb n_fields new_pos then (Ok None, mkIter (pi_contract it) n_fields)
  else match nth_error types (pi_pos it) with
       | None => (Panic, it)
       | Some t =>
           let pos' := S (pi_pos it) in
           (Ok (Some (dyn_id_new (pi_contract it) pos' t)), mkIter (pi_contract it) pos')
       end.

(** [for x in iter] / [collect]: [next] until [None]; [fuel] bounds the number
    of calls. *)
Fixpoint iter_drain (fuel : nat) (types : list ptype) (it : prop_iter) : list prop_id :=
  match fuel with
  | O => []
  | S f => match iter_next types it with
           | (None, _) => []
           | (Some x, it') => x :: iter_drain f types it'
           end
  end.

(** [Iterator::collect] on a fresh iterator, as used by the for loops of
    object_remove and the serializer.  [S (length types)] calls reach the first
    [None] (theorem C21). *)
Definition iter_collect (types : list ptype) (contract : index) : list prop_id :=
  iter_drain (S (length types)) types (iter_new contract).

(** contract/mod.rs:50-55 [state_iter]/[chan_iter]. *)
Definition state_ids (C : contract_ty) (h : index) : list prop_id := iter_collect (ct_states C) h.
Definition chan_ids (C : contract_ty) (h : index) : list prop_id := iter_collect (ct_chans C) h.

(** contract/mod.rs:58-63 and 66-71 [state_id]/[chan_id]. *)
Definition ci_state_id (c : contract_inst) (i : nat) : option prop_id :=
  option_map (dyn_id_new (ci_handle c) i) (nth_error (ct_states (ci_ty c)) i).
Definition ci_chan_id (c : contract_inst) (i : nat) : option prop_id :=
  option_map (dyn_id_new (ci_handle c) i) (nth_error (ct_chans (ci_ty c)) i).
