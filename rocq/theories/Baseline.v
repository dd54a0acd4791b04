(** Baselines and objects.  client/rust/src/baseline.rs, client/rust/src/object.rs. *)
From Verif Require Export Arena Contract Channel Time.
Open Scope nat_scope.

(** baseline.rs:29-33. *)
Inductive baseline_kind : Type := KMain | KFork.

(** object.rs:13-19.  Indices are type-erased, as in the Rust struct. *)
Record object : Type := mkObject {
  o_states : list index;
  o_channels : list index;
  o_contract : index;
  o_warp : timewarp
}.

(** states/mod.rs:38-51 and channels/mod.rs:30-43: a [typemap::ShareMap] from
    the property type to an arena.  Values are stored with their dynamic type;
    that the arena for [t] only holds values of type [t] is proved (C09), not
    assumed. *)
Definition typemap (X : Type) := ptype -> option (arena X).
Definition tm_empty {X} : typemap X := fun _ => None.
Definition tm_set {X} (m : typemap X) (t : ptype) (a : arena X) : typemap X :=
  fun t' => if ptype_eqb t t' then Some a else m t'.

(** baseline.rs:36-42. *)
Record baseline : Type := mkBaseline {
  b_kind : baseline_kind;
  b_objects : arena object;
  b_contracts : arena contract_data;
  b_states : typemap dynprop;
  b_channels : typemap channel
}.

Definition with_objects (b : baseline) (o : arena object) : baseline :=
  mkBaseline (b_kind b) o (b_contracts b) (b_states b) (b_channels b).
Definition with_contracts (b : baseline) (c : arena contract_data) : baseline :=
  mkBaseline (b_kind b) (b_objects b) c (b_states b) (b_channels b).
Definition with_states (b : baseline) (s : typemap dynprop) : baseline :=
  mkBaseline (b_kind b) (b_objects b) (b_contracts b) s (b_channels b).
Definition with_channels (b : baseline) (c : typemap channel) : baseline :=
  mkBaseline (b_kind b) (b_objects b) (b_contracts b) (b_states b) c.

(** baseline.rs:45-58. *)
Definition baseline_new (k : baseline_kind) : baseline :=
  mkBaseline k arena_new arena_new tm_empty tm_empty.

(** ** Contracts *)

(** baseline.rs:66-75.  [for .. in self.contracts.iter()] with an early return. *)
Definition register_contract (b : baseline) (C : contract_ty)
  : outcome contract_inst * baseline :=
  if existsb (fun p => contract_id_eqb (cd_id (snd p)) (ct_id C)) (aiter (b_contracts b))
  then (Err EContractAlreadyAdded, b)
  else match insert (b_contracts b) (mkCdata (ct_id C) []) with
       | Ok (cs, h) => (Ok (mkCinst C h), with_contracts b cs)
       | _ => (Panic, b)
       end.

(** baseline.rs:97-101. *)
Definition contract_data_of (b : baseline) (h : index) : outcome contract_data :=
  ok_or (get (b_contracts b) h) ENoContractForHandle.

(** ** Objects *)

(** baseline.rs:103-111. *)
Definition iter_objects (b : baseline) : list (index * object) := aiter (b_objects b).
Definition object_of (b : baseline) (o : index) : outcome object :=
  ok_or (get (b_objects b) o) ENoSuchHandle.

(** baseline.rs:113-117 [object_mut] followed by [*time_warp_mut() = w]
    (object.rs:81-83), the only mutation [Object] offers.  (Swapping two whole
    [Object]s of different baselines through two [&mut Object] is not
    modelled.) *)
Definition object_set_warp (b : baseline) (o : index) (w : timewarp)
  : outcome unit * baseline :=
  match get (b_objects b) o with
  | None => (Err ENoSuchHandle, b)
  | Some ob =>
      match set (b_objects b) o (mkObject (o_states ob) (o_channels ob) (o_contract ob) w) with
      | Some os => (Ok tt, with_objects b os)
      | None => (Panic, b)
      end
  end.

(** baseline.rs:139-162 [check_types!]: zip_longest + enumerate + try_fold. *)
Fixpoint check_types (i : nat) (ps ts : list ptype) : outcome unit :=
  match ps, ts with
  | [], [] => Ok tt
  | p :: ps', t :: ts' =>
      if ptype_eqb p t then check_types (S i) ps' ts' else Err (EFieldTypeMismatch i)
  | _, _ => Err EFieldCountMismatch
  end.

(** baseline.rs:287-295: [entry::<StateArenaHandle<T>>().or_insert_with(Arena::new)]
    then insert, where [T] is the type of the value. *)
Definition state_create (b : baseline) (v : dynprop) : outcome index * baseline :=
  let t := prop_type v in
  let a := match b_states b t with Some a => a | None => arena_new end in
  match insert a v with
  | Ok (a', h) => (Ok h, with_states b (tm_set (b_states b) t a'))
  | _ => (Panic, b)
  end.

(** baseline.rs:297-305. *)
Definition channel_create (b : baseline) (c : channel) : outcome index * baseline :=
  let t := ch_type c in
  let a := match b_channels b t with Some a => a | None => arena_new end in
  match insert a c with
  | Ok (a', h) => (Ok h, with_channels b (tm_set (b_channels b) t a'))
  | _ => (Panic, b)
  end.

(** baseline.rs:171-176: the creation loops. *)
Fixpoint states_create (b : baseline) (vs : list dynprop) : outcome (list index) * baseline :=
  match vs with
  | [] => (Ok [], b)
  | v :: t =>
      match state_create b v with
      | (Ok h, b1) =>
          match states_create b1 t with
          | (Ok hs, b2) => (Ok (h :: hs), b2)
          | (_, b2) => (Panic, b2)
          end
      | (_, b1) => (Panic, b1)
      end
  end.
Fixpoint channels_create (b : baseline) (cs : list channel) : outcome (list index) * baseline :=
  match cs with
  | [] => (Ok [], b)
  | c :: t =>
      match channel_create b c with
      | (Ok h, b1) =>
          match channels_create b1 t with
          | (Ok hs, b2) => (Ok (h :: hs), b2)
          | (_, b2) => (Panic, b2)
          end
      | (_, b1) => (Panic, b1)
      end
  end.

(** baseline.rs:125-191. *)
Definition object_create (b : baseline) (c : contract_inst)
    (vs : list dynprop) (cs : list channel) : outcome index * baseline :=
  if negb (contains (b_contracts b) (ci_handle c)) then (Err ENoSuchContract, b)
  else
    match check_types 0 (map prop_type vs) (ct_states (ci_ty c)) with
    | Err e => (Err e, b)
    | Panic => (Panic, b)
    | Ok _ =>
        match check_types 0 (map ch_type cs) (ct_chans (ci_ty c)) with
        | Err e => (Err e, b)
        | Panic => (Panic, b)
        | Ok _ =>
            match states_create b vs with
            | (Ok shs, b1) =>
                match channels_create b1 cs with
                | (Ok chs, b2) =>
                    match insert (b_objects b2)
                            (mkObject shs chs (ci_handle c) timewarp_default) with
                    | Ok (os, oh) =>
                        let b3 := with_objects b2 os in
                        match get (b_contracts b3) (ci_handle c) with
                        | Some cd =>
                            match set (b_contracts b3) (ci_handle c)
                                    (mkCdata (cd_id cd) (set_insert oh (cd_objects cd))) with
                            | Some cts => (Ok oh, with_contracts b3 cts)
                            | None => (Panic, b3)
                            end
                        | None => (Panic, b3)      (* .expect("We already checked this") *)
                        end
                    | _ => (Panic, b2)
                    end
                | (_, b2) => (Panic, b2)
                end
            | (_, b1) => (Panic, b1)
            end
        end
    end.

(** ** Bindings *)

(** object.rs:85-98 and 100-113. *)
Definition object_bind (contract : index) (fields : list index) (id : prop_id) : outcome index :=
  if negb (index_eqb (pid_contract id) contract) then Err EIdWrongContract
  else ok_or (nth_error fields (pid_idx id)) EIdOutOfBounds.

(** baseline.rs:309-319 and 321-331.  The result is a [StateHandle<T>]
    ([ChannelHandle<T>]) for the [T] of the id. *)
Definition bind_state (b : baseline) (id : prop_id) (o : index) : outcome index :=
  match get (b_objects b) o with
  | None => Err EBindNoObject
  | Some ob => object_bind (o_contract ob) (o_states ob) id
  end.
Definition bind_channel (b : baseline) (id : prop_id) (o : index) : outcome index :=
  match get (b_objects b) o with
  | None => Err EBindNoObject
  | Some ob => object_bind (o_contract ob) (o_channels ob) id
  end.

(** object.rs:35-52 and 54-71: the panicking versions. *)
Definition object_state (ob : object) (id : prop_id) : outcome index :=
  if negb (index_eqb (pid_contract id) (o_contract ob)) then Panic
  else match nth_error (o_states ob) (pid_idx id) with Some h => Ok h | None => Panic end.
Definition object_channel (ob : object) (id : prop_id) : outcome index :=
  if negb (index_eqb (pid_contract id) (o_contract ob)) then Panic
  else match nth_error (o_channels ob) (pid_idx id) with Some h => Ok h | None => Panic end.

(** ** Property access *)

(** states/handle.rs:26-35 (baseline.rs:229-231): [state::<StateHandle<T>>]. *)
Definition tm_get {X} (m : typemap X) (t : ptype) (h : index) : outcome X :=
  match m t with
  | None => Err ENoArena
  | Some a => ok_or (get a h) ENoSuchHandle
  end.
Definition state_get (b : baseline) (t : ptype) (h : index) : outcome dynprop :=
  tm_get (b_states b) t h.

(** states/handle.rs:37-46 (baseline.rs:233-235) followed by
    [state.value = v]; the handle has the type of [v]. *)
Definition state_set (b : baseline) (h : index) (v : dynprop) : outcome unit * baseline :=
  let t := prop_type v in
  match b_states b t with
  | None => (Err ENoArena, b)
  | Some a =>
      match set a h v with
      | None => (Err ENoSuchHandle, b)
      | Some a' => (Ok tt, with_states b (tm_set (b_states b) t a'))
      end
  end.

(** states/dyn_handle.rs:13-91: a [DynStateHandle] is a typed handle whose type
    is its variant; [get] dispatches on the variant to the typed accessor
    ([apply_to_state_handle!]) and wraps the reference in the variant of its
    type. *)
Record dyn_handle : Type := mkDh { dh_type : ptype; dh_index : index }.
Definition dyn_state_get (b : baseline) (h : dyn_handle) : outcome dynprop :=
  state_get b (dh_type h) (dh_index h).

(** baseline.rs:237-246. *)
Definition channel_get (b : baseline) (t : ptype) (h : index) : outcome channel :=
  tm_get (b_channels b) t h.

(** baseline.rs:248-260 followed by replacing the vector returned by
    [keyframes_mut] (channel.rs:41-43). *)
Definition channel_set_keys (b : baseline) (t : ptype) (h : index) (ks : list keyframe)
  : outcome unit * baseline :=
  match b_channels b t with
  | None => (Err ENoArena, b)
  | Some a =>
      match get a h with
      | None => (Err ENoSuchHandle, b)
      | Some c =>
          match set a h (keyframes_set c ks) with
          | Some a' => (Ok tt, with_channels b (tm_set (b_channels b) t a'))
          | None => (Panic, b)
          end
      end
  end.

(** ** Removal *)

(** baseline.rs:262-271 and 273-285 (private). *)
Definition state_remove (b : baseline) (t : ptype) (h : index) : outcome dynprop * baseline :=
  match b_states b t with
  | None => (Err ENoArena, b)
  | Some a =>
      match aremove a h with
      | (a', Some v) => (Ok v, with_states b (tm_set (b_states b) t a'))
      | (_, None) => (Err ENoSuchHandle, b)
      end
  end.
Definition channel_remove (b : baseline) (t : ptype) (h : index) : outcome channel * baseline :=
  match b_channels b t with
  | None => (Err ENoArena, b)
  | Some a =>
      match aremove a h with
      | (a', Some v) => (Ok v, with_channels b (tm_set (b_channels b) t a'))
      | (_, None) => (Err ENoSuchHandle, b)
      end
  end.

(** baseline.rs:204-212: bind, remove (a failing removal is only logged). *)
Fixpoint remove_states (b : baseline) (ids : list prop_id) (o : index) : outcome unit * baseline :=
  match ids with
  | [] => (Ok tt, b)
  | id :: t =>
      match bind_state b id o with
      | Ok h => remove_states (snd (state_remove b (pid_type id) h)) t o
      | Err e => (Err e, b)
      | Panic => (Panic, b)
      end
  end.
(** baseline.rs:214-222. *)
Fixpoint remove_channels (b : baseline) (ids : list prop_id) (o : index) : outcome unit * baseline :=
  match ids with
  | [] => (Ok tt, b)
  | id :: t =>
      match bind_channel b id o with
      | Ok h => remove_channels (snd (channel_remove b (pid_type id) h)) t o
      | Err e => (Err e, b)
      | Panic => (Panic, b)
      end
  end.

(** baseline.rs:193-225. *)
Definition object_remove (b : baseline) (C : contract_ty) (o : index) : outcome unit * baseline :=
  match aremove (b_objects b) o with
  | (_, None) => (Err EObjectDidNotExist, b)
  | (os, Some ob) =>
      let b1 := with_objects b os in
      match remove_states b1 (state_ids C (o_contract ob)) o with
      | (Ok _, b2) => remove_channels b2 (chan_ids C (o_contract ob)) o
      | (r, b2) => (r, b2)
      end
  end.

(** baseline.rs:88-92: [object_remove(..).expect(..)] for each object of the
    taken set, in the (arbitrary) iteration order [ord]. *)
Fixpoint remove_all (b : baseline) (C : contract_ty) (ord : list index) : outcome unit * baseline :=
  match ord with
  | [] => (Ok tt, b)
  | o :: t =>
      match object_remove b C o with
      | (Ok _, b1) => remove_all b1 C t
      | (_, b1) => (Panic, b1)
      end
  end.

(** baseline.rs:77-95. [ord] is the iteration order of the contract's object
    set: a permutation of [cd_objects]. *)
Definition unregister_contract (b : baseline) (C : contract_ty) (h : index) (ord : list index)
  : outcome unit * baseline :=
  match get (b_contracts b) h with
  | None => (Err ENoContractToUnregister, b)
  | Some cd =>
      if negb (contract_id_eqb (cd_id cd) (ct_id C)) then (Err EHandleContractMismatch, b)
      else
        match set (b_contracts b) h (mkCdata (cd_id cd) []) with
        | None => (Panic, b)
        | Some cts =>
            match remove_all (with_contracts b cts) C ord with
            | (Ok _, b2) => (Ok tt, with_contracts b2 (fst (aremove (b_contracts b2) h)))
            | (_, b2) => (Panic, b2)
            end
        end
  end.

(** ** Histories: every public mutating operation of [Baseline]. *)
Inductive bop : Type :=
| BRegister (C : contract_ty)
| BUnregister (C : contract_ty) (h : index) (ord : list index)
| BCreate (c : contract_inst) (vs : list dynprop) (cs : list channel)
| BRemove (C : contract_ty) (o : index)
| BSetState (h : index) (v : dynprop)
| BSetKeys (t : ptype) (h : index) (ks : list keyframe)
| BSetWarp (o : index) (w : timewarp).

Inductive bret : Type :=
| RContract (c : contract_inst)
| RHandle (o : index)
| RUnit.

Definition omap {A B} (f : A -> B) (o : outcome A) : outcome B :=
  match o with Ok a => Ok (f a) | Err e => Err e | Panic => Panic end.
Definition ret_map {A} (f : A -> bret) (p : outcome A * baseline) : outcome bret * baseline :=
  (omap f (fst p), snd p).

Definition bstep (b : baseline) (op : bop) : outcome bret * baseline :=
  match op with
  | BRegister C => ret_map RContract (register_contract b C)
  | BUnregister C h ord => ret_map (fun _ => RUnit) (unregister_contract b C h ord)
  | BCreate c vs cs => ret_map RHandle (object_create b c vs cs)
  | BRemove C o => ret_map (fun _ => RUnit) (object_remove b C o)
  | BSetState h v => ret_map (fun _ => RUnit) (state_set b h v)
  | BSetKeys t h ks => ret_map (fun _ => RUnit) (channel_set_keys b t h ks)
  | BSetWarp o w => ret_map (fun _ => RUnit) (object_set_warp b o w)
  end.
