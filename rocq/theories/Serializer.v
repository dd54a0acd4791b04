(** The serializer.  client/serialize/rust/src/serializer/{mod.rs, handle_map.rs}. *)
From Verif Require Export Baseline Flat.
Open Scope nat_scope.

(** serializer/mod.rs:24-31 and handle_map.rs:7-17.  A table already written to
    the builder is the table; the dummy offset (mod.rs:22, 106-110) is [None]. *)
Record ser : Type := mkSer {
  sr_contracts : list fb_contract;
  sr_states : list (option fbval);
  sr_objects : list fb_object;
  hm_objects : @bimap index nat;
  hm_contracts : @bimap index nat;
  hm_cstates : @bimap index nat;
  hm_ostates : @bimap index nat
}.

(** mod.rs:33-43. *)
Definition ser_new : ser := mkSer [] [] [] [] [] [] [].

(** [x as u16] / [x as u32]. *)
Definition as_u16 (n : nat) : N := (N.of_nat n mod 65536)%N.
Definition as_u32 (n : nat) : N := (N.of_nat n mod 4294967296)%N.

(** [FlatBufferBuilder::push_slot(slot, x, default)] stores a scalar only if
    [x != default], and reading an absent one gives the default 0.  This is the
    identity except on -0.0, which equals 0.0. *)
Definition slot_f32 (bits : Z) : Z := if f32_eqb bits 0 then 0%Z else bits.
Definition slot_f64 (bits : Z) : Z := if f64_eqb bits 0 then 0%Z else bits.

(** mod.rs:75-115: the state table; [None] is the dummy, [Panic] the [todo!] for
    vectors. *)
Definition ser_value (v : dynprop) : outcome (option fbval) :=
  match v with
  | PPrim p =>
      Ok match p with
         | VU8 x => Some (FU8 x) | VU16 x => Some (FU16 x)
         | VU32 x => Some (FU32 x) | VU64 x => Some (FU64 x)
         | VI8 x => Some (FI8 x) | VI16 x => Some (FI16 x)
         | VI32 x => Some (FI32 x) | VI64 x => Some (FI64 x)
         | VBool x => Some (FBool x)
         | VF32 x => Some (FF32 (slot_f32 x)) | VF64 x => Some (FF64 (slot_f64 x))
         | VString s => Some (FFbString (Some s))
         | VObjectHandle _ | VContractDataHandle _ => None
         end
  | PVec _ => Panic
  end.

(** mod.rs:62-132: one iteration of the field loop; returns the index of the
    [StateHandle] table. *)
Definition ser_state (b : baseline) (o : index) (s : ser) (id : prop_id) : outcome N * ser :=
  match bind_state b id o with
  | Err _ => (Err EBindFailed, s)
  | Panic => (Panic, s)
  | Ok h =>
      match state_get b (pid_type id) h with
      | Err e => (Err e, s)
      | Panic => (Panic, s)
      | Ok v =>
          match ser_value v with
          | Ok x =>
              let idx := length (sr_states s) in
              let states := sr_states s ++ [x] in
              let s' :=
                match pid_type id with
                | TPrim TObjectHandle =>
                    mkSer (sr_contracts s) states (sr_objects s) (hm_objects s) (hm_contracts s)
                          (hm_cstates s) (bm_insert index_eqb Nat.eqb h idx (hm_ostates s))
                | TPrim TContractDataHandle =>
                    mkSer (sr_contracts s) states (sr_objects s) (hm_objects s) (hm_contracts s)
                          (bm_insert index_eqb Nat.eqb h idx (hm_cstates s)) (hm_ostates s)
                | _ =>
                    mkSer (sr_contracts s) states (sr_objects s) (hm_objects s) (hm_contracts s)
                          (hm_cstates s) (hm_ostates s)
                end in
              (Ok (as_u32 idx), s')
          | Err e => (Err e, s)
          | Panic => (Panic, s)
          end
      end
  end.
Fixpoint ser_states (b : baseline) (o : index) (s : ser) (ids : list prop_id) : outcome (list N) * ser :=
  match ids with
  | [] => (Ok [], s)
  | id :: t =>
      match ser_state b o s id with
      | (Ok i, s1) =>
          match ser_states b o s1 t with
          | (Ok l, s2) => (Ok (i :: l), s2)
          | (Err e, s2) => (Err e, s2)
          | (Panic, s2) => (Panic, s2)
          end
      | (Err e, s1) => (Err e, s1)
      | (Panic, s1) => (Panic, s1)
      end
  end.

(** mod.rs:60-61 and 134-145: one object. *)
Definition ser_object (b : baseline) (c : contract_inst) (cidx : N) (s : ser) (o : index)
  : outcome unit * ser :=
  match ser_states b o s (state_ids (ci_ty c) (ci_handle c)) with
  | (Ok l, s1) =>
      (Ok tt, mkSer (sr_contracts s1) (sr_states s1)
                    (sr_objects s1 ++ [mkFbObject (Some cidx) (Some l)])
                    (bm_insert index_eqb Nat.eqb o (length (sr_objects s1)) (hm_objects s1))
                    (hm_contracts s1) (hm_cstates s1) (hm_ostates s1))
  | (Err e, s1) => (Err e, s1)
  | (Panic, s1) => (Panic, s1)
  end.
Fixpoint ser_objects (b : baseline) (c : contract_inst) (cidx : N) (s : ser) (ord : list index)
  : outcome unit * ser :=
  match ord with
  | [] => (Ok tt, s)
  | o :: t =>
      match ser_object b c cidx s o with
      | (Ok _, s1) => ser_objects b c cidx s1 t
      | r => r
      end
  end.

(** mod.rs:182-186: [enumerate_types().map(..).collect::<Result<_>>()]. *)
Fixpoint ser_types (ts : list ptype) : outcome (list fbkind) :=
  match ts with
  | [] => Ok []
  | TPrim p :: t => match ser_types t with Ok l => Ok (kind_of_prim p :: l) | r => r end
  | TVec _ :: _ => Err EVectorsUnsupported
  end.
(** mod.rs:154-206. *)
Definition ser_contract (C : contract_ty) : outcome fb_contract :=
  match ser_types (ct_states C) with
  | Ok ks =>
      Ok (mkFbContract (Some (mkFbCid (Some (cid_name (ct_id C))) (cid_ver (ct_id C))))
                       (Some (mkFbCstates (Some (ct_state_names C)) (Some ks))))
  | Err e => Err e
  | Panic => Panic
  end.

(** mod.rs:47-152.  [ord] is the iteration order of the contract's object set.
    [len as u16 - 1] panics when [len as u16] is 0 (overflow checks on). *)
Definition serialize (b : baseline) (s : ser) (c : contract_inst) (ord : list index)
  : outcome unit * ser :=
  match contract_data_of b (ci_handle c) with
  | Err e => (Err e, s)
  | Panic => (Panic, s)
  | Ok cd =>
      match ser_contract (ci_ty c) with
      | Err e => (Err e, s)
      | Panic => (Panic, s)
      | Ok fc =>
          let contracts := sr_contracts s ++ [fc] in
          let s1 := mkSer contracts (sr_states s) (sr_objects s) (hm_objects s)
                      (bm_insert index_eqb Nat.eqb (ci_handle c) (length (sr_contracts s)) (hm_contracts s))
                      (hm_cstates s) (hm_ostates s) in
          if N.eqb (as_u16 (length contracts)) 0 then (Panic, s1)
          else ser_objects b c (as_u16 (length contracts) - 1)%N s1 ord
      end
  end.

(** mod.rs:211-243 [rewrite_states!], for one handle type.  [t] is the type of
    the states in the map, [look] the handle map's index operator, [mk] builds
    the table.  The [debug_assert] is on. *)
Fixpoint rewrite_states (b : baseline) (t : ptype) (look : dynprop -> option nat) (mk : nat -> fbval)
    (pairs : list (index * nat)) (states : list (option fbval)) : outcome (list (option fbval)) :=
  match pairs with
  | [] => Ok states
  | (h, i) :: rest =>
      match state_get b t h with
      | Ok v =>
          match look v with
          | Some j =>
              match nth_error states i with
              | Some None => rewrite_states b t look mk rest (list_set states i (Some (mk j)))
              | _ => Panic                       (* debug_assert or index out of range *)
              end
          | None => Panic                        (* .expect("No such handle was serialized") *)
          end
      | _ => Panic                               (* .expect("Unexpectly had a missing handle") *)
      end
  end.
Definition look_contract (s : ser) (v : dynprop) : option nat :=
  match v with PPrim (VContractDataHandle h) => bm_left index_eqb h (hm_contracts s) | _ => None end.
Definition look_object (s : ser) (v : dynprop) : option nat :=
  match v with PPrim (VObjectHandle h) => bm_left index_eqb h (hm_objects s) | _ => None end.

Fixpoint all_some {A} (l : list (option A)) : option (list A) :=
  match l with
  | [] => Some []
  | Some x :: t => match all_some t with Some r => Some (x :: r) | None => None end
  | None :: _ => None
  end.

(** mod.rs:208-272.  [ordc], [ordo] are iteration orders of the two maps.
    [Ok None] is a buffer that still contains a dummy offset (its content is
    unspecified). *)
Definition ser_finish (b : baseline) (s : ser) (ordc ordo : list (index * nat))
  : outcome (option fb_baseline) :=
  match rewrite_states b (TPrim TContractDataHandle) (look_contract s)
          (fun j => FContractDataHandle (as_u16 j)) ordc (sr_states s) with
  | Ok st1 =>
      match rewrite_states b (TPrim TObjectHandle) (look_object s)
              (fun j => FObjectHandle (as_u32 j)) ordo st1 with
      | Ok st2 =>
          Ok match all_some st2 with
             | Some states => Some (mkFb (Some (sr_contracts s)) (Some states) (Some (sr_objects s)))
             | None => None
             end
      | _ => Panic
      end
  | _ => Panic
  end.

(** Serializing several contracts, one call each; stops at the first failure. *)
Fixpoint serialize_all (b : baseline) (s : ser) (l : list (contract_inst * list index))
  : outcome unit * ser :=
  match l with
  | [] => (Ok tt, s)
  | (c, ord) :: t =>
      match serialize b s c ord with
      | (Ok _, s1) => serialize_all b s1 t
      | r => r
      end
  end.
