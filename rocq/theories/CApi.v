(** The C API: what a C (or C#) program sees.  client/rust/src/baseline.rs:376-521,
    contract/mod.rs:105-190, object.rs:117-145, contract/properties/states/mod.rs:54-129,
    states/{id,handle}.rs (the [c_api] modules), crates/rsharp/rust/src/{rbox,string}.rs
    and client/contract_example/rust/src/{lib,states}.rs.

    A native heap holds the boxes handed to the client; the client names them by
    pointers.  Using a pointer that does not denote what the function expects is
    undefined behaviour ([UB]); a Rust panic inside an exported function aborts the
    process ([Abort]: [ffi_export] stops unwinding at the boundary). *)
From Verif Require Export Baseline.
Import Coq.Strings.String.StringSyntax.
Open Scope string_scope.
Open Scope list_scope.
Open Scope nat_scope.

(** contract_example/rust/src/lib.rs:18-46, states.rs:20-31. *)
Definition Example : contract_ty :=
  mkCty (mkCid "teleportal.example-ffi-contract" (1%N, 2%N, 3%N))
        [TPrim TU8; TPrim TU8; TPrim TI8; TPrim TI8; TPrim TF32; TPrim TF32;
         TPrim TString; TPrim TObjectHandle; TPrim TContractDataHandle]
        ["u8_0"; "u8_1"; "i8_0"; "i8_1"; "f32_0"; "f32_1"; "str_0"; "oh_0"; "ch_0"] [] [].

(** The accessors [ExampleStates__u8_0] and so on (states.rs:33-85). *)
Inductive exfield : Type := U8_0 | U8_1 | I8_0 | I8_1 | F32_0 | F32_1 | Str_0 | Oh_0 | Ch_0.
Definition exfield_idx (f : exfield) : nat :=
  match f with
  | U8_0 => 0 | U8_1 => 1 | I8_0 => 2 | I8_1 => 3 | F32_0 => 4 | F32_1 => 5
  | Str_0 => 6 | Oh_0 => 7 | Ch_0 => 8
  end.
Definition exfield_prim (f : exfield) : prim :=
  match f with
  | U8_0 | U8_1 => TU8 | I8_0 | I8_1 => TI8 | F32_0 | F32_1 => TF32
  | Str_0 => TString | Oh_0 => TObjectHandle | Ch_0 => TContractDataHandle
  end.

(** What a box on the native heap holds.  [CVal] is a [Box<c_types::T>] for any of
    the fourteen primitive types (so also a boxed object or contract handle);
    [CBase] counts the calls that borrowed the baseline mutably; [CObjs] is the memory
    of a [repr_c::Vec] of object handles. *)
Inductive cell : Type :=
| CBase (b : baseline) (epoch : nat)
| CCon (c : contract_inst)
| CVal (v : dynprim)
| CSid (t : prim) (id : prop_id)
| CSh (t : prim) (h : index)
| CSt (t : prim) (v : dynprop)
| CObjs (l : list index).
(** Addresses are never reused. *)
Definition heap : Type := list (option cell).
Definition look (H : heap) (a : nat) : option cell :=
  match nth_error H a with Some (Some c) => Some c | _ => None end.
Definition alloc (H : heap) (c : cell) : nat * heap := (length H, H ++ [Some c]).
Definition free (H : heap) (a : nat) : heap := list_set H a None.
Definition put (H : heap) (a : nat) (c : cell) : heap := list_set H a (Some c).

(** Pointers: to a box, or into one: to a state of a baseline (with the epoch at
    which it was obtained and whether mutably), to the value of a state, to contract
    data and its id, to an object, to the fields of a contract, to an element of a vector. *)
Inductive ptr : Type :=
| PBox (a : nat)
| PState (a e : nat) (mut : bool) (t : prim) (h : index)
| PValue (p : ptr)
| PData (a e : nat) (h : index)
| PCid (a e : nat) (h : index)
| PObj (a e : nat) (o : index)
| PFields (a : nat)
| PElem (a i : nat).

(** Following pointers; [None] is undefined behaviour.  A pointer into a baseline is
    valid until the baseline is next borrowed mutably.  (Rust forbids more: a pointer
    obtained mutably also dies at the next shared borrow.  The model accepts such
    programs too; nothing moves in memory then.) *)
Definition base_at (H : heap) (p : ptr) : option (nat * baseline * nat) :=
  match p with
  | PBox a => match look H a with Some (CBase b e) => Some (a, b, e) | _ => None end
  | _ => None
  end.
Definition contract_at (H : heap) (p : ptr) : option contract_inst :=
  match p with
  | PBox a => match look H a with Some (CCon c) => Some c | _ => None end
  | _ => None
  end.
Definition borrowed (H : heap) (a e : nat) : option baseline :=
  match look H a with Some (CBase b e') => if Nat.eqb e e' then Some b else None | _ => None end.
Definition val_at (H : heap) (p : ptr) : option dynprim :=
  match p with
  | PBox a => match look H a with Some (CVal v) => Some v | _ => None end
  | PValue (PBox a) => match look H a with Some (CSt _ (PPrim v)) => Some v | _ => None end
  | PValue (PState a e _ t h) =>
      match borrowed H a e with
      | Some b => match state_get b (TPrim t) h with Ok (PPrim v) => Some v | _ => None end
      | None => None
      end
  | PElem a i =>
      match look H a with Some (CObjs l) => option_map VObjectHandle (nth_error l i) | _ => None end
  | _ => None
  end.
Definition obj_handle_at (H : heap) (p : ptr) : option index :=
  match val_at H p with Some (VObjectHandle h) => Some h | _ => None end.
Definition con_handle_at (H : heap) (p : ptr) : option index :=
  match val_at H p with Some (VContractDataHandle h) => Some h | _ => None end.
Definition sid_at (H : heap) (t : prim) (p : ptr) : option prop_id :=
  match p with
  | PBox a => match look H a with Some (CSid t' id) => if prim_eqb t t' then Some id else None | _ => None end
  | _ => None
  end.
Definition sh_at (H : heap) (t : prim) (p : ptr) : option index :=
  match p with
  | PBox a => match look H a with Some (CSh t' h) => if prim_eqb t t' then Some h else None | _ => None end
  | _ => None
  end.
(** A value box of type [t] given away by the client: its address and contents. *)
Definition owned_val (H : heap) (t : prim) (p : ptr) : option (nat * dynprim) :=
  match p with
  | PBox a => match look H a with
              | Some (CVal v) => if ptype_eqb (dynprim_type v) (TPrim t) then Some (a, v) else None
              | _ => None
              end
  | _ => None
  end.

Inductive ret : Type :=
| RUnit | RPtr (p : ptr) | RVal (v : dynprim) | RKind (k : baseline_kind)
| RName (s : string) | RVersion (v : N * N * N) | RVec (a n : nat).
Inductive result : Type :=
| Done (r : ret) (H : heap)
| Abort
| UB.

Definition new_box (H : heap) (c : cell) : result :=
  let '(a, H') := alloc H c in Done (RPtr (PBox a)) H'.

(** The exported functions (families of one function per primitive type [t]). *)
Inductive call : Type :=
| Baseline__new (k : baseline_kind)
| Baseline__drop (b : ptr)
| Baseline__kind (b : ptr)
| Baseline__contract_data (b h : ptr)
| Baseline__object (b o : ptr)
| Baseline__object_mut (b o : ptr)
| Baseline__state (t : prim) (b h : ptr)
| Baseline__state_mut (t : prim) (b h : ptr)
| Baseline__bind_state (t : prim) (b id o : ptr)
| ContractData__id (d : ptr)
| ContractId__name (i : ptr)
| ContractId__version (i : ptr)
| State__new (t : prim) (v : ptr)
| State__value (t : prim) (s : ptr)
| State__value_set (t : prim) (s v : ptr)
| StateId__contract (t : prim) (id : ptr)
| Box__new (v : dynprim)
| Drop (p : ptr)
| Load (p : ptr)
| ExampleContract__register (b : ptr)
| ExampleContract__handle (c : ptr)
| ExampleContract__states (c : ptr)
| ExampleStates__id (f : exfield) (s : ptr)
| ExampleContract__object_create (c b : ptr) (u8_0 u8_1 i8_0 i8_1 f32_0 f32_1 : Z) (str_0 oh_0 ch_0 : ptr)
| ExampleContract__object_remove (b o : ptr)
| Other__object_handle (o : index)
| ContractData__objects (d : ptr).

(** A state pointer: a state box, or into a baseline. *)
Definition state_ok (H : heap) (t : prim) (s : ptr) : bool :=
  match s with
  | PBox a => match look H a with Some (CSt t' _) => prim_eqb t t' | _ => false end
  | PState a e _ t' h =>
      prim_eqb t t' &&
      match borrowed H a e with
      | Some b => is_ok (state_get b (TPrim t) h)
      | None => false
      end
  | _ => false
  end.

Definition step (H : heap) (c : call) : result :=
  match c with
  (* baseline.rs:389-393 *)
  | Baseline__new k => new_box H (CBase (baseline_new k) 0)
  (* baseline.rs:395-399 *)
  | Baseline__drop p =>
      match base_at H p with Some (a, _, _) => Done RUnit (free H a) | None => UB end
  (* baseline.rs:401-405 *)
  | Baseline__kind p =>
      match base_at H p with Some (_, b, _) => Done (RKind (b_kind b)) H | None => UB end
  (* baseline.rs:407-414 *)
  | Baseline__contract_data p hp =>
      match base_at H p, con_handle_at H hp with
      | Some (a, b, e), Some h =>
          match contract_data_of b h with Ok _ => Done (RPtr (PData a e h)) H | _ => Abort end
      | _, _ => UB
      end
  (* baseline.rs:418-422 *)
  | Baseline__object p op =>
      match base_at H p, obj_handle_at H op with
      | Some (a, b, e), Some o =>
          match object_of b o with Ok _ => Done (RPtr (PObj a e o)) H | _ => Abort end
      | _, _ => UB
      end
  (* baseline.rs:424-431 *)
  | Baseline__object_mut p op =>
      match base_at H p, obj_handle_at H op with
      | Some (a, b, e), Some o =>
          match object_of b o with
          | Ok _ => Done (RPtr (PObj a (S e) o)) (put H a (CBase b (S e)))
          | _ => Abort
          end
      | _, _ => UB
      end
  (* baseline.rs:449-457 *)
  | Baseline__state t p hp =>
      match base_at H p, sh_at H t hp with
      | Some (a, b, e), Some h =>
          match state_get b (TPrim t) h with Ok _ => Done (RPtr (PState a e false t h)) H | _ => Abort end
      | _, _ => UB
      end
  (* baseline.rs:459-467 *)
  | Baseline__state_mut t p hp =>
      match base_at H p, sh_at H t hp with
      | Some (a, b, e), Some h =>
          match state_get b (TPrim t) h with
          | Ok _ => Done (RPtr (PState a (S e) true t h)) (put H a (CBase b (S e)))
          | _ => Abort
          end
      | _, _ => UB
      end
  (* baseline.rs:489-498 *)
  | Baseline__bind_state t p idp op =>
      match base_at H p, sid_at H t idp, obj_handle_at H op with
      | Some (_, b, _), Some id, Some o =>
          match bind_state b id o with Ok h => new_box H (CSh t h) | _ => Abort end
      | _, _, _ => UB
      end
  (* contract/mod.rs:143-147 *)
  | ContractData__id (PData a e h) =>
      match borrowed H a e with
      | Some b => match contract_data_of b h with Ok _ => Done (RPtr (PCid a e h)) H | _ => UB end
      | None => UB
      end
  | ContractData__id _ => UB
  (* contract/mod.rs:161-165 *)
  | ContractId__name (PCid a e h) =>
      match borrowed H a e with
      | Some b => match contract_data_of b h with Ok cd => Done (RName (cid_name (cd_id cd))) H | _ => UB end
      | None => UB
      end
  | ContractId__name _ => UB
  (* contract/mod.rs:167-190 *)
  | ContractId__version (PCid a e h) =>
      match borrowed H a e with
      | Some b => match contract_data_of b h with Ok cd => Done (RVersion (cid_ver (cd_id cd))) H | _ => UB end
      | None => UB
      end
  | ContractId__version _ => UB
  (* states/mod.rs:88-93: the box is emptied and freed *)
  | State__new t vp =>
      match owned_val H t vp with
      | Some (a, v) => new_box (free H a) (CSt t (PPrim v))
      | None => UB
      end
  (* states/mod.rs:101-105 *)
  | State__value t s => if state_ok H t s then Done (RPtr (PValue s)) H else UB
  (* states/mod.rs:107-112; a pointer obtained by a shared borrow must not be
     written through *)
  | State__value_set t s vp =>
      if negb (state_ok H t s) then UB
      else
        match owned_val H t vp, s with
        | Some (a, v), PBox sa => Done RUnit (free (put H sa (CSt t (PPrim v))) a)
        | Some (a, v), PState ba e true _ h =>
            match borrowed H ba e with
            | Some b =>
                match state_set b h (PPrim v) with
                | (Ok _, b') => Done RUnit (free (put H ba (CBase b' e)) a)
                | _ => UB
                end
            | None => UB
            end
        | _, _ => UB
        end
  (* states/id.rs:76-80 *)
  | StateId__contract t p =>
      match sid_at H t p with
      | Some id => new_box H (CVal (VContractDataHandle (pid_contract id)))
      | None => UB
      end
  (* rbox.rs:14-18; a boxed string comes from [String__copy_utf8] (Text.v) *)
  | Box__new v =>
      match v with
      | VObjectHandle _ | VContractDataHandle _ => UB     (* no such function *)
      | _ => new_box H (CVal v)
      end
  (* the [__drop] function of every boxed type but [Baseline]; there is none for the
     vector of [ContractData__objects] *)
  | Drop (PBox a) =>
      match look H a with
      | Some (CBase _ _) | Some (CObjs _) | None => UB
      | Some _ => Done RUnit (free H a)
      end
  | Drop _ => UB
  (* the client reads through a [const T*]; for strings through [String__value] *)
  | Load p => match val_at H p with Some v => Done (RVal v) H | None => UB end
  (* contract_example/rust/src/lib.rs:117-126 *)
  | ExampleContract__register p =>
      match base_at H p with
      | Some (a, b, e) =>
          match register_contract b Example with
          | (Ok c, b') => new_box (put H a (CBase b' (S e))) (CCon c)
          | _ => Abort
          end
      | None => UB
      end
  (* lib.rs:62-66 *)
  | ExampleContract__handle p =>
      match contract_at H p with
      | Some c => new_box H (CVal (VContractDataHandle (ci_handle c)))
      | None => UB
      end
  (* lib.rs:68-72 *)
  | ExampleContract__states p =>
      match p, contract_at H p with
      | PBox a, Some _ => Done (RPtr (PFields a)) H
      | _, _ => UB
      end
  (* states.rs:33-85 *)
  | ExampleStates__id f (PFields a) =>
      match contract_at H (PBox a) with
      | Some c => new_box H (CSid (exfield_prim f) (mkPid (TPrim (exfield_prim f)) (exfield_idx f) (ci_handle c)))
      | None => UB
      end
  | ExampleStates__id _ _ => UB
  (* lib.rs:74-104 *)
  | ExampleContract__object_create cp p u0 u1 i0 i1 f0 f1 sp op chp =>
      match contract_at H cp, base_at H p,
            owned_val H TString sp, owned_val H TObjectHandle op, owned_val H TContractDataHandle chp with
      | Some c, Some (a, b, e), Some (sa, s), Some (oa, oh), Some (ca, ch) =>
          match object_create b c
                  [PPrim (VU8 u0); PPrim (VU8 u1); PPrim (VI8 i0); PPrim (VI8 i1);
                   PPrim (VF32 f0); PPrim (VF32 f1); PPrim s; PPrim oh; PPrim ch] [] with
          | (Ok o, b') =>
              new_box (free (free (free (put H a (CBase b' (S e))) sa) oa) ca) (CVal (VObjectHandle o))
          | _ => Abort
          end
      | _, _, _, _, _ => UB
      end
  (* lib.rs:106-115 *)
  | ExampleContract__object_remove p op =>
      match base_at H p, owned_val H TObjectHandle op with
      | Some (a, b, e), Some (oa, VObjectHandle o) =>
          match object_remove b Example o with
          | (Ok _, b') => Done RUnit (free (put H a (CBase b' (S e))) oa)
          | _ => Abort
          end
      | _, _ => UB
      end
  (* Not a function of this library: a boxed object handle returned by another
     library's [*__object_create] (such as [BallContract__object_create] of the Unity
     demo, demos/unity_states) for a baseline of that library.  Its value is
     arbitrary.  Without one no Example object can be created at all: see
     [C44_no_first_object_refuted]. *)
  | Other__object_handle o => new_box H (CVal (VObjectHandle o))
  (* contract/mod.rs:149-159: a vector made for the caller, returned as pointer and
     length.  The order is that of a hash set; here that of the list. *)
  | ContractData__objects (PData a e h) =>
      match borrowed H a e with
      | Some b =>
          match contract_data_of b h with
          | Ok cd => Done (RVec (length H) (length (cd_objects cd))) (H ++ [Some (CObjs (cd_objects cd))])
          | _ => UB
          end
      | None => UB
      end
  | ContractData__objects _ => UB
  end.

(** A client program run to some point: the heaps it can meet. *)
Inductive reaches : heap -> Prop :=
| reaches_start : reaches []
| reaches_step H c r H' : reaches H -> step H c = Done r H' -> reaches H'.
