(** The enums the macro [DynEnum!] makes for a container type: dynamic state and
    channel handles and ids.  client/rust/src/contract/properties/dynamic/__macro.rs.

    [StateHandle<T>], [ChannelHandle<T>], [StateId<T>] and [ChannelId<T>] hold no
    value of type [T] (a phantom type), so the payload type [A] does not depend
    on the variant. *)
From Verif Require Export Views Contract.

(** __macro.rs:23-42: [$t<u8>] and so on. *)
Inductive enum_prim (A : Type) : Type :=
| EU8 (a : A) | EU16 (a : A) | EU32 (a : A) | EU64 (a : A)
| EI8 (a : A) | EI16 (a : A) | EI32 (a : A) | EI64 (a : A)
| EBool (a : A) | EF32 (a : A) | EF64 (a : A) | EString (a : A)
| EObjectHandle (a : A) | EContractDataHandle (a : A).
Arguments EU8 {A}. Arguments EU16 {A}. Arguments EU32 {A}. Arguments EU64 {A}.
Arguments EI8 {A}. Arguments EI16 {A}. Arguments EI32 {A}. Arguments EI64 {A}.
Arguments EBool {A}. Arguments EF32 {A}. Arguments EF64 {A}. Arguments EString {A}.
Arguments EObjectHandle {A}. Arguments EContractDataHandle {A}.
(** __macro.rs:43-62: [$outer<Vec<u8>>] and so on. *)
Inductive enum_vec (A : Type) : Type :=
| FU8 (a : A) | FU16 (a : A) | FU32 (a : A) | FU64 (a : A)
| FI8 (a : A) | FI16 (a : A) | FI32 (a : A) | FI64 (a : A)
| FBool (a : A) | FF32 (a : A) | FF64 (a : A) | FString (a : A)
| FObjectHandle (a : A) | FContractDataHandle (a : A).
Arguments FU8 {A}. Arguments FU16 {A}. Arguments FU32 {A}. Arguments FU64 {A}.
Arguments FI8 {A}. Arguments FI16 {A}. Arguments FI32 {A}. Arguments FI64 {A}.
Arguments FBool {A}. Arguments FF32 {A}. Arguments FF64 {A}. Arguments FString {A}.
Arguments FObjectHandle {A}. Arguments FContractDataHandle {A}.
(** __macro.rs:71-83. *)
Inductive dyn_enum (A : Type) : Type :=
| EPrim (e : enum_prim A)
| EVec (e : enum_vec A).
Arguments EPrim {A}. Arguments EVec {A}.

(** [derive(From)]: the variant of the type argument; states/dyn_handle.rs:97-124
    goes through both levels. *)
Definition enum_from {A} (t : ptype) (a : A) : dyn_enum A :=
  match t with
  | TPrim p =>
      EPrim match p with
            | TU8 => EU8 a | TU16 => EU16 a | TU32 => EU32 a | TU64 => EU64 a
            | TI8 => EI8 a | TI16 => EI16 a | TI32 => EI32 a | TI64 => EI64 a
            | TBool => EBool a | TF32 => EF32 a | TF64 => EF64 a | TString => EString a
            | TObjectHandle => EObjectHandle a | TContractDataHandle => EContractDataHandle a
            end
  | TVec p =>
      EVec match p with
           | TU8 => FU8 a | TU16 => FU16 a | TU32 => FU32 a | TU64 => FU64 a
           | TI8 => FI8 a | TI16 => FI16 a | TI32 => FI32 a | TI64 => FI64 a
           | TBool => FBool a | TF32 => FF32 a | TF64 => FF64 a | TString => FString a
           | TObjectHandle => FObjectHandle a | TContractDataHandle => FContractDataHandle a
           end
  end.

(** __macro.rs:165-211 [apply_to_dyn!]: the closure is called with the payload, at
    the type of the variant. *)
Definition apply_to_dyn {A B} (e : dyn_enum A) (f : ptype -> A -> B) : B :=
  match e with
  | EPrim s =>
      match s with
      | EU8 a => f (TPrim TU8) a | EU16 a => f (TPrim TU16) a
      | EU32 a => f (TPrim TU32) a | EU64 a => f (TPrim TU64) a
      | EI8 a => f (TPrim TI8) a | EI16 a => f (TPrim TI16) a
      | EI32 a => f (TPrim TI32) a | EI64 a => f (TPrim TI64) a
      | EBool a => f (TPrim TBool) a
      | EF32 a => f (TPrim TF32) a | EF64 a => f (TPrim TF64) a
      | EString a => f (TPrim TString) a
      | EObjectHandle a => f (TPrim TObjectHandle) a
      | EContractDataHandle a => f (TPrim TContractDataHandle) a
      end
  | EVec s =>
      match s with
      | FU8 a => f (TVec TU8) a | FU16 a => f (TVec TU16) a
      | FU32 a => f (TVec TU32) a | FU64 a => f (TVec TU64) a
      | FI8 a => f (TVec TI8) a | FI16 a => f (TVec TI16) a
      | FI32 a => f (TVec TI32) a | FI64 a => f (TVec TI64) a
      | FBool a => f (TVec TBool) a
      | FF32 a => f (TVec TF32) a | FF64 a => f (TVec TF64) a
      | FString a => f (TVec TString) a
      | FObjectHandle a => f (TVec TObjectHandle) a
      | FContractDataHandle a => f (TVec TContractDataHandle) a
      end
  end.

(** states/dyn_handle.rs:69-91, channels/dyn_handle.rs:66-88 [prop_type]. *)
Definition enum_type {A} (e : dyn_enum A) : ptype :=
  match e with
  | EPrim s =>
      TPrim match s with
            | EU8 _ => TU8 | EU16 _ => TU16 | EU32 _ => TU32 | EU64 _ => TU64
            | EI8 _ => TI8 | EI16 _ => TI16 | EI32 _ => TI32 | EI64 _ => TI64
            | EBool _ => TBool | EF32 _ => TF32 | EF64 _ => TF64 | EString _ => TString
            | EObjectHandle _ => TObjectHandle | EContractDataHandle _ => TContractDataHandle
            end
  | EVec s =>
      TVec match s with
           | FU8 _ => TU8 | FU16 _ => TU16 | FU32 _ => TU32 | FU64 _ => TU64
           | FI8 _ => TI8 | FI16 _ => TI16 | FI32 _ => TI32 | FI64 _ => TI64
           | FBool _ => TBool | FF32 _ => TF32 | FF64 _ => TF64 | FString _ => TString
           | FObjectHandle _ => TObjectHandle | FContractDataHandle _ => TContractDataHandle
           end
  end.

(** [derive(TryInto)]: the payload if the variant is that of the type. *)
Definition enum_try_into {A} (t : ptype) (e : dyn_enum A) : option A :=
  match t, e with
  | TPrim p, EPrim s =>
      match p, s with
      | TU8, EU8 a | TU16, EU16 a | TU32, EU32 a | TU64, EU64 a
      | TI8, EI8 a | TI16, EI16 a | TI32, EI32 a | TI64, EI64 a
      | TBool, EBool a | TF32, EF32 a | TF64, EF64 a | TString, EString a
      | TObjectHandle, EObjectHandle a | TContractDataHandle, EContractDataHandle a => Some a
      | _, _ => None
      end
  | TVec p, EVec s =>
      match p, s with
      | TU8, FU8 a | TU16, FU16 a | TU32, FU32 a | TU64, FU64 a
      | TI8, FI8 a | TI16, FI16 a | TI32, FI32 a | TI64, FI64 a
      | TBool, FBool a | TF32, FF32 a | TF64, FF64 a | TString, FString a
      | TObjectHandle, FObjectHandle a | TContractDataHandle, FContractDataHandle a => Some a
      | _, _ => None
      end
  | _, _ => None
  end.

(** [derive(PartialEq)] (states/dyn_handle.rs:15, channels/dyn_handle.rs:10): same
    variant, equal payloads ([arena::Index]'s [PartialEq]). *)
Definition enum_prim_eqb {A} (eq : A -> A -> bool) (x y : enum_prim A) : bool :=
  match x, y with
  | EU8 a, EU8 b | EU16 a, EU16 b | EU32 a, EU32 b | EU64 a, EU64 b
  | EI8 a, EI8 b | EI16 a, EI16 b | EI32 a, EI32 b | EI64 a, EI64 b
  | EBool a, EBool b | EF32 a, EF32 b | EF64 a, EF64 b | EString a, EString b
  | EObjectHandle a, EObjectHandle b | EContractDataHandle a, EContractDataHandle b => eq a b
  | _, _ => false
  end.
Definition enum_vec_eqb {A} (eq : A -> A -> bool) (x y : enum_vec A) : bool :=
  match x, y with
  | FU8 a, FU8 b | FU16 a, FU16 b | FU32 a, FU32 b | FU64 a, FU64 b
  | FI8 a, FI8 b | FI16 a, FI16 b | FI32 a, FI32 b | FI64 a, FI64 b
  | FBool a, FBool b | FF32 a, FF32 b | FF64 a, FF64 b | FString a, FString b
  | FObjectHandle a, FObjectHandle b | FContractDataHandle a, FContractDataHandle b => eq a b
  | _, _ => false
  end.
Definition enum_eqb {A} (eq : A -> A -> bool) (x y : dyn_enum A) : bool :=
  match x, y with
  | EPrim a, EPrim b => enum_prim_eqb eq a b
  | EVec a, EVec b => enum_vec_eqb eq a b
  | _, _ => false
  end.

(** states/dyn_handle.rs:21-31 [DynStateHandle::get]. *)
Definition state_handle_get (b : baseline) (e : dyn_enum index) : outcome dynref :=
  apply_to_dyn e (fun t h =>
    match state_get b t h with
    | Ok d => match try_into t d with
              | Some x => Ok (ref_from t x)
              | None => Panic (* not of the arena's type: cannot happen *)
              end
    | Err e => Err e
    | Panic => Panic
    end).
(** states/dyn_handle.rs:33-66: [match_helper!] lists the same 28 cases. *)
Definition state_handle_get_mut (b : baseline) (e : dyn_enum index) : outcome view :=
  apply_to_dyn e (fun t h => state_mut b (mkDh t h)).

(** dyn_channel/mod.rs: [DynChannelRef] is a reference to a channel in the variant
    of its type. *)
Inductive chan_ref : Type := ChanRef (t : ptype) (c : channel).
(** dyn_channel/mod.rs:88-126 [prop_type]. *)
Definition chan_ref_type (r : chan_ref) : ptype := match r with ChanRef t _ => t end.
(** channels/dyn_handle.rs:20-29, dyn_channel/from_impls.rs:10-32. *)
Definition channel_handle_get (b : baseline) (e : dyn_enum index) : outcome chan_ref :=
  apply_to_dyn e (fun t h => omap (ChanRef t) (channel_get b t h)).

(** __macro.rs:105-161 [DynTpPropId::new]; [StateId::new(idx, contract)]
    (states/id.rs:33-39, channels/mod.rs:65-71): a table of its own. *)
Definition prop_id_new (contract : index) (idx : nat) (typ : ptype) : dyn_enum prop_id :=
  match typ with
  | TPrim dt =>
      EPrim match dt with
            | TU8 => EU8 (mkPid (TPrim TU8) idx contract)
            | TU16 => EU16 (mkPid (TPrim TU16) idx contract)
            | TU32 => EU32 (mkPid (TPrim TU32) idx contract)
            | TU64 => EU64 (mkPid (TPrim TU64) idx contract)
            | TI8 => EI8 (mkPid (TPrim TI8) idx contract)
            | TI16 => EI16 (mkPid (TPrim TI16) idx contract)
            | TI32 => EI32 (mkPid (TPrim TI32) idx contract)
            | TI64 => EI64 (mkPid (TPrim TI64) idx contract)
            | TBool => EBool (mkPid (TPrim TBool) idx contract)
            | TF32 => EF32 (mkPid (TPrim TF32) idx contract)
            | TF64 => EF64 (mkPid (TPrim TF64) idx contract)
            | TString => EString (mkPid (TPrim TString) idx contract)
            | TObjectHandle => EObjectHandle (mkPid (TPrim TObjectHandle) idx contract)
            | TContractDataHandle => EContractDataHandle (mkPid (TPrim TContractDataHandle) idx contract)
            end
  | TVec dt =>
      EVec match dt with
           | TU8 => FU8 (mkPid (TVec TU8) idx contract)
           | TU16 => FU16 (mkPid (TVec TU16) idx contract)
           | TU32 => FU32 (mkPid (TVec TU32) idx contract)
           | TU64 => FU64 (mkPid (TVec TU64) idx contract)
           | TI8 => FI8 (mkPid (TVec TI8) idx contract)
           | TI16 => FI16 (mkPid (TVec TI16) idx contract)
           | TI32 => FI32 (mkPid (TVec TI32) idx contract)
           | TI64 => FI64 (mkPid (TVec TI64) idx contract)
           | TBool => FBool (mkPid (TVec TBool) idx contract)
           | TF32 => FF32 (mkPid (TVec TF32) idx contract)
           | TF64 => FF64 (mkPid (TVec TF64) idx contract)
           | TString => FString (mkPid (TVec TString) idx contract)
           | TObjectHandle => FObjectHandle (mkPid (TVec TObjectHandle) idx contract)
           | TContractDataHandle => FContractDataHandle (mkPid (TVec TContractDataHandle) idx contract)
           end
  end.
(** contract/mod.rs:58-71 [state_id], [chan_id] with the enum. *)
Definition dyn_state_id (c : contract_inst) (i : nat) : option (dyn_enum prop_id) :=
  option_map (prop_id_new (ci_handle c) i) (nth_error (ct_states (ci_ty c)) i).
Definition dyn_chan_id (c : contract_inst) (i : nat) : option (dyn_enum prop_id) :=
  option_map (prop_id_new (ci_handle c) i) (nth_error (ct_chans (ci_ty c)) i).
