(** Conversions and comparisons between static and dynamic property values.
    client/rust/src/contract/properties/{traits.rs, dynamic/*.rs}. *)
From Verif Require Export Types.

(** traits.rs:14-54 [ITpData]: the Rust type of each primitive type (same value
    representation as in Types.v). *)
Definition rprim (p : prim) : Type :=
  match p with
  | TU8 | TU16 | TU32 | TU64 | TI8 | TI16 | TI32 | TI64 => Z
  | TBool => bool
  | TF32 | TF64 => Z
  | TString => string
  | TObjectHandle | TContractDataHandle => index
  end.

(** traits.rs:74-97 [ITpPropertyStatic]: [T] itself or [Vec<T>]. *)
Definition rtype (t : ptype) : Type :=
  match t with TPrim p => rprim p | TVec p => list (rprim p) end.

(** [PartialEq] of each primitive Rust type. *)
Definition rprim_eqb (p : prim) : rprim p -> rprim p -> bool :=
  match p with
  | TU8 | TU16 | TU32 | TU64 | TI8 | TI16 | TI32 | TI64 => Z.eqb
  | TBool => Bool.eqb
  | TF32 => f32_eqb
  | TF64 => f64_eqb
  | TString => string_eqb
  | TObjectHandle | TContractDataHandle => index_eqb
  end.
Definition rtype_eqb (t : ptype) : rtype t -> rtype t -> bool :=
  match t with TPrim p => rprim_eqb p | TVec p => list_eqb (rprim_eqb p) end.

(** dynamic/__macro.rs:4 [derive(From)] on [DynTpPrimitive]. *)
Definition prim_from (p : prim) : rprim p -> dynprim :=
  match p with
  | TU8 => VU8 | TU16 => VU16 | TU32 => VU32 | TU64 => VU64
  | TI8 => VI8 | TI16 => VI16 | TI32 => VI32 | TI64 => VI64
  | TBool => VBool | TF32 => VF32 | TF64 => VF64 | TString => VString
  | TObjectHandle => VObjectHandle | TContractDataHandle => VContractDataHandle
  end.
(** __macro.rs:25 [derive(From)] on [DynTpVec]. *)
Definition vec_from (p : prim) : list (rprim p) -> dynvec :=
  match p with
  | TU8 => WU8 | TU16 => WU16 | TU32 => WU32 | TU64 => WU64
  | TI8 => WI8 | TI16 => WI16 | TI32 => WI32 | TI64 => WI64
  | TBool => WBool | TF32 => WF32 | TF64 => WF64 | TString => WString
  | TObjectHandle => WObjectHandle | TContractDataHandle => WContractDataHandle
  end.
(** dynamic/from_impls.rs:40-44 and 58-62. *)
Definition dyn_from (t : ptype) : rtype t -> dynprop :=
  match t with
  | TPrim p => fun x => PPrim (prim_from p x)
  | TVec p => fun x => PVec (vec_from p x)
  end.

(** [derive(TryInto)] on [DynTpPrimitive]: one variant per type. *)
Definition prim_try_into (p : prim) (d : dynprim) : option (rprim p) :=
  match p, d with
  | TU8, VU8 x => Some x | TU16, VU16 x => Some x
  | TU32, VU32 x => Some x | TU64, VU64 x => Some x
  | TI8, VI8 x => Some x | TI16, VI16 x => Some x
  | TI32, VI32 x => Some x | TI64, VI64 x => Some x
  | TBool, VBool x => Some x
  | TF32, VF32 x => Some x | TF64, VF64 x => Some x
  | TString, VString x => Some x
  | TObjectHandle, VObjectHandle x => Some x
  | TContractDataHandle, VContractDataHandle x => Some x
  | _, _ => None
  end.
Definition vec_try_into (p : prim) (d : dynvec) : option (list (rprim p)) :=
  match p, d with
  | TU8, WU8 x => Some x | TU16, WU16 x => Some x
  | TU32, WU32 x => Some x | TU64, WU64 x => Some x
  | TI8, WI8 x => Some x | TI16, WI16 x => Some x
  | TI32, WI32 x => Some x | TI64, WI64 x => Some x
  | TBool, WBool x => Some x
  | TF32, WF32 x => Some x | TF64, WF64 x => Some x
  | TString, WString x => Some x
  | TObjectHandle, WObjectHandle x => Some x
  | TContractDataHandle, WContractDataHandle x => Some x
  | _, _ => None
  end.
(** [DynTpProperty -> DynTpPrimitive/DynTpVec -> T] by two [try_into]s. *)
Definition try_into_prim (d : dynprop) : option dynprim :=
  match d with PPrim p => Some p | PVec _ => None end.
Definition try_into_vec (d : dynprop) : option dynvec :=
  match d with PVec v => Some v | PPrim _ => None end.
Definition try_into (t : ptype) (d : dynprop) : option (rtype t) :=
  match t with
  | TPrim p => match try_into_prim d with Some x => prim_try_into p x | None => None end
  | TVec p => match try_into_vec d with Some x => vec_try_into p x | None => None end
  end.

(** dynamic/primitive.rs:60-78 [PartialEq<$t> for DynTpPrimitive] and the
    converse: [if let Self::$T(inner) = self { inner == other } else { false }]. *)
Definition prim_eq_static (p : prim) (d : dynprim) (x : rprim p) : bool :=
  match prim_try_into p d with Some y => rprim_eqb p y x | None => false end.
Definition static_eq_prim (p : prim) (x : rprim p) (d : dynprim) : bool :=
  match prim_try_into p d with Some y => rprim_eqb p x y | None => false end.
(** dynamic/vec.rs:36-76, [Vec<$t>] and [&[$t]]. *)
Definition vec_eq_static (p : prim) (d : dynvec) (x : list (rprim p)) : bool :=
  match vec_try_into p d with Some y => list_eqb (rprim_eqb p) y x | None => false end.
Definition static_eq_vec (p : prim) (x : list (rprim p)) (d : dynvec) : bool :=
  match vec_try_into p d with Some y => list_eqb (rprim_eqb p) x y | None => false end.
(** dynamic/eq_impls.rs:7-44 and 50-68 (the latter delegate to [other == self]). *)
Definition dyn_eq_static (t : ptype) : dynprop -> rtype t -> bool :=
  match t with
  | TPrim p => fun d x => match d with PPrim q => prim_eq_static p q x | PVec _ => false end
  | TVec p => fun d x => match d with PVec q => vec_eq_static p q x | PPrim _ => false end
  end.
Definition static_eq_dyn (t : ptype) (x : rtype t) (d : dynprop) : bool := dyn_eq_static t d x.

(** property.rs:35-133: borrowed values; [&'a T] / [&'a [T]] per variant. *)
Inductive dynref : Type :=
| RefPrim (p : prim) (x : rprim p)
| RefVec (p : prim) (x : list (rprim p)).

(** property.rs:88-130 [prop_type] of the borrowed enums. *)
Definition ref_type (r : dynref) : ptype :=
  match r with RefPrim p _ => TPrim p | RefVec p _ => TVec p end.

(** borrow_impls.rs:9-38 [BBorrow::borrow], also [From<&DynTpProperty>]
    (from_impls.rs:11-15). *)
Definition borrow_prim (d : dynprim) : dynref :=
  match d with
  | VU8 x => RefPrim TU8 x | VU16 x => RefPrim TU16 x
  | VU32 x => RefPrim TU32 x | VU64 x => RefPrim TU64 x
  | VI8 x => RefPrim TI8 x | VI16 x => RefPrim TI16 x
  | VI32 x => RefPrim TI32 x | VI64 x => RefPrim TI64 x
  | VBool x => RefPrim TBool x
  | VF32 x => RefPrim TF32 x | VF64 x => RefPrim TF64 x
  | VString x => RefPrim TString x
  | VObjectHandle x => RefPrim TObjectHandle x
  | VContractDataHandle x => RefPrim TContractDataHandle x
  end.
Definition borrow_vec (d : dynvec) : dynref :=
  match d with
  | WU8 x => RefVec TU8 x | WU16 x => RefVec TU16 x
  | WU32 x => RefVec TU32 x | WU64 x => RefVec TU64 x
  | WI8 x => RefVec TI8 x | WI16 x => RefVec TI16 x
  | WI32 x => RefVec TI32 x | WI64 x => RefVec TI64 x
  | WBool x => RefVec TBool x
  | WF32 x => RefVec TF32 x | WF64 x => RefVec TF64 x
  | WString x => RefVec TString x
  | WObjectHandle x => RefVec TObjectHandle x
  | WContractDataHandle x => RefVec TContractDataHandle x
  end.
Definition borrow (d : dynprop) : dynref :=
  match d with PPrim p => borrow_prim p | PVec v => borrow_vec v end.

(** from_impls.rs:46-50, 64-68: borrowing a static value. *)
Definition ref_from (t : ptype) : rtype t -> dynref :=
  match t with TPrim p => RefPrim p | TVec p => RefVec p end.

(** Derived [PartialEq] on the borrowed enums (property.rs:35-77,112). *)
Definition ref_eqb (a b : dynref) : bool :=
  match a, b with
  | RefPrim p x, RefPrim q y =>
      dynprim_eqb (prim_from p x) (prim_from q y)
  | RefVec p x, RefVec q y => dynvec_eqb (vec_from p x) (vec_from q y)
  | _, _ => false
  end.
