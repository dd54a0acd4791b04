(** Primitive types, property types and dynamically typed property values. *)
From Verif Require Export Base.

(** ** Arena indices

    crates/datastructures/arena/src/lib.rs:118-177, a wrapper around
    [generational_arena::Index { index: usize, generation: u64 }].  The phantom
    type parameter is dropped; the model passes the property type explicitly
    where the Rust code has a type argument.  The generation is an unbounded
    [N] (the real counter is a u64: the model departs from the code after 2^64
    removals from one arena). *)
Record index : Type := mkIndex { ix : nat; gen : N }.

Definition index_eqb (a b : index) : bool :=
  Nat.eqb (ix a) (ix b) && N.eqb (gen a) (gen b).

(** client/rust/src/contract/properties/dynamic/primitive.rs:13-29
    [TpPrimitiveType]. *)
Inductive prim : Type :=
| TU8 | TU16 | TU32 | TU64 | TI8 | TI16 | TI32 | TI64 | TBool | TF32 | TF64
| TString | TObjectHandle | TContractDataHandle.

(** client/rust/src/contract/properties/dynamic/mod.rs:22-26 [TpPropertyType]. *)
Inductive ptype : Type :=
| TVec (p : prim)
| TPrim (p : prim).

(** mod.rs:28-35 [TpPropertyType::primitive_type]. *)
Definition primitive_type (t : ptype) : prim :=
  match t with TVec p => p | TPrim p => p end.

(** Derived [PartialEq] on the two enums (primitive.rs:13, mod.rs:22). *)
Definition prim_eqb (a b : prim) : bool :=
  match a, b with
  | TU8, TU8 | TU16, TU16 | TU32, TU32 | TU64, TU64
  | TI8, TI8 | TI16, TI16 | TI32, TI32 | TI64, TI64
  | TBool, TBool | TF32, TF32 | TF64, TF64 | TString, TString
  | TObjectHandle, TObjectHandle
  | TContractDataHandle, TContractDataHandle => true
  | _, _ => false
  end.
Definition ptype_eqb (a b : ptype) : bool :=
  match a, b with
  | TVec p, TVec q => prim_eqb p q
  | TPrim p, TPrim q => prim_eqb p q
  | _, _ => false
  end.

(** ** Floats

    An [f32]/[f64] is its IEEE-754 bit pattern (a [Z] in [0,2^32) / [0,2^64)).
    [fkey] is the usual order-preserving key: [None] for NaN, otherwise the
    magnitude bits with the sign applied, so that -0.0 and 0.0 coincide.
    Rust's [==] and [partial_cmp] on floats are comparisons of keys. *)
Definition fkey (ebits mbits : Z) (b : Z) : option Z :=
  let mag := (b mod (2 ^ (ebits + mbits)))%Z in
  let neg := ((b / (2 ^ (ebits + mbits))) mod 2 =? 1)%Z in
  if ((2 ^ ebits - 1) * 2 ^ mbits <? mag)%Z then None
  else Some (if neg then (- mag)%Z else mag).

Definition f32_key : Z -> option Z := fkey 8 23.
Definition f64_key : Z -> option Z := fkey 11 52.

(** [PartialOrd::partial_cmp] on f64. *)
Definition f64_partial_cmp (a b : Z) : option comparison :=
  match f64_key a, f64_key b with
  | Some x, Some y => Some (Z.compare x y)
  | _, _ => None
  end.

Definition key_eqb (a b : option Z) : bool :=
  match a, b with
  | Some x, Some y => Z.eqb x y
  | _, _ => false
  end.

(** [PartialEq] on f32 and f64. *)
Definition f32_eqb (a b : Z) : bool := key_eqb (f32_key a) (f32_key b).
Definition f64_eqb (a b : Z) : bool := key_eqb (f64_key a) (f64_key b).

(** ** Values

    client/rust/src/contract/properties/dynamic/__macro.rs:2-22 and
    property.rs:12-16: [DynTpPrimitive] has one variant per primitive type.
    Integers are unbounded [Z] (their range is enforced by Rust's types and no
    modelled code does arithmetic on them here); a [String] is its byte
    string. *)
Inductive dynprim : Type :=
| VU8 (v : Z) | VU16 (v : Z) | VU32 (v : Z) | VU64 (v : Z)
| VI8 (v : Z) | VI16 (v : Z) | VI32 (v : Z) | VI64 (v : Z)
| VBool (v : bool) | VF32 (bits : Z) | VF64 (bits : Z)
| VString (s : string)
| VObjectHandle (h : index)
| VContractDataHandle (h : index).

(** __macro.rs:23-42 with [$t = Vec]: [DynTpVec]. *)
Inductive dynvec : Type :=
| WU8 (v : list Z) | WU16 (v : list Z) | WU32 (v : list Z) | WU64 (v : list Z)
| WI8 (v : list Z) | WI16 (v : list Z) | WI32 (v : list Z) | WI64 (v : list Z)
| WBool (v : list bool) | WF32 (v : list Z) | WF64 (v : list Z)
| WString (v : list string)
| WObjectHandle (v : list index)
| WContractDataHandle (v : list index).

(** __macro.rs:84-94: [DynTpProperty]. *)
Inductive dynprop : Type :=
| PPrim (p : dynprim)
| PVec (v : dynvec).

(** dynamic/primitive.rs:31-52 [DynTpPrimitive::prop_type]. *)
Definition dynprim_type (p : dynprim) : ptype :=
  match p with
  | VU8 _ => TPrim TU8 | VU16 _ => TPrim TU16
  | VU32 _ => TPrim TU32 | VU64 _ => TPrim TU64
  | VI8 _ => TPrim TI8 | VI16 _ => TPrim TI16
  | VI32 _ => TPrim TI32 | VI64 _ => TPrim TI64
  | VBool _ => TPrim TBool
  | VF32 _ => TPrim TF32 | VF64 _ => TPrim TF64
  | VString _ => TPrim TString
  | VObjectHandle _ => TPrim TObjectHandle
  | VContractDataHandle _ => TPrim TContractDataHandle
  end.

(** dynamic/vec.rs:11-30 [DynTpVec::prop_type]. *)
Definition dynvec_type (v : dynvec) : ptype :=
  match v with
  | WU8 _ => TVec TU8 | WU16 _ => TVec TU16
  | WU32 _ => TVec TU32 | WU64 _ => TVec TU64
  | WI8 _ => TVec TI8 | WI16 _ => TVec TI16
  | WI32 _ => TVec TI32 | WI64 _ => TVec TI64
  | WBool _ => TVec TBool
  | WF32 _ => TVec TF32 | WF64 _ => TVec TF64
  | WString _ => TVec TString
  | WObjectHandle _ => TVec TObjectHandle
  | WContractDataHandle _ => TVec TContractDataHandle
  end.

(** dynamic/property.rs:17-24 [DynTpProperty::prop_type]. *)
Definition prop_type (d : dynprop) : ptype :=
  match d with
  | PPrim p => dynprim_type p
  | PVec v => dynvec_type v
  end.

(** ** Equality of dynamic values

    Derived [PartialEq] on [DynTpPrimitive], [DynTpVec], [DynTpProperty]
    (property.rs:12-16 [derive(Clone, PartialEq)]) and on their borrowed
    versions (property.rs:35-133): same variant and [==] of the contents. *)
Fixpoint list_eqb {A} (eqb : A -> A -> bool) (a b : list A) : bool :=
  match a, b with
  | [], [] => true
  | x :: a', y :: b' => eqb x y && list_eqb eqb a' b'
  | _, _ => false
  end.

Definition dynprim_eqb (a b : dynprim) : bool :=
  match a, b with
  | VU8 x, VU8 y | VU16 x, VU16 y | VU32 x, VU32 y | VU64 x, VU64 y
  | VI8 x, VI8 y | VI16 x, VI16 y | VI32 x, VI32 y | VI64 x, VI64 y => Z.eqb x y
  | VBool x, VBool y => Bool.eqb x y
  | VF32 x, VF32 y => f32_eqb x y
  | VF64 x, VF64 y => f64_eqb x y
  | VString x, VString y => string_eqb x y
  | VObjectHandle x, VObjectHandle y
  | VContractDataHandle x, VContractDataHandle y => index_eqb x y
  | _, _ => false
  end.

Definition dynvec_eqb (a b : dynvec) : bool :=
  match a, b with
  | WU8 x, WU8 y | WU16 x, WU16 y | WU32 x, WU32 y | WU64 x, WU64 y
  | WI8 x, WI8 y | WI16 x, WI16 y | WI32 x, WI32 y | WI64 x, WI64 y =>
      list_eqb Z.eqb x y
  | WBool x, WBool y => list_eqb Bool.eqb x y
  | WF32 x, WF32 y => list_eqb f32_eqb x y
  | WF64 x, WF64 y => list_eqb f64_eqb x y
  | WString x, WString y => list_eqb string_eqb x y
  | WObjectHandle x, WObjectHandle y
  | WContractDataHandle x, WContractDataHandle y => list_eqb index_eqb x y
  | _, _ => false
  end.

Definition dynprop_eqb (a b : dynprop) : bool :=
  match a, b with
  | PPrim x, PPrim y => dynprim_eqb x y
  | PVec x, PVec y => dynvec_eqb x y
  | _, _ => false
  end.
