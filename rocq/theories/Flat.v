(** Flatbuffer tables, type tags and index maps.
    client/serialize/flatbuffers/*.fbs, client/serialize/rust/src/types/*.rs. *)
From Verif Require Export Types.
Open Scope nat_scope.

(** primitive.fbs:76-91 [enum TpPrimitiveKind: byte].  The generated Rust type
    is a newtype over i8, so a buffer may hold any byte. *)
Inductive fbkind : Type :=
| KU8 | KU16 | KU32 | KU64 | KI8 | KI16 | KI32 | KI64 | KBool | KF32 | KF64
| KString | KObjectHandle | KContractDataHandle
| KOther (n : Z).

(** primitive.fbs:58-73 [union TpPrimitive]: the discriminant, again any byte;
    0 is NONE. *)
Inductive fbtag : Type :=
| GNone | GU8 | GU16 | GU32 | GU64 | GI8 | GI16 | GI32 | GI64 | GBool | GF32 | GF64
| GFbString | GObjectHandle | GContractDataHandle
| GOther (n : Z).

(** state.fbs:6-8 with the union's table (primitive.fbs:8-55): a [State] in a
    verified buffer.  The verifier guarantees that a known discriminant comes
    with the table of that type; the string of an [FbString] is optional; an
    unknown discriminant is accepted. *)
Inductive fbval : Type :=
| FU8 (v : Z) | FU16 (v : Z) | FU32 (v : Z) | FU64 (v : Z)
| FI8 (v : Z) | FI16 (v : Z) | FI32 (v : Z) | FI64 (v : Z)
| FBool (v : bool) | FF32 (bits : Z) | FF64 (bits : Z)
| FFbString (v : option string)
| FObjectHandle (idx : N)
| FContractDataHandle (idx : N)
| FNone
| FOther (n : Z).

(** [State::p_type]. *)
Definition p_type (v : fbval) : fbtag :=
  match v with
  | FU8 _ => GU8 | FU16 _ => GU16 | FU32 _ => GU32 | FU64 _ => GU64
  | FI8 _ => GI8 | FI16 _ => GI16 | FI32 _ => GI32 | FI64 _ => GI64
  | FBool _ => GBool | FF32 _ => GF32 | FF64 _ => GF64
  | FFbString _ => GFbString
  | FObjectHandle _ => GObjectHandle
  | FContractDataHandle _ => GContractDataHandle
  | FNone => GNone
  | FOther n => GOther n
  end.

(** [TpPrimitive::variant_name].  NONE has a name, unknown tags have none. *)
Definition variant_named (g : fbtag) : bool :=
  match g with GOther _ => false | _ => true end.

(** contract.fbs:12-17. *)
Record fb_cid : Type := mkFbCid { fi_name : option string; fi_ver : N * N * N }.
(** contract.fbs:20-23. *)
Record fb_cstates : Type := mkFbCstates {
  fs_names : option (list string); fs_types : option (list fbkind) }.
(** contract.fbs:7-10. *)
Record fb_contract : Type := mkFbContract {
  fc_id : option fb_cid; fc_states : option fb_cstates }.
(** object.fbs:6-9; a [ContractDataHandle] / [StateHandle] table is its index
    (uint16 / uint32). *)
Record fb_object : Type := mkFbObject { fo_contract : option N; fo_states : option (list N) }.
(** baseline.fbs:7-11. *)
Record fb_baseline : Type := mkFb {
  fb_contracts : option (list fb_contract);
  fb_states : option (list fbval);
  fb_objects : option (list fb_object)
}.

(** ** Tag comparisons: types/eq_impl.rs *)

(** eq_impl.rs:3-26. *)
Definition kind_eq_ptype (k : fbkind) (t : ptype) : bool :=
  match k, t with
  | KU8, TPrim TU8 | KU16, TPrim TU16 | KU32, TPrim TU32 | KU64, TPrim TU64
  | KI8, TPrim TI8 | KI16, TPrim TI16 | KI32, TPrim TI32 | KI64, TPrim TI64
  | KBool, TPrim TBool | KF32, TPrim TF32 | KF64, TPrim TF64
  | KString, TPrim TString | KObjectHandle, TPrim TObjectHandle
  | KContractDataHandle, TPrim TContractDataHandle => true
  | _, _ => false
  end.
(** eq_impl.rs:27-31. *)
Definition ptype_eq_kind (t : ptype) (k : fbkind) : bool := kind_eq_ptype k t.

(** eq_impl.rs:33-57. *)
Definition tag_eq_ptype (g : fbtag) (t : ptype) : bool :=
  match g, t with
  | GU8, TPrim TU8 | GU16, TPrim TU16 | GU32, TPrim TU32 | GU64, TPrim TU64
  | GI8, TPrim TI8 | GI16, TPrim TI16 | GI32, TPrim TI32 | GI64, TPrim TI64
  | GBool, TPrim TBool | GF32, TPrim TF32 | GF64, TPrim TF64
  | GFbString, TPrim TString | GObjectHandle, TPrim TObjectHandle
  | GContractDataHandle, TPrim TContractDataHandle => true
  | _, _ => false
  end.
(** eq_impl.rs:58-62. *)
Definition ptype_eq_tag (t : ptype) (g : fbtag) : bool := tag_eq_ptype g t.

(** eq_impl.rs:64-84, as written: [(Self::U32, O::U64)] and no U64 arm. *)
Definition tag_eq_kind (g : fbtag) (k : fbkind) : bool :=
  match g, k with
  | GU8, KU8 | GU16, KU16 | GU32, KU64
  | GI8, KI8 | GI16, KI16 | GI32, KI32 | GI64, KI64
  | GBool, KBool | GF32, KF32 | GF64, KF64
  | GFbString, KString | GObjectHandle, KObjectHandle
  | GContractDataHandle, KContractDataHandle => true
  | _, _ => false
  end.
(** eq_impl.rs:85-89. *)
Definition kind_eq_tag (k : fbkind) (g : fbtag) : bool := tag_eq_kind g k.

(** types/from_impl.rs:3-24. *)
Definition kind_of_prim (p : prim) : fbkind :=
  match p with
  | TU8 => KU8 | TU16 => KU16 | TU32 => KU32 | TU64 => KU64
  | TI8 => KI8 | TI16 => KI16 | TI32 => KI32 | TI64 => KI64
  | TBool => KBool | TF32 => KF32 | TF64 => KF64
  | TString => KString | TObjectHandle => KObjectHandle
  | TContractDataHandle => KContractDataHandle
  end.

(** ** [bimap::BiHashMap], as a list of pairs (order not observable) *)
Section Bimap.
Context {A B : Type} (eqa : A -> A -> bool) (eqb : B -> B -> bool).
Definition bimap := list (A * B).
Definition bm_touches (a : A) (b : B) (p : A * B) : bool := eqa a (fst p) || eqb b (snd p).
(** [BiHashMap::insert] removes every pair sharing a side, then inserts. *)
Definition bm_insert (a : A) (b : B) (m : bimap) : bimap :=
  filter (fun p => negb (bm_touches a b p)) m ++ [(a, b)].
(** The insert overwrote nothing ([Overwritten::Neither]); also the success
    condition of [insert_no_overwrite]. *)
Definition bm_fresh (a : A) (b : B) (m : bimap) : bool := negb (existsb (bm_touches a b) m).
Definition bm_left (a : A) (m : bimap) : option B :=
  option_map snd (find (fun p => eqa a (fst p)) m).
Definition bm_right (b : B) (m : bimap) : option A :=
  option_map fst (find (fun p => eqb b (snd p)) m).
End Bimap.
