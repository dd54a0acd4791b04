(** Common definitions for the model of constellation. *)
From Coq Require Strings.String.
From Coq Require Export List Arith NArith ZArith Bool Lia Permutation.
Export ListNotations.
Notation string := Coq.Strings.String.string.
Notation string_eqb := Coq.Strings.String.eqb.
Open Scope list_scope.
Open Scope nat_scope.

(** [eyre::Report] values are only ever distinguished by their message.  Each
    message produced by the modelled code is one constructor. *)
Inductive err : Type :=
| EContractAlreadyAdded        (* baseline.rs:70 *)
| ENoContractToUnregister      (* baseline.rs:81 *)
| EHandleContractMismatch      (* baseline.rs:84 *)
| ENoContractForHandle         (* baseline.rs:100 *)
| ENoSuchHandle                (* baseline.rs:110,116,245,259,270,284; handle.rs:34,45 *)
| ENoSuchContract              (* baseline.rs:132 *)
| EFieldTypeMismatch (i : nat) (* baseline.rs:147-150, with the field index *)
| EFieldCountMismatch          (* baseline.rs:155-157 *)
| EObjectDidNotExist           (* baseline.rs:197 *)
| ENoArena                     (* baseline.rs:241,255,266,280; handle.rs:30,41 *)
| EBindNoObject                (* baseline.rs:317,329 *)
| EIdWrongContract             (* object.rs:90,105 *)
| EIdOutOfBounds               (* object.rs:93,108 *)
| EInvalidHandle               (* engine.rs:111,125 *)
| EAssertFailed                (* engine.rs:116 *)
| EVectorsUnsupported          (* serializer/mod.rs:184 *)
| EBindFailed                  (* serializer/mod.rs:68 *)
| ENoContracts                 (* deserializer/new/mod.rs:192 *)
| ENoMatchingContract          (* deserializer/new/mod.rs:229 *)
| EObjMissingContract          (* deserializer/new/mod.rs:278 *)
| EObjWrongContract            (* deserializer/new/mod.rs:282 *)
| EObjStateCount               (* deserializer/new/mod.rs:291 *)
| ENoStates                    (* deserializer/new/mod.rs:306 *)
| EObjStateType (i : nat)      (* deserializer/new/mod.rs:321 *)
| EObjRefTracked               (* deserializer/new/states.rs:48 *)
| EStateTracked                (* deserializer/new/states.rs:37 *)
| EContractNotRegistered       (* deserializer/new/mod.rs:418 *)
| EDanglingObjectRef           (* deserializer/new/mod.rs:167-170 *)
| EReservedField               (* contract_macro/src/lib.rs:78-83 *)
| EOnlyStructs                 (* contract_macro/src/lib.rs:40-50 *)
| EOnlyNamed.                  (* contract_macro/src/lib.rs:59-64 *)

(** The result of running a Rust function: normal return, [Err(..)] return, or
    a panic.  After a panic no claim is made about the state. *)
Inductive outcome (A : Type) : Type :=
| Ok (a : A)
| Err (e : err)
| Panic.
Arguments Ok {A} a.
Arguments Err {A} e.
Arguments Panic {A}.

Definition is_ok {A} (o : outcome A) : bool :=
  match o with Ok _ => true | _ => false end.
Definition is_err {A} (o : outcome A) : bool :=
  match o with Err _ => true | _ => false end.
Definition is_panic {A} (o : outcome A) : bool :=
  match o with Panic => true | _ => false end.

(** The [?] operator. *)
Definition obind {A B} (o : outcome A) (f : A -> outcome B) : outcome B :=
  match o with
  | Ok a => f a
  | Err e => Err e
  | Panic => Panic
  end.

(** [Option::ok_or_else]. *)
Definition ok_or {A} (o : option A) (e : err) : outcome A :=
  match o with Some a => Ok a | None => Err e end.

(** [v[i] = x] on a vector (no effect if out of range; callers check). *)
Fixpoint list_set {A} (l : list A) (i : nat) (x : A) : list A :=
  match l, i with
  | [], _ => []
  | _ :: t, O => x :: t
  | h :: t, S j => h :: list_set t j x
  end.
