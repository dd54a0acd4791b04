(** Mutable views of dynamic values: [DynTpPropertyMut] and [DynStateMut].
    client/rust/src/contract/properties/dynamic/{property.rs, borrow_impls.rs,
    from_impls.rs}, states/{dyn_state.rs, dyn_handle.rs}.

    A Rust [&mut T] is the place it points at; a [&mut [T]] is a place that
    holds a vector, an offset in it and a length.  Places are the program's own
    variables and the states of a baseline.  The borrow checker's rule that a
    place is not used otherwise while a view of it is alive is not modelled:
    the views are used one after the other, and every use reads and writes the
    memory of that moment. *)
From Verif Require Export Dynamic Baseline.

(** A variable of the calling program: a [DynTpProperty], or a [T] / [Vec<T>]
    (equally a [State<T>], whose only field is the value, states/mod.rs:29-32). *)
Inductive var : Type :=
| VarDyn (d : dynprop)
| VarStatic (t : ptype) (x : rtype t).

Record memory : Type := mkMem { m_base : baseline; m_vars : list var }.

Inductive place : Type :=
| InVar (i : nat)
| InState (t : ptype) (h : index).

(** Reading a place. *)
Definition load (m : memory) (pl : place) : option dynprop :=
  match pl with
  | InVar i =>
      match nth_error (m_vars m) i with
      | Some (VarDyn d) => Some d
      | Some (VarStatic t x) => Some (dyn_from t x)
      | None => None
      end
  | InState t h => match state_get (m_base m) t h with Ok d => Some d | _ => None end
  end.

(** Writing a value into the place a reference points at.  A typed place takes
    only values of its type (Rust's typing; a [State<T>] in an arena is written
    in its slot, handle.rs:37-46). *)
Definition write (m : memory) (pl : place) (d : dynprop) : memory :=
  match pl with
  | InVar i =>
      match nth_error (m_vars m) i with
      | Some (VarDyn _) => mkMem (m_base m) (list_set (m_vars m) i (VarDyn d))
      | Some (VarStatic t x) =>
          match try_into t d with
          | Some y => mkMem (m_base m) (list_set (m_vars m) i (VarStatic t y))
          | None => m
          end
      | None => m
      end
  | InState t h => mkMem (snd (state_set (m_base m) h d)) (m_vars m)
  end.

(** property.rs:35-77 with [mut], 79-113 and 119: [DynTpPropertyMut]. *)
Inductive view : Type :=
| MutPrim (p : prim) (pl : place)
| MutVec (p : prim) (pl : place) (off len : nat).

(** property.rs:79-106 [prop_type]. *)
Definition view_type (v : view) : ptype :=
  match v with MutPrim p _ => TPrim p | MutVec p _ _ _ => TVec p end.

(** borrow_impls.rs:38-68 (also 83-92 and from_impls.rs:17-21): every variant of
    a [DynTpProperty] gives the variant of the same name on the place itself;
    vectors through [as_mut_slice]. *)
Definition mut_prim (d : dynprim) (pl : place) : view :=
  match d with
  | VU8 _ => MutPrim TU8 pl | VU16 _ => MutPrim TU16 pl
  | VU32 _ => MutPrim TU32 pl | VU64 _ => MutPrim TU64 pl
  | VI8 _ => MutPrim TI8 pl | VI16 _ => MutPrim TI16 pl
  | VI32 _ => MutPrim TI32 pl | VI64 _ => MutPrim TI64 pl
  | VBool _ => MutPrim TBool pl
  | VF32 _ => MutPrim TF32 pl | VF64 _ => MutPrim TF64 pl
  | VString _ => MutPrim TString pl
  | VObjectHandle _ => MutPrim TObjectHandle pl
  | VContractDataHandle _ => MutPrim TContractDataHandle pl
  end.
Definition mut_vec (d : dynvec) (pl : place) : view :=
  match d with
  | WU8 x => MutVec TU8 pl 0 (length x) | WU16 x => MutVec TU16 pl 0 (length x)
  | WU32 x => MutVec TU32 pl 0 (length x) | WU64 x => MutVec TU64 pl 0 (length x)
  | WI8 x => MutVec TI8 pl 0 (length x) | WI16 x => MutVec TI16 pl 0 (length x)
  | WI32 x => MutVec TI32 pl 0 (length x) | WI64 x => MutVec TI64 pl 0 (length x)
  | WBool x => MutVec TBool pl 0 (length x)
  | WF32 x => MutVec TF32 pl 0 (length x) | WF64 x => MutVec TF64 pl 0 (length x)
  | WString x => MutVec TString pl 0 (length x)
  | WObjectHandle x => MutVec TObjectHandle pl 0 (length x)
  | WContractDataHandle x => MutVec TContractDataHandle pl 0 (length x)
  end.
Definition borrow_mut (m : memory) (i : nat) : option view :=
  match nth_error (m_vars m) i with
  | Some (VarDyn (PPrim d)) => Some (mut_prim d (InVar i))
  | Some (VarDyn (PVec d)) => Some (mut_vec d (InVar i))
  | _ => None
  end.

(** from_impls.rs:51-55 and 70-74 (30-34): a view of a [T] or of a [Vec<T>];
    dyn_state.rs:45-57 the same of the value of a [State]. *)
Definition view_of (t : ptype) (pl : place) : rtype t -> view :=
  match t with
  | TPrim p => fun _ => MutPrim p pl
  | TVec p => fun x => MutVec p pl 0 (length x)
  end.
Definition from_mut (m : memory) (i : nat) : option view :=
  match nth_error (m_vars m) i with
  | Some (VarStatic t x) => Some (view_of t (InVar i) x)
  | _ => None
  end.
(** from_impls.rs:83-87: a view of a slice [&mut x[a..a+n]] of a [Vec<T>];
    slicing out of range panics before the conversion. *)
Definition from_mut_slice (m : memory) (i a n : nat) : outcome view :=
  match nth_error (m_vars m) i with
  | Some (VarStatic (TVec p) x) =>
      if Nat.leb (a + n) (length x) then Ok (MutVec p (InVar i) a n) else Panic
  | _ => Err ENoSuchHandle (* no such variable: not a program *)
  end.

(** states/dyn_handle.rs:33-66: the typed [get_mut] of the handle's variant
    (handle.rs:37-46: the arena of the type, then the slot), then
    [(&mut state.value).into()]. *)
Definition state_mut (b : baseline) (h : dyn_handle) : outcome view :=
  let t := dh_type h in
  let pl := InState t (dh_index h) in
  match b_states b t with
  | None => Err ENoArena
  | Some a =>
      match get a (dh_index h) with
      | None => Err ENoSuchHandle
      | Some d =>
          match try_into t d with
          | Some x => Ok (view_of t pl x)
          | None => Panic (* not of the arena's type: cannot happen *)
          end
      end
  end.

(** What the calling program does with a view: [match view { U8(r) => *r, .. }]. *)
Definition vec_values (p : prim) (d : dynprop) : option (list (rprim p)) :=
  match d with PVec v => vec_try_into p v | PPrim _ => None end.
Definition deref (m : memory) (v : view) : option dynref :=
  match v with
  | MutPrim p pl =>
      match load m pl with
      | Some (PPrim d) => match prim_try_into p d with Some x => Some (RefPrim p x) | None => None end
      | _ => None
      end
  | MutVec p pl off len =>
      match load m pl with
      | Some d => match vec_values p d with
                  | Some l => Some (RefVec p (firstn len (skipn off l)))
                  | None => None
                  end
      | None => None
      end
  end.
(** [*r = x] in the arm of the variant of [x] ([OtherVariant]: another arm, which
    does nothing); [r[i] = x] likewise, and out of range it panics. *)
Inductive used : Type :=
| Wrote (m : memory)
| OtherVariant
| OutOfRange.
Definition assign (m : memory) (v : view) (d : dynprim) : used :=
  match v with
  | MutPrim p pl =>
      match prim_try_into p d with
      | Some x => Wrote (write m pl (PPrim (prim_from p x)))
      | None => OtherVariant
      end
  | MutVec _ _ _ _ => OtherVariant
  end.
Definition assign_at (m : memory) (v : view) (i : nat) (d : dynprim) : used :=
  match v with
  | MutPrim _ _ => OtherVariant
  | MutVec p pl off len =>
      match prim_try_into p d with
      | None => OtherVariant
      | Some x =>
          if Nat.ltb i len then
            match load m pl with
            | Some cur =>
                match vec_values p cur with
                | Some l => Wrote (write m pl (PVec (vec_from p (list_set l (off + i) x))))
                | None => OtherVariant (* the place is not of the view's type: cannot happen *)
                end
            | None => OtherVariant
            end
          else OutOfRange
      end
  end.

(** property.rs:40,59,110 derived [PartialEq] on the mutable enums: same variant
    and equal pointees. *)
Definition view_eqb (m : memory) (v w : view) : bool :=
  match deref m v, deref m w with
  | Some a, Some b => ref_eqb a b
  | _, _ => false
  end.
