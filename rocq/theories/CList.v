(** Keyframe lists and channels over the C boundary: the values they hold.
    crates/rsharp/rust/src/rvec.rs (the [rvec_fns] family),
    client/rust/src/contract/properties/channels/channel.rs:46-176 (the [Keyframe_T]
    and [Channel_T] families) and client/cs/src/RVec_Keyframe.cs.

    A [repr_c::Vec<Keyframe_T>] is passed by value: the client holds the struct
    {ptr, len, cap} and may copy it.  The buffer is on the native heap.  Simplified:
    a growing push always moves the buffer (the allocator may also extend it in
    place); addresses are never reused; memory does not run out; the bytes of
    strings inside keyframes are not separate allocations. *)
From Verif Require Export Channel.

(** Pointers: to a box; to an element of a vector's buffer or of a channel; to the
    value of a keyframe. *)
Inductive ptr : Type :=
| PBox (a : nat)
| PElt (a i : nat)
| PChan (a i : nat)
| PValue (p : ptr).

(** The [repr_c::Vec<Keyframe_T>] struct; [None] is the dangling pointer of
    [Vec::EMPTY]. *)
Record cvec : Type := mkCvec { v_ty : prim; v_ptr : option nat; v_len : nat; v_cap : nat }.

(** Native allocations.  [LBuf slots cap]: a buffer for [cap] keyframes, of which the
    first [length slots] are initialised; [LRefs]: the buffer of a [Vec<&Keyframe_T>]. *)
Inductive cell : Type :=
| LVal (v : dynprim)
| LKf (k : keyframe)
| LBuf (slots : list keyframe) (cap : nat)
| LChan (c : channel)
| LRefs (ps : list ptr).
Definition heap : Type := list (option cell).
Definition look (H : heap) (a : nat) : option cell :=
  match nth_error H a with Some (Some c) => Some c | _ => None end.
Definition free (H : heap) (a : nat) : heap := list_set H a None.
Definition put (H : heap) (a : nat) (c : cell) : heap := list_set H a (Some c).
Definition alloc (H : heap) (c : cell) : nat * heap := (length H, H ++ [Some c]).

Inductive ret : Type :=
| RUnit | RPtr (p : ptr) | RVal (v : dynprim) | RTime (t : Z) | RVec (v : cvec)
| RRefs (p : option nat) (n : nat).
Inductive result : Type :=
| Done (r : ret) (H : heap)
| Abort
| UB.
Definition new_box (H : heap) (c : cell) : result :=
  let '(a, H') := alloc H c in Done (RPtr (PBox a)) H'.

(** The keyframe behind a [const Keyframe_T *]; [None] is undefined behaviour. *)
Definition kf_at (H : heap) (p : ptr) : option keyframe :=
  match p with
  | PBox a => match look H a with Some (LKf k) => Some k | _ => None end
  | PElt a i => match look H a with Some (LBuf slots _) => nth_error slots i | _ => None end
  | PChan a i => match look H a with Some (LChan c) => nth_error (ch_keys c) i | _ => None end
  | PValue _ => None
  end.
Definition kf_of (H : heap) (t : prim) (p : ptr) : option keyframe :=
  match kf_at H p with
  | Some k => if ptype_eqb (prop_type (k_value k)) (TPrim t) then Some k else None
  | None => None
  end.
Definition val_at (H : heap) (p : ptr) : option dynprim :=
  match p with
  | PBox a => match look H a with Some (LVal v) => Some v | _ => None end
  | PValue q => match kf_at H q with Some (mkKey (PPrim v) _) => Some v | _ => None end
  | _ => None
  end.
(** A box given away by the client. *)
Definition owned_val (H : heap) (t : prim) (p : ptr) : option (nat * dynprim) :=
  match p with
  | PBox a => match look H a with
              | Some (LVal v) => if ptype_eqb (dynprim_type v) (TPrim t) then Some (a, v) else None
              | _ => None
              end
  | _ => None
  end.
Definition owned_kf (H : heap) (t : prim) (p : ptr) : option (nat * keyframe) :=
  match p with
  | PBox a => match kf_of H t p with Some k => Some (a, k) | None => None end
  | _ => None
  end.
(** The initialised slots behind a vector struct: the struct must describe a live
    buffer of that capacity. *)
Definition slots_of (H : heap) (v : cvec) : option (list keyframe) :=
  match v_ptr v with
  | None => if (v_len v =? 0) && (v_cap v =? 0) then Some [] else None
  | Some a =>
      match look H a with
      | Some (LBuf slots cap) => if (v_len v <=? length slots) && (v_cap v =? cap) then Some slots else None
      | _ => None
      end
  end.
Definition chan_of (H : heap) (t : prim) (p : ptr) : option (nat * channel) :=
  match p with
  | PBox a => match look H a with
              | Some (LChan c) => if ptype_eqb (ch_type c) (TPrim t) then Some (a, c) else None
              | _ => None
              end
  | _ => None
  end.
Definition free_buf (H : heap) (v : cvec) : heap :=
  match v_ptr v with Some a => free H a | None => H end.

(** alloc's [RawVec::grow_amortized] (Rust alloc, raw_vec.rs): at least twice the
    capacity, at least what is required, at least 4 (a keyframe has 16 to 40 bytes). *)
Definition grown (len cap : nat) : nat := Nat.max 4 (Nat.max (2 * cap) (S len)).

Inductive call : Type :=
| Box__new (v : dynprim)
| Box__drop (p : ptr)
| Load (p : ptr)
| Keyframe__new (t : prim) (v : ptr) (time : Z)
| Keyframe__drop (t : prim) (p : ptr)
| Keyframe__value (t : prim) (p : ptr)
| Keyframe__time (t : prim) (p : ptr)
| RVec__new (t : prim)
| RVec__push (v : cvec) (item : ptr)
| RVec__get (v : cvec) (idx : nat)
| RVec__set (v : cvec) (idx : nat) (value : ptr)
| RVec__drop (v : cvec)
| Channel__new (v : cvec)
| Channel__drop (t : prim) (p : ptr)
| Channel__keyframes (t : prim) (p : ptr)
| Channel__keyframes_mut (t : prim) (p : ptr)
| Load_ref (p : option nat) (i : nat).

(** channel.rs:146-157: the vector of references. *)
Definition ref_vec (H : heap) (a n : nat) : result :=
  match n with
  | O => Done (RRefs None 0) H
  | _ => let '(r, H') := alloc H (LRefs (map (PChan a) (seq 0 n))) in Done (RRefs (Some r) n) H'
  end.

(** [srt] is what [sort_unstable_by] does to the list. *)
Definition step (srt : list keyframe -> list keyframe) (H : heap) (c : call) : result :=
  match c with
  (* rbox.rs:14-18, string.rs (strings: Text.v); boxed handles come from the engine *)
  | Box__new v => new_box H (LVal v)
  (* rbox.rs:20-24 *)
  | Box__drop (PBox a) => match look H a with Some (LVal _) => Done RUnit (free H a) | _ => UB end
  | Box__drop _ => UB
  (* the client reads through a [const T *] *)
  | Load p => match val_at H p with Some v => Done (RVal v) H | None => UB end
  (* channel.rs:83-86: the value's box is emptied and freed *)
  | Keyframe__new t vp time =>
      match owned_val H t vp with
      | Some (a, v) => new_box (free H a) (LKf (mkKey (PPrim v) time))
      | None => UB
      end
  (* channel.rs:90-92 *)
  | Keyframe__drop t p =>
      match owned_kf H t p with Some (a, _) => Done RUnit (free H a) | None => UB end
  (* channel.rs:96-98 *)
  | Keyframe__value t p =>
      match kf_of H t p with Some _ => Done (RPtr (PValue p)) H | None => UB end
  (* channel.rs:102-104 *)
  | Keyframe__time t p =>
      match kf_of H t p with Some k => Done (RTime (k_time k)) H | None => UB end
  (* rvec.rs:14-18 *)
  | RVec__new t => Done (RVec (mkCvec t None 0 0)) H
  (* rvec.rs:5-12; the struct is updated in place, here returned *)
  | RVec__push v p =>
      match slots_of H v, owned_kf H (v_ty v) p with
      | Some slots, Some (a, k) =>
          let new := firstn (v_len v) slots ++ [k] in
          match v_ptr v with
          | Some b =>
              if v_len v <? v_cap v then
                Done (RVec (mkCvec (v_ty v) (Some b) (S (v_len v)) (v_cap v)))
                     (put (free H a) b (LBuf (new ++ skipn (S (v_len v)) slots) (v_cap v)))
              else
                let cap := grown (v_len v) (v_cap v) in
                let '(b', H') := alloc (free (free H a) b) (LBuf new cap) in
                Done (RVec (mkCvec (v_ty v) (Some b') (S (v_len v)) cap)) H'
          | None =>
              let cap := grown (v_len v) (v_cap v) in
              let '(b', H') := alloc (free H a) (LBuf new cap) in
              Done (RVec (mkCvec (v_ty v) (Some b') (S (v_len v)) cap)) H'
          end
      | _, _ => UB
      end
  (* rvec.rs:26-30: an index out of range panics *)
  | RVec__get v i =>
      match slots_of H v with
      | Some slots =>
          match v_ptr v with
          | Some a => if i <? v_len v then Done (RPtr (PElt a i)) H else Abort
          | None => Abort
          end
      | None => UB
      end
  (* rvec.rs:32-36 *)
  | RVec__set v i p =>
      match slots_of H v, owned_kf H (v_ty v) p with
      | Some slots, Some (a, k) =>
          match v_ptr v with
          | Some b =>
              if i <? v_len v then Done RUnit (put (free H a) b (LBuf (list_set slots i k) (v_cap v)))
              else Abort
          | None => Abort
          end
      | _, _ => UB
      end
  (* rvec.rs:20-24 *)
  | RVec__drop v =>
      match slots_of H v with Some _ => Done RUnit (free_buf H v) | None => UB end
  (* channel.rs:128-136: the contents are swapped out of the vector and sorted *)
  | Channel__new v =>
      match slots_of H v with
      | Some slots =>
          new_box (free_buf H v) (LChan (mkChannel (TPrim (v_ty v)) (srt (firstn (v_len v) slots))))
      | None => UB
      end
  (* channel.rs:140-142 *)
  | Channel__drop t p => match chan_of H t p with Some (a, _) => Done RUnit (free H a) | None => UB end
  (* channel.rs:146-150 *)
  | Channel__keyframes t p =>
      match chan_of H t p with Some (a, c) => ref_vec H a (length (ch_keys c)) | None => UB end
  (* channel.rs:154-157; a keyframe cannot be changed through the API *)
  | Channel__keyframes_mut t p =>
      match chan_of H t p with Some (a, c) => ref_vec H a (length (ch_keys c)) | None => UB end
  (* the client reads element [i] of the returned array of pointers *)
  | Load_ref p i =>
      match p with
      | Some a => match look H a with
                  | Some (LRefs ps) => match nth_error ps i with Some q => Done (RPtr q) H | None => UB end
                  | _ => UB
                  end
      | None => UB
      end
  end.

(** ** The C# class [RVec_Keyframe_T] (RVec_Keyframe.cs, RSharp.cs:34-81): [Inner] is a
    nullable copy of the struct.  [Throws]: a C# exception. *)
Inductive managed (A : Type) : Type := Ok_ (a : A) | Throws | Native_abort | Native_ub.
Arguments Ok_ {A}. Arguments Throws {A}. Arguments Native_abort {A}. Arguments Native_ub {A}.
(** RVec_Keyframe.cs:27-41: [push]; the struct is copied to a local, passed by
    address and written back; the element's [Inner] becomes null. *)
Definition cs_push (srt : list keyframe -> list keyframe) (H : heap) (inner : option cvec) (e : option ptr)
  : managed (option cvec * option ptr * heap) :=
  match e, inner with
  | None, _ => Throws
  | _, None => Throws
  | Some p, Some v =>
      match step srt H (RVec__push v p) with
      | Done (RVec v') H' => Ok_ (Some v', None, H')
      | Abort => Native_abort
      | _ => Native_ub
      end
  end.
(** RVec_Keyframe.cs:43-51: the getter of [this[int index]]; [(ulong)index] sign-extends. *)
Definition cs_get (srt : list keyframe -> list keyframe) (H : heap) (inner : option cvec) (index : Z)
  : managed ptr :=
  match inner with
  | None => Throws
  | Some v =>
      match step srt H (RVec__get v (Z.to_nat (index mod 2 ^ 64))) with
      | Done (RPtr p) _ => Ok_ p
      | Abort => Native_abort
      | _ => Native_ub
      end
  end.
