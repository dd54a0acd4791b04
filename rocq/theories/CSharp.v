(** The managed (C#) bindings with their values: C# wrapper objects over the native
    heap of CApi.v.  client/cs/src/{Baseline,StateBindings,StateAccessors,Contract,
    ObjectHandle}.cs, crates/rsharp/cs/src/{RSharp,RString}.cs, the classes generated
    from client/codegen_wrapped/{opaque_template,state,state_id,state_handle}.cs.tpl
    and crates/rsharp/codegen/rbox.cs.tpl, client/contract_example/cs/src/
    ExampleContract.cs.

    Each method checks its guards, takes the pointers out of its arguments, makes one
    native call ([step] of CApi.v) and wraps the answer.  (Managed.v models only the
    memory of these classes, but all of them; here also the values, and what native
    panics do.)  A string is its native text (Text.v models the conversion).  A
    wrapper is not finalized while a call uses it (for that race see C40). *)
From Verif Require Export CApi.

(** RSharp.cs:17-22. *)
Inductive own : Type := Owned | SharedRef | MutRef.
(** The wrapper classes.  [WVal t] is [RBox_T], [RString], [ObjectHandle] or
    [ContractDataHandle] (type_info.rs:131-169). *)
Inductive wkind : Type :=
| WBase | WCon | WFields | WSid (t : prim) | WSh (t : prim) | WSt (t : prim) | WVal (t : prim)
| WData | WCid.
Definition wkind_eqb (a b : wkind) : bool :=
  match a, b with
  | WBase, WBase | WCon, WCon | WFields, WFields | WData, WData | WCid, WCid => true
  | WSid s, WSid t | WSh s, WSh t | WSt s, WSt t | WVal s, WVal t => prim_eqb s t
  | _, _ => false
  end.
(** RSharp.cs:84-113 [OpaqueWrapper]: [inner] is null once disposed or stolen. *)
Record wrapper : Type := mkWr { wr_kind : wkind; wr_inner : option ptr; wr_own : own }.
Record world : Type := mkWorld { wh : heap; ww : list wrapper }.
Definition empty_world : world := mkWorld [] [].

Inductive exn : Type := InvalidOperation | ArgumentNull | Mutability | Ownership | IndexOutOfRange.
Inductive cret : Type :=
| Nothing | Ref (i : nat) | Val (v : dynprim) | Flag (b : bool) | Name (s : string) | Version (v : N * N * N).
(** [Crash]: the native side aborted the process.  [Illtyped]: not a C# program. *)
Inductive answer : Type :=
| Return (r : cret) (w : world)
| Throw (e : exn) (w : world)
| Crash | Undefined | Illtyped.

(** The methods; arguments that are wrappers are given by their identity. *)
Inductive op : Type :=
| NewBaseline (is_main : bool)
| IsMain (b : nat)
| GetContractData (b h : nat)
| DataId (d : nat) | IdName (i : nat) | IdVersion (i : nat)
| NewBox (v : dynprim) | BoxValue (x : nat)
| NewState (t : prim) (v : nat) | StateValue (t : prim) (s : nat) | SetStateValue (t : prim) (s v : nat)
| BindState (t : prim) (b i o : nat)
| GetState (t : prim) (b h : nat) | GetStateMut (t : prim) (b h : nat)
| IdContract (t : prim) (i : nat)
| Register (b : nat) | Handle (c : nat) | States (c : nat) | Field (f : exfield) (s : nat)
| ObjectCreate (c b : nat) (u8_0 u8_1 i8_0 i8_1 f32_0 f32_1 : Z) (str_0 : nat) (junk1 junk2 : ptr)
| ObjectRemove (b o : nat)
| Dispose (x : nat)
| BorrowBaseline (b : nat) (mut : bool)
(* Not in the C# sources: [ObjectCreate] with the two arguments it forgets, and an
   object handle from another library (see CApi.v [Other__object_handle]). *)
| FixedObjectCreate (c b : nat) (u8_0 u8_1 i8_0 i8_1 f32_0 f32_1 : Z) (str_0 oh_0 ch_0 : nat)
| ForeignHandle (o : index).

(** The argument [i] of class [k], whatever its state. *)
Definition typed (w : world) (i : nat) (k : wkind) (f : wrapper -> answer) : answer :=
  match nth_error (ww w) i with
  | Some x => if wkind_eqb (wr_kind x) k then f x else Illtyped
  | None => Illtyped
  end.
(** [x.Inner.Value.p]; [Nullable<T>.Value] throws on null. *)
Definition inner (w : world) (x : wrapper) (f : ptr -> answer) : answer :=
  match wr_inner x with Some p => f p | None => Throw InvalidOperation w end.
Definition use (w : world) (i : nat) (k : wkind) (f : ptr -> answer) : answer :=
  typed w i k (fun x => inner w x f).
(** RSharp.cs:134-139 [StealInner], and [value.Inner = null] of state.cs.tpl:19. *)
Definition forget (w : list wrapper) (i : nat) : list wrapper :=
  match nth_error w i with
  | Some x => list_set w i (mkWr (wr_kind x) None (wr_own x))
  | None => w
  end.

(** What a method does with the native answer: wrap the pointer, or hand the value on. *)
Definition wrap (k : wkind) (o : own) (ws : list wrapper) (r : result) : answer :=
  match r with
  | Done (RPtr p) H => Return (Ref (length ws)) (mkWorld H (ws ++ [mkWr k (Some p) o]))
  | Done _ _ | UB => Undefined
  | Abort => Crash
  end.
Definition plain (ws : list wrapper) (r : result) : answer :=
  match r with
  | Done RUnit H => Return Nothing (mkWorld H ws)
  | Done (RVal v) H => Return (Val v) (mkWorld H ws)
  | Done (RKind k) H => Return (Flag (match k with KMain => true | KFork => false end)) (mkWorld H ws)
  | Done (RName s) H => Return (Name s) (mkWorld H ws)
  | Done (RVersion v) H => Return (Version v) (mkWorld H ws)
  | Done (RPtr _) _ | Done (RVec _ _) _ | UB => Undefined
  | Abort => Crash
  end.

(** StateBindings.cs:12-46, StateAccessors.cs:13-146: the types with a method. *)
Definition bindable (t : prim) : bool :=
  match t with TU8 | TI8 | TI16 | TF32 | TU64 | TString | TObjectHandle => true | _ => false end.
Definition mutable (t : prim) : bool :=
  match t with TU8 | TI8 | TI16 | TF32 | TU64 | TString => true | _ => false end.
(** rbox.cs.tpl:20-22, RString.cs:29-40; the handle classes have no [Value]. *)
Definition has_value (t : prim) : bool :=
  match t with TObjectHandle | TContractDataHandle => false | _ => true end.
(** ExampleContract.cs:99-160: [ExampleStates] has no [Oh_0] and [Ch_0]. *)
Definition has_accessor (f : exfield) : bool := match f with Oh_0 | Ch_0 => false | _ => true end.
Definition is_shared (o : own) : bool := match o with SharedRef => true | _ => false end.
Definition is_owned (o : own) : bool := match o with Owned => true | _ => false end.

Definition cs_step (w : world) (o : op) : answer :=
  let H := wh w in
  match o with
  (* Baseline.cs:15-19: [(byte)(is_main ? 0 : 1)]; baseline.rs:28-33 *)
  | NewBaseline m => wrap WBase Owned (ww w) (step H (Baseline__new (if m then KMain else KFork)))
  (* Baseline.cs:28-34 *)
  | IsMain b => use w b WBase (fun p => plain (ww w) (step H (Baseline__kind p)))
  (* Baseline.cs:38-51 *)
  | GetContractData b h =>
      typed w b WBase (fun bx => typed w h (WVal TContractDataHandle) (fun hx =>
        match wr_inner hx with
        | None => Throw ArgumentNull w
        | Some hp => inner w bx (fun p => wrap WData SharedRef (ww w) (step H (Baseline__contract_data p hp)))
        end))
  (* Contract.cs:28-35, 52-71 *)
  | DataId d => use w d WData (fun p => wrap WCid SharedRef (ww w) (step H (ContractData__id p)))
  | IdName i => use w i WCid (fun p => plain (ww w) (step H (ContractId__name p)))
  | IdVersion i => use w i WCid (fun p => plain (ww w) (step H (ContractId__version p)))
  (* rbox.cs.tpl:9; RString.cs:11-27: [&bytes[0]] throws on the empty string *)
  | NewBox v =>
      match v with
      | VString Coq.Strings.String.EmptyString => Throw IndexOutOfRange w
      | VObjectHandle _ | VContractDataHandle _ => Illtyped
      | _ => wrap (WVal (match dynprim_type v with TPrim t => t | TVec t => t end)) Owned (ww w) (step H (Box__new v))
      end
  | BoxValue x =>
      match nth_error (ww w) x with
      | Some (mkWr (WVal t) _ _ as xw) =>
          if has_value t then inner w xw (fun p => plain (ww w) (step H (Load p))) else Illtyped
      | _ => Illtyped
      end
  (* template_state.rs:28-35 *)
  | NewState t v => use w v (WVal t) (fun p => wrap (WSt t) Owned (forget (ww w) v) (step H (State__new t p)))
  (* state.cs.tpl:3-8 *)
  | StateValue t s => use w s (WSt t) (fun p => wrap (WVal t) SharedRef (ww w) (step H (State__value t p)))
  (* state.cs.tpl:15-21 *)
  | SetStateValue t s v =>
      typed w s (WSt t) (fun sx => typed w v (WVal t) (fun vx =>
        inner w sx (fun p => inner w vx (fun q => plain (forget (ww w) v) (step H (State__value_set t p q))))))
  (* StateBindings.cs:12-46 *)
  | BindState t b i o =>
      if negb (bindable t) then Illtyped
      else typed w b WBase (fun bx => typed w i (WSid t) (fun ix => typed w o (WVal TObjectHandle) (fun ox =>
        inner w bx (fun p => inner w ix (fun q => inner w ox (fun r =>
          wrap (WSh t) Owned (ww w) (step H (Baseline__bind_state t p q r))))))))
  (* StateAccessors.cs:13-20 and so on *)
  | GetState t b h =>
      if negb (bindable t) then Illtyped
      else typed w b WBase (fun bx => typed w h (WSh t) (fun hx =>
        inner w bx (fun p => inner w hx (fun q => wrap (WSt t) SharedRef (ww w) (step H (Baseline__state t p q))))))
  (* StateAccessors.cs:22-33 and so on *)
  | GetStateMut t b h =>
      if negb (mutable t) then Illtyped
      else typed w b WBase (fun bx => typed w h (WSh t) (fun hx =>
        if is_shared (wr_own bx) then Throw Mutability w
        else inner w bx (fun p => inner w hx (fun q => wrap (WSt t) MutRef (ww w) (step H (Baseline__state_mut t p q))))))
  (* state_id.cs.tpl:1-9 *)
  | IdContract t i => use w i (WSid t) (fun p => wrap (WVal TContractDataHandle) Owned (ww w) (step H (StateId__contract t p)))
  (* ExampleContract.cs:23-36 *)
  | Register b =>
      typed w b WBase (fun bx =>
        if is_shared (wr_own bx) then Throw Mutability w
        else inner w bx (fun p => wrap WCon Owned (ww w) (step H (ExampleContract__register p))))
  (* ExampleContract.cs:38-49, 51-62 *)
  | Handle c => use w c WCon (fun p => wrap (WVal TContractDataHandle) Owned (ww w) (step H (ExampleContract__handle p)))
  | States c => use w c WCon (fun p => wrap WFields SharedRef (ww w) (step H (ExampleContract__states p)))
  (* ExampleContract.cs:99-160 *)
  | Field f s =>
      if negb (has_accessor f) then Illtyped
      else use w s WFields (fun p => wrap (WSid (exfield_prim f)) Owned (ww w) (step H (ExampleStates__id f p)))
  (* ExampleContract.cs:64-76 passes nine arguments; lib.rs:78-90 takes eleven.  The
     last two are whatever the calling convention finds. *)
  | ObjectCreate c b u0 u1 i0 i1 f0 f1 s j1 j2 =>
      typed w c WCon (fun cx => typed w b WBase (fun bx => typed w s (WVal TString) (fun sx =>
        if is_shared (wr_own bx) then Throw Ownership w
        else if negb (is_owned (wr_own sx)) then Throw Ownership w
        else inner w cx (fun p => inner w bx (fun q => inner w sx (fun r =>
          wrap (WVal TObjectHandle) Owned (forget (ww w) s)
            (step H (ExampleContract__object_create p q u0 u1 i0 i1 f0 f1 r j1 j2))))))))
  (* ExampleContract.cs:78-85: the wrapper keeps its pointer *)
  | ObjectRemove b o =>
      typed w b WBase (fun bx => typed w o (WVal TObjectHandle) (fun ox =>
        if is_shared (wr_own bx) then Throw Ownership w
        else inner w bx (fun p => inner w ox (fun q => plain (ww w) (step H (ExampleContract__object_remove p q))))))
  (* RSharp.cs:115-127; the finalizer does the same *)
  | Dispose x =>
      match nth_error (ww w) x with
      | None => Illtyped
      | Some xw =>
          match wr_own xw, wr_inner xw with
          | Owned, Some p =>
              match wr_kind xw with
              | WData | WCid | WFields => Throw InvalidOperation w
              | WBase => plain (forget (ww w) x) (step H (Baseline__drop p))
              | _ => plain (forget (ww w) x) (step H (Drop p))
              end
          | _, _ => Return Nothing (mkWorld H (forget (ww w) x))
          end
      end
  (* Baseline.cs:21: [new Baseline(b.Inner.Value, SharedRef)] or [MutRef] *)
  | BorrowBaseline b m =>
      use w b WBase (fun p => Return (Ref (length (ww w)))
        (mkWorld H (ww w ++ [mkWr WBase (Some p) (if m then MutRef else SharedRef)])))
  | FixedObjectCreate c b u0 u1 i0 i1 f0 f1 s oh ch =>
      typed w c WCon (fun cx => typed w b WBase (fun bx => typed w s (WVal TString) (fun sx =>
      typed w oh (WVal TObjectHandle) (fun ohx => typed w ch (WVal TContractDataHandle) (fun chx =>
        if is_shared (wr_own bx) then Throw Ownership w
        else if negb (is_owned (wr_own sx) && is_owned (wr_own ohx) && is_owned (wr_own chx)) then Throw Ownership w
        else inner w cx (fun p => inner w bx (fun q => inner w sx (fun r => inner w ohx (fun r1 => inner w chx (fun r2 =>
          wrap (WVal TObjectHandle) Owned (forget (forget (forget (ww w) s) oh) ch)
            (step H (ExampleContract__object_create p q u0 u1 i0 i1 f0 f1 r r1 r2))))))))))))
  | ForeignHandle o => wrap (WVal TObjectHandle) Owned (ww w) (step H (Other__object_handle o))
  end.

(** A program that catches exceptions; the finalizer of any wrapper may run between
    any two calls (it is a [Dispose]). *)
Inductive runs : world -> list op -> world -> Prop :=
| runs_none w : runs w [] w
| runs_return w o r w1 l w2 : cs_step w o = Return r w1 -> runs w1 l w2 -> runs w (o :: l) w2
| runs_throw w o e w1 l w2 : cs_step w o = Throw e w1 -> runs w1 l w2 -> runs w (o :: l) w2.
