(** The memory contract of the managed (C#) wrappers: which native box a wrapper
    owns, when it frees it, and which calls take it away.  Sources:
    crates/rsharp/cs/src/RSharp.cs (SharedWrapper, OpaqueWrapper), the generated
    classes of client/codegen_wrapped/*.tpl and crates/rsharp/codegen/rbox.cs.tpl,
    client/cs/src/*.cs, client/contract_example/cs/src/ExampleContract.cs and
    demos/unity_states/cs/src/BallContract.cs, together with the signatures of the
    native functions they call (Box = consumed, & = borrowed).

    Simplifications: values are not modelled (see CApi.v, Baseline.v); the
    monomorphised copies of a class are one class, since C#'s types keep them apart;
    a native panic ends the process and is not an execution here; [Inner]'s public
    setter and the raw-pointer constructors are used only as [Alias] does. *)
From Coq Require Import List Bool Arith.
Import ListNotations.

(** The classes of native memory a wrapper can point to. *)
Inductive class : Type :=
| CBox                  (* RBox_T, RString *)
| CState | CKeyframe | CStateHandle | CStateId | CObjectHandle | CContractDataHandle
| CBaseline | CContract (* ExampleContract, BallContract *)
| CStates               (* ExampleStates, BallStates *)
| CContractData | CContractId
| CVec                  (* RVec_Keyframe_U8 *).
Definition class_eq_dec (a b : class) : {a = b} + {a <> b}.
Proof. decide equality. Defined.
Definition class_eqb (a b : class) : bool := if class_eq_dec a b then true else false.

(** RSharp.cs:17-22. *)
Inductive own : Type := Owned | SharedRef | MutRef.
Definition is_owned (o : own) : bool := match o with Owned => true | _ => false end.
Definition is_shared (o : own) : bool := match o with SharedRef => true | _ => false end.

(** A native pointer: to a whole allocation, or to an object of a class inside one,
    taken when the allocation's contents had been moved [epoch] times. *)
Inductive ptr : Type := Whole (n : nat) | Inside (n : nat) (epoch : nat) (c : class).
Definition cell_of (p : ptr) : nat := match p with Whole n => n | Inside n _ _ => n end.
(** A native allocation.  Cells are never reused: the address of a freed cell is a
    dangling pointer for ever. *)
Record cell : Type := mkCell { ce_class : class; ce_live : bool; ce_epoch : nat }.
(** RSharp.cs:34-56,84-113: [inner], null once disposed or stolen, and
    [ownershipSemantics]. *)
Record wrapper : Type := mkWr { wr_class : class; wr_inner : option ptr; wr_own : own }.
Record world : Type := mkWorld { heap : list cell; wrs : list wrapper }.
Definition empty_world : world := mkWorld [] [].

Definition set_nth {A} (l : list A) (i : nat) (f : A -> A) : list A :=
  map (fun '(j, x) => if j =? i then f x else x) (combine (seq 0 (length l)) l).

(** Why an execution is undefined behaviour. *)
Inductive reason : Type := DoubleFree | BadFree | UseAfterFree | TypeConfusion.
Inductive answer (A : Type) : Type :=
| Done (a : A) | Throw (a : A) | UB (r : reason).
Arguments Done {A}. Arguments Throw {A}. Arguments UB {A}.

(** What the native side does with a pointer argument: look at it ([&T], [&mut T]),
    or take the box ([repr_c::Box<T>]). *)
(** Two classes a pointer may be confused between without reading outside the
    allocation: both handles are one boxed index. *)
Definition fits (passed expected : class) : bool :=
  class_eqb passed expected ||
  match passed, expected with
  | CObjectHandle, CContractDataHandle | CContractDataHandle, CObjectHandle => true
  | _, _ => false
  end.
Definition ptr_class (h : list cell) (p : ptr) : option class :=
  match p with
  | Whole n => option_map ce_class (nth_error h n)
  | Inside _ _ c => Some c
  end.
(** The pointer still refers to the object it was made for. *)
Definition ptr_valid (h : list cell) (p : ptr) : bool :=
  match p with
  | Whole n => match nth_error h n with Some c => ce_live c | None => false end
  | Inside n e _ => match nth_error h n with Some c => ce_live c && (ce_epoch c =? e) | None => false end
  end.
(** The native function dereferences [p] as a [c]. *)
Definition native_borrow (h : list cell) (p : ptr) (c : class) : option reason :=
  if negb (ptr_valid h p) then Some UseAfterFree
  else match ptr_class h p with
       | Some k => if fits k c then None else Some TypeConfusion
       | None => Some UseAfterFree
       end.
(** The native function receives [p] as a [Box<c>] and drops it. *)
Definition native_take (h : list cell) (p : ptr) (c : class) : (list cell) + reason :=
  match p with
  | Inside _ _ _ => inr BadFree
  | Whole n =>
      match nth_error h n with
      | None => inr BadFree
      | Some k =>
          if negb (ce_live k) then inr DoubleFree
          else if fits (ce_class k) c then inl (set_nth h n (fun k => mkCell (ce_class k) false (ce_epoch k)))
          else inr TypeConfusion
      end
  end.

(** ** Dispose *)
(** The [NativeDrop] overrides: free the box (rbox.cs.tpl:15-18, RString.cs:42-45,
    opaque_template.cs.tpl:41-46, ObjectHandle.cs:13-16, Contract.cs:13-16,
    Baseline.cs:23-26, ExampleContract.cs:18-21, BallContract.cs:30-33); do nothing
    (RVec_Keyframe.cs:21-25, the call is commented out); throw (Contract.cs:23-26,
    47-50, ExampleContract.cs:94-97). *)
Inductive drop_kind : Type := DropFrees | DropNothing | DropThrows.
Definition native_drop (c : class) : drop_kind :=
  match c with
  | CVec => DropNothing
  | CContractData | CContractId | CStates => DropThrows
  | _ => DropFrees
  end.
Definition null_inner (w : wrapper) : wrapper := mkWr (wr_class w) None (wr_own w).
(** RSharp.cs:58-65,115-122 [Dispose]; the finalizers (67-70, 124-127) call it. *)
Definition dispose (w : world) (i : nat) : answer world :=
  match nth_error (wrs w) i with
  | None => Throw w
  | Some r =>
      match wr_own r, wr_inner r with
      | Owned, Some p =>
          match native_drop (wr_class r) with
          | DropThrows => Throw w
          | DropNothing => Done (mkWorld (heap w) (set_nth (wrs w) i null_inner))
          | DropFrees =>
              match native_take (heap w) p (wr_class r) with
              | inl h => Done (mkWorld h (set_nth (wrs w) i null_inner))
              | inr e => UB e
              end
          end
      | _, _ => Done (mkWorld (heap w) (set_nth (wrs w) i null_inner))
      end
  end.
(** The garbage collector running the finalizers of some wrappers. *)
Fixpoint finalize (w : world) (l : list nat) : answer world :=
  match l with
  | [] => Done w
  | i :: l => match dispose w i with
              | Done w' | Throw w' => finalize w' l
              | UB e => UB e
              end
  end.

(** ** Methods *)
(** How a C# method passes a wrapper's pointer: [Inner.Value.p] to a native [&T]
    ([Borrow]); [StealInner().p] to a native [Box<T>] ([Steal]); [Inner.Value.p] to a
    native [Box<T>], without forgetting it ([Give]). *)
Inductive mode : Type := Borrow | Steal | Give.
(** One parameter: the C# class, how it is passed, what the pointer that is passed
    points to, and what the native function expects. *)
Record param : Type := mkParam { pa_class : class; pa_mode : mode; pa_passed : class; pa_native : class }.
Definition lend (c : class) : param := mkParam c Borrow c c.
Definition steal (c : class) : param := mkParam c Steal c c.
(** The guards at the top of a method. *)
Inductive check : Type := NotShared (k : nat) | MustOwn (k : nat).
(** A native box is returned and wrapped as Owned; a reference derived from
    parameter [k] is returned and wrapped as [o]; or no wrapper. *)
Inductive result : Type := RNone | RNew (c : class) | RView (k : nat) (c : class) (o : own).
(** [me_moves]: the parameter whose contents the call may move (an arena or vector
    that may reallocate, an element removed). *)
Record meth : Type := mkMeth { me_params : list param; me_checks : list check; me_result : result; me_moves : option nat }.

(** The value classes of a state or keyframe: RBox_T/RString, ObjectHandle,
    ContractDataHandle (type_info.rs:129-169; all may be owned or borrowed, so
    state.cs.tpl:8, not :11, is generated). *)
Inductive vclass : Type := VBox | VObj | VCon.
Definition value_class (v : vclass) : class :=
  match v with VBox => CBox | VObj => CObjectHandle | VCon => CContractDataHandle end.

Inductive method : Type :=
| NewBox | ReadBox
| NewState (v : vclass) | StateValue (v : vclass) | StateSetValue (v : vclass)
| NewKeyframe (v : vclass) | KeyframeValue (v : vclass) | KeyframeTime
| NewBaseline | IsMain | GetContractData | ContractData_Id | ContractId_Read
| GetState | GetStateMut | BindState | StateId_Contract
| Register | Contract_Handle | Contract_States | States_Id
| Example_ObjectCreate | Example_ObjectRemove
| Ball_Unregister | Ball_ObjectCreate | Ball_ObjectRemove
| NewVec | VecPush | VecGet | VecSet.

Definition sig (m : method) : meth :=
  match m with
  | NewBox => mkMeth [] [] (RNew CBox) None              (* rbox.cs.tpl:9; RString.cs:11-27 *)
  | ReadBox => mkMeth [lend CBox] [] RNone None          (* rbox.cs.tpl:20-22; RString.cs:29-40 *)
  | NewState v => mkMeth [steal (value_class v)] [] (RNew CState) None
      (* template_state.rs:28-35; states/mod.rs:93-96 *)
  | StateValue v => mkMeth [lend CState] [] (RView 0 (value_class v) SharedRef) None
      (* state.cs.tpl:3-8; states/mod.rs:106-108 *)
  | StateSetValue v => mkMeth [lend CState; steal (value_class v)] [] RNone None
      (* state.cs.tpl:15-21: no guard; states/mod.rs:112-115 *)
  | NewKeyframe v => mkMeth [steal (value_class v)] [] (RNew CKeyframe) None
      (* template_keyframe.rs:26-33; channel.rs:83-86 *)
  | KeyframeValue v => mkMeth [lend CKeyframe] [] (RView 0 (value_class v) SharedRef) None
      (* keyframe.cs.tpl:3-8; channel.rs:95-98 *)
  | KeyframeTime => mkMeth [lend CKeyframe] [] RNone None (* keyframe.cs.tpl:16-19 *)
  | NewBaseline => mkMeth [] [] (RNew CBaseline) None    (* Baseline.cs:15-19 *)
  | IsMain => mkMeth [lend CBaseline] [] RNone None      (* Baseline.cs:28-34 *)
  | GetContractData => mkMeth [lend CBaseline; lend CContractDataHandle] [] (RView 0 CContractData SharedRef) None
      (* Baseline.cs:38-51; baseline.rs:405-412 *)
  | ContractData_Id => mkMeth [lend CContractData] [] (RView 0 CContractId SharedRef) None
      (* Contract.cs:28-35 *)
  | ContractId_Read => mkMeth [lend CContractId] [] RNone None (* Contract.cs:52-71 *)
  | GetState => mkMeth [lend CBaseline; lend CStateHandle] [] (RView 0 CState SharedRef) None
      (* StateAccessors.cs:13-20; baseline.rs:447-454 *)
  | GetStateMut => mkMeth [lend CBaseline; lend CStateHandle] [NotShared 0] (RView 0 CState MutRef) None
      (* StateAccessors.cs:22-33; baseline.rs:457-464 *)
  | BindState => mkMeth [lend CBaseline; lend CStateId; lend CObjectHandle] [] (RNew CStateHandle) None
      (* StateBindings.cs:12-16; baseline.rs:488-495 *)
  | StateId_Contract => mkMeth [lend CStateId] [] (RNew CContractDataHandle) None
      (* state_id.cs.tpl:1-9; states/id.rs:78-80 *)
  | Register => mkMeth [lend CBaseline] [NotShared 0] (RNew CContract) (Some 0)
      (* ExampleContract.cs:23-36, BallContract.cs:11-19: the contracts' arena grows *)
  | Contract_Handle => mkMeth [lend CContract] [] (RNew CContractDataHandle) None
      (* ExampleContract.cs:38-49, BallContract.cs:35-42 *)
  | Contract_States => mkMeth [lend CContract] [] (RView 0 CStates SharedRef) None
      (* ExampleContract.cs:51-62,90-92, BallContract.cs:44-51 *)
  | States_Id => mkMeth [lend CStates] [] (RNew CStateId) None
      (* ExampleContract.cs:99-160, BallStates.cs:16-94 *)
  | Example_ObjectCreate => mkMeth [lend CContract; lend CBaseline; steal CBox] [NotShared 1; MustOwn 2] (RNew CObjectHandle) (Some 1)
      (* ExampleContract.cs:64-76.  The native function (contract_example/rust/src/
         lib.rs:78-90) takes two more boxes than the C# call passes; that mismatch is
         not modelled. *)
  | Example_ObjectRemove => mkMeth [lend CBaseline; mkParam CObjectHandle Give CObjectHandle CObjectHandle] [NotShared 0] RNone (Some 0)
      (* ExampleContract.cs:78-85; lib.rs:110-117 takes the box *)
  | Ball_Unregister => mkMeth [lend CBaseline; lend CContract] [NotShared 0] RNone (Some 0)
      (* BallContract.cs:21-28: a temporary handle is made and moved into the call *)
  | Ball_ObjectCreate => mkMeth [lend CBaseline; mkParam CContract Borrow CContractDataHandle CContract] [NotShared 0] (RNew CObjectHandle) (Some 0)
      (* BallContract.cs:53-80 passes the box of a temporary handle where
         unity_states/rust/src/lib.rs:168-171 expects [&BallContract] *)
  | Ball_ObjectRemove => mkMeth [lend CBaseline; mkParam CContractDataHandle Steal CContractDataHandle CObjectHandle] [NotShared 0] RNone (Some 0)
      (* BallContract.cs:82-90; lib.rs:205-208 expects an object handle *)
  | NewVec => mkMeth [] [] (RNew CVec) None               (* RVec_Keyframe.cs:19 *)
  | VecPush => mkMeth [lend CVec; steal CKeyframe] [] RNone (Some 0)
      (* RVec_Keyframe.cs:27-41: only [HasValue] is checked; rvec.rs:7-10 *)
  | VecGet => mkMeth [lend CVec] [] (RView 0 CKeyframe SharedRef) None
      (* RVec_Keyframe.cs:45-51; rvec.rs:26-28 *)
  | VecSet => mkMeth [steal CKeyframe; mkParam CVec Borrow CKeyframe CVec] [NotShared 1; MustOwn 0] RNone None
      (* RVec_Keyframe.cs:53-68, in order of evaluation: the value is moved out of its
         wrapper (63-64), then the buffer's address ([this.Inner.Value.ptr], the first
         keyframe) is passed where rvec.rs:32 expects [&mut Vec] *)
  end.

(** ** Calls *)
(** The exceptions the guards throw. *)
Definition check_ok (w : world) (args : list nat) (k : check) : bool :=
  let owner i := match nth_error args i with
                 | Some a => option_map wr_own (nth_error (wrs w) a) | None => None end in
  match k with
  | NotShared i => match owner i with Some o => negb (is_shared o) | None => true end
  | MustOwn i => match owner i with Some o => is_owned o | None => true end
  end.
(** Evaluating the arguments, left to right: [Inner.Value] of null throws (an
    exception leaves what was already stolen stolen); [StealInner] forgets the
    pointer, RSharp.cs:77-82,134-139. *)
Fixpoint eval_args (w : world) (ps : list param) (args : list nat) : answer (world * list ptr) :=
  match ps, args with
  | [], [] => Done (w, [])
  | p :: ps, a :: args =>
      match nth_error (wrs w) a with
      | None => Throw (w, [])
      | Some r =>
          match wr_inner r with
          | None => Throw (w, [])
          | Some q =>
              let w1 := match pa_mode p with
                        | Steal => mkWorld (heap w) (set_nth (wrs w) a null_inner)
                        | _ => w
                        end in
              match eval_args w1 ps args with
              | Done (w2, qs) => Done (w2, q :: qs)
              | Throw x => Throw x
              | UB e => UB e
              end
          end
      end
  | _, _ => Throw (w, [])
  end.
(** The native function uses its arguments. *)
Fixpoint native_args (h : list cell) (ps : list param) (qs : list ptr) : (list cell) + reason :=
  match ps, qs with
  | p :: ps, q :: qs =>
      match (if class_eqb (pa_class p) (pa_passed p) then None
             else if fits (pa_passed p) (pa_native p) then None else Some TypeConfusion) with
      | Some e => inr e
      | None =>
          match pa_mode p with
          | Borrow => match native_borrow h q (pa_native p) with
                      | Some e => inr e
                      | None => native_args h ps qs
                      end
          | _ => match native_take h q (pa_native p) with
                 | inl h' => native_args h' ps qs
                 | inr e => inr e
                 end
          end
      end
  | _, _ => inl h
  end.
Definition bump (h : list cell) (n : nat) : list cell :=
  set_nth h n (fun k => mkCell (ce_class k) (ce_live k) (S (ce_epoch k))).
Definition epoch_at (h : list cell) (n : nat) : nat :=
  match nth_error h n with Some k => ce_epoch k | None => 0 end.
(** The wrapper the method returns. *)
Definition add_result (w : world) (r : result) (qs : list ptr) : world :=
  match r with
  | RNone => w
  | RNew c => mkWorld (heap w ++ [mkCell c true 0]) (wrs w ++ [mkWr c (Some (Whole (length (heap w)))) Owned])
  | RView k c o =>
      match nth_error qs k with
      | Some q => let n := cell_of q in
                  mkWorld (heap w) (wrs w ++ [mkWr c (Some (Inside n (epoch_at (heap w) n) c)) o])
      | None => w
      end
  end.
(** A call of [m] with the wrappers [args].  [gc]: the wrappers whose finalizers run
    between the evaluation of the arguments and the native function's use of them (C#
    keeps nothing alive across a P/Invoke); [moved]: whether the contents moved. *)
Definition call (w : world) (m : meth) (args gc : list nat) (moved : bool) : answer world :=
  if negb (forallb (check_ok w args) (me_checks m)) then Throw w
  else match eval_args w (me_params m) args with
       | Throw (w1, _) => Throw w1
       | UB e => UB e
       | Done (w1, qs) =>
           match finalize w1 gc with
           | Throw w2 => Throw w2
           | UB e => UB e
           | Done w2 =>
               match native_args (heap w2) (me_params m) qs with
               | inr e => UB e
               | inl h =>
                   let h' := match me_moves m with
                             | Some k => match nth_error qs k with
                                         | Some q => if moved then bump h (cell_of q) else h
                                         | None => h
                                         end
                             | None => h
                             end in
                   Done (add_result (mkWorld h' (wrs w2)) (me_result m) qs)
               end
           end
       end.

(** ** Programs *)
Inductive op : Type :=
| Call (m : method) (args gc : list nat) (moved : bool)
| Dispose (i : nat)
| Alias (i : nat) (o : own).   (* new C(x.Inner.Value, o), e.g. Baseline.cs:21 *)
Definition alias (w : world) (i : nat) (o : own) : answer world :=
  match nth_error (wrs w) i with
  | Some r => match wr_inner r with
              | Some p => Done (mkWorld (heap w) (wrs w ++ [mkWr (wr_class r) (Some p) o]))
              | None => Throw w
              end
  | None => Throw w
  end.
Definition step (w : world) (o : op) : answer world :=
  match o with
  | Call m args gc moved => call w (sig m) args gc moved
  | Dispose i => dispose w i
  | Alias i o => alias w i o
  end.
(** A program that catches the exceptions and carries on. *)
Fixpoint run (w : world) (l : list op) : answer world :=
  match l with
  | [] => Done w
  | o :: l => match step w o with Done w' | Throw w' => run w' l | UB e => UB e end
  end.
