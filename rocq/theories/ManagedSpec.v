(** The rules a C# program must follow, stated over the wrappers it holds and not
    over the native memory: what Rust's borrow checker would ask for. *)
From Verif Require Export Managed.
From Coq Require Import List Bool Arith.
Import ListNotations.

(** What the programmer has to remember about a wrapper: which owning wrapper it was
    ultimately obtained from (itself if it owns its box), whether it points inside
    that box, and whether it may still be used. *)
Record note : Type := mkNote { no_root : nat; no_inside : bool; no_fresh : bool }.
Definition book := list note.
Definition root (bk : book) (a : nat) : nat :=
  match nth_error bk a with Some v => no_root v | None => a end.
Definition fresh (bk : book) (a : nat) : bool :=
  match nth_error bk a with Some v => no_fresh v | None => false end.
(** What was obtained from owner [r] may not be used any more. *)
Definition stale (r : nat) (bk : book) : book :=
  map (fun '(j, v) => if (no_root v =? r) && negb (j =? r) then mkNote (no_root v) (no_inside v) false else v)
      (combine (seq 0 (length bk)) bk).
(** Only what points inside [r]'s box may not be used any more. *)
Definition stale_inside (r : nat) (bk : book) : book :=
  map (fun v => if (no_root v =? r) && no_inside v then mkNote (no_root v) true false else v) bk.

Definition stolen (ps : list param) (args : list nat) : list nat :=
  map snd (filter (fun '(p, _) => match pa_mode p with Steal => true | _ => false end) (combine ps args)).
(** The programmer's notes after an operation that did not throw. *)
Definition noted (bk : book) (o : op) : book :=
  match o with
  | Dispose i => stale i bk
  | Alias i _ => bk ++ [mkNote (root bk i) (match nth_error bk i with Some v => no_inside v | None => false end) (fresh bk i)]
  | Call m args gc _ =>
      let bk1 := fold_left (fun b i => stale i b) (stolen (me_params (sig m)) args ++ gc) bk in
      let bk2 := match me_moves (sig m) with
                 | Some k => match nth_error args k with Some a => stale_inside (root bk a) bk1 | None => bk1 end
                 | None => bk1
                 end in
      match me_result (sig m) with
      | RNone => bk2
      | RNew _ => bk2 ++ [mkNote (length bk2) false true]
      | RView k _ _ => bk2 ++ [mkNote (root bk (nth k args 0)) true true]
      end
  end.

(** The methods whose C# code is wrong in itself. *)
Definition sound_method (m : method) : bool :=
  match m with Example_ObjectRemove | Ball_ObjectCreate | VecSet => false | _ => true end.

(** One operation follows the rules: it calls no faulty method; its arguments have
    the declared classes; what it moves into the call it owns; what it lends may
    still be used and was not obtained from something it moves; and the program keeps
    its arguments, and the owners they came from, alive until the call returns. *)
Definition allowed (w : world) (bk : book) (o : op) : Prop :=
  match o with
  | Dispose _ => True
  | Alias _ o => o <> Owned
  | Call m args gc _ =>
      sound_method m = true /\
      Forall2 (fun p a => exists r, nth_error (wrs w) a = Some r /\ wr_class r = pa_class p /\
                 match pa_mode p with
                 | Borrow => fresh bk a = true
                 | _ => wr_own r = Owned
                 end) (me_params (sig m)) args /\
      (forall a s, In a args -> In s (stolen (me_params (sig m)) args) -> a <> s -> root bk a <> s) /\
      (forall a, In a args -> ~ In a gc /\ ~ In (root bk a) gc)
  end.

(** A program follows the rules. *)
Fixpoint obeys (w : world) (bk : book) (l : list op) : Prop :=
  match l with
  | [] => True
  | o :: l => allowed w bk o /\
              match step w o with
              | Done w' => obeys w' (noted bk o) l
              | Throw w' => obeys w' bk l
              | UB _ => True
              end
  end.

(** The native boxes nobody has freed. *)
Definition live_cells (w : world) : list nat :=
  filter (fun n => match nth_error (heap w) n with Some k => ce_live k | None => false end) (seq 0 (length (heap w))).

(** ** The documented effect of each method
    Written down from the C# classes' documentation and signatures, independently of
    [sig]: the argument positions whose wrapper is emptied, those whose native box is
    consumed, the argument whose views may be invalidated, and what is returned. *)
Record effect : Type := mkEffect { ef_empties : list nat; ef_consumes : list nat; ef_invalidates : option nat; ef_returns : result }.
Definition documented (m : method) : effect :=
  match m with
  | NewBox => mkEffect [] [] None (RNew CBox)
  | NewBaseline => mkEffect [] [] None (RNew CBaseline)
  | NewVec => mkEffect [] [] None (RNew CVec)
  | NewState _ => mkEffect [0] [0] None (RNew CState)
  | NewKeyframe _ => mkEffect [0] [0] None (RNew CKeyframe)
  | ReadBox | KeyframeTime | IsMain | ContractId_Read => mkEffect [] [] None RNone
  | StateValue v | KeyframeValue v => mkEffect [] [] None (RView 0 (value_class v) SharedRef)
  | StateSetValue _ => mkEffect [1] [1] None RNone
  | GetContractData => mkEffect [] [] None (RView 0 CContractData SharedRef)
  | ContractData_Id => mkEffect [] [] None (RView 0 CContractId SharedRef)
  | GetState => mkEffect [] [] None (RView 0 CState SharedRef)
  | GetStateMut => mkEffect [] [] None (RView 0 CState MutRef)
  | BindState => mkEffect [] [] None (RNew CStateHandle)
  | StateId_Contract | Contract_Handle => mkEffect [] [] None (RNew CContractDataHandle)
  | Register => mkEffect [] [] (Some 0) (RNew CContract)
  | Contract_States => mkEffect [] [] None (RView 0 CStates SharedRef)
  | States_Id => mkEffect [] [] None (RNew CStateId)
  | Example_ObjectCreate => mkEffect [2] [2] (Some 1) (RNew CObjectHandle)
  | Example_ObjectRemove => mkEffect [] [1] (Some 0) RNone
  | Ball_Unregister => mkEffect [] [] (Some 0) RNone
  | Ball_ObjectCreate => mkEffect [] [] (Some 0) (RNew CObjectHandle)
  | Ball_ObjectRemove => mkEffect [1] [1] (Some 0) RNone
  | VecPush => mkEffect [1] [1] (Some 0) RNone
  | VecGet => mkEffect [] [] None (RView 0 CKeyframe SharedRef)
  | VecSet => mkEffect [0] [0] None RNone
  end.
(** The [k]-th argument is wrapper [i]; the [k]-th argument points into cell [n]. *)
Definition is_arg (args : list nat) (i k : nat) : bool :=
  match nth_error args k with Some a => a =? i | None => false end.
Definition points (w : world) (args : list nat) (n k : nat) : bool :=
  match nth_error args k with
  | Some a => match nth_error (wrs w) a with
              | Some r => match wr_inner r with Some q => cell_of q =? n | None => false end
              | None => false
              end
  | None => false
  end.
