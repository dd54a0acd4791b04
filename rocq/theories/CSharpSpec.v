(** What a C# program does to read and write a field or a state, in C# calls. *)
From Verif Require Export CSharp CApiSpec.

Definition andthen (a : answer) (k : nat -> world -> answer) : answer :=
  match a with Return (Ref i) w => k i w | Return _ _ => Illtyped | a => a end.

(** [b.BindStateT(c.States.F, o)] *)
Definition cs_bind (w : world) (c b o : nat) (f : exfield) (k : nat -> world -> answer) : answer :=
  andthen (cs_step w (States c)) (fun s w1 =>
  andthen (cs_step w1 (Field f s)) (fun i w2 =>
  andthen (cs_step w2 (BindState (exfield_prim f) b i o)) k)).
(** [s.Value.Value] *)
Definition cs_value (w : world) (t : prim) (s : nat) : answer :=
  andthen (cs_step w (StateValue t s)) (fun x w1 => cs_step w1 (BoxValue x)).
(** [b.State(b.BindStateT(c.States.F, o)).Value.Value] *)
Definition cs_read (w : world) (c b o : nat) (f : exfield) : answer :=
  cs_bind w c b o f (fun h w1 =>
  andthen (cs_step w1 (GetState (exfield_prim f) b h)) (fun s w2 => cs_value w2 (exfield_prim f) s)).
(** [b.StateMut(b.BindStateT(c.States.F, o)).Value = x] *)
Definition cs_write (w : world) (c b o : nat) (f : exfield) (x : nat) : answer :=
  cs_bind w c b o f (fun h w1 =>
  andthen (cs_step w1 (GetStateMut (exfield_prim f) b h)) (fun s w2 =>
  cs_step w2 (SetStateValue (exfield_prim f) s x))).

(** The program reads [v] there. *)
Definition sees (w : world) (c b o : nat) (f : exfield) (v : dynprim) : Prop :=
  exists w', cs_read w c b o f = Return (Val v) w'.
Definition reads (w : world) (t : prim) (s : nat) (v : dynprim) : Prop :=
  exists w', cs_value w t s = Return (Val v) w'.
(** The wrapper has class [k], owns its native box and was neither disposed nor moved. *)
Definition owns (w : world) (i : nat) (k : wkind) : Prop :=
  exists p, nth_error (ww w) i = Some (mkWr k (Some p) Owned).

(** The calls that assign to a state. *)
Definition assigns (o : op) : Prop := exists t s v, o = SetStateValue t s v.
(** The binding that passes too few arguments. *)
Definition broken (o : op) : Prop :=
  exists c b u0 u1 i0 i1 f0 f1 s j1 j2, o = ObjectCreate c b u0 u1 i0 i1 f0 f1 s j1 j2.
(** Worlds a program can reach from the start, without the broken binding. *)
Definition reachable (w : world) : Prop :=
  exists l, runs empty_world l w /\ forall o, In o l -> ~ broken o.

(** When a call throws (the documentation of .NET and of the exceptions thrown). *)
Definition gone (w : world) (i : nat) : Prop :=
  exists k o, nth_error (ww w) i = Some (mkWr k None o).
Definition shared (w : world) (i : nat) : Prop :=
  exists k p, nth_error (ww w) i = Some (mkWr k p SharedRef).
(** The wrappers a call needs. *)
Definition needs (o : op) : list nat :=
  match o with
  | NewBaseline _ | NewBox _ | ForeignHandle _ | Dispose _ => []
  | IsMain x | DataId x | IdName x | IdVersion x | BoxValue x | NewState _ x | StateValue _ x
  | IdContract _ x | Register x | Handle x | States x | Field _ x | BorrowBaseline x _ => [x]
  | GetContractData x y | SetStateValue _ x y | GetState _ x y | GetStateMut _ x y | ObjectRemove x y => [x; y]
  | BindState _ x y z => [x; y; z]
  | ObjectCreate c b _ _ _ _ _ _ s _ _ => [c; b; s]
  | FixedObjectCreate c b _ _ _ _ _ _ s x y => [c; b; s; x; y]
  end.
(** The baselines a call wants to change: where a shared one gives a mutability
    exception, and where an ownership exception; and the wrappers a call wants to own. *)
Definition edits (o : op) : list nat :=
  match o with GetStateMut _ b _ | Register b => [b] | _ => [] end.
Definition populates (o : op) : list nat :=
  match o with
  | ObjectCreate _ b _ _ _ _ _ _ _ _ _ | FixedObjectCreate _ b _ _ _ _ _ _ _ _ _ | ObjectRemove b _ => [b]
  | _ => []
  end.
Definition takes (o : op) : list nat :=
  match o with
  | ObjectCreate _ _ _ _ _ _ _ _ s _ _ => [s]
  | FixedObjectCreate _ _ _ _ _ _ _ _ s x y => [s; x; y]
  | _ => []
  end.

(** The wrappers a call empties: their boxes now belong to the native side, or are freed. *)
Definition consumes (o : op) : list nat :=
  match o with
  | NewState _ v | SetStateValue _ _ v | Dispose v => [v]
  | _ => takes o
  end.

(** [x.Value] is [v]. *)
Definition holds (w : world) (x : nat) (v : dynprim) : Prop := cs_step w (BoxValue x) = Return (Val v) w.
(** The native value behind a wrapper (handles cannot be inspected from C#). *)
Definition stands_for (w : world) (x : nat) (v : dynprim) : Prop :=
  exists k p o, nth_error (ww w) x = Some (mkWr k (Some p) o) /\ loads (wh w) p v.
(** [i] exists and does not own its native memory. *)
Definition not_owned (w : world) (i : nat) : Prop :=
  exists k p o, nth_error (ww w) i = Some (mkWr k p o) /\ o <> Owned.
