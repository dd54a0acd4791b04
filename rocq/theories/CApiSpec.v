(** What a C client does to read and write one field of an ExampleContract object,
    as sequences of calls of the C API. *)
From Verif Require Export CApi.

Definition with_ptr (r : result) (k : ptr -> heap -> result) : result :=
  match r with
  | Done (RPtr p) H => k p H
  | Done _ _ => UB
  | Abort => Abort
  | UB => UB
  end.

(** Bind field [f] of object [o] (contract [c], baseline [b]): the boxed handle. *)
Definition bind_field (H : heap) (c b o : ptr) (f : exfield) (k : ptr -> heap -> result) : result :=
  with_ptr (step H (ExampleContract__states c)) (fun s H1 =>
  with_ptr (step H1 (ExampleStates__id f s)) (fun i H2 =>
  with_ptr (step H2 (Baseline__bind_state (exfield_prim f) b i o)) k)).

(** Read it: shared borrow of the state, pointer to the value, load. *)
Definition read_field (H : heap) (c b o : ptr) (f : exfield) : result :=
  bind_field H c b o f (fun h H3 =>
  with_ptr (step H3 (Baseline__state (exfield_prim f) b h)) (fun s H4 =>
  with_ptr (step H4 (State__value (exfield_prim f) s)) (fun v H5 =>
  step H5 (Load v)))).

(** Write the boxed value [v] to it. *)
Definition write_field (H : heap) (c b o : ptr) (f : exfield) (v : ptr) : result :=
  bind_field H c b o f (fun h H3 =>
  with_ptr (step H3 (Baseline__state_mut (exfield_prim f) b h)) (fun s H4 =>
  step H4 (State__value_set (exfield_prim f) s v))).

(** The client sees [v] in the field. *)
Definition shows (H : heap) (c b o : ptr) (f : exfield) (v : dynprim) : Prop :=
  exists H', read_field H c b o f = Done (RVal v) H'.

(** The client finds [v] behind [p]. *)
Definition loads (H : heap) (p : ptr) (v : dynprim) : Prop := step H (Load p) = Done (RVal v) H.

(** The box [p] can still be dropped (it was not given away or freed). *)
Definition held (H : heap) (p : ptr) : Prop := exists a, p = PBox a /\ look H a <> None.

(** A program so far: its calls with their answers, latest first, and the heap. *)
Inductive session : list (call * ret) -> heap -> Prop :=
| session_start : session [] []
| session_step l H c r H' : session l H -> step H c = Done r H' -> session ((c, r) :: l) H'.

(** Going on from one heap to a later one by the given calls (first call first). *)
Inductive continues : heap -> list call -> heap -> Prop :=
| continues_none H : continues H [] H
| continues_call H c r H1 l H2 : step H c = Done r H1 -> continues H1 l H2 -> continues H (c :: l) H2.

(** The boxes a call takes ownership of (the parameters of type [repr_c::Box]). *)
Definition gives_away (c : call) : list ptr :=
  match c with
  | Baseline__drop b => [b]
  | State__new _ v => [v]
  | State__value_set _ _ v => [v]
  | Drop p => [p]
  | ExampleContract__object_create _ _ _ _ _ _ _ _ s o c => [s; o; c]
  | ExampleContract__object_remove _ o => [o]
  | _ => []
  end.
