(** Who can hold a collaction.
    action/mod.rs:22-34: [Collaction] has one private field, no constructor, no
    [Default], no [Clone]; engine.rs:34-72: [Engine::new], [try_apply],
    [apply_timeout] and the sender of type [Sender<Collaction>] are the public
    functions whose types mention it, besides [actions] and [actions_mut].
    A Rust program outside the crate can move a collaction, drop it, change its
    actions in place and send it; code in the crate could also make one. *)
From Verif Require Export Engine.
From Coq Require Import Permutation.

(** A client's collactions and its engines ([None]: an engine that was dropped;
    each engine with its queue as in [Engine.sys]). *)
Record world : Type := mkWorld {
  w_owned : list collaction;
  w_engines : list (option sys)
}.
Definition nothing : world := mkWorld [] [].

Inductive event : Type :=
| EMake (c : collaction)                  (* [Collaction { actions }]: inside the crate only *)
| EEdit (c c' : collaction)               (* action/mod.rs:31 [actions_mut]: a slice, so of the same length *)
| ELose (c : collaction)                  (* dropped *)
| ENew (r : realm) (cap : option nat)     (* engine.rs:34-43 *)
| EDropEngine (k : nat)                   (* the engine is dropped, and what is queued with it *)
| EAct (k : nat) (l : label)              (* one step of engine [k] or of one of its senders *)
| EUnwind (k : nat).                      (* a panic in an apply reaches the client *)

(** What a step takes from the client and what it gives back: a send moves the
    collaction into the channel ([try_send] on a full one returns it), a receive
    moves it into the engine, [try_apply]/[apply_timeout] return it. *)
Definition takes (l : label) : list collaction :=
  match l with LSend _ c | LHandoff _ c => [c] | _ => [] end.
Definition needs (l : label) : list collaction :=
  match l with LSend _ c | LHandoff _ c | LFull _ c => [c] | _ => [] end.
Definition gives (l : label) : list collaction :=
  match l with LReturn x => [cresult_actions x] | _ => [] end.

Inductive wstep : world -> event -> world -> Prop :=
| w_make o es c : wstep (mkWorld o es) (EMake c) (mkWorld (c :: o) es)
| w_edit o1 o2 es c c' : length c' = length c ->
    wstep (mkWorld (o1 ++ c :: o2) es) (EEdit c c') (mkWorld (o1 ++ c' :: o2) es)
| w_lose o1 o2 es c : wstep (mkWorld (o1 ++ c :: o2) es) (ELose c) (mkWorld (o1 ++ o2) es)
| w_new o es r cap : wstep (mkWorld o es) (ENew r cap) (mkWorld o (es ++ [Some (sys_new r cap)]))
| w_drop o es1 es2 s : s_phase s = Idle ->
    wstep (mkWorld o (es1 ++ Some s :: es2)) (EDropEngine (length es1)) (mkWorld o (es1 ++ None :: es2))
| w_act o o' rest es1 es2 s l s' :
    step s l s' -> incl (needs l) o -> Permutation o (takes l ++ rest) -> o' = gives l ++ rest ->
    wstep (mkWorld o (es1 ++ Some s :: es2)) (EAct (length es1) l) (mkWorld o' (es1 ++ Some s' :: es2))
| w_unwind o es1 es2 s c : s_phase s = Busy c MPanic ->
    wstep (mkWorld o (es1 ++ Some s :: es2)) (EUnwind (length es1))
          (mkWorld o (es1 ++ Some (mkSys (s_realm s) (s_queue s) (s_cap s) (s_senders s) Idle) :: es2)).

Inductive wsteps : world -> list event -> world -> Prop :=
| wsteps_nil w : wsteps w [] w
| wsteps_cons w e w1 tr w2 : wstep w e w1 -> wsteps w1 tr w2 -> wsteps w (e :: tr) w2.
