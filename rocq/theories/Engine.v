(** Realms, actions and the engine.
    client/rust/src/{realm.rs, engine.rs, action/mod.rs, action/property.rs}. *)
From Verif Require Export Baseline Dynamic.
Open Scope nat_scope.

(** ** Realm *)

(** realm.rs:19-24.  [RealmTime] (time/mod.rs:160-180) is its ticks. *)
Record realm : Type := mkRealm {
  r_id : string;
  r_time : ticks;
  r_main : baseline;
  r_fork : baseline
}.

(** realm.rs:26-42; [RealmTime::default()] is 0 ticks. *)
Definition realm_new (id : string) : realm :=
  mkRealm id 0%Z (baseline_new KMain) (baseline_new KFork).

(** realm.rs:58-63. *)
Definition realm_baseline (r : realm) (k : baseline_kind) : baseline :=
  match k with KMain => r_main r | KFork => r_fork r end.

(** realm.rs:65-70 [baseline_mut], as storing the mutated baseline back. *)
Definition realm_set_baseline (r : realm) (k : baseline_kind) (b : baseline) : realm :=
  match k with
  | KMain => mkRealm (r_id r) (r_time r) b (r_fork r)
  | KFork => mkRealm (r_id r) (r_time r) (r_main r) b
  end.

(** realm.rs:48-54 [time], [time_mut]. *)
Definition realm_set_time (r : realm) (t : ticks) : realm :=
  mkRealm (r_id r) t (r_main r) (r_fork r).

(** Any public mutation of a realm. *)
Inductive rop : Type :=
| ROp (k : baseline_kind) (op : bop)
| RSetTime (t : ticks).
Definition rstep (r : realm) (op : rop) : outcome bret * realm :=
  match op with
  | ROp k o => let '(x, b) := bstep (realm_baseline r k) o in (x, realm_set_baseline r k b)
  | RSetTime t => (Ok RUnit, realm_set_time r t)
  end.

(** ** Actions *)

(** action/property.rs:11-36 and action/mod.rs:8-10. *)
Inductive action : Type :=
| StateAssert (h : dyn_handle) (data : dynprop)
| StateWrite (h : dyn_handle) (data : dynprop)
| ChannelAssert (h : dyn_handle) (data : dynprop)
| ChannelWrite (h : dyn_handle) (data : dynprop).

(** action/mod.rs:36-52, the kinds that occur. *)
Inductive action_kind : Type := KStateWrite | KStateAssert | KChannelWrite | KChannelAssert.

(** action/property.rs:38-44 and 51-57. *)
Definition kind (a : action) : action_kind :=
  match a with
  | StateAssert _ _ => KStateAssert
  | StateWrite _ _ => KStateWrite
  | ChannelAssert _ _ => KChannelAssert
  | ChannelWrite _ _ => KChannelWrite
  end.

(** action/mod.rs:22-34 [Collaction { actions: Vec<Action> }]. *)
Definition collaction := list action.

(** action/mod.rs:34 [Result<Collaction, Collaction>]. *)
Inductive cresult : Type := Accepted (c : collaction) | Rejected (c : collaction).
Definition cresult_actions (r : cresult) : collaction :=
  match r with Accepted c => c | Rejected c => c end.

(** engine.rs:103-146.  Returns the outcome, the realm and the (mutable) action.
    A write to a live handle ends in [todo!()], after a [debug_assert!]; both
    panic. *)
Definition apply_action (r : realm) (a : action) : outcome unit * realm * action :=
  match a with
  | StateAssert h d =>
      match dyn_state_get (realm_baseline r KFork) h with
      | Ok v => if ref_eqb (borrow v) (borrow d) then (Ok tt, r, a) else (Err EAssertFailed, r, a)
      | Err _ => (Err EInvalidHandle, r, a)
      | Panic => (Panic, r, a)
      end
  | StateWrite h d =>
      match dyn_state_get (realm_baseline r KFork) h with
      | Ok _ => (Panic, r, a)
      | Err _ => (Err EInvalidHandle, r, a)
      | Panic => (Panic, r, a)
      end
  | _ => (Ok tt, r, a)
  end.

(** engine.rs:148-165. *)
Definition reverse_action (r : realm) (a : action) : outcome unit * realm * action :=
  match kind a with
  | KStateAssert => (Ok tt, r, a)
  | KStateWrite =>
      match apply_action r a with
      | (Ok _, r', a') => (Ok tt, r', a')
      | (_, r', a') => (Panic, r', a')        (* .expect("TODO: ...") *)
      end
  | _ => (Ok tt, r, a)
  end.

(** engine.rs:167-171.  Returns the visited actions in the order visited. *)
Fixpoint reverse_actions (r : realm) (l : list action) : outcome (list action) * realm :=
  match l with
  | [] => (Ok [], r)
  | a :: t =>
      match reverse_action r a with
      | (Ok _, r', a') =>
          match reverse_actions r' t with
          | (Ok l', r'') => (Ok (a' :: l'), r'')
          | (_, r'') => (Panic, r'')
          end
      | (_, r', _) => (Panic, r')
      end
  end.

(** engine.rs:74-101; [done] is [applied_actions], [todo] the rest of the
    iterator. *)
Fixpoint apply_loop (r : realm) (done todo : list action) : outcome cresult * realm :=
  match todo with
  | [] => (Ok (Accepted done), r)
  | a :: t =>
      match apply_action r a with
      | (Ok _, r', a') => apply_loop r' (done ++ [a']) t
      | (Err _, r', a') =>
          match reverse_actions r' (rev (done ++ [a'])) with
          | (Ok l, r'') => (Ok (Rejected (rev l ++ t)), r'')
          | (_, r'') => (Panic, r'')
          end
      | (Panic, r', _) => (Panic, r')
      end
  end.
Definition apply_collaction (r : realm) (c : collaction) : outcome cresult * realm :=
  apply_loop r [] c.

(** ** The engine and its queue

    A [crossbeam_channel] is modelled as its documented behaviour: a FIFO
    buffer with an optional capacity (engine.rs:35-39) and a count of live
    [Sender]s. *)
Record engine : Type := mkEngine {
  e_realm : realm;
  e_queue : list collaction;
  e_cap : option nat;
  e_senders : nat
}.
Definition e_set_realm (e : engine) (r : realm) : engine :=
  mkEngine r (e_queue e) (e_cap e) (e_senders e).

(** engine.rs:34-43: one sender is returned. *)
Definition engine_new (r : realm) (cap : option nat) : engine := mkEngine r [] cap 1.

(** engine.rs:45-47 [ticks += t] (time/mod.rs:43-47). *)
Definition tick (e : engine) (t : ticks) : engine :=
  e_set_realm e (realm_set_time (e_realm e) (ticks_add (r_time (e_realm e)) t)).

(** [TryRecvError] / [RecvTimeoutError]. *)
Inductive recv_err : Type := REmpty | RTimeout | RDisconnected.
Inductive recv_result : Type := Received (c : cresult) | RecvErr (e : recv_err).

(** [Receiver::try_recv] / [recv_timeout] when no sender is blocked on the
    channel: the oldest message, else empty/timeout, or disconnected when every
    sender is gone. *)
Definition receive (empty : recv_err) (e : engine) : recv_err + collaction * engine :=
  match e_queue e with
  | c :: q => inr (c, mkEngine (e_realm e) q (e_cap e) (e_senders e))
  | [] => inl (if Nat.eqb (e_senders e) 0 then RDisconnected else empty)
  end.

Definition apply_with (empty : recv_err) (e : engine) : outcome recv_result * engine :=
  match receive empty e with
  | inl x => (Ok (RecvErr x), e)
  | inr (c, e') =>
      match apply_collaction (e_realm e') c with
      | (Ok x, r) => (Ok (Received x), e_set_realm e' r)
      | (_, r) => (Panic, e_set_realm e' r)
      end
  end.

(** engine.rs:59-63 and 68-72. *)
Definition try_apply (e : engine) : outcome recv_result * engine := apply_with REmpty e.
Definition apply_timeout (e : engine) : outcome recv_result * engine := apply_with RTimeout e.

(** [Sender::try_send] / [send] (which blocks while the buffer is full; a
    blocked sender takes no step). *)
Definition queue_full (e : engine) : bool :=
  match e_cap e with None => false | Some n => Nat.leb n (length (e_queue e)) end.
Definition send (e : engine) (c : collaction) : option engine :=
  if queue_full e then None
  else Some (mkEngine (e_realm e) (e_queue e ++ [c]) (e_cap e) (e_senders e)).

(** ** Concurrent executions

    Sender threads run concurrently with the engine's thread.  While the engine
    is in the middle of [apply_collaction] senders may still enqueue, so the
    application is split in steps: [mach] is where [apply_collaction] stands. *)
Inductive mach : Type :=
| MApply (done todo : list action)
| MReverse (todo : list action) (seen : list action) (rest : list action)
| MDone (x : cresult)
| MPanic.

(** One iteration of the loop of engine.rs:80-96, or of engine.rs:168-170. *)
Definition mstep (r : realm) (m : mach) : realm * mach :=
  match m with
  | MApply done [] => (r, MDone (Accepted done))
  | MApply done (a :: t) =>
      match apply_action r a with
      | (Ok _, r', a') => (r', MApply (done ++ [a']) t)
      | (Err _, r', a') => (r', MReverse (rev (done ++ [a'])) [] t)
      | (Panic, r', _) => (r', MPanic)
      end
  | MReverse [] seen rest => (r, MDone (Rejected (rev seen ++ rest)))
  | MReverse (a :: t) seen rest =>
      match reverse_action r a with
      | (Ok _, r', a') => (r', MReverse t (seen ++ [a']) rest)
      | (_, r', _) => (r', MPanic)
      end
  | MDone _ | MPanic => (r, m)
  end.

(** What the engine thread is doing: nothing, or applying (the collaction
    received) and where it stands. *)
Inductive phase : Type := Idle | Busy (c : collaction) (m : mach).

(** The system: engine, its queue with the sending thread of each entry, phase. *)
Record sys : Type := mkSys {
  s_realm : realm;
  s_queue : list (nat * collaction);
  s_cap : option nat;
  s_senders : nat;
  s_phase : phase
}.

Inductive label : Type :=
| LSend (tid : nat) (c : collaction)          (* send/try_send succeeds *)
| LFull (tid : nat) (c : collaction)          (* try_send reports Full *)
| LRecv (tid : nat) (c : collaction)          (* the engine dequeues *)
| LHandoff (tid : nat) (c : collaction)       (* rendezvous on a capacity-0 channel *)
| LNoRecv (e : recv_err)                      (* try_apply/apply_timeout finds nothing *)
| LWork                                       (* one loop iteration *)
| LReturn (x : cresult)                       (* try_apply/apply_timeout returns *)
| LTick (t : ticks)
| LRealm (op : rop)                           (* the client uses realm_mut *)
| LClone                                      (* a Sender is cloned *)
| LDrop.                                      (* a Sender is dropped *)

Definition s_full (s : sys) : Prop :=
  exists n, s_cap s = Some n /\ n <= length (s_queue s).

(** Any live sender may act at any time; the engine thread acts in its own
    order.  [&mut self] makes [tick], [realm_mut] and the two applies mutually
    exclusive, so they start only when the engine is idle. *)
Inductive step : sys -> label -> sys -> Prop :=
| step_send s tid c :
    s_senders s <> 0 -> ~ s_full s ->
    step s (LSend tid c) (mkSys (s_realm s) (s_queue s ++ [(tid, c)]) (s_cap s) (s_senders s) (s_phase s))
| step_full s tid c :
    s_senders s <> 0 -> s_full s -> step s (LFull tid c) s
| step_recv s tid c q :
    s_phase s = Idle -> s_queue s = (tid, c) :: q ->
    step s (LRecv tid c) (mkSys (s_realm s) q (s_cap s) (s_senders s) (Busy c (MApply [] c)))
| step_handoff s tid c :
    s_phase s = Idle -> s_cap s = Some 0 -> s_queue s = [] -> s_senders s <> 0 ->
    step s (LHandoff tid c) (mkSys (s_realm s) [] (s_cap s) (s_senders s) (Busy c (MApply [] c)))
| step_norecv s e :
    s_phase s = Idle -> s_queue s = [] -> (e = RDisconnected <-> s_senders s = 0) ->
    step s (LNoRecv e) s
| step_work s c m r' m' :
    s_phase s = Busy c m -> (forall x, m <> MDone x) -> m <> MPanic ->
    mstep (s_realm s) m = (r', m') ->
    step s LWork (mkSys r' (s_queue s) (s_cap s) (s_senders s) (Busy c m'))
| step_return s c x :
    s_phase s = Busy c (MDone x) ->
    step s (LReturn x) (mkSys (s_realm s) (s_queue s) (s_cap s) (s_senders s) Idle)
| step_tick s t :
    s_phase s = Idle ->
    step s (LTick t) (mkSys (realm_set_time (s_realm s) (ticks_add (r_time (s_realm s)) t))
                            (s_queue s) (s_cap s) (s_senders s) Idle)
| step_realm s op x r' :
    s_phase s = Idle -> rstep (s_realm s) op = (x, r') -> x <> Panic ->
    step s (LRealm op) (mkSys r' (s_queue s) (s_cap s) (s_senders s) Idle)
| step_clone s :
    s_senders s <> 0 ->
    step s LClone (mkSys (s_realm s) (s_queue s) (s_cap s) (S (s_senders s)) (s_phase s))
| step_drop s n :
    s_senders s = S n ->
    step s LDrop (mkSys (s_realm s) (s_queue s) (s_cap s) n (s_phase s)).

Inductive steps : sys -> list label -> sys -> Prop :=
| steps_nil s : steps s [] s
| steps_cons s l s1 tr s2 : step s l s1 -> steps s1 tr s2 -> steps s (l :: tr) s2.

Definition sys_new (r : realm) (cap : option nat) : sys := mkSys r [] cap 1 Idle.
