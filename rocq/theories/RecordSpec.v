(** Specification for C07: a baseline seen as a map from object handles to
    records of field values.  Nothing here mentions arenas, slots, type maps or
    state indices: states are only reached through what [bind_state] returned. *)
From Verif Require Export BaselineSpec.

(** One object: its contract, its field values, its channels, its time warp, and
    whether it has been removed. *)
Record robj : Type := mkRobj {
  ro_contract : index;
  ro_vals : list dynprop;
  ro_chans : list channel;
  ro_warp : timewarp;
  ro_live : bool
}.

(** [rs_con]: the contract type each live contract handle was registered with;
    [rs_mem]: the objects created under it; [rs_obj]: the objects;
    [rs_bound]: which field a state handle was obtained for;
    [rs_used_con], [rs_used_obj]: every handle ever returned. *)
Record rstate : Type := mkRstate {
  rs_con : index -> option contract_ty;
  rs_mem : index -> list index;
  rs_obj : index -> option robj;
  rs_bound : list ((ptype * index) * (index * nat));
  rs_bound_ch : list ((ptype * index) * (index * nat));
  rs_used_con : list index;
  rs_used_obj : list index
}.
Definition rs_empty : rstate :=
  mkRstate (fun _ => None) (fun _ => []) (fun _ => None) [] [] [] [].

(** Client calls. [C], [h] stand for the contract value [C::new(h)]. *)
Inductive rop : Type :=
| RRegister (C : contract_ty)
| RUnregister (C : contract_ty) (h : index) (ord : list index)
| RCreate (C : contract_ty) (h : index) (vs : list dynprop) (cs : list channel)
| RRemove (C : contract_ty) (o : index)
| RBind (C : contract_ty) (h : index) (i : nat) (o : index)
| RBindCh (C : contract_ty) (h : index) (i : nat) (o : index)
| RGet (t : ptype) (sh : index)
| RSet (sh : index) (v : dynprop)
| RGetCh (t : ptype) (sh : index)
| RSetCh (t : ptype) (sh : index) (ks : list keyframe)
| RGetWarp (o : index)
| RSetWarp (o : index) (w : timewarp).

Inductive rret : Type :=
| YUnit | YHandle (h : index) | YNoField | YBound (t : ptype) (h : index)
| YVal (v : dynprop) | YChan (c : channel) | YWarp (w : timewarp).

(** ** The client calls on the model of the code *)
Definition on_fst {A B} (f : A -> B) (p : outcome A * baseline) : outcome B * baseline :=
  (omap f (fst p), snd p).

Definition cstep (b : baseline) (op : rop) : outcome rret * baseline :=
  match op with
  | RRegister C => on_fst (fun c => YHandle (ci_handle c)) (register_contract b C)
  | RUnregister C h ord => on_fst (fun _ => YUnit) (unregister_contract b C h ord)
  | RCreate C h vs cs => on_fst YHandle (object_create b (mkCinst C h) vs cs)
  | RRemove C o => on_fst (fun _ => YUnit) (object_remove b C o)
  | RBind C h i o =>
      match ci_state_id (mkCinst C h) i with
      | None => (Ok YNoField, b)
      | Some id => (omap (YBound (pid_type id)) (bind_state b id o), b)
      end
  | RBindCh C h i o =>
      match ci_chan_id (mkCinst C h) i with
      | None => (Ok YNoField, b)
      | Some id => (omap (YBound (pid_type id)) (bind_channel b id o), b)
      end
  | RGet t sh => (omap YVal (state_get b t sh), b)
  | RSet sh v => on_fst (fun _ => YUnit) (state_set b sh v)
  | RGetCh t sh => (omap YChan (channel_get b t sh), b)
  | RSetCh t sh ks => on_fst (fun _ => YUnit) (channel_set_keys b t sh ks)
  | RGetWarp o => (omap (fun ob => YWarp (o_warp ob)) (object_of b o), b)
  | RSetWarp o w => on_fst (fun _ => YUnit) (object_set_warp b o w)
  end.

(** The answers to a sequence of calls; a panic ends it. *)
Fixpoint crun (b : baseline) (ops : list rop) : list (outcome rret) * baseline :=
  match ops with
  | [] => ([], b)
  | op :: t =>
      let '(r, b1) := cstep b op in
      if is_panic r then ([r], b1)
      else let '(rs, b2) := crun b1 t in (r :: rs, b2)
  end.

(** ** The abstract map *)
Definition upd {V} (f : index -> V) (k : index) (v : V) : index -> V :=
  fun k' => if index_eqb k k' then v else f k'.

(** The object a state handle was obtained for, and the field's value. *)
Definition is_bound (l : list ((ptype * index) * (index * nat))) t sh (o : index) (i : nat) : Prop :=
  In ((t, sh), (o, i)) l.

Definition live_obj (s : rstate) (o : index) : option robj :=
  match rs_obj s o with
  | Some r => if ro_live r then Some r else None
  | None => None
  end.

(** What a client may do: use a contract handle only with the contract type it
    was registered with, state handles only as obtained from a binding, and (as
    Rust's types and [HashSet] guarantee) well-typed channels, and an iteration
    order of the contract's objects. *)
Definition disciplined (s : rstate) (op : rop) : Prop :=
  match op with
  | RCreate C h _ cs => (forall C', rs_con s h = Some C' -> C' = C) /\ Forall channel_wt cs
  | RBind C h _ _ | RBindCh C h _ _ => forall C', rs_con s h = Some C' -> C' = C
  | RUnregister C h ord => rs_con s h <> None -> Permutation ord (rs_mem s h)
  | RGet t sh => exists o i, is_bound (rs_bound s) t sh o i
  | RSet sh v => exists o i, is_bound (rs_bound s) (prop_type v) sh o i
  | RGetCh t sh => exists o i, is_bound (rs_bound_ch s) t sh o i
  | RSetCh t sh ks => (exists o i, is_bound (rs_bound_ch s) t sh o i) /\
                      Forall (fun k => prop_type (k_value k) = t) ks
  | _ => True
  end.

(** Which answer is allowed. *)
Definition allowed (s : rstate) (op : rop) (r : outcome rret) : Prop :=
  match op with
  | RRegister C =>
      ((exists h C', rs_con s h = Some C' /\ ct_id C' = ct_id C) /\ r = Err EContractAlreadyAdded) \/
      (~ (exists h C', rs_con s h = Some C' /\ ct_id C' = ct_id C) /\
       exists h, r = Ok (YHandle h) /\ ~ In h (rs_used_con s))
  | RCreate C h vs cs =>
      if match rs_con s h with Some _ => true | None => false end
      then
        (map prop_type vs = ct_states C /\ map ch_type cs = ct_chans C /\
         exists o, r = Ok (YHandle o) /\ ~ In o (rs_used_obj s)) \/
        (~ (map prop_type vs = ct_states C /\ map ch_type cs = ct_chans C) /\ is_err r = true)
      else r = Err ENoSuchContract
  | RBind C h i o =>
      match nth_error (ct_states C) i with
      | None => r = Ok YNoField
      | Some t =>
          match live_obj s o with
          | None => r = Err EBindNoObject
          | Some ro => if index_eqb h (ro_contract ro)
                       then exists sh, r = Ok (YBound t sh)
                       else r = Err EIdWrongContract
          end
      end
  | RBindCh C h i o =>
      match nth_error (ct_chans C) i with
      | None => r = Ok YNoField
      | Some t =>
          match live_obj s o with
          | None => r = Err EBindNoObject
          | Some ro => if index_eqb h (ro_contract ro)
                       then exists sh, r = Ok (YBound t sh)
                       else r = Err EIdWrongContract
          end
      end
  | RGet t sh =>
      (* every field the handle was obtained for holds exactly the answer *)
      forall o i, is_bound (rs_bound s) t sh o i ->
      exists ro v, rs_obj s o = Some ro /\ nth_error (ro_vals ro) i = Some v /\ r = Ok (YVal v)
  | RSet sh v => r = Ok YUnit
  | RGetCh t sh =>
      forall o i, is_bound (rs_bound_ch s) t sh o i ->
      exists ro c, rs_obj s o = Some ro /\ nth_error (ro_chans ro) i = Some c /\ r = Ok (YChan c)
  | RSetCh t sh ks => r = Ok YUnit
  | RRemove C o =>
      match live_obj s o with
      | None => r = Err EObjectDidNotExist
      | Some _ => r = if fieldless C then Ok YUnit else Err EBindNoObject
      end
  | RUnregister C h ord =>
      match rs_con s h with
      | None => r = Err ENoContractToUnregister
      | Some C' =>
          if contract_id_eqb (ct_id C') (ct_id C) then
            (r = Ok YUnit /\ (rs_mem s h = [] \/
               fieldless C = true /\ forall o, In o (rs_mem s h) -> live_obj s o <> None)) \/
            (r = Panic /\ ~ (rs_mem s h = [] \/
               fieldless C = true /\ forall o, In o (rs_mem s h) -> live_obj s o <> None))
          else r = Err EHandleContractMismatch
      end
  | RGetWarp o =>
      match live_obj s o with None => r = Err ENoSuchHandle | Some ro => r = Ok (YWarp (ro_warp ro)) end
  | RSetWarp o w =>
      match live_obj s o with None => r = Err ENoSuchHandle | Some ro => r = Ok YUnit end
  end.

Definition set_vals (ro : robj) (vs : list dynprop) : robj :=
  mkRobj (ro_contract ro) vs (ro_chans ro) (ro_warp ro) (ro_live ro).
Definition set_chans (ro : robj) (cs : list channel) : robj :=
  mkRobj (ro_contract ro) (ro_vals ro) cs (ro_warp ro) (ro_live ro).
Definition set_rwarp (ro : robj) (w : timewarp) : robj :=
  mkRobj (ro_contract ro) (ro_vals ro) (ro_chans ro) w (ro_live ro).
Definition kill (ro : robj) : robj :=
  mkRobj (ro_contract ro) (ro_vals ro) (ro_chans ro) (ro_warp ro) false.

(** The field a state handle denotes: the first binding that returned it (all of
    them are the same field, as [RGet]'s clause above forces). *)
Fixpoint lookup_bound (l : list ((ptype * index) * (index * nat))) t sh : option (index * nat) :=
  match l with
  | [] => None
  | ((t', sh'), f) :: l' => if ptype_eqb t t' && index_eqb sh sh' then Some f else lookup_bound l' t sh
  end.

Definition write_val (s : rstate) (o : index) (i : nat) (v : dynprop) : index -> option robj :=
  match rs_obj s o with
  | Some ro => upd (rs_obj s) o (Some (set_vals ro (list_set (ro_vals ro) i v)))
  | None => rs_obj s
  end.
Definition write_keys (s : rstate) (o : index) (i : nat) (ks : list keyframe) : index -> option robj :=
  match rs_obj s o with
  | Some ro =>
      match nth_error (ro_chans ro) i with
      | Some c => upd (rs_obj s) o (Some (set_chans ro (list_set (ro_chans ro) i (mkChannel (ch_type c) ks))))
      | None => rs_obj s
      end
  | None => rs_obj s
  end.

Definition with_robj (s : rstate) (f : index -> option robj) : rstate :=
  mkRstate (rs_con s) (rs_mem s) f (rs_bound s) (rs_bound_ch s) (rs_used_con s) (rs_used_obj s).

(** The next abstract state, given the call and its answer. *)
Definition rnext (s : rstate) (op : rop) (r : outcome rret) : rstate :=
  match op, r with
  | RRegister C, Ok (YHandle h) =>
      mkRstate (upd (rs_con s) h (Some C)) (upd (rs_mem s) h []) (rs_obj s)
               (rs_bound s) (rs_bound_ch s) (h :: rs_used_con s) (rs_used_obj s)
  | RCreate C h vs cs, Ok (YHandle o) =>
      mkRstate (rs_con s) (upd (rs_mem s) h (rs_mem s h ++ [o]))
               (upd (rs_obj s) o (Some (mkRobj h vs cs timewarp_default true)))
               (rs_bound s) (rs_bound_ch s) (rs_used_con s) (o :: rs_used_obj s)
  | RBind C h i o, Ok (YBound t sh) =>
      mkRstate (rs_con s) (rs_mem s) (rs_obj s) (((t, sh), (o, i)) :: rs_bound s) (rs_bound_ch s)
               (rs_used_con s) (rs_used_obj s)
  | RBindCh C h i o, Ok (YBound t sh) =>
      mkRstate (rs_con s) (rs_mem s) (rs_obj s) (rs_bound s) (((t, sh), (o, i)) :: rs_bound_ch s)
               (rs_used_con s) (rs_used_obj s)
  | RSet sh v, _ =>
      match lookup_bound (rs_bound s) (prop_type v) sh with
      | Some (o, i) => with_robj s (write_val s o i v)
      | None => s
      end
  | RSetCh t sh ks, _ =>
      match lookup_bound (rs_bound_ch s) t sh with
      | Some (o, i) => with_robj s (write_keys s o i ks)
      | None => s
      end
  | RRemove C o, _ =>
      match rs_obj s o with
      | Some ro => with_robj s (upd (rs_obj s) o (Some (kill ro)))
      | None => s
      end
  | RSetWarp o w, Ok _ =>
      match rs_obj s o with
      | Some ro => with_robj s (upd (rs_obj s) o (Some (set_rwarp ro w)))
      | None => s
      end
  | RUnregister C h ord, Ok _ =>
      mkRstate (upd (rs_con s) h None) (rs_mem s)
        (fun o => match rs_obj s o with
                  | Some ro => Some (if index_eqb h (ro_contract ro) then kill ro else ro)
                  | None => None
                  end)
        (rs_bound s) (rs_bound_ch s) (rs_used_con s) (rs_used_obj s)
  | _, _ => s
  end.

(** A client history is disciplined / its answers are those of the map. *)
Fixpoint all_disciplined (s : rstate) (ops : list rop) (rs : list (outcome rret)) : Prop :=
  match ops, rs with
  | op :: ops', r :: rs' => disciplined s op /\ all_disciplined (rnext s op r) ops' rs'
  | _, _ => True
  end.
Fixpoint all_allowed (s : rstate) (ops : list rop) (rs : list (outcome rret)) : Prop :=
  match ops, rs with
  | op :: ops', r :: rs' =>
      allowed s op r /\
      if is_panic r then rs' = []            (* a panic ends the history *)
      else all_allowed (rnext s op r) ops' rs'
  | [], [] => True
  | _, _ => False
  end.
