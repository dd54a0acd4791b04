(** The serializer, with its bytes.  client/serialize/rust/src/serializer/mod.rs.

    [Serializer.v] says which tables are written; here they are written, in the order of the
    code.  [ser] is the bookkeeping of [Serializer.v], [wr] the builder and the offsets
    ([fbb], [contracts], [states], [objects], mod.rs:24-30), after an [Err] as the failed call
    leaves them. *)
From Verif Require Export Wire Serializer.
Open Scope nat_scope.

Record wr : Type := mkWr { wb : build; w_cs : list nat; w_ss : list nat; w_os : list nat }.
(** mod.rs:33-43. *)
Definition wr_new : wr := mkWr (mkBuild [] [] 1) [] [] [].

(** The byte of a kind (primitive.fbs:76-91). *)
Definition kind_byte (k : fbkind) : Z :=
  match k with
  | KU8 => 0 | KU16 => 1 | KU32 => 2 | KU64 => 3 | KI8 => 4 | KI16 => 5 | KI32 => 6 | KI64 => 7 | KBool => 8
  | KF32 => 9 | KF64 => 10 | KString => 11 | KObjectHandle => 12 | KContractDataHandle => 13 | KOther n => n
  end%Z.
(** mod.rs:22. *)
Definition WIP_DUMMY : nat := 1337.

(** mod.rs:62-132. *)
Definition out_state (b : baseline) (o : index) (s : ser) (w : wr) (id : prop_id) : outcome nat * ser * wr :=
  match ser_state b o s id with
  | (Ok i, s1) =>
      let '(p, bb) := match last (sr_states s1) None with
                      | Some v => w_state v (wb w)
                      | None => (WIP_DUMMY, wb w)
                      end in
      let '(h, bb) := w_state_handle i bb in
      (Ok h, s1, mkWr bb (w_cs w) (w_ss w ++ [p]) (w_os w))
  | (Err e, s1) => (Err e, s1, w)
  | (Panic, s1) => (Panic, s1, w)
  end.
Fixpoint out_states (b : baseline) (o : index) (s : ser) (w : wr) (ids : list prop_id) : outcome (list nat) * ser * wr :=
  match ids with
  | [] => (Ok [], s, w)
  | id :: t =>
      match out_state b o s w id with
      | (Ok h, s1, w1) =>
          match out_states b o s1 w1 t with
          | (Ok l, s2, w2) => (Ok (h :: l), s2, w2)
          | r => r
          end
      | (Err e, s1, w1) => (Err e, s1, w1)
      | (Panic, s1, w1) => (Panic, s1, w1)
      end
  end.
(** mod.rs:134-145: the vector of handles, then the object.  [ct] is the handle table of
    mod.rs:55-58, shared by the objects of a contract. *)
Definition out_object (b : baseline) (c : contract_inst) (cidx : N) (ct : nat) (s : ser) (w : wr) (o : index)
  : outcome unit * ser * wr :=
  match out_states b o s w (state_ids (ci_ty c) (ci_handle c)) with
  | (Ok l, _, w1) =>
      let '(t, bb) := w_object ct l (wb w1) in
      (Ok tt, snd (ser_object b c cidx s o), mkWr bb (w_cs w1) (w_ss w1) (w_os w1 ++ [t]))
  | (Err e, s1, w1) => (Err e, s1, w1)
  | (Panic, s1, w1) => (Panic, s1, w1)
  end.
Fixpoint out_objects (b : baseline) (c : contract_inst) (cidx : N) (ct : nat) (s : ser) (w : wr) (ord : list index)
  : outcome unit * ser * wr :=
  match ord with
  | [] => (Ok tt, s, w)
  | o :: t =>
      match out_object b c cidx ct s w o with
      | (Ok _, s1, w1) => out_objects b c cidx ct s1 w1 t
      | r => r
      end
  end.
(** mod.rs:157-179: what is already written of a contract when its types turn out to hold a
    vector (180-189); nothing refers to it. *)
Definition w_half (name : string) (ver : N * N * N) (names : list string) (b : build) : build :=
  let '(v1, v2, v3) := ver in
  let '(n, b) := create_string name b in
  let '(_, b) := create_table ((0, FOff n) :: opt 3 2 (Z.of_N v3) ++ opt 2 2 (Z.of_N v2) ++ opt 1 2 (Z.of_N v1)) b in
  let '(os, b) := fold_left (fun a s => let '(l, b) := a in let '(o, b) := create_string s b in (l ++ [o], b)) names ([], b) in
  snd (create_vector os b).
(** mod.rs:47-58 and 154-206. *)
Definition out_serialize (b : baseline) (s : ser) (w : wr) (c : contract_inst) (ord : list index) : outcome unit * ser * wr :=
  match contract_data_of b (ci_handle c) with
  | Err e => (Err e, s, w)
  | Panic => (Panic, s, w)
  | Ok _ =>
      match ser_types (ct_states (ci_ty c)) with
      | Err e =>
          let id := ct_id (ci_ty c) in
          (Err e, s, mkWr (w_half (cid_name id) (cid_ver id) (ct_state_names (ci_ty c)) (wb w)) (w_cs w) (w_ss w) (w_os w))
      | Panic => (Panic, s, w)
      | Ok ks =>
          let id := ct_id (ci_ty c) in
          let '(t, bb) := w_contract (cid_name id) (cid_ver id) (ct_state_names (ci_ty c)) (map kind_byte ks) (wb w) in
          let contracts := sr_contracts s ++
            [mkFbContract (Some (mkFbCid (Some (cid_name id)) (cid_ver id)))
                          (Some (mkFbCstates (Some (ct_state_names (ci_ty c))) (Some ks)))] in
          let s1 := mkSer contracts (sr_states s) (sr_objects s) (hm_objects s)
                      (bm_insert index_eqb Nat.eqb (ci_handle c) (length (sr_contracts s)) (hm_contracts s))
                      (hm_cstates s) (hm_ostates s) in
          let w1 := mkWr bb (w_cs w ++ [t]) (w_ss w) (w_os w) in
          if N.eqb (as_u16 (length contracts)) 0 then (Panic, s1, w1)
          else let cidx := (as_u16 (length contracts) - 1)%N in
               let '(ct, bb) := w_contract_handle cidx bb in
               out_objects b c cidx ct s1 (mkWr bb (w_cs w1) (w_ss w1) (w_os w1)) ord
      end
  end.
Fixpoint out_all (b : baseline) (s : ser) (w : wr) (l : list (contract_inst * list index)) : outcome unit * ser * wr :=
  match l with
  | [] => (Ok tt, s, w)
  | (c, ord) :: t =>
      match out_serialize b s w c ord with
      | (Ok _, s1, w1) => out_all b s1 w1 t
      | r => r
      end
  end.

(** mod.rs:211-243. *)
Fixpoint out_rewrite (b : baseline) (t : ptype) (look : dynprop -> option nat) (mk : nat -> fbval)
    (pairs : list (index * nat)) (states : list (option fbval)) (ws : list nat) (bb : build)
  : outcome (list (option fbval) * list nat * build) :=
  match pairs with
  | [] => Ok (states, ws, bb)
  | (h, i) :: rest =>
      match state_get b t h with
      | Ok v =>
          match look v with
          | Some j =>
              match nth_error states i with
              | Some None =>
                  let '(p, bb) := w_state (mk j) bb in
                  out_rewrite b t look mk rest (list_set states i (Some (mk j))) (list_set ws i p) bb
              | _ => Panic
              end
          | None => Panic
          end
      | _ => Panic
      end
  end.
(** mod.rs:208-272. *)
Definition out_finish (b : baseline) (s : ser) (w : wr) (ordc ordo : list (index * nat)) : outcome (list Z) :=
  match out_rewrite b (TPrim TContractDataHandle) (look_contract s) (fun j => FContractDataHandle (as_u16 j)) ordc
          (sr_states s) (w_ss w) (wb w) with
  | Ok (st1, ws1, bb1) =>
      match out_rewrite b (TPrim TObjectHandle) (look_object s) (fun j => FObjectHandle (as_u32 j)) ordo st1 ws1 bb1 with
      | Ok (_, ws2, bb2) => Ok (w_finish (w_cs w) ws2 (w_os w) bb2)
      | _ => Panic
      end
  | _ => Panic
  end.

(** A new serializer, [serialize] for each contract, [finish]: the bytes. *)
Definition save (b : baseline) (l : list (contract_inst * list index)) (ord : ser -> list (index * nat) * list (index * nat))
  : outcome (list Z) :=
  match out_all b ser_new wr_new l with
  | (Ok _, s, w) => out_finish b s w (fst (ord s)) (snd (ord s))
  | (Err e, _, _) => Err e
  | (Panic, _, _) => Panic
  end.
