(** The deserializer.  client/serialize/rust/src/deserializer/new/*.rs. *)
From Verif Require Export Baseline Flat.
Import Coq.Strings.String.StringSyntax.
Open Scope string_scope.
Open Scope list_scope.
Open Scope nat_scope.

(** null_contract.rs:3-30. *)
Definition NullContract : contract_ty :=
  mkCty (mkCid "teleportal.serialize.NullContract" (0%N, 0%N, 0%N)) [] [] [] [].

(** mod.rs:66-73; contracts.rs:8-9. *)
Record builder : Type := mkBuilder {
  d_base : baseline;
  d_contracts : @bimap nat index;
  d_fb : fb_baseline;
  d_null : contract_inst;
  d_null_obj : index
}.
Definition with_base (d : builder) (b : baseline) : builder :=
  mkBuilder b (d_contracts d) (d_fb d) (d_null d) (d_null_obj d).

(** mod.rs:75-92, after [flatbuffers::root] has verified the buffer and given
    the tables [fb]. *)
Definition builder_new (fb : fb_baseline) (k : baseline_kind) : outcome builder :=
  match register_contract (baseline_new k) NullContract with
  | (Ok c, b1) =>
      match object_create b1 c [] [] with
      | (Ok o, b2) => Ok (mkBuilder b2 [] fb c o)
      | _ => Panic
      end
  | _ => Panic
  end.

(** mod.rs:203-227: the closure of [find]: [id()?], [name()?], the version, then
    [states()?], [names()?], [types()?], the lengths, names and types (the
    [zip]s stop at the shorter side). *)
Fixpoint zip_all {A B} (f : A -> B -> bool) (l : list A) (m : list B) : bool :=
  match l, m with
  | a :: l', b :: m' => f a b && zip_all f l' m'
  | _, _ => true
  end.
Definition ver_eqb (a b : N * N * N) : bool :=
  let '(a1, a2, a3) := a in let '(b1, b2, b3) := b in
  N.eqb a1 b1 && N.eqb a2 b2 && N.eqb a3 b3.
Definition contract_matches (C : contract_ty) (c : fb_contract) : bool :=
  match fc_id c with
  | None => false
  | Some id =>
      match fi_name id with
      | None => false
      | Some name =>
          (string_eqb name (cid_name (ct_id C)) && ver_eqb (fi_ver id) (cid_ver (ct_id C))) &&
          match fc_states c with
          | None => false
          | Some st =>
              match fs_names st, fs_types st with
              | Some names, Some types =>
                  let nfields := length (ct_state_names C) in
                  (Nat.eqb (length names) nfields && Nat.eqb (length types) nfields) &&
                  zip_all string_eqb (ct_state_names C) names &&
                  zip_all ptype_eq_kind (ct_states C) types
              | _, _ => false
              end
          end
      end
  end.

(** [iter().enumerate().find(..)]. *)
Fixpoint find_index {A} (f : A -> bool) (i : nat) (l : list A) : option nat :=
  match l with
  | [] => None
  | x :: t => if f x then Some i else find_index f (S i) t
  end.
(** mod.rs:190-231. *)
Definition find_serialized_contract (fb : fb_baseline) (C : contract_ty) : outcome nat :=
  match fb_contracts fb with
  | None => Err ENoContracts
  | Some l => ok_or (find_index (contract_matches C) 0 l) ENoMatchingContract
  end.

(** mod.rs:95-107; contracts.rs:35-40 [add_contract] asserts that nothing was
    overwritten. *)
Definition builder_register (d : builder) (C : contract_ty) : outcome contract_inst * builder :=
  match find_serialized_contract (d_fb d) C with
  | Err e => (Err e, d)
  | Panic => (Panic, d)
  | Ok idx =>
      match register_contract (d_base d) C with
      | (Ok c, b1) =>
          if bm_fresh Nat.eqb index_eqb idx (ci_handle c) (d_contracts d)
          then (Ok c, mkBuilder b1 (bm_insert Nat.eqb index_eqb idx (ci_handle c) (d_contracts d))
                                (d_fb d) (d_null d) (d_null_obj d))
          else (Panic, mkBuilder b1 (bm_insert Nat.eqb index_eqb idx (ci_handle c) (d_contracts d))
                                 (d_fb d) (d_null d) (d_null_obj d))     (* inserted before the assertion looks *)
      | (Err e, b1) => (Err e, with_base d b1)
      | (Panic, b1) => (Panic, with_base d b1)
      end
  end.

(** mod.rs:114-127; states.rs:13-24; objects.rs:7. *)
Record deser : Type := mkDeser {
  ds_b : builder;
  ds_states : @bimap nat index;
  ds_refs : list (nat * nat);
  ds_objects : @bimap index nat
}.
Definition deser_new (d : builder) : deser := mkDeser d [] [] [].

(** mod.rs:236-250: objects with their indices. *)
Fixpoint objects_with_contract_idx (cidx : nat) (i : nat) (l : list fb_object) : list nat :=
  match l with
  | [] => []
  | o :: t =>
      match fo_contract o with
      | Some c => if Nat.eqb (N.to_nat c) cidx then i :: objects_with_contract_idx cidx (S i) t
                  else objects_with_contract_idx cidx (S i) t
      | None => objects_with_contract_idx cidx (S i) t
      end
  end.

(** mod.rs:309-327: lazily look each state up ([Vector::get] panics when out of
    range) and compare its tag with the expected type; the error message unwraps
    the tag's name. *)
Fixpoint validate_states (states : list fbval) (i : nat) (idxs : list N) (ts : list ptype) : outcome unit :=
  match idxs, ts with
  | s :: idxs', t :: ts' =>
      match nth_error states (N.to_nat s) with
      | None => Panic
      | Some v =>
          if tag_eq_ptype (p_type v) t then validate_states states (S i) idxs' ts'
          else if variant_named (p_type v) then Err (EObjStateType i) else Panic
      end
  | s :: _, [] => match nth_error states (N.to_nat s) with None => Panic | Some _ => Ok tt end
                      (* [zip] advances the first iterator before the second *)
  | [], _ => Ok tt
  end.

(** mod.rs:261-333. *)
Definition validate_obj (d : builder) (c : contract_inst) (oidx : nat) : outcome fb_object :=
  match fb_objects (d_fb d) with
  | None => Panic
  | Some objs =>
      match nth_error objs oidx with
      | None => Panic
      | Some o =>
          match bm_right index_eqb (ci_handle c) (d_contracts d) with
          | None => Panic
          | Some expected =>
              match fo_contract o with
              | None => Err EObjMissingContract
              | Some found =>
                  if negb (Nat.eqb expected (N.to_nat found)) then Err EObjWrongContract
                  else
                    let n := match fo_states o with Some l => length l | None => 0 end in
                    if negb (Nat.eqb n (length (ct_states (ci_ty c)))) then Err EObjStateCount
                    else
                      match fo_states o with
                      | None => Ok o
                      | Some idxs =>
                          match fb_states (d_fb d) with
                          | None => Err ENoStates
                          | Some states =>
                              match validate_states states 0 idxs (ct_states (ci_ty c)) with
                              | Ok _ => Ok o
                              | Err e => Err e
                              | Panic => Panic
                              end
                          end
                      end
              end
          end
      end
  end.

(** What one field decodes to: a value, or a reference to be restored later. *)
Inductive decoded : Type := DVal (v : dynprop) | DRef (obj : nat).

(** mod.rs:375-424, without the bookkeeping. *)
Definition decode (contracts : @bimap nat index) (v : fbval) : outcome decoded :=
  match v with
  | FU8 x => Ok (DVal (PPrim (VU8 x))) | FU16 x => Ok (DVal (PPrim (VU16 x)))
  | FU32 x => Ok (DVal (PPrim (VU32 x))) | FU64 x => Ok (DVal (PPrim (VU64 x)))
  | FI8 x => Ok (DVal (PPrim (VI8 x))) | FI16 x => Ok (DVal (PPrim (VI16 x)))
  | FI32 x => Ok (DVal (PPrim (VI32 x))) | FI64 x => Ok (DVal (PPrim (VI64 x)))
  | FBool x => Ok (DVal (PPrim (VBool x)))
  | FF32 x => Ok (DVal (PPrim (VF32 x))) | FF64 x => Ok (DVal (PPrim (VF64 x)))
  | FFbString (Some s) => Ok (DVal (PPrim (VString s)))
  | FFbString None => Panic
  | FObjectHandle i => Ok (DRef (N.to_nat i))
  | FContractDataHandle i =>
      match bm_left Nat.eqb (N.to_nat i) contracts with
      | Some h => Ok (DVal (PPrim (VContractDataHandle h)))
      | None => Err EContractNotRegistered
      end
  | FNone | FOther _ => Panic
  end.

(** mod.rs:360-428: the loop over [state_iter().zip(obj_states)].  Returns the
    values, the null states, and the tracked references (states.rs:43-51), which
    are kept even when a later field fails. *)
Fixpoint build_props (d : builder) (refs : list (nat * nat)) (l : list (prop_id * N))
  : outcome (list dynprop * list (prop_id * nat)) * list (nat * nat) :=
  match l with
  | [] => (Ok ([], []), refs)
  | (id, s) :: t =>
      match fb_states (d_fb d) with
      | None => (Panic, refs)
      | Some states =>
          match nth_error states (N.to_nat s) with
          | None => (Panic, refs)
          | Some v =>
              match decode (d_contracts d) v with
              | Err e => (Err e, refs)
              | Panic => (Panic, refs)
              | Ok (DVal p) =>
                  match build_props d refs t with
                  | (Ok (ps, ns), refs') => (Ok (p :: ps, ns), refs')
                  | r => r
                  end
              | Ok (DRef oi) =>
                  if existsb (fun p => Nat.eqb (fst p) (N.to_nat s)) refs then (Err EObjRefTracked, refs)
                  else
                    let refs1 := refs ++ [(N.to_nat s, oi)] in
                    if negb (ptype_eqb (pid_type id) (TPrim TObjectHandle)) then (Panic, refs1)
                    else
                      match build_props d refs1 t with
                      | (Ok (ps, ns), refs') =>
                          (Ok (PPrim (VObjectHandle (d_null_obj d)) :: ps, (id, N.to_nat s) :: ns), refs')
                      | r => r
                      end
              end
          end
      end
  end.

(** mod.rs:435-444; states.rs:30-39 [insert_no_overwrite]. *)
Fixpoint track_nulls (b : baseline) (o : index) (ns : list (prop_id * nat)) (st : @bimap nat index)
  : outcome unit * @bimap nat index :=
  match ns with
  | [] => (Ok tt, st)
  | (id, s) :: t =>
      match bind_state b id o with
      | Ok h => if bm_fresh Nat.eqb index_eqb s h st
                then track_nulls b o t (bm_insert Nat.eqb index_eqb s h st)
                else (Err EStateTracked, st)
      | _ => (Panic, st)
      end
  end.

(** mod.rs:338-448. *)
Definition deserialize_obj (d : deser) (c : contract_inst) (oidx : nat) (o : fb_object)
  : outcome unit * deser :=
  let idxs := match fo_states o with Some l => l | None => [] end in
  if (match fo_states o with Some l => negb (Nat.eqb (length l) (length (ct_states (ci_ty c)))) | None => false end)
  then (Panic, d)                                                  (* assert_eq!(.., "sanity check") *)
  else
    match build_props (ds_b d) (ds_refs d) (combine (state_ids (ci_ty c) (ci_handle c)) idxs) with
    | (Err e, refs) => (Err e, mkDeser (ds_b d) (ds_states d) refs (ds_objects d))
    | (Panic, refs) => (Panic, mkDeser (ds_b d) (ds_states d) refs (ds_objects d))
    | (Ok (ps, ns), refs) =>
        match object_create (d_base (ds_b d)) c ps [] with
        | (Err e, b1) => (Err e, mkDeser (with_base (ds_b d) b1) (ds_states d) refs (ds_objects d))
        | (Panic, b1) => (Panic, mkDeser (with_base (ds_b d) b1) (ds_states d) refs (ds_objects d))
        | (Ok oh, b1) =>
            match track_nulls b1 oh ns (ds_states d) with
            | (Ok _, st) =>
                if bm_fresh index_eqb Nat.eqb oh oidx (ds_objects d)
                then (Ok tt, mkDeser (with_base (ds_b d) b1) st refs
                               (bm_insert index_eqb Nat.eqb oh oidx (ds_objects d)))
                else (Panic, mkDeser (with_base (ds_b d) b1) st refs     (* inserted before the assertion looks *)
                               (bm_insert index_eqb Nat.eqb oh oidx (ds_objects d)))
            | (Err e, st) => (Err e, mkDeser (with_base (ds_b d) b1) st refs (ds_objects d))
            | (Panic, st) => (Panic, mkDeser (with_base (ds_b d) b1) st refs (ds_objects d))
            end
        end
    end.

(** mod.rs:146-157. *)
Fixpoint deserialize_each (d : deser) (c : contract_inst) (l : list nat) : outcome unit * deser :=
  match l with
  | [] => (Ok tt, d)
  | i :: t =>
      match validate_obj (ds_b d) c i with
      | Err e => (Err e, d)
      | Panic => (Panic, d)
      | Ok o =>
          match deserialize_obj d c i o with
          | (Ok _, d1) => deserialize_each d1 c t
          | r => r
          end
      end
  end.

(** mod.rs:129-160. *)
Definition deserialize_objects (d : deser) (c : contract_inst) : outcome unit * deser :=
  match bm_right index_eqb (ci_handle c) (d_contracts (ds_b d)) with
  | None => (Panic, d)                                             (* assert!(is_registered_handle) *)
  | Some cidx =>
      match fb_objects (d_fb (ds_b d)) with
      | None => (Ok tt, d)
      | Some objs => deserialize_each d c (objects_with_contract_idx cidx 0 objs)
      end
  end.

(** mod.rs:164-174: restoring the references, in the iteration order [ord]. *)
Definition ref_of (refs : list (nat * nat)) (s : nat) : option nat :=
  option_map snd (find (fun p => Nat.eqb (fst p) s) refs).
Fixpoint restore_refs (refs : list (nat * nat)) (objs : @bimap index nat) (b : baseline)
    (ord : list (nat * index)) : outcome unit * baseline :=
  match ord with
  | [] => (Ok tt, b)
  | (s, h) :: t =>
      match ref_of refs s with
      | None => (Panic, b)                                         (* states.rs:67-72 *)
      | Some oi =>
          match bm_right Nat.eqb oi objs with
          | None => (Err EDanglingObjectRef, b)
          | Some oh =>
              match state_set b h (PPrim (VObjectHandle oh)) with
              | (Ok _, b1) => restore_refs refs objs b1 t
              | r => r
              end
          end
      end
  end.

(** mod.rs:161-184. [ordn] is the iteration order of the null contract's object
    set. *)
Definition deser_finish (d : deser) (ord : list (nat * index)) (ordn : list index) : outcome baseline :=
  match restore_refs (ds_refs d) (ds_objects d) (d_base (ds_b d)) ord with
  | (Ok _, b1) =>
      match unregister_contract b1 NullContract (ci_handle (d_null (ds_b d))) ordn with
      | (Ok _, b2) => Ok b2
      | (Err e, _) => Err e
      | (Panic, _) => Panic
      end
  | (Err e, _) => Err e
  | (Panic, _) => Panic
  end.

(** Registering several contracts / deserializing the objects of several. *)
Fixpoint register_all (d : builder) (Cs : list contract_ty) : outcome (list contract_inst) * builder :=
  match Cs with
  | [] => (Ok [], d)
  | C :: t =>
      match builder_register d C with
      | (Ok c, d1) =>
          match register_all d1 t with
          | (Ok l, d2) => (Ok (c :: l), d2)
          | r => r
          end
      | (Err e, d1) => (Err e, d1)
      | (Panic, d1) => (Panic, d1)
      end
  end.
Fixpoint deserialize_all (d : deser) (cs : list contract_inst) : outcome unit * deser :=
  match cs with
  | [] => (Ok tt, d)
  | c :: t =>
      match deserialize_objects d c with
      | (Ok _, d1) => deserialize_all d1 t
      | r => r
      end
  end.
