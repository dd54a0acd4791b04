(** Specifications for serialization: what a client sees of a baseline and of a
    buffer, and the histories of a deserializer. *)
From Verif Require Export BaselineSpec Serializer Deserializer.
Import Coq.Strings.String.StringSyntax.
Open Scope string_scope.
Open Scope list_scope.
Open Scope nat_scope.

(** The value of field [i] of object [o], read through the API: take the id from
    the contract, bind it to the object, read the state. *)
Definition field_of (b : baseline) (c : contract_inst) (i : nat) (o : index) : option dynprop :=
  match ci_state_id c i with
  | None => None
  | Some id =>
      match bind_state b id o with
      | Ok h => st_at b (pid_type id) h
      | _ => None
      end
  end.

(** The id the deserializer registers for itself (deserializer/new/null_contract.rs:10-13). *)
Definition reserved_id : contract_id := mkCid "teleportal.serialize.NullContract" (0%N, 0%N, 0%N).

(** The tables of a buffer: the contract index of object [j], and its field [i]. *)
Definition buf_object (fb : fb_baseline) (j : nat) : option fb_object :=
  match fb_objects fb with Some l => nth_error l j | None => None end.
Definition buf_contract (fb : fb_baseline) (j : nat) : option nat :=
  match buf_object fb j with
  | Some o => option_map N.to_nat (fo_contract o)
  | None => None
  end.
Definition buf_indices (fb : fb_baseline) (j : nat) : list nat :=
  match buf_object fb j with
  | Some o => match fo_states o with Some l => map N.to_nat l | None => [] end
  | None => []
  end.
Definition buf_state (fb : fb_baseline) (n : nat) : option fbval :=
  match fb_states fb with Some l => nth_error l n | None => None end.
Definition buf_field (fb : fb_baseline) (j i : nat) : option fbval :=
  match nth_error (buf_indices fb j) i with Some n => buf_state fb n | None => None end.

(** The value a buffer field stands for: object and contract indices are read
    through [obj] and [con], everything else stands for itself. *)
Inductive stands_for (obj con : nat -> index -> Prop) : fbval -> dynprop -> Prop :=
| sf_u8 x : stands_for obj con (FU8 x) (PPrim (VU8 x))
| sf_u16 x : stands_for obj con (FU16 x) (PPrim (VU16 x))
| sf_u32 x : stands_for obj con (FU32 x) (PPrim (VU32 x))
| sf_u64 x : stands_for obj con (FU64 x) (PPrim (VU64 x))
| sf_i8 x : stands_for obj con (FI8 x) (PPrim (VI8 x))
| sf_i16 x : stands_for obj con (FI16 x) (PPrim (VI16 x))
| sf_i32 x : stands_for obj con (FI32 x) (PPrim (VI32 x))
| sf_i64 x : stands_for obj con (FI64 x) (PPrim (VI64 x))
| sf_bool x : stands_for obj con (FBool x) (PPrim (VBool x))
| sf_f32 x : stands_for obj con (FF32 x) (PPrim (VF32 x))
| sf_f64 x : stands_for obj con (FF64 x) (PPrim (VF64 x))
| sf_string x : stands_for obj con (FFbString (Some x)) (PPrim (VString x))
| sf_object j o : obj (N.to_nat j) o ->
    stands_for obj con (FObjectHandle j) (PPrim (VObjectHandle o))
| sf_contract j h : con (N.to_nat j) h ->
    stands_for obj con (FContractDataHandle j) (PPrim (VContractDataHandle h)).

(** ** Histories of a deserializer *)

(** Any sequence of [register_contract] calls on a new builder; [cs] are the
    contracts returned.  Failed calls may be ignored by the client. *)
Inductive builds (fb : fb_baseline) (k : baseline_kind) : list contract_inst -> builder -> Prop :=
| builds_new d : builder_new fb k = Ok d -> builds fb k [] d
| builds_ok cs d C c d' :
    builds fb k cs d -> builder_register d C = (Ok c, d') -> builds fb k (cs ++ [c]) d'
| builds_err cs d C e d' :
    builds fb k cs d -> builder_register d C = (Err e, d') -> builds fb k cs d'.

(** Then any sequence of [deserialize_objects] calls on the returned contracts,
    again whether they succeed or not; [tried] are all those calls, [done] those
    that succeeded. *)
Inductive deserializes (fb : fb_baseline) (k : baseline_kind) (cs : list contract_inst)
  : list contract_inst -> list contract_inst -> deser -> Prop :=
| des_new d : builds fb k cs d -> deserializes fb k cs [] [] (deser_new d)
| des_ok tried done d c d' :
    deserializes fb k cs tried done d -> In c cs -> deserialize_objects d c = (Ok tt, d') ->
    deserializes fb k cs (tried ++ [c]) (done ++ [c]) d'
| des_err tried done d c e d' :
    deserializes fb k cs tried done d -> In c cs -> deserialize_objects d c = (Err e, d') ->
    deserializes fb k cs (tried ++ [c]) done d'.

(** [finish] with any iteration orders of the hash containers involved. *)
Definition finishes (d : deser) (r : outcome baseline) : Prop :=
  exists ord ordn,
    Permutation ord (ds_states d) /\
    (forall cd, con_at (d_base (ds_b d)) (ci_handle (d_null (ds_b d))) = Some cd ->
       Permutation ordn (cd_objects cd)) /\
    deser_finish d ord ordn = r.

(** ** Causes of failure *)

(** Object [j] of the buffer has a state index out of range, a state with an
    unknown tag, or a string state without string. *)
Definition crashes (fb : fb_baseline) (j : nat) : Prop :=
  exists n, In n (buf_indices fb j) /\
    (buf_state fb n = None \/ (exists g, buf_state fb n = Some (FOther g)) \/
     buf_state fb n = Some (FFbString None)).

(** Object [j] does not conform to contract [c], holds a reference to a contract
    that is not among [cs], or shares a reference state with another field. *)
Definition rejected (fb : fb_baseline) (cs : list contract_inst) (c : contract_inst) (j : nat) : Prop :=
  ct_chans (ci_ty c) <> [] \/
  fb_states fb = None \/
  length (buf_indices fb j) <> length (ct_states (ci_ty c)) \/
  (exists i t fv, nth_error (ct_states (ci_ty c)) i = Some t /\ buf_field fb j i = Some fv /\
     tag_eq_ptype (p_type fv) t = false) \/
  (exists i ci, buf_field fb j i = Some (FContractDataHandle ci) /\
     forall c', In c' cs -> find_serialized_contract fb (ci_ty c') <> Ok (N.to_nat ci)) \/
  (exists i j' i' n oi, nth_error (buf_indices fb j) i = Some n /\ nth_error (buf_indices fb j') i' = Some n /\
     (j, i) <> (j', i') /\ buf_state fb n = Some (FObjectHandle oi)).

(** ** Serialized values *)

(** What a stored value reads back as: -0.0 (all bits but the sign are zero)
    becomes 0.0, everything else stays. *)
Definition stored (v : dynprop) : dynprop :=
  match v with
  | PPrim (VF32 x) => PPrim (VF32 (if Z.eqb (x mod 2 ^ 31) 0 then 0 else x))
  | PPrim (VF64 x) => PPrim (VF64 (if Z.eqb (x mod 2 ^ 63) 0 then 0 else x))
  | _ => v
  end.

(** The objects of the contracts [l], each with its contract and the contract's
    number, in the order in which they are serialized. *)
Fixpoint listing (n : nat) (l : list (contract_inst * list index)) : list (nat * contract_inst * index) :=
  match l with
  | [] => []
  | (c, ord) :: r => map (fun o => (n, c, o)) ord ++ listing (S n) r
  end.
