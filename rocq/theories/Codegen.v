(** The two C# code generators: client/codegen_wrapped and crates/rsharp/codegen.

    The output directory is a list of named files, or absent.  Every operation on the
    file system may fail, and a write may fail in the middle: which operations do is
    the parameter [faults], one entry per operation ([Some n]: it fails, a write after
    [n] characters; the operations beyond the list succeed).  Only the generator
    writes to the directory while it runs. *)
From Verif Require Export Sources Handlebars.
Import Coq.Strings.String.StringSyntax.
Open Scope string_scope.
Open Scope list_scope.
Open Scope nat_scope.

(** ** The types (client/codegen_wrapped/src/type_info.rs) *)

(** type_info.rs:6-11 *)
Inductive ownership : Type := OwnedOnly | RefOnly | Both.

(** type_info.rs:13-32 [TypeInfo]. *)
Record type_info : Type := mkType {
  mangled_name : str;
  ptr_raw : str;
  owned_ident : str;
  supports_new : bool;
  ptr_inner : str;
  valid_ownership : ownership
}.

Definition ty (m p o : string) (n : bool) (i : string) (v : ownership) : type_info :=
  mkType (lit m) (lit p) (lit o) n (lit i) v.

(** type_info.rs:60-81 [PrimitiveType::types], with the rows of type_info.rs:132-169. *)
Definition types : list type_info :=
  [ ty "U8" "byte*" "RBox_U8" true "byte" Both;
    ty "U16" "ushort*" "RBox_U16" true "ushort" Both;
    ty "U32" "uint*" "RBox_U32" true "uint" Both;
    ty "U64" "ulong*" "RBox_U64" true "ulong" Both;
    ty "I8" "sbyte*" "RBox_I8" true "sbyte" Both;
    ty "I16" "short*" "RBox_I16" true "short" Both;
    ty "I32" "int*" "RBox_I32" true "int" Both;
    ty "I64" "long*" "RBox_I64" true "long" Both;
    ty "Bool" "bool*" "RBox_Bool" true "bool" Both;
    ty "F32" "float*" "RBox_F32" true "float" Both;
    ty "F64" "double*" "RBox_F64" true "double" Both;
    ty "String" "IntPtr" "RString" true "RString" Both;
    ty "ObjectHandle" "IntPtr" "Teleportal.Client.Object.ObjectHandle" false
       "Teleportal.Client.Object.ObjectHandle" Both;
    ty "ContractDataHandle" "IntPtr" "Teleportal.Client.Contract.ContractDataHandle" false
       "Teleportal.Client.Contract.ContractDataHandle" Both ].

(** ** Class data (client/codegen_wrapped/src/lib.rs:23-49) *)

Record class_data : Type := mkClass {
  namespace_super : str;
  namespace_sub : str;
  class_ident : str;
  only_owned : bool;
  new_args : str;
  new_expr : option str;
  drop_ident : option str;
  additional : option object      (* the fields of [additional_methods], flattened *)
}.

(** [Serialize] of an [Option<String>]. *)
Definition opt_json (o : option str) : json := match o with Some s => JStr s | None => JNull end.

(** The derived [Serialize] of lib.rs:23-49; [#[serde(flatten)]] of [None] adds nothing. *)
Definition to_object (c : class_data) : object :=
  [ (lit "namespace_super", JStr (namespace_super c));
    (lit "namespace_sub", JStr (namespace_sub c));
    (lit "class_ident", JStr (class_ident c));
    (lit "only_owned", JBool (only_owned c));
    (lit "new_args", JStr (new_args c));
    (lit "new_expr", opt_json (new_expr c));
    (lit "drop_ident", opt_json (drop_ident c)) ]
  ++ match additional c with Some o => o | None => [] end.

(** [has_second_arg]: template_keyframe.rs:42-45, template_state.rs:45-48. *)
Definition second_arg (t : type_info) : bool :=
  match valid_ownership t with OwnedOnly => false | _ => true end.

Definition nl : str := [10%N].

(** template_keyframe.rs:20-48 *)
Definition cd_keyframe (t : type_info) : class_data :=
  mkClass (lit "Contract.Properties") (lit "Channels")
    (lit "Keyframe_" ++ mangled_name t) false
    (owned_ident t ++ lit " value, double time")
    (Some (lit "generated.__Internal.TpClientContractPropertiesChannelsKeyframe" ++ mangled_name t
           ++ lit "New(" ++ nl ++ lit "                    (" ++ ptr_raw t
           ++ lit ") value.StealInner().p, time" ++ nl ++ lit "                )"))
    (Some (lit "generated.__Internal.TpClientContractPropertiesChannelsKeyframe" ++ mangled_name t
           ++ lit "Drop"))
    (Some [ (lit "value_owned_ident", JStr (owned_ident t));
            (lit "value_mangled_name", JStr (mangled_name t));
            (lit "value_ptr_inner", JStr (ptr_inner t));
            (lit "has_second_arg", JBool (second_arg t)) ]).

(** template_state.rs:22-51 *)
Definition cd_state (t : type_info) : class_data :=
  mkClass (lit "Contract.Properties") (lit "States")
    (lit "State_" ++ mangled_name t) false
    (owned_ident t ++ lit " value")
    (Some (lit "generated.__Internal.TpClientContractPropertiesStatesState" ++ mangled_name t
           ++ lit "New(" ++ nl ++ lit "                    (" ++ ptr_raw t
           ++ lit ") value.StealInner().p" ++ nl ++ lit "                )"))
    (Some (lit "generated.__Internal.TpClientContractPropertiesStatesState" ++ mangled_name t
           ++ lit "Drop"))
    (Some [ (lit "value_owned_ident", JStr (owned_ident t));
            (lit "value_mangled_name", JStr (mangled_name t));
            (lit "value_ptr_inner", JStr (ptr_inner t));
            (lit "value_ptr_raw", JStr (ptr_raw t));
            (lit "has_second_arg", JBool (second_arg t)) ]).

(** template_state_id.rs:14-30 *)
Definition cd_state_id (t : type_info) : class_data :=
  mkClass (lit "Contract.Properties") (lit "States")
    (lit "StateId_" ++ mangled_name t) false [] None
    (Some (lit "generated.__Internal.TpClientContractPropertiesStatesStateId" ++ mangled_name t
           ++ lit "Drop"))
    (Some [ (lit "inner_mangled_name", JStr (mangled_name t)) ]).

(** template_state_handle.rs:11-25 *)
Definition cd_state_handle (t : type_info) : class_data :=
  mkClass (lit "Contract.Properties") (lit "States")
    (lit "StateHandle_" ++ mangled_name t) true [] None
    (Some (lit "generated.__Internal.TpClientContractPropertiesStatesStateHandle" ++ mangled_name t
           ++ lit "Drop"))
    None.

(** ** The file system *)

(** The files of the output directory; [None]: it does not exist. *)
Definition dir := option (list (str * str)).
Definition faults := list (option nat).

Definition files (d : dir) : list (str * str) := match d with Some l => l | None => [] end.

(** Creating (or truncating) and writing a file: the new text replaces the old. *)
Fixpoint put (x : str) (v : str) (l : list (str * str)) : list (str * str) :=
  match l with
  | [] => [(x, v)]
  | (y, w) :: r => if str_eqb x y then (x, v) :: r else (y, w) :: put x v r
  end.

(** The next operation: how it fails, if it does, and the operations after it. *)
Definition next (f : faults) : option nat * faults :=
  match f with [] => (None, []) | a :: r => (a, r) end.

(** ** [Codegen::new] (lib.rs:56-96)

    [main] and [partial] are the texts of the two template files. *)
Definition codegen_new (main partial : str) (overwrite : bool) (d : dir) (f : faults)
  : option registry * dir * faults :=
  (* lib.rs:64-71; [exists()] answers false when it fails *)
  let '(check, f) :=
    if overwrite then (Some false, f)
    else let '(e, f) := next f in
         match e, d with
         | None, Some l =>
             let '(e, f) := next f in
             (match e with
              | Some _ => None                                     (* read_dir()? *)
              | None => Some (match l with [] => false | _ => true end)
              end, f)
         | _, _ => (Some false, f)
         end in
  match check with
  | None | Some true => (None, d, f)
  | Some false =>
      let '(e, f) := next f in                                      (* lib.rs:72-74 create_dir_all *)
      match e with
      | Some _ => (None, d, f)
      | None =>
          let d := Some (files d) in
          let '(e, f) := next f in                                  (* lib.rs:86-87 *)
          match e, parse main with
          | None, Some m =>
              let '(e, f) := next f in                              (* lib.rs:89-91 *)
              match e, parse partial with
              | None, Some p => (Some (mkRegistry m [(lit "additional_methods", p)]), d, f)   (* lib.rs:92-93 *)
              | _, _ => (None, d, f)
              end
          | _, _ => (None, d, f)
          end
      end
  end.

(** ** [Codegen::render_to_file] (lib.rs:98-111)

    [None]: the file could not be created, and is as it was; [Some (Some n)]: the
    write failed after [n] characters. *)
Definition render_to_file (r : registry) (c : class_data) (d : dir) (f : faults) : bool * dir * faults :=
  let '(e, f) := next f in
  match e with
  | Some _ => (false, d, f)
  | None =>
      let '(text, ok) := render r (to_object c) in
      let '(e, f) := next f in
      let name := class_ident c ++ lit ".cs" in
      match e with
      | Some n => (false, Some (put name (firstn n text) (files d)), f)
      | None => (ok, Some (put name text (files d)), f)
      end
  end.

(** [iter().map(render_to_file).collect::<Result<()>>()] (main.rs:24-46):
    stops at the first error. *)
Fixpoint render_all (r : registry) (cs : list class_data) (d : dir) (f : faults) : bool * dir * faults :=
  match cs with
  | [] => (true, d, f)
  | c :: cs' => let '(ok, d, f) := render_to_file r c d f in
                if ok then render_all r cs' d f else (false, d, f)
  end.

(** ** [main] (main.rs:12-56): true for [Ok(())]. *)
Definition main (force : bool) (d : dir) (f : faults) : bool * dir * faults :=
  let '(k, d, f) := codegen_new tpl_opaque tpl_keyframe force d f in
  match k with None => (false, d, f) | Some rk =>
  let '(s, d, f) := codegen_new tpl_opaque tpl_state force d f in
  match s with None => (false, d, f) | Some rs =>
  let '(i, d, f) := codegen_new tpl_opaque tpl_state_id force d f in
  match i with None => (false, d, f) | Some ri =>
  let '(h, d, f) := codegen_new tpl_opaque tpl_state_handle force d f in
  match h with None => (false, d, f) | Some rh =>
  let '(ok1, d, f) := render_all rk (map cd_keyframe types) d f in
  let '(ok2, d, f) := render_all rs (map cd_state types) d f in
  let '(ok3, d, f) := render_all ri (map cd_state_id types) d f in
  let '(ok4, d, f) := render_all rh (map cd_state_handle types) d f in
  (* main.rs:48-55: the first error, if there is one *)
  (ok1 && ok2 && ok3 && ok4, d, f)%bool
  end end end end.

(** ** crates/rsharp/codegen/src/codegen.rs *)

(** codegen.rs:89-103 *)
Record box_info : Type := mkBox { type_platform : str; type_cs : str; ptr_literal : str }.
Definition bx (p c : string) : box_info := mkBox (lit p) (lit c) (lit "*").

(** codegen.rs:70-87 [TYPES_INFO] *)
Definition boxes : list box_info :=
  [ bx "U8" "byte"; bx "U16" "ushort"; bx "U32" "uint"; bx "U64" "ulong";
    bx "I8" "sbyte"; bx "I16" "short"; bx "I32" "int"; bx "I64" "long";
    bx "Bool" "bool"; bx "F32" "float"; bx "F64" "double" ].

(** The derived [Serialize] of codegen.rs:89. *)
Definition box_object (b : box_info) : object :=
  [ (lit "type_platform", JStr (type_platform b));
    (lit "type_cs", JStr (type_cs b));
    (lit "ptr_literal", JStr (ptr_literal b)) ].

(** codegen.rs:18-47 [Codegen::new]: as above, with one template and a second read
    of it whose text is dropped (codegen.rs:44). *)
Definition box_new (overwrite : bool) (d : dir) (f : faults) : option registry * dir * faults :=
  let '(check, f) :=
    if overwrite then (Some false, f)
    else let '(e, f) := next f in
         match e, d with
         | None, Some l =>
             let '(e, f) := next f in
             (match e with
              | Some _ => None
              | None => Some (match l with [] => false | _ => true end)
              end, f)
         | _, _ => (Some false, f)
         end in
  match check with
  | None | Some true => (None, d, f)
  | Some false =>
      let '(e, f) := next f in
      match e with
      | Some _ => (None, d, f)
      | None =>
          let d := Some (files d) in
          let '(e, f) := next f in
          match e, parse tpl_rbox with
          | None, Some m =>
              let '(e, f) := next f in
              match e with
              | None => (Some (mkRegistry m []), d, f)
              | Some _ => (None, d, f)
              end
          | _, _ => (None, d, f)
          end
      end
  end.

(** codegen.rs:49-59 [render_to_file] *)
Definition box_to_file (r : registry) (b : box_info) (d : dir) (f : faults) : bool * dir * faults :=
  let '(e, f) := next f in
  match e with
  | Some _ => (false, d, f)
  | None =>
      let '(text, ok) := render r (box_object b) in
      let '(e, f) := next f in
      let name := lit "RBox_" ++ type_platform b ++ lit ".cs" in
      match e with
      | Some n => (false, Some (put name (firstn n text) (files d)), f)
      | None => (ok, Some (put name text (files d)), f)
      end
  end.

(** codegen.rs:61-67 [render_all]: [expect] panics at the first failure. *)
Fixpoint box_all (r : registry) (bs : list box_info) (d : dir) (f : faults) : outcome unit * dir * faults :=
  match bs with
  | [] => (Ok tt, d, f)
  | b :: bs' => let '(ok, d, f) := box_to_file r b d f in
                if ok then box_all r bs' d f else (Panic, d, f)
  end.

(** main.rs:15-19 [main]: [None] for the error of [Codegen::new]. *)
Definition box_main (force : bool) (d : dir) (f : faults) : option (outcome unit) * dir * faults :=
  let '(k, d, f) := box_new force d f in
  match k with
  | None => (None, d, f)
  | Some r => let '(o, d, f) := box_all r boxes d f in (Some o, d, f)
  end.
