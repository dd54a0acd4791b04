(** The functions the native library exports ([#[ffi_export]]), with their symbols and
    C signatures.  The unity demo links the client, rsharp and the example contract
    into one library (demos/unity_states/rust/src/lib.rs:226-229, Main.cs:118-135), so
    all of them are in one name space.

    Lifetimes are dropped; a reference or box of an opaque type is a pointer. *)
From Verif Require Export Mangle.
Import Coq.Strings.String.StringSyntax.
Open Scope string_scope.
Open Scope list_scope.
Open Scope nat_scope.

(** What a parameter or result is, in Rust: [repr_c::Box<T>], [&T], [&mut T], or a value. *)
Inductive cty : Type := Own (t : str) | Ref (t : str) | Mut (t : str) | Val (t : str).

Record export : Type := mkExport { ex_name : str; ex_params : list cty; ex_ret : option cty }.

(** paste's [:camel] (external; from its source): underscores go, the letter after one
    is raised, a letter after a capital is lowered. *)
Definition is_upper (c : N) : bool := ((65 <=? c) && (c <=? 90))%N.
Definition is_lower (c : N) : bool := ((97 <=? c) && (c <=? 122))%N.
Definition to_upper (c : N) : N := if is_lower c then (c - 32)%N else c.
Definition to_lower (c : N) : N := if is_upper c then (c + 32)%N else c.

Fixpoint camel_from (prev : N) (s : str) : str :=
  match s with
  | [] => []
  | c :: r =>
      if N.eqb c underscore then camel_from c r
      else (if N.eqb prev underscore then to_upper c
            else if is_upper prev then to_lower c else c) :: camel_from c r
  end.
Definition camel (s : str) : str := camel_from underscore s.

(** [#[remangle(path)]] on a function (remangle.rs:18-35). *)
Definition sym (path : string) (name : str) : str := mangle_path (lit path) ++ name.

(** client/rust/src/contract/properties/mod.rs:79-97 [primitives!(; types, ..)] *)
Definition primitives : list str :=
  map lit ["u8"; "u16"; "u32"; "u64"; "i8"; "i16"; "i32"; "i64"; "bool"; "f32"; "f64";
           "String"; "ObjectHandle"; "ContractDataHandle"].

(** crates/rsharp/rust/src/types.rs:22-52 [value_types!(; types, ..)] *)
Definition value_types : list str :=
  map lit ["u8"; "u16"; "u32"; "u64"; "i8"; "i16"; "i32"; "i64"; "bool"; "f32"; "f64"].

Definition chan_path : string := "tp_client::contract::properties::channels".
Definition state_path : string := "tp_client::contract::properties::states".
Definition base_path : string := "tp_client::baseline".

Definition vec_of (t : str) : str := lit "Vec<" ++ t ++ lit ">".

(** crates/rsharp/rust/src/rvec.rs:1-37 [rvec_fns!] *)
Definition rvec_exports (path : string) (t : str) : list export :=
  let n s := sym path (lit "RVec_" ++ camel t ++ lit s) in
  [ mkExport (n "__push") [Mut (vec_of t); Own t] None;
    mkExport (n "__new") [] (Some (Val (vec_of t)));
    mkExport (n "__drop") [Val (vec_of t)] None;
    mkExport (n "__get") [Ref (vec_of t); Val (lit "usize")] (Some (Ref t));
    mkExport (n "__set") [Mut (vec_of t); Val (lit "usize"); Own t] None ].

(** client/rust/src/contract/properties/channels/channel.rs:61-163 *)
Definition channel_exports (t : str) : list export :=
  let k := lit "Keyframe_" ++ camel t in
  let c := lit "Channel_" ++ camel t in
  let nk s := sym chan_path (k ++ lit s) in
  let nc s := sym chan_path (c ++ lit s) in
  [ mkExport (nk "__new") [Own t; Val (lit "f64")] (Some (Own k));        (* 81-86 *)
    mkExport (nk "__drop") [Own k] None;                                  (* 88-92 *)
    mkExport (nk "__value") [Ref k] (Some (Ref t));                       (* 94-98 *)
    mkExport (nk "__time") [Ref k] (Some (Val (lit "f64"))) ]             (* 100-104 *)
  ++ rvec_exports chan_path k                                             (* 106 *)
  ++ [ mkExport (nc "__new") [Val (vec_of k)] (Some (Own c));             (* 126-136 *)
       mkExport (nc "__drop") [Own c] None;                               (* 138-142 *)
       mkExport (nc "__keyframes") [Ref c] (Some (Val (vec_of (lit "&" ++ k))));          (* 144-150 *)
       mkExport (nc "__keyframes_mut") [Mut c] (Some (Val (vec_of (lit "&mut " ++ k)))) ] (* 152-157 *).

(** client/rust/src/contract/properties/channels/mod.rs:117-141; the function has no
    [remangle]. *)
Definition channel_id_exports (t : str) : list export :=
  let i := lit "ChannelId_" ++ camel t in
  [ mkExport (i ++ lit "__contract") [Ref i] (Some (Own (lit "ContractDataHandle"))) ].

(** client/rust/src/contract/properties/states/{mod.rs:71-120,id.rs:60-92,handle.rs:68-92} *)
Definition state_exports (t : str) : list export :=
  let s := lit "State_" ++ camel t in
  let i := lit "StateId_" ++ camel t in
  let h := lit "StateHandle_" ++ camel t in
  let ns x := sym state_path (s ++ lit x) in
  [ mkExport (ns "__new") [Own t] (Some (Own s));
    mkExport (ns "__drop") [Own s] None;
    mkExport (ns "__value") [Ref s] (Some (Ref t));
    mkExport (ns "__value_set") [Mut s; Own t] None;
    mkExport (sym state_path (i ++ lit "__contract")) [Ref i] (Some (Own (lit "ContractDataHandle")));
    mkExport (sym state_path (i ++ lit "__drop")) [Own i] None;
    mkExport (sym state_path (h ++ lit "__drop")) [Own h] None ].

(** client/rust/src/baseline.rs:432-511 *)
Definition baseline_exports (t : str) : list export :=
  let b := lit "Baseline" in
  let T := camel t in
  let n s := sym base_path (lit s ++ T) in
  [ mkExport (n "Baseline__state_") [Ref b; Ref (lit "StateHandle_" ++ T)] (Some (Ref (lit "State_" ++ T)));
    mkExport (n "Baseline__state_mut_") [Mut b; Ref (lit "StateHandle_" ++ T)] (Some (Mut (lit "State_" ++ T)));
    mkExport (n "Baseline__channel_") [Ref b; Ref (lit "ChannelHandle_" ++ T)] (Some (Ref (lit "Channel_" ++ T)));
    mkExport (n "Baseline__channel_mut_") [Mut b; Ref (lit "ChannelHandle_" ++ T)] (Some (Mut (lit "Channel_" ++ T)));
    mkExport (n "Baseline__bind_state_") [Ref b; Ref (lit "StateId_" ++ T); Ref (lit "ObjectHandle")]
      (Some (Own (lit "StateHandle_" ++ T)));
    mkExport (n "Baseline__bind_channel_") [Ref b; Ref (lit "ChannelId_" ++ T); Ref (lit "ObjectHandle")]
      (Some (Own (lit "ChannelHandle_" ++ T))) ].

Definition ex (path name : string) (ps : list cty) (r : option cty) : export :=
  mkExport (sym path (lit name)) ps r.
Definition own (s : string) : cty := Own (lit s).
Definition ref (s : string) : cty := Ref (lit s).
Definition mut (s : string) : cty := Mut (lit s).
Definition val (s : string) : cty := Val (lit s).

(** client/rust/src/baseline.rs:388-430, object.rs:140-144, contract/mod.rs:134-189 *)
Definition client_exports : list export :=
  [ ex base_path "Baseline__new" [val "BaselineKind"] (Some (own "Baseline"));
    ex base_path "Baseline__drop" [own "Baseline"] None;
    ex base_path "Baseline__kind" [ref "Baseline"] (Some (val "BaselineKind"));
    ex base_path "Baseline__contract_data" [ref "Baseline"; ref "ContractDataHandle"] (Some (ref "ContractData"));
    ex base_path "Baseline__object" [ref "Baseline"; ref "ObjectHandle"] (Some (ref "Object"));
    ex base_path "Baseline__object_mut" [mut "Baseline"; ref "ObjectHandle"] (Some (mut "Object"));
    ex "tp_client::object" "ObjectHandle__drop" [own "ObjectHandle"] None;
    ex "tp_client::contract" "ContractDataHandle__drop" [own "ContractDataHandle"] None;
    ex "tp_client::contract" "ContractData__id" [ref "ContractData"] (Some (ref "ContractId"));
    ex "tp_client::contract" "ContractData__objects" [ref "ContractData"] (Some (val "Vec<ObjectHandle>"));
    ex "tp_client::contract" "ContractId__name" [ref "ContractId"] (Some (val "str::Ref"));
    ex "tp_client::contract" "ContractId__version" [ref "ContractId"] (Some (val "ContractId_Version")) ]
  ++ flat_map channel_exports primitives
  ++ flat_map channel_id_exports primitives
  ++ flat_map state_exports primitives
  ++ flat_map baseline_exports primitives.

(** crates/rsharp/rust/src/rbox.rs:7-32, string.rs:17-50 *)
Definition rsharp_exports : list export :=
  flat_map (fun t =>
    [ mkExport (sym "rsharp" (lit "Box_" ++ camel t ++ lit "__new")) [Val t] (Some (Own t));
      mkExport (sym "rsharp" (lit "Box_" ++ camel t ++ lit "__drop")) [Own t] None ]) value_types
  ++ [ ex "rsharp" "String__value" [ref "String"] (Some (val "slice u8"));
       ex "rsharp" "String__drop" [own "String"] None;
       ex "rsharp" "String__copy_utf8" [val "slice u8"] (Some (own "String"));
       ex "rsharp" "String__copy_utf16" [val "slice u16"] (Some (own "String")) ].

(** client/contract_example/rust/src/lib.rs:58-128, states.rs:32-84 *)
Definition example_exports : list export :=
  let x := "tp_contract_example" in
  let id f t := ex x f [ref "ExampleStates"] (Some (own t)) in
  [ ex x "ExampleContract__drop" [own "ExampleContract"] None;
    ex x "ExampleContract__handle" [ref "ExampleContract"] (Some (own "ContractDataHandle"));
    ex x "ExampleContract__states" [ref "ExampleContract"] (Some (ref "ExampleStates"));
    ex x "ExampleContract__object_create"
      [ref "ExampleContract"; mut "Baseline"; val "u8"; val "u8"; val "i8"; val "i8"; val "f32"; val "f32";
       own "String"; own "ObjectHandle"; own "ContractDataHandle"] (Some (own "ObjectHandle"));
    ex x "ExampleContract__object_remove" [mut "Baseline"; own "ObjectHandle"] None;
    ex x "ExampleContract__register" [mut "Baseline"] (Some (own "ExampleContract"));
    id "ExampleStates__u8_0" "StateId_U8"; id "ExampleStates__u8_1" "StateId_U8";
    id "ExampleStates__i8_0" "StateId_I8"; id "ExampleStates__i8_1" "StateId_I8";
    id "ExampleStates__f32_0" "StateId_F32"; id "ExampleStates__f32_1" "StateId_F32";
    id "ExampleStates__str_0" "StateId_String"; id "ExampleStates__oh_0" "StateId_ObjectHandle";
    id "ExampleStates__ch_0" "StateId_ContractDataHandle" ].

(** demos/unity_states/rust/src/lib.rs:82-205 (no [remangle]) *)
Definition ball_exports : list export :=
  let e n ps r := mkExport (lit n) ps r in
  let id n t := mkExport (lit n) [ref "BallStates"] (Some (own t)) in
  [ id "BallStates__pos_x" "StateId_F32"; id "BallStates__pos_y" "StateId_F32"; id "BallStates__pos_z" "StateId_F32";
    id "BallStates__euler_x" "StateId_I16"; id "BallStates__euler_y" "StateId_I16"; id "BallStates__euler_z" "StateId_I16";
    id "BallStates__scale_x" "StateId_F32"; id "BallStates__scale_y" "StateId_F32"; id "BallStates__scale_z" "StateId_F32";
    id "BallStates__color" "StateId_U64";
    e "BallContract__register" [mut "Baseline"] (Some (own "BallContract"));
    e "BallContract__unregister" [mut "Baseline"; own "ContractDataHandle"] None;
    e "BallContract__drop" [own "BallContract"] None;
    e "BallContract__handle" [ref "BallContract"] (Some (own "ContractDataHandle"));
    e "BallContract__states" [ref "BallContract"] (Some (ref "BallStates"));
    e "BallContract__object_create"
      [mut "Baseline"; ref "BallContract"; val "f32"; val "f32"; val "f32"; val "i16"; val "i16"; val "i16";
       val "f32"; val "f32"; val "f32"; val "u64"] (Some (own "ObjectHandle"));
    e "BallContract__object_remove" [mut "Baseline"; own "ObjectHandle"] None ].

Definition exports : list export :=
  client_exports ++ rsharp_exports ++ example_exports ++ ball_exports.
