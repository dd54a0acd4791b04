(** The tests of the macros of crates/rsharp, replayed on the model (see TestsRust.v). *)
From Verif Require Import Mangle Substitute.
Import Coq.Strings.String.StringSyntax.
Open Scope string_scope.
Open Scope list_scope.
Open Scope nat_scope.

(** crates/rsharp/rust/macro/src/remangle.rs:49-61 [test_mangle_path]. *)
Example test_mangle_path :
  mangle_path (lit "::crate::a::b::c") = lit "crate__a__b__c__" /\ mangle_path (lit "crate::a::b::c") = lit "crate__a__b__c__" /\
  mangle_path (lit "crate") = lit "crate__" /\ mangle_path (lit "::") = lit "".
Proof. vm_compute. auto. Qed.

(** crates/rsharp/rust/macro/src/substitute.rs:79-144 [test_substitute].  The token stream
    prints [substitute!()], [substitute !()] and [substitute ! ()] in one of the two spellings
    the macro looks for. *)
Definition hello : str := [34; 104; 101; 108; 108; 111; 34]%N.
Definition parse (s : str) : option node := Some (Nd s [] []).
Definition retok (s : str) : option str := Some s.
Definition placeholder : node := Mac [] [lit "substitute"] [].
Definition my (x : node) : node :=
  Nd (lit "mod my") [] [Nd (lit "pub fn asdf") [] [Nd (lit "let a") [] [x]; Nd (lit "let b") [] [Nd (lit "block") [] [x]]]].
Definition my_struct (text : str) : node := Nd (lit "struct MyStruct") [mkAttr (lit "derive") text] [].
Example test_substitute :
  substitute parse retok hello 10 (my placeholder) = Some (Done (my (Nd hello [] []))) /\
  substitute parse retok (lit "Default") 10 (my_struct (lit "(substitute! ())")) = Some (Done (my_struct (lit "(Default)"))) /\
  substitute parse retok (lit "Default") 10 (my_struct (lit "(substitute ! ())")) = Some (Done (my_struct (lit "(Default)"))).
Proof. vm_compute. auto. Qed.
