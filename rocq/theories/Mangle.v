(** Symbol mangling: crates/rsharp/rust/macro/src/remangle.rs.

    A Rust [str] is the list of its Unicode scalar values. *)
From Verif Require Export Base.
Open Scope list_scope.
Open Scope nat_scope.

Definition str := list N.

(** ASCII literals for the examples and the constants below. *)
Fixpoint lit (s : string) : str :=
  match s with
  | Coq.Strings.String.EmptyString => []
  | Coq.Strings.String.String c r => Coq.Strings.Ascii.N_of_ascii c :: lit r
  end.

Definition colon : N := 58.
Definition underscore : N := 95.

(** [char::is_whitespace]: Unicode White_Space. *)
Definition is_ws (c : N) : bool :=
  ((9 <=? c) && (c <=? 13) || (c =? 32) || (c =? 133) || (c =? 160) || (c =? 5760) ||
   ((8192 <=? c) && (c <=? 8202)) || (c =? 8232) || (c =? 8233) || (c =? 8239) || (c =? 8287) || (c =? 12288))%N.

Fixpoint trim_start (s : str) : str :=
  match s with
  | c :: r => if is_ws c then trim_start r else s
  | [] => []
  end.
(** [str::trim]. *)
Definition trim (s : str) : str := rev (trim_start (rev (trim_start s))).

(** [m.split("::")] (remangle.rs:8): the pieces between the non-overlapping
    occurrences of "::" found from left to right; [cur] is the piece being read,
    reversed. *)
Fixpoint split_colons (cur : str) (s : str) : list str :=
  match s with
  | [] => [rev cur]
  | c :: r =>
      match r with
      | d :: r' => if (N.eqb c colon && N.eqb d colon)%bool then rev cur :: split_colons [] r'
                   else split_colons (c :: cur) r
      | [] => [rev (c :: cur)]
      end
  end.

(** remangle.rs:6-16 [mangle_path]; it always returns [Ok]. *)
Definition mangle_path (m : str) : str :=
  fold_left (fun result module =>
               match module with
               | [] => result
               | _ => (result ++ trim module) ++ [underscore; underscore]
               end) (split_colons [] m) [].

(** What [syn::Item] can be, as far as remangle.rs:30-35 looks. *)
Inductive item_kind : Type := IStruct | IFn | IEnum | IOther.

(** remangle.rs:18-45 [remangle]: the new identifier of the item (the item keeps
    its old name through [pub use]).  [syn::Ident::new] panics when the text is not
    an identifier; which texts are is the parameter [valid].  The error has no
    constructor in [err] of its own: [None] stands for "This item type is not
    supported". *)
Definition remangle (valid : str -> bool) (path : str) (kind : item_kind) (ident : str) : outcome (option str) :=
  match kind with
  | IOther => Ok None
  | _ => let s := mangle_path path ++ ident in if valid s then Ok (Some s) else Panic
  end.
