(** The attribute macros [#[states]] and [#[channels]]:
    client/contract_macro/src/lib.rs.  Both are instances of one template
    (lines 29-186) that differ only in the id type ([StateId]/[ChannelId]) and the
    trait ([IStates]/[IChannels]); the model has one function for both. *)
From Verif Require Export Contract.
Import Coq.Strings.String.StringSyntax.
Open Scope string_scope.
Open Scope list_scope.
Open Scope nat_scope.

(** What [syn::DeriveInput] can hold (lib.rs:37-65).  A field is its identifier, as
    printed (a raw identifier keeps its [r#]), and its type.  Only the types that
    implement [ITpPropertyStatic] (traits.rs:79-85) are represented; generics,
    attributes, visibility and spans are left out. *)
Inductive derive_input : Type :=
| DNamed (fields : list (string * ptype))
| DUnnamed (types : list ptype)
| DUnit
| DEnum
| DUnion.

(** lib.rs:32-34. *)
Definition reserved : list string := ["type_ids"; "enumerate_types"; "field_names"].

(** The generated code, in the pieces the macro accumulates: the rewritten struct
    fields (lib.rs:86-90, 164), the getters (93-99), the initialisers of [new]
    (102-104, 134-138), and the contents of the three static vectors (107-126,
    142-160). *)
Record generated : Type := mkGen {
  g_fields : list (string * ptype);      (* [f: StateId<t>] *)
  g_getters : list (string * ptype);     (* [pub fn f(&self) -> StateId<t> { self.f }] *)
  g_inits : list (string * nat);         (* [f: StateId::new(i, id)] *)
  g_type_ids : list ptype;               (* [TypeId::of::<t>()] *)
  g_prop_types : list ptype;             (* [<t as ITpPropertyStatic>::PROPERTY_TYPE] *)
  g_names : list string                  (* [stringify!(f)] *)
}.
Definition gen_empty : generated := mkGen [] [] [] [] [] [].

(** lib.rs:75-127, one iteration of [for (i, f) in fields.iter_mut().enumerate()]
    after the reserved-name check. *)
Definition gen_field (g : generated) (i : nat) (f : string) (t : ptype) : generated :=
  mkGen (g_fields g ++ [(f, t)]) (g_getters g ++ [(f, t)]) (g_inits g ++ [(f, i)])
        (g_type_ids g ++ [t]) (g_prop_types g ++ [t]) (g_names g ++ [f]).

(** lib.rs:75-127, the loop; 79-84 is the early return. *)
Fixpoint gen_loop (g : generated) (i : nat) (fields : list (string * ptype)) : outcome generated :=
  match fields with
  | [] => Ok g
  | (f, t) :: rest =>
      if existsb (string_eqb f) reserved then Err EReservedField
      else gen_loop (gen_field g i f t) (S i) rest
  end.

(** lib.rs:31-168. *)
Definition expand (d : derive_input) : outcome generated :=
  match d with
  | DEnum | DUnion => Err EOnlyStructs
  | DUnit | DUnnamed _ => Err EOnlyNamed
  | DNamed fields => gen_loop gen_empty 0 fields
  end.

(** ** The meaning of the generated code *)

(** A value of the generated struct: its fields. *)
Definition ids : Type := list (string * prop_id).

Fixpoint assoc {A} (f : string) (l : list (string * A)) : option A :=
  match l with
  | [] => None
  | (x, a) :: r => if string_eqb f x then Some a else assoc f r
  end.

(** lib.rs:133-139 [new(id)]: each declared field is set by its initialiser;
    [StateId::new(i, id)] (states/id.rs:31-37) takes its type argument from the
    field's declared type. *)
Definition gen_new (g : generated) (id : index) : ids :=
  flat_map (fun ft => match assoc (fst ft) (g_inits g) with
                      | Some i => [(fst ft, mkPid (snd ft) i id)]
                      | None => []
                      end) (g_fields g).

(** lib.rs:93-99: calling the getter [f]; [None] if there is no such method. *)
Definition gen_get (g : generated) (s : ids) (f : string) : option prop_id :=
  match assoc f (g_getters g) with Some _ => assoc f s | None => None end.

(** Two identifiers are the same name to the compiler if they agree after
    removing [r#]. *)
Definition unraw (f : string) : string :=
  match f with
  | Coq.Strings.String.String r (Coq.Strings.String.String h rest) =>
      if Coq.Strings.Ascii.eqb r (Coq.Strings.Ascii.ascii_of_N 114) (* r *) &&
         Coq.Strings.Ascii.eqb h (Coq.Strings.Ascii.ascii_of_N 35) (* # *) then rest else f
  | _ => f
  end.

(** What rustc still checks on the generated items and the macro does not:
    inherent methods of one type have distinct names ([new] is one of them,
    lib.rs:133), and the getter's [self.f] (lib.rs:96) is a copy, which needs
    [StateId<T>: Copy], implemented only for primitive [T] (states/id.rs:39,
    channels/mod.rs:73). *)
Definition inherent_methods (g : generated) : list string := "new" :: map (fun ft => unraw (fst ft)) (g_getters g).
Definition id_is_copy (t : ptype) : bool := match t with TPrim _ => true | TVec _ => false end.
Definition compiles (g : generated) : Prop :=
  NoDup (inherent_methods g) /\ forall f t, In (f, t) (g_getters g) -> id_is_copy t = true.

(** A contract type whose [States] and [Channels] were generated, and whose [new]
    calls the generated [new] (as contract_example/rust/src/lib.rs:29-35 does). *)
Definition generated_contract (id : contract_id) (s c : generated) : contract_ty :=
  mkCty id (g_prop_types s) (g_names s) (g_prop_types c) (g_names c).
