(** What "every placeholder is replaced" means, for texts and for syntax trees.
    Independent of how substitute.rs does it: only the tree type, and the two
    spellings of the placeholder, are shared with the model. *)
From Verif Require Import Substitute.
Import Coq.Strings.String.StringSyntax.
Open Scope string_scope.
Open Scope list_scope.
Open Scope nat_scope.

(** ** Texts *)
Definition occurs (p s : str) : Prop := exists a b, s = a ++ p ++ b.

(** [text_replaced p v s s']: [s'] is [s] with [v] in place of each [p], found from
    left to right. *)
Inductive text_replaced (p v : str) : str -> str -> Prop :=
| tr_none s : ~ occurs p s -> text_replaced p v s s
| tr_first a b b' :
    (forall a1 b1, a ++ p ++ b = a1 ++ p ++ b1 -> length a <= length a1) ->
    text_replaced p v b b' ->
    text_replaced p v (a ++ p ++ b) (a ++ v ++ b').

(** ** Attributes *)
Definition spelling1 : str := lit "substitute! ()".
Definition spelling2 : str := lit "substitute ! ()".

(** The text an attribute text is turned into, before it is read back as tokens. *)
Definition new_text (v : str) (s s' : str) : Prop :=
  (occurs spelling1 s /\ text_replaced spelling1 v s s') \/
  (~ occurs spelling1 s /\ occurs spelling2 s /\ text_replaced spelling2 v s s').
Definition silent (s : str) : Prop := ~ occurs spelling1 s /\ ~ occurs spelling2 s.
Definition attr_replaced (retok : str -> option str) (v : str) (a a' : attribute) : Prop :=
  at_path a' = at_path a /\
  ((silent (at_text a) /\ at_text a' = at_text a) \/
   (exists s, new_text v (at_text a) s /\ retok s = Some (at_text a'))).
(** The text with the value put in is no sequence of tokens. *)
Definition attr_fails (retok : str -> option str) (v : str) (a : attribute) : Prop :=
  exists s, new_text v (at_text a) s /\ retok s = None.

(** ** Trees *)
Definition attrs_of (t : node) : list attribute :=
  match t with Mac a _ _ => a | Nd _ a _ => a end.
Definition kids_of (t : node) : list node :=
  match t with Mac _ _ _ => [] | Nd _ _ k => k end.

(** [inside s t]: [s] is [t] or stands somewhere in it. *)
Inductive inside (s : node) : node -> Prop :=
| in_here : inside s s
| in_kid t k : In k (kids_of t) -> inside s k -> inside s t.

(** A call [..substitute!(..)] in expression position. *)
Definition named (t : node) : Prop := exists a p g, t = Mac a (p ++ [lit "substitute"]) g.
(** ... without an attribute: to be replaced. *)
Definition placeholder (t : node) : Prop := named t /\ attrs_of t = [].
(** ... with an attribute: left for another substitution. *)
Definition guarded (t : node) : Prop := named t /\ attrs_of t <> [].

Definition has_placeholder (t : node) : Prop := exists s, inside s t /\ placeholder s.
(** The value has a placeholder of its own, below its root. *)
Definition nested (v : node) : Prop := exists k, In k (kids_of v) /\ has_placeholder k.
(** No placeholder in it, neither as an expression nor in an attribute. *)
Definition quiet (t : node) : Prop :=
  forall s, inside s t -> ~ placeholder s /\ forall a, In a (attrs_of s) -> silent (at_text a).

(** [replaced v t t']: [t'] is [t] with [v] for every placeholder. *)
Inductive replaced (retok : str -> option str) (vtext : str) (v : node) : node -> node -> Prop :=
| r_placeholder t : placeholder t -> replaced retok vtext v t v
| r_guarded t : guarded t -> replaced retok vtext v t t
| r_macro a a' p g : ~ named (Mac a p g) -> Forall2 (attr_replaced retok vtext) a a' ->
    replaced retok vtext v (Mac a p g) (Mac a' p g)
| r_node l a a' k k' : Forall2 (attr_replaced retok vtext) a a' ->
    Forall2 (replaced retok vtext v) k k' ->
    replaced retok vtext v (Nd l a k) (Nd l a' k').
