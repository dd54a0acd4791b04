(** The [substitute] attribute macro: crates/rsharp/rust/macro/src/substitute.rs.

    A syntax tree is cut down to what the visitor looks at.  [Mac] is an expression
    that is a macro call ([syn::Expr::Macro]): its attributes, the segments of its
    path and the text of its arguments, which are tokens and are never visited.  [Nd]
    is every other node the visitor walks through (items, statements, all other
    expressions, and macro calls in item, type, pattern and braced-statement
    position, whose path and arguments are then part of the label): a label, the
    attributes and the children in the visiting order.

    Simplified: an attribute is its path and the text [node.tokens.to_string()] of
    its tokens.  [retok] stands for [TokenStream::from_str] followed by
    [to_string]: [None] when the text is not made of Rust tokens (the macro
    panics).  It is a parameter: nothing is assumed about it here. *)
From Verif Require Export Mangle.
Import Coq.Strings.String.StringSyntax.
Open Scope string_scope.
Open Scope list_scope.
Open Scope nat_scope.

Record attribute : Type := mkAttr { at_path : str; at_text : str }.

Inductive node : Type :=
| Mac (attrs : list attribute) (path : list str) (args : str)
| Nd (label : str) (attrs : list attribute) (kids : list node).

(** What running the macro on a node gives: the rewritten node, a panic, or not done
    within the given depth of calls ([Deep]: more is needed; a run that is [Deep]
    at every depth overflows the compiler's stack). *)
Inductive run_result (A : Type) : Type :=
| Done (a : A)
| Crash
| Deep.
Arguments Done {A} a. Arguments Crash {A}. Arguments Deep {A}.

Fixpoint traverse {A B : Type} (f : A -> run_result B) (l : list A) : run_result (list B) :=
  match l with
  | [] => Done []
  | x :: r =>
      match f x with
      | Done y => match traverse f r with Done ys => Done (y :: ys) | Crash => Crash | Deep => Deep end
      | Crash => Crash
      | Deep => Deep
      end
  end.

Fixpoint str_eqb (a b : str) : bool :=
  match a, b with
  | [], [] => true
  | x :: a', y :: b' => N.eqb x y && str_eqb a' b'
  | _, _ => false
  end.

(** [str::starts_with]. *)
Fixpoint starts (p s : str) : bool :=
  match p, s with
  | [], _ => true
  | x :: p', y :: s' => N.eqb x y && starts p' s'
  | _, [] => false
  end.

(** [token_str.split(pattern)] (substitute.rs:44), for a non-empty pattern: the
    pieces between the non-overlapping occurrences found from left to right.
    [skip] characters still belong to the occurrence just found. *)
Fixpoint split_on (pat : str) (skip : nat) (cur : str) (s : str) : list str :=
  match s with
  | [] => [rev cur]
  | c :: r =>
      match skip with
      | S k => split_on pat k cur r
      | O => if starts pat s then rev cur :: split_on pat (Nat.pred (length pat)) [] r
             else split_on pat 0 (c :: cur) r
      end
  end.

(** [splits.as_slice().join(..)] (substitute.rs:46). *)
Fixpoint join_with (sep : str) (l : list str) : str :=
  match l with
  | [] => []
  | [s] => s
  | s :: r => s ++ sep ++ join_with sep r
  end.

(** substitute.rs:55 *)
Definition pattern1 : str := lit "substitute! ()".
Definition pattern2 : str := lit "substitute ! ()".
(** substitute.rs:23 *)
Definition macro_name : str := lit "substitute".

Section Visitor.
Variable retok : str -> option str.
(** [self.value.to_string()] and [syn::parse2::<syn::Expr>(self.value.clone())]. *)
Variable value_text : str.
Variable value_expr : node.

(** substitute.rs:43-54 [try_pattern]: [None] when the pattern does not occur. *)
Definition try_pattern (text pat : str) : option (run_result str) :=
  let splits := split_on pat 0 [] text in
  if 1 <? length splits then
    Some (match retok (join_with value_text splits) with
          | Some t => Done t
          | None => Crash
          end)
  else None.

(** substitute.rs:40-58 [visit_attribute_mut].  Line 57 visits the path of the
    attribute, in which there is nothing to rewrite. *)
Definition visit_attribute (a : attribute) : run_result attribute :=
  let r := match try_pattern (at_text a) pattern1 with
           | Some r => r
           | None => match try_pattern (at_text a) pattern2 with
                     | Some r => r
                     | None => Done (at_text a)
                     end
           end in
  match r with
  | Done t => Done (mkAttr (at_path a) t)
  | Crash => Crash
  | Deep => Deep
  end.

(** The free function [syn::visit_mut::visit_expr_mut] (and those for the other
    kinds of node): the attributes, then the children. *)
Definition walk (visit : node -> run_result node) (t : node) : run_result node :=
  match t with
  | Mac attrs path args =>
      match traverse visit_attribute attrs with
      | Done attrs' => Done (Mac attrs' path args)
      | Crash => Crash
      | Deep => Deep
      end
  | Nd label attrs kids =>
      match traverse visit_attribute attrs with
      | Done attrs' =>
          match traverse visit kids with
          | Done kids' => Done (Nd label attrs' kids')
          | Crash => Crash
          | Deep => Deep
          end
      | Crash => Crash
      | Deep => Deep
      end
  end.

(** substitute.rs:18-38 [visit_expr_mut], for the nodes that are expressions; all
    other nodes are visited by the default methods, i.e. by [walk].
    [path.segments.last().unwrap()]: a path has a segment. *)
Fixpoint visit (depth : nat) (t : node) : run_result node :=
  match depth with
  | O => Deep
  | S d =>
      match t with
      | Mac attrs path args =>
          if str_eqb (last path []) macro_name then
            match attrs with
            | _ :: _ => Done t
            | [] => walk (visit d) value_expr
            end
          else walk (visit d) t
      | Nd _ _ _ => walk (visit d) t
      end
  end.
End Visitor.

(** substitute.rs:61-72 [substitute]: [None] for the two errors (no tokens given,
    tokens that are not an expression). *)
Definition substitute (parse_expr : str -> option node) (retok : str -> option str)
    (attr : str) (depth : nat) (item : node) : option (run_result node) :=
  match attr with
  | [] => None
  | _ => match parse_expr attr with
         | None => None
         | Some v => Some (visit retok attr v depth item)
         end
  end.
