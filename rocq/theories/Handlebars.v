(** The part of the handlebars crate (strict mode, no escaping) that the two code
    generators use: client/codegen_wrapped/src/lib.rs:76-93 and
    crates/rsharp/codegen/src/codegen.rs:34-42 build the registry.

    handlebars is external: this follows its documentation.  Simplified: white space
    around block tags on a line of their own is kept (handlebars drops it), so the
    modelled text may have extra blank lines; a partial may not use a partial. *)
From Verif Require Export Mangle.
Import Coq.Strings.String.StringSyntax.
Open Scope string_scope.
Open Scope list_scope.
Open Scope nat_scope.

(** serde_json values, as far as [ClassData] and [TypeInfo] produce them. *)
Inductive json : Type := JStr (s : str) | JBool (b : bool) | JNull.

(** A serialized struct: field names and values (lib.rs:23-49, codegen.rs:89-94). *)
Definition object := list (str * json).

(** The elements of a template. *)
Inductive node : Type :=
| NText (s : str)
| NVar (x : str)
| NIf (x : str) (yes no : list node)
| NPartial (x : str).

Fixpoint str_eqb (a b : str) : bool :=
  match a, b with
  | [], [] => true
  | x :: a', y :: b' => (N.eqb x y && str_eqb a' b')%bool
  | _, _ => false
  end.

Fixpoint lookup {A} (x : str) (d : list (str * A)) : option A :=
  match d with
  | [] => None
  | (y, v) :: r => if str_eqb x y then Some v else lookup x r
  end.

(** ** Reading a template ([register_template_file], [register_partial]) *)

Definition open_brace : N := 123.
Definition close_brace : N := 125.

Inductive token : Type := TkText (s : str) | TkTag (s : str).

(** The text is cut at "{{" and "}}"; [cur] is the piece being read, reversed, and
    [inside] tells whether it is a tag.  [None]: a tag is not closed. *)
Fixpoint tokens (inside : bool) (cur : str) (s : str) : option (list token) :=
  match s with
  | [] => if inside then None else Some [TkText (rev cur)]
  | c :: r =>
      match r with
      | d :: r' =>
          if inside
          then if (N.eqb c close_brace && N.eqb d close_brace)%bool
               then option_map (cons (TkTag (rev cur))) (tokens false [] r')
               else tokens inside (c :: cur) r
          else if (N.eqb c open_brace && N.eqb d open_brace)%bool
               then option_map (cons (TkText (rev cur))) (tokens true [] r')
               else tokens inside (c :: cur) r
      | [] => if inside then None else Some [TkText (rev (c :: cur))]
      end
  end.

Fixpoint strip_prefix (p s : str) : option str :=
  match p, s with
  | [], _ => Some s
  | a :: p', b :: s' => if N.eqb a b then strip_prefix p' s' else None
  | _ :: _, [] => None
  end.

(** An open [{{#if x}}]: its variable, what came before it (reversed), and the
    first branch once [{{else}}] was seen. *)
Definition open_if := (str * list node * option (list node))%type.

(** [acc] holds the nodes read so far at this level, reversed. *)
Fixpoint parse_tokens (acc : list node) (st : list open_if) (ts : list token) : option (list node) :=
  match ts with
  | [] => match st with [] => Some (rev acc) | _ => None end
  | TkText s :: r => parse_tokens (NText s :: acc) st r
  | TkTag t :: r =>
      let t := trim t in
      match strip_prefix (lit "#if ") t with
      | Some x => parse_tokens [] ((trim x, acc, None) :: st) r
      | None =>
          match strip_prefix (lit ">") t with
          | Some x => parse_tokens (NPartial (trim x) :: acc) st r
          | None =>
              if str_eqb t (lit "else") then
                match st with
                | (x, before, None) :: st' => parse_tokens [] ((x, before, Some (rev acc)) :: st') r
                | _ => None
                end
              else if str_eqb t (lit "/if") then
                match st with
                | (x, before, None) :: st' => parse_tokens (NIf x (rev acc) [] :: before) st' r
                | (x, before, Some yes) :: st' => parse_tokens (NIf x yes (rev acc) :: before) st' r
                | [] => None
                end
              else parse_tokens (NVar t :: acc) st r
          end
      end
  end.

(** The template, or [None] where handlebars reports a syntax error. *)
Definition parse (s : str) : option (list node) :=
  match tokens false [] s with Some ts => parse_tokens [] [] ts | None => None end.

(** ** Rendering ([render_to_write], lib.rs:106-109)

    The text is written as it is produced, so a rendering that fails has already
    written what came before: the result is the text and whether all went well. *)

(** What [#if] makes of a value. *)
Definition truthy (v : json) : bool :=
  match v with JStr [] => false | JStr _ => true | JBool b => b | JNull => false end.

(** What [{{x}}] writes: no escaping (lib.rs:80); null is the empty text. *)
Definition show (v : json) : str :=
  match v with
  | JStr s => s
  | JBool true => lit "true"
  | JBool false => lit "false"
  | JNull => []
  end.

Section Render.
Variable d : object.
(** How to render a partial by name. *)
Variable part : str -> str * bool.

(** One node; strict mode (lib.rs:77): a missing value is an error. *)
Fixpoint render_node (n : node) : str * bool :=
  let fix go (l : list node) : str * bool :=
    match l with
    | [] => ([], true)
    | m :: r =>
        let (a, ok) := render_node m in
        if ok then let (b, ok') := go r in (a ++ b, ok') else (a, false)
    end in
  match n with
  | NText s => (s, true)
  | NVar x => match lookup x d with Some v => (show v, true) | None => ([], false) end
  | NIf x yes no => match lookup x d with
                    | Some v => if truthy v then go yes else go no
                    | None => ([], false)
                    end
  | NPartial x => part x
  end.

Fixpoint render_nodes (l : list node) : str * bool :=
  match l with
  | [] => ([], true)
  | m :: r =>
      let (a, ok) := render_node m in
      if ok then let (b, ok') := render_nodes r in (a ++ b, ok') else (a, false)
  end.
End Render.

(** A registry: the main template and its partials (lib.rs:82-89). *)
Record registry : Type := mkRegistry { r_main : list node; r_partials : list (str * list node) }.

(** [render_to_write(TPL_NAME, data, _)]. *)
Definition render (r : registry) (d : object) : str * bool :=
  render_nodes d
    (fun x => match lookup x (r_partials r) with
              | Some p => render_nodes d (fun _ => ([], false)) p
              | None => ([], false)
              end)
    (r_main r).
