(** Reading C# text for C49: which native functions does it call, and with what?

    This is a plain scan of the text of the files in /repo (Sources.v) and of the
    generated classes; it uses nothing of the generators. *)
From Verif Require Export Handlebars Exports Sources.
Import Coq.Strings.String.StringSyntax.
Open Scope string_scope.
Open Scope list_scope.
Open Scope nat_scope.

(** A C# comment runs from "//" to the end of the line. *)
Fixpoint uncomment (inside : bool) (s : str) : str :=
  match s with
  | [] => []
  | c :: r =>
      if inside then if N.eqb c 10 then c :: uncomment false r else uncomment true r
      else match r with
           | d :: _ => if (N.eqb c 47 && N.eqb d 47)%bool then uncomment true r else c :: uncomment false r
           | [] => [c]
           end
  end.

(** Letters, digits and the underscore. *)
Definition is_digit (c : N) : bool := ((48 <=? c) && (c <=? 57))%N.
Definition word_char (c : N) : bool := (is_upper c || is_lower c || is_digit c || N.eqb c underscore)%bool.

Fixpoint word (s : str) : str * str :=
  match s with
  | c :: r => if word_char c then let (w, k) := word r in (c :: w, k) else ([], s)
  | [] => ([], [])
  end.

(** The arguments of a call, after its opening parenthesis: cut at the commas that are
    in no inner parentheses.  [None]: never closed. *)
Fixpoint arguments (depth : nat) (cur : str) (s : str) : option (list str) :=
  match s with
  | [] => None
  | c :: r =>
      if N.eqb c 40 then arguments (S depth) (c :: cur) r
      else if N.eqb c 41 then
        match depth with
        | O => Some [trim (rev cur)]
        | S n => arguments n (c :: cur) r
        end
      else if (N.eqb c 44 && Nat.eqb depth 0)%bool then option_map (cons (trim (rev cur))) (arguments 0 [] r)
      else arguments depth (c :: cur) r
  end.

Definition nonempty (l : list str) : list str := match l with [[]] => [] | _ => l end.

(** A use of a native function: its name, and the arguments if it is called (it may
    also be passed on as a function). *)
Definition use := (str * option (list str))%type.

Definition use_at (s : str) : use :=
  let (w, k) := word s in
  match k with
  | c :: r => if N.eqb c 40 then (w, option_map nonempty (arguments 0 [] r)) else (w, None)
  | [] => (w, None)
  end.

(** All uses: words after [prefix] where the prefix does not continue a longer name. *)
Fixpoint uses (prefix : str) (prev : N) (s : str) : list use :=
  match s with
  | [] => []
  | c :: r =>
      (match strip_prefix prefix s with
       | Some k => if (word_char prev || N.eqb prev 46)%bool then [] else [use_at k]
       | None => []
       end) ++ uses prefix c r
  end.

Definition native_uses (prefix : string) (text : str) : list use :=
  uses (lit prefix) 32 (uncomment false text).

(** ** Names

    The C# bindings are made by CppSharp, which renames functions: it drops
    underscores and raises letters.  Whatever its exact rules, letters and digits
    stay: that is all that is used here. *)
Definition letters (s : str) : str := map to_lower (filter (fun c => negb (N.eqb c underscore)) s).
Definition same_letters (a b : str) : Prop := letters a = letters b.

(** ** Types *)

Inductive class_of_number : Type := Unsigned | Signed | Floating | Truth.

(** Rust's scalars and C#'s, by kind and size in bits. *)
Definition rust_scalars : list (str * (class_of_number * nat)) :=
  [ (lit "u8", (Unsigned, 8)); (lit "u16", (Unsigned, 16)); (lit "u32", (Unsigned, 32)); (lit "u64", (Unsigned, 64));
    (lit "i8", (Signed, 8)); (lit "i16", (Signed, 16)); (lit "i32", (Signed, 32)); (lit "i64", (Signed, 64));
    (lit "f32", (Floating, 32)); (lit "f64", (Floating, 64)); (lit "bool", (Truth, 8)) ].
Definition cs_scalars : list (str * (class_of_number * nat)) :=
  [ (lit "byte", (Unsigned, 8)); (lit "ushort", (Unsigned, 16)); (lit "uint", (Unsigned, 32)); (lit "ulong", (Unsigned, 64));
    (lit "sbyte", (Signed, 8)); (lit "short", (Signed, 16)); (lit "int", (Signed, 32)); (lit "long", (Signed, 64));
    (lit "float", (Floating, 32)); (lit "double", (Floating, 64)); (lit "bool", (Truth, 8)) ].

(** The C# type [cs] is the C type of the Rust parameter [p]: a scalar of the same
    kind and size; a pointer to such a scalar; an [IntPtr] for an opaque thing. *)
Definition fits_type (cs : str) (p : cty) : Prop :=
  match p with
  | Val t => exists k, lookup t rust_scalars = Some k /\ lookup cs cs_scalars = Some k
  | Own t | Ref t | Mut t =>
      match lookup t rust_scalars with
      | Some k => exists c, cs = c ++ lit "*" /\ lookup c cs_scalars = Some k
      | None => cs = lit "IntPtr"
      end
  end.

(** The cast at the start of an argument: "(T) x". *)
Definition cast_of (arg : str) : option str :=
  match arg with
  | c :: r => if N.eqb c 40 then
                (fix go (cur : str) (s : str) : option str :=
                   match s with
                   | [] => None
                   | d :: s' => if N.eqb d 41 then Some (rev cur) else go (d :: cur) s'
                   end) [] r
              else None
  | [] => None
  end.

(** ** Declarations by hand: "private static extern unsafe RET NAME(TYPE x, ..);" *)

Fixpoint until (stop : N) (s : str) : str * str :=
  match s with
  | [] => ([], [])
  | c :: r => if N.eqb c stop then ([], r) else let (a, b) := until stop r in (c :: a, b)
  end.

Record declaration : Type := mkDecl { dc_ret : str; dc_name : str; dc_params : list str }.

Fixpoint declarations (s : str) : list declaration :=
  match s with
  | [] => []
  | c :: r =>
      (match strip_prefix (lit "extern unsafe ") s with
       | Some k => let (ret, k) := until 32 k in
                   let (name, k) := word k in
                   match k with
                   | _ :: k => match arguments 0 [] k with
                               | Some ps => [mkDecl ret name (map (fun p => fst (until 32 p)) (nonempty ps))]
                               | None => []
                               end
                   | [] => []
                   end
       | None => []
       end) ++ declarations r
  end.

(** ** Results: "new Ptr<T>( prefix NAME(..) )" gives the result the wrapper type [T]. *)

Fixpoint skip_ws (s : str) : str :=
  match s with c :: r => if is_ws c then skip_ws r else s | [] => [] end.

(** The last part of a dotted name. *)
Fixpoint last_part (cur : str) (s : str) : str :=
  match s with
  | [] => rev cur
  | c :: r => if N.eqb c 46 then last_part [] r else last_part (c :: cur) r
  end.

(** Pairs of wrapper type and native function. *)
Fixpoint results (prefix : str) (s : str) : list (str * str) :=
  match s with
  | [] => []
  | c :: r =>
      (match strip_prefix (lit "new Ptr<") s with
       | Some k => let (t, k) := until 62 k in
                   match k with
                   | _ :: k => match strip_prefix prefix (skip_ws k) with
                               | Some k => [(last_part [] t, fst (word k))]
                               | None => []
                               end
                   | [] => []
                   end
       | None => []
       end) ++ results prefix r
  end.
Definition native_results (prefix : string) (text : str) : list (str * str) :=
  results (lit prefix) (uncomment false text).

(** What the result is declared to be: the first "OwnershipSemantics.X" after the use
    and before the end of the block. *)
Fixpoint label (s : str) : option str :=
  match s with
  | [] => None
  | c :: r => if N.eqb c 125 then None
              else match strip_prefix (lit "OwnershipSemantics.") s with
                   | Some k => Some (fst (word k))
                   | None => label r
                   end
  end.

Fixpoint labels (prefix : str) (prev : N) (s : str) : list (str * str) :=
  match s with
  | [] => []
  | c :: r =>
      (match strip_prefix prefix s with
       | Some k => if (word_char prev || N.eqb prev 46)%bool then []
                   else match label k with Some l => [(fst (word k), l)] | None => [] end
       | None => []
       end) ++ labels prefix c r
  end.
Definition native_labels (prefix : string) (text : str) : list (str * str) :=
  labels (lit prefix) 32 (uncomment false text).

(** ** What is passed

    A member is declared with "public" or "protected"; its parameters are what stands
    in its first parentheses; the setter of a property has the parameter "value". *)

Fixpoint words_from (cur : str) (s : str) : list str :=
  match s with
  | [] => match cur with [] => [] | _ => [rev cur] end
  | c :: r => if is_ws c then match cur with [] => words_from [] r | _ => rev cur :: words_from [] r end
              else words_from (c :: cur) r
  end.
Definition words (s : str) : list str := words_from [] s.

(** Name and type of "TYPE NAME", maybe after more words. *)
Definition typed_name (s : str) : list (str * str) :=
  match rev (words s) with name :: ty :: _ => [(name, ty)] | _ => [] end.

(** The declaration up to its body: until "{", ";" or "=". *)
Fixpoint header (s : str) : str :=
  match s with
  | [] => []
  | c :: r => if (N.eqb c 123 || N.eqb c 59 || N.eqb c 61)%bool then [] else c :: header r
  end.

Definition has_paren (s : str) : bool := existsb (N.eqb 40) s.

Definition scope := list (str * str).
Definition params_of (h : str) : scope :=
  if has_paren h
  then match arguments 0 [] (snd (until 40 h)) with
       | Some l => flat_map typed_name l
       | None => []
       end
  else match typed_name h with (_, ty) :: _ => [(lit "value", ty)] | [] => [] end.

(** The member's name: before the parentheses, or at the end. *)
Definition member_of (h : str) : str := hd [] (rev (words (fst (until 40 h)))).

(** The properties of the classes of a file: class, name, type. *)
Fixpoint properties (cls : str) (prev : N) (s : str) : list (str * str * str) :=
  match s with
  | [] => []
  | c :: r =>
      let starts p := if word_char prev then None else strip_prefix (lit p) s in
      let cls := match starts "class " with Some k => fst (word k) | None => cls end in
      (match starts "public " with
       | Some k => let h := header k in
                   if has_paren h then [] else map (fun nt => (cls, fst nt, snd nt)) (typed_name h)
       | None => []
       end) ++ properties cls c r
  end.

(** A use with its class, its member, and what is in scope. *)
Record place : Type := mkPlace { pl_class : str; pl_member : str; pl_scope : scope }.

Fixpoint placed_uses (prefix : str) (pl : place) (prev : N) (s : str) : list (place * use) :=
  match s with
  | [] => []
  | c :: r =>
      let starts p := if word_char prev then None else strip_prefix (lit p) s in
      let pl := match starts "class " with
                | Some k => mkPlace (fst (word k)) (pl_member pl) (pl_scope pl)
                | None => pl
                end in
      let enter k := let h := header k in mkPlace (pl_class pl) (member_of h) (params_of h) in
      let pl := match starts "public " with
                | Some k => enter k
                | None => match starts "protected " with Some k => enter k | None => pl end
                end in
      (match strip_prefix prefix s with
       | Some k => if (word_char prev || N.eqb prev 46)%bool then [] else [(pl, use_at k)]
       | None => []
       end) ++ placed_uses prefix pl c r
  end.
Definition native_placed_uses (prefix : string) (text : str) : list (place * use) :=
  placed_uses (lit prefix) (mkPlace [] [] []) 32 (uncomment false text).

Definition uncast (arg : str) : str :=
  match arg with
  | c :: r => if N.eqb c 40 then trim (snd (until 41 r)) else arg
  | [] => []
  end.

(** [strip_suffix x s] is [Some y] for [s = y ++ x]. *)
Definition strip_suffix (x s : str) : option str := option_map (@rev N) (strip_prefix (rev x) (rev s)).

(** What an argument is: a wrapper of some class, lent or given away; or a number. *)
Inductive passed : Type := Lent (cls : str) | Given (cls : str) | Number (cs : str).

(** "Ptr<T>" holds a [T]. *)
Definition pointee (ty : str) : option str :=
  match strip_prefix (lit "Ptr<") ty with Some k => option_map (last_part []) (strip_suffix (lit ">") k) | None => None end.

Section Passed.
Variables (props : list (str * str * str)) (pl : place).

(** The class of an expression: [this], a parameter, or a property of [this]. *)
Definition class_of (x : str) : option str :=
  if str_eqb x (lit "this") then Some (pl_class pl)
  else match lookup x (pl_scope pl) with
       | Some ty => Some (last_part [] ty)
       | None =>
           match strip_prefix (lit "this.") x with
           | Some p => option_map (fun q => last_part [] (snd q))
                         (List.find (fun q => (str_eqb (fst (fst q)) (pl_class pl) && str_eqb (snd (fst q)) p)%bool) props)
           | None => None
           end
       end.

Definition passed_as (arg : str) : option passed :=
  let a := uncast arg in
  match strip_suffix (lit ".Inner.Value.p") a with
  | Some x => option_map Lent (class_of x)
  | None =>
  match strip_suffix (lit ".StealInner().p") a with
  | Some x => option_map Given (class_of x)
  | None =>
      (* [NativeDrop(Ptr<T> inner)] gives it away; BallStates keeps a bare pointer *)
      if str_eqb a (lit "inner.p") then
        match lookup (lit "inner") (pl_scope pl) with Some ty => option_map Given (pointee ty) | None => None end
      else if str_eqb a (lit "this.inner.p") then Some (Lent (pl_class pl))
      else option_map Number (lookup a (pl_scope pl))
  end end.
End Passed.

(** The C# class [c] wraps the native [t]. *)
Definition wraps (c t : str) : Prop :=
  c = t \/ c = lit "RBox_" ++ camel t \/ (c = lit "RString" /\ t = lit "String").

(** What is passed is what the parameter takes: a box is given away, a reference is
    lent, a number has the C type. *)
Definition takes (p : cty) (a : passed) : Prop :=
  match p, a with
  | Own t, Given c => wraps c t
  | Ref t, Lent c | Mut t, Lent c => wraps c t
  | Val _, Number cs => fits_type cs p
  | _, _ => False
  end.

(** ** Names of members

    A constructor calls the native [new], [NativeDrop] the native [drop], another
    member its namesake. *)
Definition native_member (pl : place) : str :=
  if str_eqb (pl_member pl) (pl_class pl) then lit "new"
  else if str_eqb (pl_member pl) (lit "NativeDrop") then lit "drop"
  else pl_member pl.

(** After the name may come "set" (a setter) or the name of a type (an overload). *)
Definition endings : list str := [] :: lit "set" :: map (fun t => letters (camel t)) primitives.

Definition namesake (pl : place) (native : str) : Prop :=
  exists pre e, letters native = pre ++ letters (pl_class pl ++ native_member pl) ++ e /\ In e endings.
