(** C48: the C# code generators (client/codegen_wrapped, crates/rsharp/codegen) write
    exactly their classes, whole, and never an unasked-for file. *)
From Verif Require Import CodegenProofs Codegen.
From Coq Require Import Lia.
Import Coq.Strings.String.StringSyntax.
Open Scope string_scope.
Open Scope list_scope.
Open Scope nat_scope.

(** ** Specification *)

(** The four kinds of class, each made for each of the fourteen types. *)
Inductive kind : Type := Keyframe | State | StateId | StateHandle.

Definition kind_name (k : kind) : str :=
  match k with
  | Keyframe => lit "Keyframe_"
  | State => lit "State_"
  | StateId => lit "StateId_"
  | StateHandle => lit "StateHandle_"
  end.

(** The class of kind [k] for type [t] is called, e.g., [State_U8], and is in [State_U8.cs]. *)
Definition class_name (k : kind) (t : type_info) : str := kind_name k ++ mangled_name t.
Definition file_name (k : kind) (t : type_info) : str := class_name k t ++ lit ".cs".

(** Its text: the common template with the kind's partial, filled in with the class's data. *)
Definition partial_of (k : kind) : str :=
  match k with
  | Keyframe => tpl_keyframe | State => tpl_state
  | StateId => tpl_state_id | StateHandle => tpl_state_handle
  end.
Definition data_of (k : kind) : type_info -> class_data :=
  match k with
  | Keyframe => cd_keyframe | State => cd_state
  | StateId => cd_state_id | StateHandle => cd_state_handle
  end.
Definition rendering (k : kind) (t : type_info) : str * bool :=
  match parse tpl_opaque, parse (partial_of k) with
  | Some m, Some p => render (mkRegistry m [(lit "additional_methods", p)]) (to_object (data_of k t))
  | _, _ => ([], false)
  end.
Definition class_text (k : kind) (t : type_info) : str := fst (rendering k t).

(** [text] contains [part]. *)
Definition contains (text part : str) : Prop := exists a b, text = a ++ part ++ b.

(** ** The template language *)

(** The first field called [x] of [d] holds [v]. *)
Definition binds {A} (d : list (str * A)) (x : str) (v : A) : Prop :=
  exists a b, d = a ++ (x, v) :: b /\ ~ In x (map fst a).

(** What a value is written as, and which values count as true. *)
Inductive written_as : json -> str -> Prop :=
| wa_str s : written_as (JStr s) s
| wa_true : written_as (JBool true) (lit "true")
| wa_false : written_as (JBool false) (lit "false")
| wa_null : written_as JNull (lit "").
Inductive counts : json -> bool -> Prop :=
| ct_str s : s <> lit "" -> counts (JStr s) true
| ct_empty : counts (JStr (lit "")) false
| ct_bool b : counts (JBool b) b
| ct_null : counts JNull false.

(** [l] is filled in from [d] as the text [s]; [P x s]: the partial [x] as [s].
    There is no rule for a name that is not bound. *)
Inductive fills (d : object) (P : str -> str -> Prop) : list node -> str -> Prop :=
| fi_nil : fills d P [] []
| fi_text s l r : fills d P l r -> fills d P (NText s :: l) (s ++ r)
| fi_var x v s l r : binds d x v -> written_as v s -> fills d P l r -> fills d P (NVar x :: l) (s ++ r)
| fi_yes x v yes no s l r : binds d x v -> counts v true -> fills d P yes s -> fills d P l r ->
    fills d P (NIf x yes no :: l) (s ++ r)
| fi_no x v yes no s l r : binds d x v -> counts v false -> fills d P no s -> fills d P l r ->
    fills d P (NIf x yes no :: l) (s ++ r)
| fi_partial x s l r : P x s -> fills d P l r -> fills d P (NPartial x :: l) (s ++ r).

Lemma str_eqb_eq : forall a b, str_eqb a b = true -> a = b.
Proof.
  induction a as [|x a IH]; intros [|y b] H; cbn [str_eqb] in H; try discriminate H; [reflexivity|].
  apply Bool.andb_true_iff in H. destruct H as [E H]. apply N.eqb_eq in E. subst. f_equal. auto.
Qed.

Lemma lookup_binds : forall A (d : list (str * A)) x v, lookup x d = Some v <-> binds d x v.
Proof.
  intros A d x v. induction d as [|[y w] d IH]; cbn [lookup].
  - split; [discriminate|]. intros (a & b & E & _). destruct a; discriminate E.
  - destruct (str_eqb x y) eqn:E.
    + apply str_eqb_eq in E. subst y. split.
      * intros H. injection H as ->. exists [], d. split; [reflexivity|intros []].
      * intros (a & b & H & N). destruct a as [|[z u] a]; cbn [app] in H.
        { injection H as -> _. reflexivity. }
        injection H as <- _ _. destruct N. left. reflexivity.
    + assert (NE : x <> y) by (intros ->; rewrite str_eqb_refl in E; discriminate E).
      rewrite IH. split.
      * intros (a & b & -> & N). exists ((y, w) :: a), b. split; [reflexivity|].
        intros [H|H]; [apply NE; symmetry; exact H|exact (N H)].
      * intros (a & b & H & N). destruct a as [|[z u] a]; cbn [app] in H.
        { injection H as H _ _. destruct NE. symmetry. exact H. }
        injection H as _ _ ->. exists a, b. split; [reflexivity|]. intros Q. apply N. right. exact Q.
Qed.

Lemma show_written : forall v s, show v = s <-> written_as v s.
Proof. intros v s. split; [intros <-; destruct v as [t|[]|]; constructor|intros []; reflexivity]. Qed.

Lemma truthy_counts : forall v b, truthy v = b <-> counts v b.
Proof.
  intros v b. split; [intros <-; destruct v as [[|c t]|[]|]; constructor; discriminate|].
  intros [s N| |[]|]; try reflexivity. destruct s; [destruct N; reflexivity|reflexivity].
Qed.

Section Fills.
Variable d : object.
Variable part : str -> str * bool.
Variable P : str -> str -> Prop.
Hypothesis partP : forall x s, part x = (s, true) <-> P x s.

Lemma render_if : forall x yes no,
  render_node d part (NIf x yes no) =
  match lookup x d with
  | Some v => if truthy v then render_nodes d part yes else render_nodes d part no
  | None => ([], false)
  end.
Proof. reflexivity. Qed.

Lemma render_fills : forall l s, fills d P l s -> render_nodes d part l = (s, true).
Proof.
  intros l s H. induction H as [|s l r _ IH|x v s l r B W _ IH|x v yes no s l r B C _ IY _ IH
    |x v yes no s l r B C _ IY _ IH|x s l r Q _ IH]; cbn [render_nodes].
  - reflexivity.
  - cbn [render_node]. rewrite IH. reflexivity.
  - cbn [render_node]. apply lookup_binds in B. rewrite B. apply show_written in W. rewrite W, IH. reflexivity.
  - rewrite render_if. apply lookup_binds in B. rewrite B. apply truthy_counts in C. rewrite C, IY, IH. reflexivity.
  - rewrite render_if. apply lookup_binds in B. rewrite B. apply truthy_counts in C. rewrite C, IY, IH. reflexivity.
  - cbn [render_node]. apply partP in Q. rewrite Q, IH. reflexivity.
Qed.

(** The size of a template, to go into the branches. *)
Fixpoint weight (n : node) : nat :=
  match n with
  | NIf _ yes no => S (list_sum (map weight yes) + list_sum (map weight no))
  | _ => 1
  end.

Lemma fills_render : forall k l s, list_sum (map weight l) < k -> render_nodes d part l = (s, true) -> fills d P l s.
Proof.
  induction k as [|k IH]; intros l s K H; [lia|].
  destruct l as [|n l]; [cbn in H; injection H as <-; constructor|].
  cbn [render_nodes] in H. change (weight n + list_sum (map weight l) < S k) in K.
  assert (W : 1 <= weight n) by (destruct n; cbn; lia).
  destruct (render_node d part n) as [a ok] eqn:N. destruct ok; [|discriminate H].
  destruct (render_nodes d part l) as [r ok] eqn:R. injection H as <- ->.
  apply IH in R; [|lia].
  destruct n as [t|x|x yes no|x].
  - cbn in N. injection N as <-. constructor. exact R.
  - cbn [render_node] in N. destruct (lookup x d) as [v|] eqn:L; [|discriminate N]. injection N as N.
    apply lookup_binds in L. apply show_written in N. econstructor; eassumption.
  - rewrite render_if in N. cbn [weight] in K. destruct (lookup x d) as [v|] eqn:L; [|discriminate N].
    apply lookup_binds in L. destruct (truthy v) eqn:T; apply truthy_counts in T; apply IH in N; try lia.
    + eapply fi_yes; eassumption.
    + eapply fi_no; eassumption.
  - cbn [render_node] in N. apply partP in N. constructor; assumption.
Qed.
End Fills.

(** Rendering succeeds with a text exactly where the template is filled in as that
    text: every name that is reached is bound, and each partial is registered. *)
Theorem C48_rendering : forall r d s,
  render r d = (s, true) <->
  fills d (fun x t => exists p, binds (r_partials r) x p /\ fills d (fun _ _ => False) p t) (r_main r) s.
Proof.
  intros r d s.
  assert (Q : forall x t,
    (match lookup x (r_partials r) with
     | Some p => render_nodes d (fun _ => ([], false)) p
     | None => ([], false)
     end = (t, true)) <-> exists p, binds (r_partials r) x p /\ fills d (fun _ _ => False) p t).
  { intros x t. split.
    - intros H. destruct (lookup x (r_partials r)) as [p|] eqn:L; [|discriminate H].
      exists p. split; [apply lookup_binds; exact L|].
      eapply fills_render; [|apply Nat.lt_succ_diag_r|exact H]. split; [discriminate|intros []].
    - intros (p & B & F). apply lookup_binds in B. rewrite B. eapply render_fills; [|exact F].
      split; [discriminate|intros []]. }
  unfold render. split.
  - intros H. eapply fills_render; [exact Q|apply Nat.lt_succ_diag_r|exact H].
  - intros H. eapply render_fills; [exact Q|exact H].
Qed.
Print Assumptions C48_rendering.

(** A reading of a template: texts and tags, put back together, are the file, and no
    tag holds the end of a tag.  [None] is an unclosed tag. *)
Definition spelled (t : token) : str :=
  match t with TkText s => s | TkTag s => lit "{{" ++ s ++ lit "}}" end.

Lemma tokens_spelled : forall n s inside cur ts, length s < n -> tokens inside cur s = Some ts ->
  (if inside then lit "{{" else []) ++ rev cur ++ s = flat_map spelled ts.
Proof.
  induction n as [|n IH]; intros s inside cur ts L H; [lia|].
  destruct s as [|c [|e r]].
  - cbn in H. destruct inside; [discriminate H|]. injection H as <-. cbn. rewrite !app_nil_r. reflexivity.
  - cbn in H. destruct inside; [discriminate H|]. injection H as <-. cbn. rewrite app_nil_r. reflexivity.
  - cbn [length] in L.
    change (tokens inside cur (c :: e :: r)) with
      (if inside
       then if (N.eqb c close_brace && N.eqb e close_brace)%bool
            then option_map (cons (TkTag (rev cur))) (tokens false [] r)
            else tokens inside (c :: cur) (e :: r)
       else if (N.eqb c open_brace && N.eqb e open_brace)%bool
            then option_map (cons (TkText (rev cur))) (tokens true [] r)
            else tokens inside (c :: cur) (e :: r)) in H.
    destruct inside.
    + destruct (N.eqb c close_brace && N.eqb e close_brace)%bool eqn:B.
      * apply Bool.andb_true_iff in B. destruct B as [B1 B2]. apply N.eqb_eq in B1, B2. subst c e.
        destruct (tokens false [] r) as [ts'|] eqn:T; [|discriminate H]. cbn in H. injection H as <-.
        apply IH in T; [|lia]. cbn [rev app] in T. cbn [flat_map spelled]. rewrite <- T, <- !app_assoc. reflexivity.
      * apply IH in H; [|cbn [length]; lia]. rewrite <- H. cbn [rev]. rewrite <- !app_assoc. reflexivity.
    + destruct (N.eqb c open_brace && N.eqb e open_brace)%bool eqn:B.
      * apply Bool.andb_true_iff in B. destruct B as [B1 B2]. apply N.eqb_eq in B1, B2. subst c e.
        destruct (tokens true [] r) as [ts'|] eqn:T; [|discriminate H]. cbn in H. injection H as <-.
        apply IH in T; [|lia]. cbn [rev app] in T. cbn [flat_map spelled]. rewrite <- T. reflexivity.
      * apply IH in H; [|cbn [length]; lia]. rewrite <- H. cbn [rev]. rewrite <- !app_assoc. reflexivity.
Qed.

(** Cutting a template loses nothing and invents nothing. *)
Theorem C48_templates_are_cut_whole : forall s ts, tokens false [] s = Some ts -> flat_map spelled ts = s.
Proof. intros s ts H. apply (tokens_spelled (S (length s))) in H; [|lia]. symmetry. exact H. Qed.
Print Assumptions C48_templates_are_cut_whole.

(** The hypotheses are met: a template with a condition and a partial. *)
Example rendering_example :
  let r := mkRegistry [NText (lit "a"); NIf (lit "x") [NVar (lit "y")] []; NPartial (lit "p")]
             [(lit "p", [NText (lit "c")])] in
  render r [(lit "x", JBool true); (lit "y", JStr (lit "b"))] = (lit "abc", true) /\
  snd (render r [(lit "x", JBool true)]) = false /\
  render r [(lit "x", JBool false)] = (lit "ac", true) /\
  tokens false [] (lit "a{{x}}b") = Some [TkText (lit "a"); TkTag (lit "x"); TkText (lit "b")].
Proof. vm_compute. repeat split. Qed.

(** A template whose blocks do not match is not accepted. *)
Example unbalanced_templates :
  parse (lit "{{#if x}}a") = None /\ parse (lit "a{{/if}}") = None /\ parse (lit "{{else}}") = None /\
  parse (lit "{{#if x}}a{{else}}b{{else}}c{{/if}}") = None /\ parse (lit "{{#if x}}{{#if y}}a{{/if}}") = None /\
  parse (lit "{{#if x}}{{#if y}}a{{/if}}{{else}}b{{/if}}") =
    Some [NText []; NIf (lit "x") [NText []; NIf (lit "y") [NText (lit "a")] []; NText []] [NText (lit "b")]; NText []].
Proof. vm_compute. repeat split. Qed.

(** ** Every class renders *)

Lemma parse_opaque : exists m, parse tpl_opaque = Some m.
Proof. vm_compute. eexists. reflexivity. Qed.
Lemma parse_partial : forall k, exists p, parse (partial_of k) = Some p.
Proof. intros []; vm_compute; eexists; reflexivity. Qed.

(** Whatever the row of the type table says, strict mode finds every value it needs:
    rendering never fails. *)
Theorem C48_every_type_renders : forall k t, snd (rendering k t) = true.
Proof. intros [] [m p o n i []]; vm_compute; reflexivity. Qed.
Print Assumptions C48_every_type_renders.

(** Nothing of the template language is left in a class, braces are balanced, and the
    class and its converter are declared under their own names. *)
Fixpoint depth (n : nat) (s : str) : option nat :=
  match s with
  | [] => Some n
  | c :: r => if N.eqb c 123 then depth (S n) r
              else if N.eqb c 125 then match n with O => None | S m => depth m r end
              else depth n r
  end.

Fixpoint find (part s : str) : bool :=
  match strip_prefix part s with
  | Some _ => true
  | None => match s with [] => false | _ :: r => find part r end
  end.

Lemma strip_prefix_spec : forall p s r, strip_prefix p s = Some r -> s = p ++ r.
Proof.
  induction p as [|a p IH]; intros s r H; [cbn in *; congruence|].
  destruct s as [|b s]; [discriminate|]. cbn in H.
  destruct (N.eqb_spec a b); [|discriminate]. subst. cbn. f_equal. auto.
Qed.
Lemma strip_prefix_app : forall p r, strip_prefix p (p ++ r) = Some r.
Proof. induction p as [|a p IH]; intros r; [reflexivity|]. cbn. rewrite N.eqb_refl. apply IH. Qed.

Lemma find_spec : forall part s, find part s = true <-> contains s part.
Proof.
  intros part s. split.
  - induction s as [|c s IH]; intros H; cbn [find] in H.
    + destruct (strip_prefix part []) eqn:E; [|discriminate].
      apply strip_prefix_spec in E. exists [], s. exact E.
    + destruct (strip_prefix part (c :: s)) eqn:E.
      * apply strip_prefix_spec in E. exists [], s0. exact E.
      * destruct (IH H) as (a & b & Q). exists (c :: a), b. rewrite Q. reflexivity.
  - intros (a & b & ->). induction a as [|c a IH]; cbn [app].
    + assert (H : strip_prefix part (part ++ b) = Some b) by apply strip_prefix_app.
      destruct (part ++ b) eqn:Q; cbn [find]; rewrite H; reflexivity.
    + cbn [find]. destruct (strip_prefix part (c :: a ++ part ++ b)); [reflexivity|exact IH].
Qed.

Definition kinds : list kind := [Keyframe; State; StateId; StateHandle].
Lemma all_kinds : forall k, In k kinds.
Proof. intros []; cbn; tauto. Qed.

Lemma and4 : forall a b c d, (a && b && c && d)%bool = true -> a = true /\ b = true /\ c = true /\ d = true.
Proof. intros [] [] [] []; cbn; auto; discriminate. Qed.
Lemma and6 : forall a b c d e f, (a && b && c && d && e && f)%bool = true ->
  a = true /\ b = true /\ c = true /\ d = true /\ e = true /\ f = true.
Proof. intros [] [] [] [] [] []; cbn; auto 10; discriminate. Qed.

Definition well_written (k : kind) (t : type_info) : bool :=
  let s := class_text k t in
  match depth 0 s with Some 0 => true | _ => false end
  && negb (find (lit "{{") s) && negb (find (lit "}}") s)
  && find (lit "public sealed class " ++ class_name k t ++ lit " : OpaqueWrapper<" ++ class_name k t ++ lit ">") s
  && find (lit "override protected void NativeDrop(Ptr<" ++ class_name k t ++ lit "> inner)") s
  && find (lit "partial class ToManaged") s.

Lemma all_well_written : forallb (fun k => forallb (well_written k) types) kinds = true.
Proof. vm_compute. reflexivity. Qed.

Theorem C48_classes_are_well_formed : forall k t, In t types ->
  depth 0 (class_text k t) = Some 0 /\
  ~ contains (class_text k t) (lit "{{") /\ ~ contains (class_text k t) (lit "}}") /\
  contains (class_text k t)
    (lit "public sealed class " ++ class_name k t ++ lit " : OpaqueWrapper<" ++ class_name k t ++ lit ">") /\
  contains (class_text k t) (lit "override protected void NativeDrop(Ptr<" ++ class_name k t ++ lit "> inner)") /\
  contains (class_text k t) (lit "partial class ToManaged").
Proof.
  intros k t T. pose proof all_well_written as A.
  rewrite forallb_forall in A. specialize (A k (all_kinds k)).
  rewrite forallb_forall in A. specialize (A t T). unfold well_written in A.
  apply and6 in A. destruct A as (D & O & C & P & N & M).
  apply Bool.negb_true_iff in O. apply Bool.negb_true_iff in C.
  split; [destruct (depth 0 (class_text k t)) as [[|]|]; congruence|].
  split; [intros H; apply find_spec in H; congruence|].
  split; [intros H; apply find_spec in H; congruence|].
  split; [apply find_spec; exact P|].
  split; apply find_spec; assumption.
Qed.
Print Assumptions C48_classes_are_well_formed.

(** What every class must offer, written out: where it lives, how it is made from a
    pointer (a state handle always owns it; the others are told), how the converter
    makes one, and how it is made from a value. *)
Definition sub (k : kind) : str := match k with Keyframe => lit "Channels" | _ => lit "States" end.
Definition pieces (k : kind) (t : type_info) : list str :=
  let n := class_name k t in
  let q := sub k ++ lit "." ++ n in
  [ lit "namespace Teleportal.Client.Contract.Properties" ++ nl;
    lit "namespace Teleportal.Client.Contract.Properties." ++ sub k ++ nl ]
  ++ match k with
     | StateHandle =>
         [ lit "public unsafe " ++ n ++ lit "(Ptr<" ++ n ++ lit "> inner) : base(inner, OwnershipSemantics.Owned) { }";
           lit "public static unsafe " ++ q ++ lit " f(Ptr<" ++ q ++ lit "> inner)";
           lit "return new " ++ q ++ lit "(inner);" ]
     | _ =>
         [ lit "public unsafe " ++ n ++ lit "(Ptr<" ++ n ++ lit "> inner, OwnershipSemantics ownershipSemantics) : base(inner, ownershipSemantics) { }";
           lit "public static unsafe " ++ q ++ lit " f(OwnershipSemantics ownershipSemantics, Ptr<" ++ q ++ lit "> inner)";
           lit "return new " ++ q ++ lit "(inner, ownershipSemantics);" ]
     end
  ++ match k with
     | Keyframe => [ lit "public unsafe " ++ n ++ lit "(" ++ owned_ident t ++ lit " value, double time) : base(";
                     lit "public unsafe " ++ owned_ident t ++ lit " Value" ++ nl;
                     lit "return new " ++ owned_ident t ++ lit "(ptr, OwnershipSemantics.SharedRef);";
                     lit "new Ptr<" ++ ptr_inner t ++ lit ">((IntPtr) raw_ptr)";
                     lit "public double Time" ++ nl ]
     | State => [ lit "public unsafe " ++ n ++ lit "(" ++ owned_ident t ++ lit " value) : base(";
                  lit "public unsafe " ++ owned_ident t ++ lit " Value" ++ nl;
                  lit "return new " ++ owned_ident t ++ lit "(ptr, OwnershipSemantics.SharedRef);";
                  lit "new Ptr<" ++ ptr_inner t ++ lit ">((IntPtr) raw_ptr)";
                  lit "value.Inner = null;" ]
     | StateId => [ lit "public unsafe ContractDataHandle Contract" ++ nl;
                    lit "return new ContractDataHandle(ptr, OwnershipSemantics.Owned);" ]
     | StateHandle => []
     end.

Lemma all_pieces : forallb (fun k => forallb (fun t => forallb (fun p => find p (class_text k t)) (pieces k t)) types) kinds = true.
Proof. vm_compute. reflexivity. Qed.

Theorem C48_classes_have_their_members : forall k t p, In t types -> In p (pieces k t) -> contains (class_text k t) p.
Proof.
  intros k t p T P. pose proof all_pieces as A.
  rewrite forallb_forall in A. specialize (A k (all_kinds k)).
  rewrite forallb_forall in A. specialize (A t T). rewrite forallb_forall in A. apply find_spec. exact (A p P).
Qed.
Print Assumptions C48_classes_have_their_members.

(** Only keyframes and states can be made from a value; no class has a constructor
    besides the one from a pointer and that one. *)
Fixpoint occurrences (part s : str) : nat :=
  match s with
  | [] => 0
  | _ :: r => (if match strip_prefix part s with Some _ => true | None => false end then 1 else 0) + occurrences part r
  end.
Theorem C48_constructors : forall k t, In t types ->
  occurrences (lit "public unsafe " ++ class_name k t ++ lit "(") (class_text k t) =
  match k with Keyframe | State => 2 | StateId | StateHandle => 1 end.
Proof.
  assert (A : forallb (fun k => forallb (fun t =>
      Nat.eqb (occurrences (lit "public unsafe " ++ class_name k t ++ lit "(") (class_text k t))
              (match k with Keyframe | State => 2 | StateId | StateHandle => 1 end)) types) kinds = true)
    by (vm_compute; reflexivity).
  intros k t T. rewrite forallb_forall in A. specialize (A k (all_kinds k)).
  rewrite forallb_forall in A. apply Nat.eqb_eq. exact (A t T).
Qed.
Print Assumptions C48_constructors.

(** ** Runs of the generator *)

(** Classes have different files. *)
Definition all_names : list str := flat_map (fun k => map (file_name k) types) kinds.

Fixpoint distinct (l : list str) : bool :=
  match l with
  | [] => true
  | x :: r => negb (existsb (str_eqb x) r) && distinct r
  end.
Lemma distinct_spec : forall l, distinct l = true -> NoDup l.
Proof.
  induction l as [|x l IH]; intros H; [constructor|]. cbn in H.
  apply Bool.andb_true_iff in H. destruct H as [H1 H2]. constructor; [|auto].
  intros I. apply Bool.negb_true_iff in H1.
  assert (existsb (str_eqb x) l = true); [|congruence].
  apply existsb_exists. exists x. split; [exact I|apply str_eqb_refl].
Qed.

Lemma names_distinct : NoDup all_names.
Proof. apply distinct_spec. vm_compute. reflexivity. Qed.

Lemma nodup_app_l : forall (A : Type) (l1 l2 : list A), NoDup (l1 ++ l2) -> NoDup l1 /\ NoDup l2 /\ (forall x, In x l1 -> In x l2 -> False).
Proof.
  induction l1 as [|a l1 IH]; intros l2 H; cbn in H; [repeat split; auto; constructor|].
  apply NoDup_cons_iff in H. destruct H as [N H]. destruct (IH _ H) as (A1 & A2 & A3).
  repeat split; auto.
  - constructor; auto. intros I. apply N. apply in_or_app. auto.
  - intros x [<-|I] J; [apply N; apply in_or_app; auto|eauto].
Qed.

Lemma kind_names_distinct : forall k, NoDup (map (file_name k) types).
Proof. intros k. apply distinct_spec. destruct k; vm_compute; reflexivity. Qed.

Lemma kinds_apart : forall k k' x, k <> k' ->
  In x (map (file_name k) types) -> In x (map (file_name k') types) -> False.
Proof.
  assert (G : forall k k', k <> k' -> forallb (fun x => negb (existsb (str_eqb x) (map (file_name k') types))) (map (file_name k) types) = true).
  { intros [] [] H; try congruence; vm_compute; reflexivity. }
  intros k k' x NE I J. pose proof (G _ _ NE) as F. rewrite forallb_forall in F. specialize (F x I).
  apply Bool.negb_true_iff in F.
  assert (existsb (str_eqb x) (map (file_name k') types) = true); [|congruence].
  apply existsb_exists. exists x. split; [exact J|apply str_eqb_refl].
Qed.

(** What one kind's loop leaves behind. *)
Definition kind_items (k : kind) : list item := map (fun t => mkItem (file_name k t) (class_text k t)) types.

Definition reg_of (k : kind) (r : registry) : Prop :=
  exists m p, parse tpl_opaque = Some m /\ parse (partial_of k) = Some p /\
              r = mkRegistry m [(lit "additional_methods", p)].

Lemma reg_items : forall k r, reg_of k r -> map (class_item r) (map (data_of k) types) = kind_items k.
Proof.
  intros k r (m & p & M & P & ->). rewrite map_map. unfold kind_items. apply map_ext. intros t.
  unfold class_item, class_text, rendering. rewrite M, P. f_equal.
  destruct k; reflexivity.
Qed.

Lemma items_names : forall k, map i_name (kind_items k) = map (file_name k) types.
Proof. intros. unfold kind_items. rewrite map_map. reflexivity. Qed.

Lemma kind_loop : forall k r d f ok d' f',
  reg_of k r -> render_all r (map (data_of k) types) d f = (ok, d', f') ->
  left_behind (kind_items k) d d' ok /\ (calm f -> ok = true /\ calm f').
Proof.
  intros k r d f ok d' f' R E. rewrite <- (reg_items k r R). apply render_all_spec; auto.
  - intros c I. apply in_map_iff in I. destruct I as (t & <- & _).
    pose proof (C48_every_type_renders k t) as Q. unfold rendering in Q.
    destruct R as (m & p & M & P & ->). rewrite M, P in Q. exact Q.
  - rewrite (reg_items k r R), items_names. apply kind_names_distinct.
Qed.

(** A kind whose files are not touched by the other loops. *)
Lemma untouched : forall k k' d d' ok t,
  k <> k' -> In t types -> left_behind (kind_items k') d d' ok ->
  file d' (file_name k t) = file d (file_name k t).
Proof.
  intros k k' d d' ok t NE T (m & _ & _ & _ & X & _). apply X. rewrite items_names. intros I.
  eapply (kinds_apart k k'); eauto. apply in_map. exact T.
Qed.

(** The exact state of one kind's files after a run that left [d'] where [d] was. *)
Definition kind_state (k : kind) (d d' : dir) (whole : bool) : Prop :=
  exists m,
    (forall i t, nth_error types i = Some t -> i < m -> file d' (file_name k t) = Some (class_text k t)) /\
    (forall t, nth_error types m = Some t ->
       file d' (file_name k t) = file d (file_name k t) \/
       exists n, file d' (file_name k t) = Some (firstn n (class_text k t))) /\
    (forall i t, nth_error types i = Some t -> m < i -> file d' (file_name k t) = file d (file_name k t)) /\
    (whole = true -> m = length types).

Lemma kind_state_of : forall k d0 d1 d2 d3 ok,
  left_behind (kind_items k) d1 d2 ok ->
  (forall t, In t types -> file d1 (file_name k t) = file d0 (file_name k t)) ->
  (forall t, In t types -> file d3 (file_name k t) = file d2 (file_name k t)) ->
  kind_state k d0 d3 ok.
Proof.
  intros k d0 d1 d2 d3 ok (m & A & B & C & _ & M) Before After. exists m.
  assert (I : forall i t, nth_error types i = Some t ->
                nth_error (kind_items k) i = Some (mkItem (file_name k t) (class_text k t))).
  { intros i t H. unfold kind_items. rewrite nth_error_map, H. reflexivity. }
  assert (J : forall i t, nth_error types i = Some t -> In t types) by (intros; eapply nth_error_In; eauto).
  split; [|split; [|split]].
  - intros i t H L. rewrite (After t (J _ _ H)). exact (A i _ (I _ _ H) L).
  - intros t H. rewrite (After t (J _ _ H)), <- (Before t (J _ _ H)). exact (B _ (I _ _ H)).
  - intros i t H L. rewrite (After t (J _ _ H)), <- (Before t (J _ _ H)). exact (C i _ (I _ _ H) L).
  - intros W. rewrite (M W). unfold kind_items. rewrite map_length. reflexivity.
Qed.

Lemma kind_state_same : forall k d d', (forall x, file d' x = file d x) -> kind_state k d d' false.
Proof. intros k d d' S. exists 0. repeat split; intros; try lia; auto; discriminate. Qed.

Lemma main_spec : forall force d f ok d' f',
  main force d f = (ok, d', f') ->
  (forall k, exists w, kind_state k d d' w /\ (ok = true -> w = true)) /\
  (forall x, ~ In x all_names -> file d' x = file d x) /\
  (calm f -> (force = true \/ files d = []) -> ok = true).
Proof.
  intros force d f ok d' f' E. unfold main in E.
  destruct parse_opaque as [pm PM].
  assert (Fail : forall e f0, (forall x, file e x = file d x) -> (false, e, f0) = (ok, d', f') ->
      (calm f -> (force = true \/ files d = []) -> False) ->
      (forall k, exists w, kind_state k d d' w /\ (ok = true -> w = true)) /\
      (forall x, ~ In x all_names -> file d' x = file d x) /\
      (calm f -> (force = true \/ files d = []) -> ok = true)).
  { intros e f0 S Q N. inversion Q; subst. split; [|split].
    - intros k. exists false. split; [apply kind_state_same; exact S|discriminate].
    - auto.
    - intros C O. destruct (N C O). }
  destruct (codegen_new tpl_opaque tpl_keyframe force d f) as [[k d1] f1] eqn:E1.
  destruct (parse_partial Keyframe) as [p1 P1]. cbn [partial_of] in P1.
  pose proof (new_files _ _ _ _ _ _ _ _ E1) as S1. pose proof (new_files' _ _ _ _ _ _ _ _ E1) as T1.
  pose proof (fun C O => new_calm _ _ _ _ _ _ _ _ _ _ PM P1 E1 C O) as C1.
  destruct k as [rk|].
  2:{ apply (Fail _ _ S1 E). intros C O. destruct (C1 C O) as [[q Q] _]. discriminate. }
  destruct (codegen_new tpl_opaque tpl_state force d1 f1) as [[k d2] f2] eqn:E2.
  destruct (parse_partial State) as [p2 P2]. cbn [partial_of] in P2.
  pose proof (new_files _ _ _ _ _ _ _ _ E2) as S2. pose proof (new_files' _ _ _ _ _ _ _ _ E2) as T2.
  pose proof (fun C O => new_calm _ _ _ _ _ _ _ _ _ _ PM P2 E2 C O) as C2.
  destruct k as [rs|].
  2:{ apply (Fail _ _ (fun x => eq_trans (S2 x) (S1 x)) E). intros C O.
      destruct (C1 C O) as [_ Q1]. rewrite <- T1 in O. destruct (C2 Q1 O) as [[q Q] _]. discriminate. }
  destruct (codegen_new tpl_opaque tpl_state_id force d2 f2) as [[k d3] f3] eqn:E3.
  destruct (parse_partial StateId) as [p3 P3]. cbn [partial_of] in P3.
  pose proof (new_files _ _ _ _ _ _ _ _ E3) as S3. pose proof (new_files' _ _ _ _ _ _ _ _ E3) as T3.
  pose proof (fun C O => new_calm _ _ _ _ _ _ _ _ _ _ PM P3 E3 C O) as C3.
  destruct k as [ri|].
  2:{ apply (Fail _ _ (fun x => eq_trans (S3 x) (eq_trans (S2 x) (S1 x))) E). intros C O.
      destruct (C1 C O) as [_ Q1]. rewrite <- T1 in O. destruct (C2 Q1 O) as [_ Q2].
      rewrite <- T2 in O. destruct (C3 Q2 O) as [[q Q] _]. discriminate. }
  destruct (codegen_new tpl_opaque tpl_state_handle force d3 f3) as [[k d4] f4] eqn:E4.
  destruct (parse_partial StateHandle) as [p4 P4]. cbn [partial_of] in P4.
  pose proof (new_files _ _ _ _ _ _ _ _ E4) as S4. pose proof (new_files' _ _ _ _ _ _ _ _ E4) as T4.
  pose proof (fun C O => new_calm _ _ _ _ _ _ _ _ _ _ PM P4 E4 C O) as C4.
  destruct k as [rh|].
  2:{ apply (Fail _ _ (fun x => eq_trans (S4 x) (eq_trans (S3 x) (eq_trans (S2 x) (S1 x)))) E). intros C O.
      destruct (C1 C O) as [_ Q1]. rewrite <- T1 in O. destruct (C2 Q1 O) as [_ Q2].
      rewrite <- T2 in O. destruct (C3 Q2 O) as [_ Q3]. rewrite <- T3 in O.
      destruct (C4 Q3 O) as [[q Q] _]. discriminate. }
  clear Fail.
  assert (S : forall x, file d4 x = file d x) by (intros x; rewrite S4, S3, S2; apply S1).
  apply new_some in E1. apply new_some in E2. apply new_some in E3. apply new_some in E4.
  change (reg_of Keyframe rk) in E1. change (reg_of State rs) in E2.
  change (reg_of StateId ri) in E3. change (reg_of StateHandle rh) in E4.
  destruct (render_all rk (map cd_keyframe types) d4 f4) as [[o1 e1] g1] eqn:R1.
  destruct (render_all rs (map cd_state types) e1 g1) as [[o2 e2] g2] eqn:R2.
  destruct (render_all ri (map cd_state_id types) e2 g2) as [[o3 e3] g3] eqn:R3.
  destruct (render_all rh (map cd_state_handle types) e3 g3) as [[o4 e4] g4] eqn:R4.
  destruct (kind_loop Keyframe _ _ _ _ _ _ E1 R1) as [L1 K1].
  destruct (kind_loop State _ _ _ _ _ _ E2 R2) as [L2 K2].
  destruct (kind_loop StateId _ _ _ _ _ _ E3 R3) as [L3 K3].
  destruct (kind_loop StateHandle _ _ _ _ _ _ E4 R4) as [L4 K4].
  injection E as Eok Ed Ef. subst d' f'.
  assert (A4 : ok = true -> o1 = true /\ o2 = true /\ o3 = true /\ o4 = true)
    by (intros W; apply and4; rewrite Eok; exact W).
  split; [|split].
  - intros [].
    + exists o1. split; [|intros W; apply A4; exact W].
      apply (kind_state_of Keyframe _ d4 e1); auto.
      intros t T. rewrite (untouched Keyframe StateHandle e3 e4 o4), (untouched Keyframe StateId e2 e3 o3),
        (untouched Keyframe State e1 e2 o2); auto; discriminate.
    + exists o2. split; [|intros W; apply A4; exact W].
      apply (kind_state_of State _ e1 e2); auto.
      * intros t T. rewrite (untouched State Keyframe d4 e1 o1); auto; discriminate.
      * intros t T. rewrite (untouched State StateHandle e3 e4 o4), (untouched State StateId e2 e3 o3); auto; discriminate.
    + exists o3. split; [|intros W; apply A4; exact W].
      apply (kind_state_of StateId _ e2 e3); auto.
      * intros t T. rewrite (untouched StateId State e1 e2 o2), (untouched StateId Keyframe d4 e1 o1); auto; discriminate.
      * intros t T. rewrite (untouched StateId StateHandle e3 e4 o4); auto; discriminate.
    + exists o4. split; [|intros W; apply A4; exact W].
      apply (kind_state_of StateHandle _ e3 e4); auto.
      intros t T. rewrite (untouched StateHandle StateId e2 e3 o3), (untouched StateHandle State e1 e2 o2),
        (untouched StateHandle Keyframe d4 e1 o1); auto; discriminate.
  - intros x NI. unfold all_names in NI. cbn [kinds flat_map] in NI. rewrite !in_app_iff in NI.
    destruct L1 as (? & _ & _ & _ & X1 & _). destruct L2 as (? & _ & _ & _ & X2 & _).
    destruct L3 as (? & _ & _ & _ & X3 & _). destruct L4 as (? & _ & _ & _ & X4 & _).
    rewrite items_names in X1, X2, X3, X4.
    rewrite X4, X3, X2, X1 by tauto. apply S.
  - intros C O. destruct (C1 C O) as [_ Q1]. rewrite <- T1 in O. destruct (C2 Q1 O) as [_ Q2].
    rewrite <- T2 in O. destruct (C3 Q2 O) as [_ Q3]. rewrite <- T3 in O. destruct (C4 Q3 O) as [_ Q4].
    destruct (K1 Q4) as [-> H1]. destruct (K2 H1) as [-> H2]. destruct (K3 H2) as [-> H3].
    destruct (K4 H3) as [-> _]. symmetry. exact Eok.
Qed.

(** A successful run has written every class, whole, into its own file, whatever was
    there before. *)
Theorem C48_success_writes_every_class : forall force d f d' f',
  main force d f = (true, d', f') ->
  forall k t, In t types -> file d' (file_name k t) = Some (class_text k t).
Proof.
  intros force d f d' f' E k t T. destruct (main_spec _ _ _ _ _ _ E) as (K & _ & _).
  destruct (K k) as (w & (m & A & _ & _ & M) & W). rewrite (W eq_refl) in M.
  apply In_nth_error in T. destruct T as [i T].
  apply (A i t T). rewrite (M eq_refl). apply nth_error_Some. congruence.
Qed.
Print Assumptions C48_success_writes_every_class.

(** Whatever goes wrong, no other file is created, changed or removed. *)
Theorem C48_other_files_untouched : forall force d f ok d' f' x,
  main force d f = (ok, d', f') ->
  (forall k t, In t types -> x <> file_name k t) ->
  file d' x = file d x.
Proof.
  intros force d f ok d' f' x E N. destruct (main_spec _ _ _ _ _ _ E) as (_ & X & _). apply X.
  intros I. apply in_flat_map in I. destruct I as (k & _ & I). apply in_map_iff in I.
  destruct I as (t & Q & T). exact (N k t T (eq_sym Q)).
Qed.
Print Assumptions C48_other_files_untouched.

(** Wherever it fails: of each kind, the classes before the failing one are complete,
    the failing one is as it was or cut short, the ones after it are as they were. *)
Theorem C48_failure_point : forall force d f ok d' f' k,
  main force d f = (ok, d', f') ->
  exists m,
    (forall i t, nth_error types i = Some t -> i < m -> file d' (file_name k t) = Some (class_text k t)) /\
    (forall t, nth_error types m = Some t ->
       file d' (file_name k t) = file d (file_name k t) \/
       exists n, file d' (file_name k t) = Some (firstn n (class_text k t))) /\
    (forall i t, nth_error types i = Some t -> m < i -> file d' (file_name k t) = file d (file_name k t)).
Proof.
  intros force d f ok d' f' k E. destruct (main_spec _ _ _ _ _ _ E) as (K & _ & _).
  destruct (K k) as (w & (m & A & B & C & _) & _). exists m. auto.
Qed.
Print Assumptions C48_failure_point.

(** It fails only if some file operation failed, or the directory was not empty and
    it was not told to overwrite. *)
Theorem C48_fails_only_for_a_reason : forall force d f d' f',
  main force d f = (false, d', f') ->
  (exists n, In (Some n) f) \/ (force = false /\ files d <> []).
Proof.
  intros force d f d' f' E. destruct (main_spec _ _ _ _ _ _ E) as (_ & _ & C).
  destruct (existsb (fun e => match e with Some _ => true | None => false end) f) eqn:X.
  - apply existsb_exists in X. destruct X as ([n|] & I & H); [left; eauto|discriminate].
  - right. assert (Cf : calm f).
    { apply Forall_forall. intros [n|] I; [|reflexivity].
      assert (existsb (fun e => match e with Some _ => true | None => false end) f = true); [|congruence].
      apply existsb_exists. exists (Some n). split; [exact I|reflexivity]. }
    destruct force.
    + specialize (C Cf (or_introl eq_refl)). discriminate.
    + split; [reflexivity|]. intros Q. specialize (C Cf (or_intror Q)). discriminate.
Qed.
Print Assumptions C48_fails_only_for_a_reason.

(** Without [-f], a directory with anything in it is refused and left exactly as it
    was, whatever else fails (provided the test for its existence itself works: it
    answers "no" when it fails, lib.rs:65). *)
Theorem C48_refuses_to_overwrite : forall l f ok d' f',
  l <> [] -> hd None f = None ->
  main false (Some l) f = (ok, d', f') -> ok = false /\ d' = Some l.
Proof.
  intros l f ok d' f' L H E. unfold main in E.
  destruct (codegen_new tpl_opaque tpl_keyframe false (Some l) f) as [[k d1] f1] eqn:E1.
  destruct (new_refuses _ _ _ _ _ _ _ L H E1) as [-> ->]. inversion E; subst. auto.
Qed.
Print Assumptions C48_refuses_to_overwrite.

(** ... and if that test fails every time, files are overwritten without [-f]. *)
Theorem C48_unreadable_directory_is_overwritten_refuted :
  ~ (forall l f ok d' f', l <> [] -> main false (Some l) f = (ok, d', f') -> d' = Some l).
Proof.
  intros H.
  pose (l := [(lit "State_U8.cs", lit "mine")]).
  pose (f := [Some 0; None; None; None; Some 0; None; None; None; Some 0; None; None; None; Some 0] : faults).
  destruct (main false (Some l) f) as [[ok d'] f'] eqn:E.
  assert (L : l <> []) by discriminate.
  pose proof (H l f ok d' f' L E) as Q.
  assert (C : length (files (snd (fst (main false (Some l) f)))) = 56) by (vm_compute; reflexivity).
  rewrite E in C. cbn [fst snd] in C. rewrite Q in C. cbn in C. discriminate.
Qed.
Print Assumptions C48_unreadable_directory_is_overwritten_refuted.

(** Running twice: the second run is refused without [-f], and with [-f] it gives the
    same files again. *)
Theorem C48_second_run : forall force d f d' f' f2,
  main force d f = (true, d', f') ->
  hd None f2 = None ->
  (exists f3, main false d' f2 = (false, d', f3)) /\
  (forall g d2 g', main true d' g = (true, d2, g') -> forall x, file d2 x = file d' x).
Proof.
  intros force d f d' f' f2 E H.
  assert (W : forall k t, In t types -> file d' (file_name k t) = Some (class_text k t))
    by (apply (C48_success_writes_every_class _ _ _ _ _ E)).
  split.
  - destruct (main false d' f2) as [[ok e] f3] eqn:E2.
    assert (T0 : In (hd (mkType [] [] [] false [] Both) types) types) by (cbn; auto).
    pose proof (W State _ T0) as W0.
    destruct d' as [l|]; [|discriminate].
    assert (L : l <> []) by (intros ->; discriminate).
    destruct (C48_refuses_to_overwrite _ _ _ _ _ L H E2) as [-> ->]. eauto.
  - intros g d2 g' E2 x.
    destruct (in_dec (list_eq_dec N.eq_dec) x all_names) as [I|N].
    + apply in_flat_map in I. destruct I as (k & _ & I). apply in_map_iff in I. destruct I as (t & <- & T).
      rewrite (W k t T). apply (C48_success_writes_every_class _ _ _ _ _ E2 k t T).
    + apply (C48_other_files_untouched _ _ _ _ _ _ _ E2).
      intros k t T ->. apply N. apply in_flat_map. exists k. split; [apply all_kinds|]. apply in_map. exact T.
Qed.
Print Assumptions C48_second_run.

(** A first run into a missing directory, an overwriting run in a directory with a
    foreign file, and a run cut short in the middle. *)
Definition after (r : bool * dir * faults) (x : str) : option str := file (snd (fst r)) x.
Definition said (r : bool * dir * faults) : bool := fst (fst r).
Example C48_met :
  said (main false None []) = true /\
  (let r := main true (Some [(lit "notes.txt", lit "hello")]) [] in
   said r = true /\ after r (lit "notes.txt") = Some (lit "hello")) /\
  (let r := main true None (repeat None 14 ++ [Some 5]) in
   said r = false /\ after r (lit "Keyframe_U16.cs") = None /\
   length (files (snd (fst r))) = 1 + 42) /\
  (let r := main true None (repeat None 15 ++ [Some 5]) in
   said r = false /\ after r (lit "Keyframe_U16.cs") = Some (lit "using")) /\
  (* 3 operations per generator, 2 per file *)
  length (snd (main true None (repeat None 200))) = 200 - (4 * 3 + 56 * 2).
Proof. vm_compute. repeat split. Qed.

(** ** The box generator (crates/rsharp/codegen) *)

Definition box_name (b : box_info) : str := lit "RBox_" ++ type_platform b ++ lit ".cs".
Definition box_rendering (b : box_info) : str * bool :=
  match parse tpl_rbox with Some m => render (mkRegistry m []) (box_object b) | None => ([], false) end.
Definition box_text (b : box_info) : str := fst (box_rendering b).

Theorem C48_every_box_renders : forall b, snd (box_rendering b) = true.
Proof. intros [p c l]. vm_compute. reflexivity. Qed.
Print Assumptions C48_every_box_renders.

Lemma box_names_distinct : NoDup (map box_name boxes).
Proof. apply distinct_spec. vm_compute. reflexivity. Qed.

(** The whole behaviour: refused without touching anything; or the files up to the
    failing one are complete, and it panics; or all eleven are complete. *)
Theorem C48_box_generator : forall force d f o d' f',
  box_main force d f = (o, d', f') ->
  (forall x, ~ In x (map box_name boxes) -> file d' x = file d x) /\
  match o with
  | None => forall x, file d' x = file d x
  | Some (Ok _) => forall b, In b boxes -> file d' (box_name b) = Some (box_text b)
  | Some (Err _) => False
  | Some Panic =>
      exists m,
        (forall i b, nth_error boxes i = Some b -> i < m -> file d' (box_name b) = Some (box_text b)) /\
        (forall b, nth_error boxes m = Some b ->
           file d' (box_name b) = file d (box_name b) \/
           exists n, file d' (box_name b) = Some (firstn n (box_text b))) /\
        (forall i b, nth_error boxes i = Some b -> m < i -> file d' (box_name b) = file d (box_name b))
  end /\
  ((forall n, ~ In (Some n) f) -> (force = true \/ files d = []) -> o = Some (Ok tt)).
Proof.
  intros force d f o d' f' E. unfold box_main in E.
  destruct (box_new force d f) as [[k d1] f1] eqn:E1.
  pose proof (box_new_files _ _ _ _ _ _ E1) as S1.
  assert (S : forall x, file d1 x = file d x) by (intros x; unfold file; rewrite S1; reflexivity).
  assert (PM : exists m, parse tpl_rbox = Some m) by (vm_compute; eexists; reflexivity).
  destruct PM as [pm PM].
  assert (Cf : (forall n, ~ In (Some n) f) -> calm f).
  { intros H. apply Forall_forall. intros [n|] I; [destruct (H n I)|reflexivity]. }
  pose proof (fun C O => box_new_calm _ _ _ _ _ _ _ PM E1 C O) as C1.
  destruct k as [r|].
  2:{ injection E as <- <- <-. split; [intros; apply S|]. split; [exact S|].
      intros H O. destruct (C1 (Cf H) O) as [[q Q] _]. discriminate. }
  destruct (box_new_some _ _ _ _ _ _ E1) as (m & Pm & ->).
  assert (m = pm) by congruence. subst m. clear Pm.
  destruct (box_all (mkRegistry pm []) boxes d1 f1) as [[q d2] f2] eqn:E2.
  injection E as <- <- <-.
  assert (Names : map i_name (map (box_item (mkRegistry pm [])) boxes) = map box_name boxes)
    by (rewrite map_map; reflexivity).
  assert (R : forall c, In c boxes -> snd (render (mkRegistry pm []) (box_object c)) = true).
  { intros c _. pose proof (C48_every_box_renders c) as Q. unfold box_rendering in Q. rewrite PM in Q. exact Q. }
  assert (ND : NoDup (map i_name (map (box_item (mkRegistry pm [])) boxes)))
    by (rewrite Names; apply box_names_distinct).
  destruct (box_all_spec _ _ _ _ _ _ _ R ND E2) as ((m & A & B & C & X & M) & Ko & K).
  rewrite Names in X.
  assert (I : forall i b, nth_error boxes i = Some b ->
     nth_error (map (box_item (mkRegistry pm [])) boxes) i = Some (mkItem (box_name b) (box_text b))).
  { intros i b H. rewrite nth_error_map, H. unfold box_text, box_rendering. rewrite PM. reflexivity. }
  split; [intros x NI; rewrite (X x NI); apply S|]. split.
  - destruct Ko as [-> | ->].
    + intros b T. apply In_nth_error in T. destruct T as [i T].
      apply (A i _ (I i b T)). rewrite (M eq_refl), map_length. apply nth_error_Some. congruence.
    + exists m. split; [|split].
      * intros i b H L. exact (A i _ (I i b H) L).
      * intros b H. rewrite <- S. exact (B _ (I m b H)).
      * intros i b H L. rewrite <- S. exact (C i _ (I i b H) L).
  - intros H O. destruct (C1 (Cf H) O) as [_ Q]. destruct (K Q) as [-> _]. reflexivity.
Qed.
Print Assumptions C48_box_generator.

Theorem C48_box_refuses_to_overwrite : forall l f o d' f',
  l <> [] -> hd None f = None ->
  box_main false (Some l) f = (o, d', f') -> o = None /\ d' = Some l.
Proof.
  intros l f o d' f' L H E. unfold box_main in E.
  destruct (box_new false (Some l) f) as [[k d1] f1] eqn:E1.
  destruct (box_new_refuses _ _ _ _ _ L H E1) as [-> ->]. injection E as <- <- <-. auto.
Qed.
Print Assumptions C48_box_refuses_to_overwrite.

Example C48_boxes_met :
  fst (fst (box_main false None [])) = Some (Ok tt) /\
  length (files (snd (fst (box_main false None [])))) = 11 /\
  fst (fst (box_main true None (repeat None 5 ++ [Some 0]))) = Some Panic /\
  fst (fst (box_main false (Some [([], [])]) [])) = None /\
  map (fun k => length (files (snd (fst (box_main true None (repeat None k ++ [Some 0])))))) [3; 4; 5; 6] = [0; 1; 1; 2].
Proof. vm_compute. repeat split. Qed.
