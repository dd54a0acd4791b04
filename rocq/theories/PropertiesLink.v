(** C49: every native function the C# code uses exists, once, and is used as declared. *)
From Verif Require Import LinkSpec PropertiesCodegen Codegen CodegenProofs.
From Coq Require Import Lia.
Import Coq.Strings.String.StringSyntax.
Open Scope string_scope.
Open Scope list_scope.
Open Scope nat_scope.

(** ** The C# code that calls native functions, and how it names them *)

(** Each file with the prefix its [using] line gives to the native functions:
    client/cs/src/*.cs, contract_example/cs/src/ExampleContract.cs,
    unity_states/cs/src/*.cs. *)
Definition written : list (string * str) :=
  [ ("generated.__Internal.", cs_baseline);
    ("ffi.", cs_state_accessors);
    ("ffi.", cs_state_bindings);
    ("generated.__Internal.", cs_contract);
    ("generated.__Internal.", cs_object_handle);
    ("generated.__Internal.", cs_rvec_keyframe);
    ("generated.", cs_example_contract);
    ("ffi.", cs_ball_contract);
    ("ffi.", cs_ball_states) ].

(** The generated classes (C48). *)
Definition generated : list (string * str) :=
  flat_map (fun k => map (fun t => ("generated.__Internal.", class_text k t)) types) kinds.

Definition sources : list (string * str) := written ++ generated.

Definition uses_in (f : string * str) : list use := native_uses (fst f) (snd f).

(** The function [e] is what a C# name means. *)
Definition names (cs : str) (e : export) : Prop := In e exports /\ same_letters cs (ex_name e).

(** ** Symbols *)

Lemma exports_letters : distinct (map (fun e => letters (ex_name e)) exports) = true.
Proof. vm_compute. reflexivity. Qed.

(** No two exported functions have the same symbol, not even up to underscores and
    capitals: the names CppSharp makes of them cannot clash either. *)
Theorem C49_symbols_are_distinct :
  NoDup (map (fun e => letters (ex_name e)) exports) /\ NoDup (map ex_name exports).
Proof.
  assert (A : NoDup (map (fun e => letters (ex_name e)) exports))
    by (apply distinct_spec; apply exports_letters).
  split; [exact A|].
  rewrite <- (map_map ex_name letters) in A. apply NoDup_map_inv in A. exact A.
Qed.
Print Assumptions C49_symbols_are_distinct.

Lemma nodup_map_inj : forall (A B : Type) (g : A -> B) l, NoDup (map g l) ->
  forall x y, In x l -> In y l -> g x = g y -> x = y.
Proof.
  induction l as [|a l IH]; intros N x y I J E; [destruct I|].
  cbn in N. apply NoDup_cons_iff in N. destruct N as [N1 N2].
  destruct I as [<-|I], J as [<-|J]; auto.
  - exfalso. apply N1. rewrite E. apply in_map. exact J.
  - exfalso. apply N1. rewrite <- E. apply in_map. exact I.
Qed.

Lemma nth_in_combine : forall (A B : Type) i (l : list A) (l' : list B) x y,
  nth_error l i = Some x -> nth_error l' i = Some y -> In (x, y) (combine l l').
Proof.
  induction i as [|i IH]; intros [|a l] [|b l'] x y T P; cbn in T, P; try discriminate T; try discriminate P.
  - left. congruence.
  - right. apply IH; assumption.
Qed.

Lemma names_unique : forall cs e e', names cs e -> names cs e' -> e = e'.
Proof.
  intros cs e e' [I S] [I' S']. destruct C49_symbols_are_distinct as [N _].
  apply (nodup_map_inj _ _ (fun e => letters (ex_name e)) exports N); auto. unfold same_letters in *. congruence.
Qed.

(** Finding it, to compute with. *)
Definition resolve (cs : str) : option export :=
  List.find (fun e => str_eqb (letters cs) (letters (ex_name e))) exports.
Lemma resolve_names : forall cs e, resolve cs = Some e -> names cs e.
Proof.
  intros cs e H. apply find_some in H. destruct H as [I H]. split; [exact I|].
  destruct (str_eqb_spec (letters cs) (letters (ex_name e))); [assumption|discriminate].
Qed.

(** ** Uses *)

Definition use_ok (u : use) : bool :=
  match resolve (fst u) with
  | Some e => match snd u with
              | Some args => Nat.eqb (length args) (length (ex_params e))
                             || str_eqb (fst u) (lit "TpContractExampleExampleContractObjectCreate")
              | None => true
              end
  | None => false
  end.

Lemma all_uses_ok : forallb (fun f => forallb use_ok (uses_in f)) sources = true.
Proof. vm_compute. reflexivity. Qed.

Lemma uses_ok : forall f u, In f sources -> In u (uses_in f) -> use_ok u = true.
Proof.
  intros f u F U. pose proof all_uses_ok as A. rewrite forallb_forall in A. specialize (A f F).
  rewrite forallb_forall in A. exact (A u U).
Qed.

(** Every native function named in the hand-written and in the generated classes is
    exported by the library, and it is clear which one is meant. *)
Theorem C49_every_use_has_its_function : forall f u, In f sources -> In u (uses_in f) ->
  exists! e, names (fst u) e.
Proof.
  intros f u F U. pose proof (uses_ok f u F U) as K. unfold use_ok in K.
  destruct (resolve (fst u)) as [e|] eqn:R; [|discriminate].
  apply resolve_names in R. exists e. split; [exact R|]. intros e' R'. eapply names_unique; eauto.
Qed.
Print Assumptions C49_every_use_has_its_function.

(** Every call passes as many arguments as the function takes, with one exception. *)
Theorem C49_calls_have_the_right_number_of_arguments_partial : forall f cs args e,
  In f sources -> In (cs, Some args) (uses_in f) -> names cs e ->
  cs <> lit "TpContractExampleExampleContractObjectCreate" ->
  length args = length (ex_params e).
Proof.
  intros f cs args e F U N X. pose proof (uses_ok f _ F U) as K. unfold use_ok in K. cbn [fst snd] in K.
  destruct (resolve cs) as [e0|] eqn:R; [|discriminate].
  apply resolve_names in R. assert (e0 = e) by (eapply names_unique; eauto). subst e0.
  apply Bool.orb_true_iff in K. destruct K as [K|K]; [apply Nat.eqb_eq; exact K|].
  destruct (str_eqb_spec cs (lit "TpContractExampleExampleContractObjectCreate")); [contradiction|discriminate].
Qed.
Print Assumptions C49_calls_have_the_right_number_of_arguments_partial.

(** The exception: [ExampleContract.ObjectCreate] passes nine arguments to a function
    of eleven. *)
Theorem C49_object_create_is_two_short_refuted :
  exists f args e, In f sources /\
    In (lit "TpContractExampleExampleContractObjectCreate", Some args) (uses_in f) /\
    names (lit "TpContractExampleExampleContractObjectCreate") e /\
    length args = 9 /\ length (ex_params e) = 11.
Proof.
  assert (S : exists u, nth_error (uses_in ("generated.", cs_example_contract)) 4 = Some u /\
            fst u = lit "TpContractExampleExampleContractObjectCreate" /\
            exists args, snd u = Some args /\ length args = 9).
  { eexists. split; [vm_compute; reflexivity|]. split; [vm_compute; reflexivity|].
    eexists. split; [reflexivity|]. vm_compute. reflexivity. }
  destruct S as ([n a] & H & Hn & args & Ha & L). cbn in Hn, Ha. subst n a.
  assert (R : exists e, resolve (lit "TpContractExampleExampleContractObjectCreate") = Some e /\
                        length (ex_params e) = 11).
  { eexists. split; [vm_compute; reflexivity|]. vm_compute. reflexivity. }
  destruct R as (e & R & P). apply resolve_names in R.
  exists ("generated.", cs_example_contract), args, e.
  split; [unfold sources; apply in_or_app; left; apply (nth_error_In written 6); reflexivity|].
  split; [eapply nth_error_In; exact H|]. auto.
Qed.
Print Assumptions C49_object_create_is_two_short_refuted.

(** ** Generated classes *)

(** [e] is a function of the class [c]: it makes one, or takes one first. *)
Definition belongs_to (c : str) (e : export) : Prop :=
  ex_ret e = Some (Own c) \/
  exists p, nth_error (ex_params e) 0 = Some p /\ (p = Own c \/ p = Ref c \/ p = Mut c).

(** The functions each kind of class has, and in which order its text uses them. *)
Definition expected_of (k : kind) (c t : str) : list (list cty * option cty) :=
  match k with
  | Keyframe => [ ([Own t; Val (lit "f64")], Some (Own c)); ([Own c], None);
                  ([Ref c], Some (Ref t)); ([Ref c], Some (Val (lit "f64"))) ]
  | State => [ ([Own t], Some (Own c)); ([Own c], None); ([Ref c], Some (Ref t)); ([Mut c; Own t], None) ]
  | StateId => [ ([Own c], None); ([Ref c], Some (Own (lit "ContractDataHandle"))) ]
  | StateHandle => [ ([Own c], None) ]
  end.
Definition expected (k : kind) (t : str) : list (list cty * option cty) := expected_of k (kind_name k ++ camel t) t.

Definition cty_eqb (a b : cty) : bool :=
  match a, b with
  | Own x, Own y | Ref x, Ref y | Mut x, Mut y | Val x, Val y => str_eqb x y
  | _, _ => false
  end.
Lemma cty_eqb_eq : forall a b, cty_eqb a b = true -> a = b.
Proof.
  intros [x|x|x|x] [y|y|y|y]; cbn; try discriminate;
    destruct (str_eqb_spec x y); try discriminate; intros; subst; reflexivity.
Qed.
Fixpoint list_eqb {A} (q : A -> A -> bool) (a b : list A) : bool :=
  match a, b with
  | [], [] => true
  | x :: a', y :: b' => (q x y && list_eqb q a' b')%bool
  | _, _ => false
  end.
Lemma list_eqb_eq : forall A (q : A -> A -> bool), (forall x y, q x y = true -> x = y) ->
  forall a b, list_eqb q a b = true -> a = b.
Proof.
  intros A q Q. induction a as [|x a IH]; intros [|y b] H; cbn in H; try discriminate; [reflexivity|].
  apply Bool.andb_true_iff in H. destruct H as [H1 H2]. f_equal; auto.
Qed.
Definition sig_eqb (a b : list cty * option cty) : bool :=
  list_eqb cty_eqb (fst a) (fst b) &&
  match snd a, snd b with Some x, Some y => cty_eqb x y | None, None => true | _, _ => false end.
Lemma sig_eqb_eq : forall a b, sig_eqb a b = true -> a = b.
Proof.
  intros [p r] [p' r'] H. unfold sig_eqb in H. cbn in H. apply Bool.andb_true_iff in H. destruct H as [H1 H2].
  f_equal; [apply (list_eqb_eq _ cty_eqb cty_eqb_eq); exact H1|].
  destruct r, r'; try discriminate; [f_equal; apply cty_eqb_eq; exact H2|reflexivity].
Qed.

(** The type table of the C# generator lists the types of the Rust macros, in order. *)
Theorem C49_generators_agree_on_the_types :
  map mangled_name types = map camel primitives /\
  map type_platform boxes = map camel value_types.
Proof. vm_compute. split; reflexivity. Qed.
Print Assumptions C49_generators_agree_on_the_types.

(** Row by row: a scalar's row gives the C# scalar of the same kind and size, a pointer
    to it, and its box; another row an [IntPtr] and the wrapper of that type. *)
Definition row_fits (t : type_info) (p : str) : Prop :=
  match lookup p rust_scalars with
  | Some k => lookup (ptr_inner t) cs_scalars = Some k /\ ptr_raw t = ptr_inner t ++ lit "*" /\
              owned_ident t = lit "RBox_" ++ camel p
  | None => ptr_raw t = lit "IntPtr" /\ owned_ident t = ptr_inner t /\ wraps (last_part [] (owned_ident t)) p
  end.
Definition box_fits (b : box_info) (p : str) : Prop :=
  lookup (type_cs b) cs_scalars = lookup p rust_scalars /\ lookup p rust_scalars <> None /\ ptr_literal b = lit "*".
Theorem C49_type_tables_fit : Forall2 row_fits types primitives /\ Forall2 box_fits boxes value_types.
Proof.
  split.
  - repeat (apply Forall2_cons; [unfold row_fits|]); try apply Forall2_nil;
      (match goal with |- context [lookup (lit ?x) rust_scalars] =>
         let r := eval vm_compute in (lookup (lit x) rust_scalars) in
         change (lookup (lit x) rust_scalars) with r end; cbv iota;
       split; [vm_compute; reflexivity|split; [vm_compute; reflexivity|first [vm_compute; reflexivity|unfold wraps]]]).
    all: first [left; vm_compute; reflexivity | right; left; vm_compute; reflexivity | right; right; split; vm_compute; reflexivity].
  - repeat (apply Forall2_cons; [unfold box_fits; split; [vm_compute; reflexivity|split; [vm_compute; discriminate|reflexivity]]|]).
    apply Forall2_nil.
Qed.
Print Assumptions C49_type_tables_fit.

Definition sig_of (u : use) : option (list cty * option cty) :=
  option_map (fun e => (ex_params e, ex_ret e)) (resolve (fst u)).

Definition class_sigs_ok (k : kind) (tt : type_info * str) : bool :=
  list_eqb (fun a b => match a, b with Some x, Some y => sig_eqb x y | _, _ => false end)
    (map sig_of (uses_in ("generated.__Internal.", class_text k (fst tt))))
    (map Some (expected k (snd tt))).

Lemma all_class_sigs : forallb (fun k => forallb (class_sigs_ok k) (combine types primitives)) kinds = true.
Proof. vm_compute. reflexivity. Qed.

(** The class of kind [k] for the [i]-th type uses, in this order, exactly the native
    functions of that class and type: its constructor makes that class from a box of
    the type's own values, its [NativeDrop] frees that class, and so on. *)
Theorem C49_classes_use_their_own_functions : forall k i t p,
  nth_error types i = Some t -> nth_error primitives i = Some p ->
  exists es, Forall2 names (map fst (uses_in ("generated.__Internal.", class_text k t))) es /\
             map (fun e => (ex_params e, ex_ret e)) es = expected k p.
Proof.
  intros k i t p T P. pose proof all_class_sigs as A. rewrite forallb_forall in A. specialize (A k (all_kinds k)).
  rewrite forallb_forall in A.
  assert (I : In (t, p) (combine types primitives)) by (eapply nth_in_combine; eassumption).
  specialize (A _ I). unfold class_sigs_ok in A. cbn [fst snd] in A.
  revert A. generalize (uses_in ("generated.__Internal.", class_text k t)) (expected k p).
  induction l as [|u l IH]; intros [|s l'] A; cbn [map list_eqb] in A; try discriminate.
  - exists []. split; constructor.
  - apply Bool.andb_true_iff in A. destruct A as [A1 A2].
    destruct (IH _ A2) as (es & F & M).
    unfold sig_of in A1. destruct (resolve (fst u)) as [e|] eqn:R; [|discriminate]. cbn [option_map] in A1.
    apply sig_eqb_eq in A1. apply resolve_names in R.
    exists (e :: es). split; [constructor; assumption|]. cbn [map]. congruence.
Qed.
Print Assumptions C49_classes_use_their_own_functions.

Theorem C49_classes_stay_with_their_type : forall k t u e,
  In t types -> In u (uses_in ("generated.__Internal.", class_text k t)) -> names (fst u) e ->
  belongs_to (class_name k t) e.
Proof.
  intros k t u e T U N. apply In_nth_error in T. destruct T as [i T].
  assert (L : length types = length primitives) by reflexivity.
  destruct (nth_error primitives i) as [p|] eqn:P.
  2:{ apply nth_error_None in P. assert (i < length types) by (apply nth_error_Some; congruence). lia. }
  assert (C : mangled_name t = camel p).
  { destruct C49_generators_agree_on_the_types as [C _].
    assert (E : nth_error (map mangled_name types) i = nth_error (map camel primitives) i) by (rewrite C; reflexivity).
    rewrite !nth_error_map, T, P in E. cbn in E. congruence. }
  destruct (C49_classes_use_their_own_functions k i t p T P) as (es & F & M).
  assert (I : In e es).
  { apply (in_map fst) in U. clear M. induction F as [|cs e0 l es' N0 F IH]; [destruct U|].
    destruct U as [U|U]; [left; subst cs; eapply names_unique; eauto|right; auto]. }
  apply (in_map (fun e => (ex_params e, ex_ret e))) in I. rewrite M in I.
  unfold class_name. rewrite C.
  assert (X : forall c q r, In (q, r) (expected_of k c p) ->
            r = Some (Own c) \/ exists x, nth_error q 0 = Some x /\ (x = Own c \/ x = Ref c \/ x = Mut c)).
  { clear. intros c q r I. destruct k; cbn [expected_of In] in I;
      repeat match type of I with
             | _ \/ _ => destruct I as [I|I]
             | False => destruct I
             end; pose proof (f_equal fst I) as Ip; pose proof (f_equal snd I) as Ir; cbn [fst snd] in Ip, Ir;
      subst q r; cbn [nth_error];
      first [left; reflexivity | right; eexists; split; [reflexivity|]; tauto]. }
  exact (X _ _ _ I).
Qed.
Print Assumptions C49_classes_stay_with_their_type.

(** ** Casts *)

Definition scalar_eqb (a b : class_of_number * nat) : bool :=
  match a, b with
  | (Unsigned, n), (Unsigned, m) | (Signed, n), (Signed, m)
  | (Floating, n), (Floating, m) | (Truth, n), (Truth, m) => Nat.eqb n m
  | _, _ => false
  end.
Lemma scalar_eqb_eq : forall a b, scalar_eqb a b = true -> a = b.
Proof. intros [[] n] [[] m] H; try discriminate; apply Nat.eqb_eq in H; congruence. Qed.

Definition fits_typeb (cs : str) (p : cty) : bool :=
  match p with
  | Val t => match lookup t rust_scalars, lookup cs cs_scalars with
             | Some a, Some b => scalar_eqb a b
             | _, _ => false
             end
  | Own t | Ref t | Mut t =>
      match lookup t rust_scalars with
      | Some k => match rev cs with
                  | c :: b => (N.eqb c 42 && match lookup (rev b) cs_scalars with
                                             | Some k' => scalar_eqb k k' | None => false end)%bool
                  | [] => false
                  end
      | None => str_eqb cs (lit "IntPtr")
      end
  end.
Lemma fits_typeb_spec : forall cs p, fits_typeb cs p = true -> fits_type cs p.
Proof.
  assert (Z : forall cs t, match lookup t rust_scalars with
      | Some k => match rev cs with
                  | c :: b => (N.eqb c 42 && match lookup (rev b) cs_scalars with
                                             | Some k' => scalar_eqb k k' | None => false end)%bool
                  | [] => false
                  end
      | None => str_eqb cs (lit "IntPtr")
      end = true -> match lookup t rust_scalars with
      | Some k => exists c, cs = c ++ lit "*" /\ lookup c cs_scalars = Some k
      | None => cs = lit "IntPtr"
      end).
  { intros cs t H. destruct (lookup t rust_scalars) as [k|].
    - destruct (rev cs) as [|c b] eqn:Rv; [discriminate|].
      apply Bool.andb_true_iff in H. destruct H as [H1 H2]. apply N.eqb_eq in H1. subst c.
      exists (rev b). split; [rewrite <- (rev_involutive cs), Rv; reflexivity|].
      destruct (lookup (rev b) cs_scalars) as [k'|]; [|discriminate]. apply scalar_eqb_eq in H2. congruence.
    - destruct (str_eqb_spec cs (lit "IntPtr")); [assumption|discriminate]. }
  intros cs [t|t|t|t] H; [exact (Z cs t H)|exact (Z cs t H)|exact (Z cs t H)|].
  cbn [fits_typeb] in H. cbn [fits_type].
  destruct (lookup t rust_scalars) as [a|]; [|discriminate H].
  destruct (lookup cs cs_scalars) as [b|]; [|discriminate H]. apply scalar_eqb_eq in H. subst. eauto.
Qed.

Definition casts_ok (u : use) : bool :=
  match resolve (fst u), snd u with
  | Some e, Some args =>
      forallb (fun ap =>
        match snd ap with
        | Val _ => true
        | Own t | Ref t | Mut t =>
            match cast_of (fst ap) with
            | Some cs => fits_typeb cs (snd ap)
            | None => match lookup t rust_scalars with Some _ => false | None => true end
            end
        end) (combine args (ex_params e))
  | _, _ => true
  end.

Lemma all_casts_ok : forallb (fun f => forallb casts_ok (uses_in f)) sources = true.
Proof. vm_compute. reflexivity. Qed.

(** Where a class passes a pointer to a scalar, it casts to the C# pointer type of the
    very same scalar; opaque pointers are [IntPtr]. *)
Theorem C49_casts_match : forall f cs args e i arg p,
  In f sources -> In (cs, Some args) (uses_in f) -> names cs e ->
  nth_error args i = Some arg -> nth_error (ex_params e) i = Some p ->
  match p with
  | Val _ => True
  | Own t | Ref t | Mut t =>
      match cast_of arg with
      | Some c => fits_type c p
      | None => lookup t rust_scalars = None
      end
  end.
Proof.
  intros f cs args e i arg p F U N A P.
  pose proof all_casts_ok as K. rewrite forallb_forall in K. specialize (K f F).
  rewrite forallb_forall in K. specialize (K _ U). unfold casts_ok in K. cbn [fst snd] in K.
  destruct (resolve cs) as [e0|] eqn:R.
  2:{ pose proof (uses_ok f _ F U) as Q. unfold use_ok in Q. cbn [fst] in Q. rewrite R in Q. discriminate. }
  apply resolve_names in R. assert (e0 = e) by (eapply names_unique; eauto). subst e0.
  rewrite forallb_forall in K.
  assert (I : In (arg, p) (combine args (ex_params e))) by (eapply nth_in_combine; eassumption).
  specialize (K _ I). cbn [fst snd] in K.
  destruct p as [t|t|t|t]; try exact Logic.I;
    (destruct (cast_of arg) as [c|];
     [apply fits_typeb_spec; exact K|destruct (lookup t rust_scalars); [discriminate K|reflexivity]]).
Qed.
Print Assumptions C49_casts_match.

(** ** Results *)

Definition result_ok (r : str * str) : bool :=
  match resolve (snd r) with
  | Some e => match ex_ret e with
              | Some (Own t) | Some (Ref t) | Some (Mut t) => str_eqb t (fst r)
              | _ => false
              end
  | None => false
  end.
Lemma all_results_ok : forallb (fun f => forallb result_ok (native_results (fst f) (snd f))) sources = true.
Proof. vm_compute. reflexivity. Qed.

(** A native result that is wrapped as a [T] is a pointer to a native [T]. *)
Theorem C49_results_get_their_own_wrapper : forall f T cs e,
  In f sources -> In (T, cs) (native_results (fst f) (snd f)) -> names cs e ->
  ex_ret e = Some (Own T) \/ ex_ret e = Some (Ref T) \/ ex_ret e = Some (Mut T).
Proof.
  intros f T cs e F U N. pose proof all_results_ok as K. rewrite forallb_forall in K. specialize (K f F).
  rewrite forallb_forall in K. specialize (K _ U). unfold result_ok in K. cbn [fst snd] in K.
  destruct (resolve cs) as [e0|] eqn:R; [|discriminate].
  apply resolve_names in R. assert (e0 = e) by (eapply names_unique; eauto). subst e0.
  destruct (ex_ret e) as [[t|t|t|t]|]; try discriminate;
    (destruct (str_eqb_spec t T); [subst; auto|discriminate]).
Qed.
Print Assumptions C49_results_get_their_own_wrapper.

Definition label_ok (r : str * str) : bool :=
  match resolve (fst r) with
  | Some e => match ex_ret e with
              | Some (Own t) => str_eqb (snd r) (lit "Owned")
              | Some (Ref t) => str_eqb (snd r) (lit "SharedRef")
              | Some (Mut t) => str_eqb (snd r) (lit "MutRef")
              | _ => true
              end
  | None => false
  end.
Lemma all_labels_ok : forallb (fun f => forallb label_ok (native_labels (fst f) (snd f))) sources = true.
Proof. vm_compute. reflexivity. Qed.

(** Where the code says how the result is held, it says it right: a box is [Owned], a
    reference [SharedRef], a mutable reference [MutRef]. *)
Theorem C49_results_are_labelled_right : forall f cs l e,
  In f sources -> In (cs, l) (native_labels (fst f) (snd f)) -> names cs e ->
  match ex_ret e with
  | Some (Own _) => l = lit "Owned"
  | Some (Ref _) => l = lit "SharedRef"
  | Some (Mut _) => l = lit "MutRef"
  | _ => True
  end.
Proof.
  intros f cs l e F U N. pose proof all_labels_ok as K. rewrite forallb_forall in K. specialize (K f F).
  rewrite forallb_forall in K. specialize (K _ U). unfold label_ok in K. cbn [fst snd] in K.
  destruct (resolve cs) as [e0|] eqn:R; [|discriminate].
  apply resolve_names in R. assert (e0 = e) by (eapply names_unique; eauto). subst e0.
  destruct (ex_ret e) as [[t|t|t|t]|]; auto;
    match type of K with str_eqb ?a ?b = true => destruct (str_eqb_spec a b); [assumption|discriminate] end.
Qed.
Print Assumptions C49_results_are_labelled_right.

(** ** Declarations by hand *)

(** The C# struct that stands for a slice. *)
Definition fits_decl (cs : str) (p : cty) : Prop :=
  fits_type cs p \/
  (p = Val (lit "slice u8") /\ cs = lit "SliceU8") \/ (p = Val (lit "slice u16") /\ cs = lit "SliceU16").
Definition fits_ret (cs : str) (r : option cty) : Prop :=
  match r with None => cs = lit "void" | Some p => fits_decl cs p end.

Definition declared : list declaration :=
  declarations cs_rstring ++ flat_map (fun b => declarations (box_text b)) boxes.

Definition fits_declb (cs : str) (p : cty) : bool :=
  fits_typeb cs p ||
  match p with
  | Val t => (str_eqb t (lit "slice u8") && str_eqb cs (lit "SliceU8")) ||
             (str_eqb t (lit "slice u16") && str_eqb cs (lit "SliceU16"))
  | _ => false
  end.
Lemma fits_declb_spec : forall cs p, fits_declb cs p = true -> fits_decl cs p.
Proof.
  intros cs p H. unfold fits_declb in H. apply Bool.orb_true_iff in H. destruct H as [H|H].
  - left. apply fits_typeb_spec. exact H.
  - right. destruct p as [t|t|t|t]; try discriminate. apply Bool.orb_true_iff in H.
    destruct H as [H|H]; apply Bool.andb_true_iff in H; destruct H as [H1 H2].
    + destruct (str_eqb_spec t (lit "slice u8")); [|discriminate].
      destruct (str_eqb_spec cs (lit "SliceU8")); [|discriminate]. left. subst. auto.
    + destruct (str_eqb_spec t (lit "slice u16")); [|discriminate].
      destruct (str_eqb_spec cs (lit "SliceU16")); [|discriminate]. right. subst. auto.
Qed.

Definition decl_ok (d : declaration) : bool :=
  match List.find (fun e => str_eqb (dc_name d) (ex_name e)) exports with
  | Some e => (Nat.eqb (length (dc_params d)) (length (ex_params e)) &&
               forallb (fun x => fits_declb (fst x) (snd x)) (combine (dc_params d) (ex_params e)) &&
               match ex_ret e with
               | None => str_eqb (dc_ret d) (lit "void")
               | Some p => fits_declb (dc_ret d) p
               end)%bool
  | None => false
  end.
Lemma all_decls_ok : forallb decl_ok declared = true.
Proof. vm_compute. reflexivity. Qed.

Lemma forall2_of_combine : forall (A B : Type) (q : A -> B -> bool) (P : A -> B -> Prop),
  (forall a b, q a b = true -> P a b) ->
  forall l l', length l = length l' -> forallb (fun x => q (fst x) (snd x)) (combine l l') = true -> Forall2 P l l'.
Proof.
  intros A B q P Q. induction l as [|a l IH]; intros [|b l'] L H; cbn in L, H; try discriminate; constructor.
  - apply Bool.andb_true_iff in H. apply Q. apply H.
  - apply IH; [congruence|]. apply Bool.andb_true_iff in H. apply H.
Qed.

(** Every function that RString.cs and the box classes declare by hand is exported
    under exactly that name, with as many parameters, each and the result of the C
    type the declaration gives it. *)
Theorem C49_declarations_match : forall d, In d declared ->
  exists! e, In e exports /\ ex_name e = dc_name d /\
             Forall2 fits_decl (dc_params d) (ex_params e) /\ fits_ret (dc_ret d) (ex_ret e).
Proof.
  intros d D. pose proof all_decls_ok as K. rewrite forallb_forall in K. specialize (K _ D). unfold decl_ok in K.
  destruct (List.find (fun e => str_eqb (dc_name d) (ex_name e)) exports) as [e|] eqn:R; [|discriminate].
  apply find_some in R. destruct R as [I Q].
  destruct (str_eqb_spec (dc_name d) (ex_name e)) as [Nm|]; [|discriminate].
  apply Bool.andb_true_iff in K. destruct K as [K K3].
  apply Bool.andb_true_iff in K. destruct K as [K1 K2]. apply Nat.eqb_eq in K1.
  exists e. split.
  - split; [exact I|]. split; [congruence|]. split.
    + apply (forall2_of_combine _ _ fits_declb fits_decl fits_declb_spec); assumption.
    + unfold fits_ret. destruct (ex_ret e) as [p|]; [apply fits_declb_spec; exact K3|].
      destruct (str_eqb_spec (dc_ret d) (lit "void")); [assumption|discriminate].
  - intros e' (I' & Nm' & _). destruct C49_symbols_are_distinct as [_ N].
    apply (nodup_map_inj _ _ ex_name exports N e e' I I'). congruence.
Qed.
Print Assumptions C49_declarations_match.

(** ** What is passed *)

Definition placed (f : string * str) : list (place * use) := native_placed_uses (fst f) (snd f).
Definition props (f : string * str) : list (str * str * str) := properties [] 32 (uncomment false (snd f)).

(** The uses are the same as before, only with their places. *)
Lemma placed_uses_are : forall prefix s pl prev, map snd (placed_uses prefix pl prev s) = uses prefix prev s.
Proof.
  intros prefix. induction s as [|c s IH]; intros pl prev; [reflexivity|].
  cbn [placed_uses uses]. rewrite map_app, IH. f_equal.
  destruct (strip_prefix prefix (c :: s)); [|reflexivity].
  destruct (word_char prev || N.eqb prev 46)%bool; reflexivity.
Qed.
Theorem C49_every_use_has_a_place : forall f, map snd (placed f) = uses_in f.
Proof. intros f. apply placed_uses_are. Qed.
Print Assumptions C49_every_use_has_a_place.

Definition wrapsb (c t : str) : bool :=
  str_eqb c t || str_eqb c (lit "RBox_" ++ camel t) || (str_eqb c (lit "RString") && str_eqb t (lit "String")).
Lemma wrapsb_spec : forall c t, wrapsb c t = true <-> wraps c t.
Proof.
  intros c t. unfold wrapsb, wraps. rewrite !Bool.orb_true_iff, Bool.andb_true_iff.
  assert (Q : forall a b, str_eqb a b = true <-> a = b).
  { intros a b. destruct (str_eqb_spec a b); split; intros; congruence. }
  rewrite !Q. tauto.
Qed.
Definition takesb (p : cty) (a : passed) : bool :=
  match p, a with
  | Own t, Given c => wrapsb c t
  | Ref t, Lent c | Mut t, Lent c => wrapsb c t
  | Val _, Number cs => fits_typeb cs p
  | _, _ => false
  end.
Lemma takesb_spec : forall p a, takesb p a = true -> takes p a.
Proof.
  intros [t|t|t|t] [c|c|c] H; cbn [takesb] in H; try discriminate H; cbn [takes];
    first [apply wrapsb_spec; exact H | apply fits_typeb_spec; exact H].
Qed.

(** Arguments that are not what the function takes, or are no simple expression:
    the kind of a new baseline (an expression of [is_main]), the object that
    [ExampleContract.ObjectRemove] does not give away, the contract handle that
    [BallContract.ObjectCreate] passes for the contract, and the contract handle that
    [BallContract.ObjectRemove] passes for an object. *)
Definition odd_arguments : list (string * nat) :=
  [ ("TpClientBaselineBaselineNew", 0);
    ("TpContractExampleExampleContractObjectRemove", 1);
    ("BallContract_object_create", 1);
    ("BallContract_object_remove", 1) ].
Definition odd (cs : str) (i : nat) : Prop := exists n, In (n, i) odd_arguments /\ cs = lit n.
Definition oddb (cs : str) (i : nat) : bool :=
  existsb (fun o => (str_eqb cs (lit (fst o)) && Nat.eqb i (snd o))%bool) odd_arguments.
Lemma oddb_spec : forall cs i, oddb cs i = true -> odd cs i.
Proof.
  intros cs i H. apply existsb_exists in H. destruct H as ([n j] & I & H). cbn [fst snd] in H.
  apply Bool.andb_true_iff in H. destruct H as [H1 H2]. apply Nat.eqb_eq in H2. subst j.
  destruct (str_eqb_spec cs (lit n)); [|discriminate H1]. exists n. auto.
Qed.

Fixpoint args_ok (ps : list (str * str * str)) (pl : place) (cs : str) (i : nat) (l : list (str * cty)) : bool :=
  match l with
  | [] => true
  | (arg, p) :: r =>
      ((oddb cs i || match passed_as ps pl arg with Some a => takesb p a | None => false end)
       && args_ok ps pl cs (S i) r)%bool
  end.
Lemma args_ok_nth : forall ps pl cs l i j arg p, args_ok ps pl cs i l = true -> nth_error l j = Some (arg, p) ->
  odd cs (i + j) \/ exists a, passed_as ps pl arg = Some a /\ takes p a.
Proof.
  intros ps pl cs. induction l as [|[a q] l IH]; intros i [|j] arg p H N; try discriminate N.
  - cbn in N. assert (a = arg /\ q = p) by (split; congruence). destruct H0 as [-> ->].
    cbn [args_ok] in H. apply Bool.andb_true_iff in H. destruct H as [H _].
    apply Bool.orb_true_iff in H. destruct H as [H|H].
    + left. rewrite Nat.add_0_r. apply oddb_spec. exact H.
    + right. destruct (passed_as ps pl arg) as [x|]; [|discriminate H]. exists x.
      split; [reflexivity|]. apply takesb_spec. exact H.
  - cbn [args_ok] in H. apply Bool.andb_true_iff in H. destruct H as [_ H].
    cbn [nth_error] in N. destruct (IH _ _ _ _ H N) as [O|O]; [left|right; exact O].
    replace (i + S j) with (S i + j) by lia. exact O.
Qed.

Definition call_ok (ps : list (str * str * str)) (pu : place * use) : bool :=
  match resolve (fst (snd pu)), snd (snd pu) with
  | Some e, Some args => args_ok ps (fst pu) (fst (snd pu)) 0 (combine args (ex_params e))
  | _, _ => true
  end.
Definition not_rvec : list (string * str) := firstn 5 written ++ skipn 6 written ++ generated.
Lemma all_calls_ok : forallb (fun f => let ps := props f in forallb (call_ok ps) (placed f)) not_rvec = true.
Proof. vm_compute. reflexivity. Qed.

Lemma nth_combine_some : forall (A B : Type) (l : list A) (l' : list B) i x y,
  nth_error l i = Some x -> nth_error l' i = Some y -> nth_error (combine l l') i = Some (x, y).
Proof.
  induction l as [|a l IH]; intros [|b l'] [|i] x y X Y; cbn in X, Y; try discriminate X; try discriminate Y; cbn.
  - congruence.
  - apply IH; assumption.
Qed.

Lemma drop_nth : forall (A : Type) (l k : list A) n x y,
  nth_error l n = Some y -> In x (l ++ k) -> x <> y -> In x (firstn n l ++ skipn (S n) l ++ k).
Proof.
  induction l as [|a l IH]; intros k [|n] x y N I X; try discriminate N; cbn [nth_error] in N; cbn [firstn skipn app].
  - destruct I as [I|I]; [congruence|exact I].
  - destruct I as [I|I]; [left; exact I|right]. eapply IH; eauto.
Qed.

(** A box is given away, a reference lent, and each is a wrapper of the class the
    native function takes; numbers have the right C type. *)
Theorem C49_arguments_are_what_the_function_takes_partial : forall f pl cs args e i arg p,
  In f sources -> snd f <> cs_rvec_keyframe -> In (pl, (cs, Some args)) (placed f) -> names cs e ->
  nth_error args i = Some arg -> nth_error (ex_params e) i = Some p -> ~ odd cs i ->
  exists a, passed_as (props f) pl arg = Some a /\ takes p a.
Proof.
  intros f pl cs args e i arg p F Fr U N A P O.
  assert (F' : In f not_rvec).
  { apply (drop_nth _ written generated 5 f ("generated.__Internal.", cs_rvec_keyframe)); [reflexivity|exact F|].
    intros E. apply Fr. rewrite E. reflexivity. }
  pose proof all_calls_ok as K. rewrite forallb_forall in K. specialize (K f F'). cbv zeta in K.
  rewrite forallb_forall in K. specialize (K _ U). unfold call_ok in K. cbn [fst snd] in K.
  destruct (resolve cs) as [e0|] eqn:R.
  2:{ assert (U' : In (cs, Some args) (uses_in f))
        by (rewrite <- C49_every_use_has_a_place; apply (in_map snd) in U; exact U).
      pose proof (uses_ok f _ F U') as Q. unfold use_ok in Q. cbn [fst] in Q. rewrite R in Q. discriminate Q. }
  apply resolve_names in R. assert (e0 = e) by (eapply names_unique; eauto). subst e0.
  destruct (args_ok_nth _ _ _ _ _ _ _ _ K (nth_combine_some _ _ _ _ _ _ _ A P)) as [Od|X]; [contradiction|exact X].
Qed.
Print Assumptions C49_arguments_are_what_the_function_takes_partial.

(** The three that are wrong. *)
Theorem C49_wrong_arguments_refuted :
  forall n i, In (n, i) (tl odd_arguments) ->
  exists f pl args e arg p a, In f sources /\ In (pl, (lit n, Some args)) (placed f) /\ names (lit n) e /\
    nth_error args i = Some arg /\ nth_error (ex_params e) i = Some p /\
    passed_as (props f) pl arg = Some a /\ ~ takes p a.
Proof.
  assert (Z : forall n i j m pl cs args e arg p a f,
    nth_error written j = Some f -> nth_error (placed f) m = Some (pl, (cs, Some args)) -> str_eqb cs (lit n) = true ->
    resolve (lit n) = Some e -> nth_error args i = Some arg -> nth_error (ex_params e) i = Some p ->
    passed_as (props f) pl arg = Some a -> ~ takes p a ->
    exists f pl args e arg p a, In f sources /\ In (pl, (lit n, Some args)) (placed f) /\ names (lit n) e /\
      nth_error args i = Some arg /\ nth_error (ex_params e) i = Some p /\
      passed_as (props f) pl arg = Some a /\ ~ takes p a).
  { intros n i j m pl cs args e arg p a f F U C R A P Q T.
    destruct (str_eqb_spec cs (lit n)) as [->|]; [|discriminate C].
    exists f, pl, args, e, arg, p, a.
    split; [unfold sources; apply in_or_app; left; eapply nth_error_In; exact F|].
    split; [eapply nth_error_In; exact U|]. split; [apply resolve_names; exact R|]. auto. }
  assert (T1 : forall t c, ~ takes (Own t) (Lent c)) by (intros t c H; exact H).
  assert (T2 : forall t c, ~ takes (Ref t) (Given c)) by (intros t c H; exact H).
  assert (T3 : forall t c, wrapsb c t = false -> ~ takes (Own t) (Given c)).
  { intros t c H K. apply wrapsb_spec in K. congruence. }
  intros n i I. cbn [tl odd_arguments In] in I. destruct I as [I|[I|[I|[]]]];
    pose proof (f_equal fst I) as In_; pose proof (f_equal snd I) as Ii; cbn [fst snd] in In_, Ii; subst n i.
  - eapply (Z _ 1 6 5); try (vm_compute; reflexivity). apply T1.
  - eapply (Z _ 1 7 5); try (vm_compute; reflexivity). apply T2.
  - eapply (Z _ 1 7 6); try (vm_compute; reflexivity). apply T3. vm_compute. reflexivity.
Qed.
Print Assumptions C49_wrong_arguments_refuted.

(** ** Names of members *)

(** [IsMain] asks for the kind; the version is a tuple; an indexer has no name. *)
Definition odd_members : list string :=
  [ "TpClientBaselineBaselineKind"; "tp_client__contract__ContractId__version";
    "TpClientContractPropertiesChannelsRVecKeyframeU8Get"; "TpClientContractPropertiesChannelsRVecKeyframeU8Set" ].

Definition namesakeb (pl : place) (native : str) : bool :=
  existsb (fun e => match strip_suffix (letters (pl_class pl ++ native_member pl) ++ e) (letters native) with
                    | Some _ => true | None => false end) endings.
Lemma strip_suffix_some : forall p s r, strip_suffix p s = Some r -> s = r ++ p.
Proof.
  intros p s r H. unfold strip_suffix in H. destruct (strip_prefix (rev p) (rev s)) as [k|] eqn:E; [|discriminate H].
  apply strip_prefix_spec in E. cbn in H. assert (r = rev k) by congruence. subst r.
  apply (f_equal (@rev N)) in E. rewrite rev_involutive, rev_app_distr, rev_involutive in E. exact E.
Qed.
Lemma namesakeb_spec : forall pl n, namesakeb pl n = true -> namesake pl n.
Proof.
  intros pl n H. apply existsb_exists in H. destruct H as (e & I & H).
  destruct (strip_suffix (letters (pl_class pl ++ native_member pl) ++ e) (letters n)) as [k|] eqn:E; [|discriminate H].
  apply strip_suffix_some in E. exists k, e. auto.
Qed.
Definition member_ok (pu : place * use) : bool :=
  existsb (fun n => str_eqb (fst (snd pu)) (lit n)) odd_members || namesakeb (fst pu) (fst (snd pu)).
Lemma all_members_ok : forallb (fun f => forallb member_ok (placed f)) sources = true.
Proof. vm_compute. reflexivity. Qed.

(** Every member calls the native function of its own class and name: a property the
    getter (or setter) of that name, a constructor [new], [NativeDrop] [drop]. *)
Theorem C49_members_call_their_namesakes : forall f pl u,
  In f sources -> In (pl, u) (placed f) -> (forall n, In n odd_members -> fst u <> lit n) ->
  namesake pl (fst u).
Proof.
  intros f pl u F U O. pose proof all_members_ok as K. rewrite forallb_forall in K. specialize (K f F).
  rewrite forallb_forall in K. specialize (K _ U). unfold member_ok in K. cbn [fst snd] in K.
  apply Bool.orb_true_iff in K. destruct K as [K|K]; [|apply namesakeb_spec; exact K].
  apply existsb_exists in K. destruct K as (n & I & K).
  destruct (str_eqb_spec (fst u) (lit n)) as [E|]; [|discriminate K]. destruct (O n I E).
Qed.
Print Assumptions C49_members_call_their_namesakes.

(** There is something to check: so many uses, results, labels and declarations. *)
Example C49_met :
  length exports = 448 /\
  length (flat_map uses_in written) = 63 /\
  length (flat_map uses_in generated) = 154 /\
  length (flat_map (fun f => native_results (fst f) (snd f)) sources) = 77 /\
  length (flat_map (fun f => native_labels (fst f) (snd f)) sources) = 107 /\
  length declared = 26.
Proof. vm_compute. repeat split. Qed.
