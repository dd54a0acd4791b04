(** C46: the [substitute] macro puts its value in place of every placeholder. *)
From Verif Require Import Mangle PropertiesMangle Substitute SubstituteSpec SubstituteProofs BaseProofs.
Import Coq.Strings.String.StringSyntax.
Open Scope string_scope.
Open Scope list_scope.
Open Scope nat_scope.

(** ** Errors: no value, or a value that is no expression. *)
Theorem C46_error_exactly :
  forall parse_expr retok attr d item,
    substitute parse_expr retok attr d item = None <-> attr = [] \/ parse_expr attr = None.
Proof.
  intros parse_expr retok attr d item. unfold substitute. destruct attr as [|c attr]; [split; auto|].
  destruct (parse_expr (c :: attr)); split; intros H; try discriminate; auto. destruct H; discriminate.
Qed.
Print Assumptions C46_error_exactly.

(** The expansion of an item: with enough depth, the macro ends with this item. *)
Definition expands parse_expr retok attr item item' : Prop :=
  exists d, substitute parse_expr retok attr d item = Some (Done item').

Lemma expands_visit parse_expr retok attr v item item' : attr <> [] -> parse_expr attr = Some v ->
  (expands parse_expr retok attr item item' <-> exists d, visit retok attr v d item = Done item').
Proof.
  intros Ha Hp. unfold expands, substitute. destruct attr as [|c attr]; [congruence|]. rewrite Hp.
  split; intros [d H]; exists d; congruence.
Qed.

(** ** The expansion is the item with the value for every placeholder. *)
Theorem C46_replaces_exactly :
  forall parse_expr retok attr v item item',
    attr <> [] -> parse_expr attr = Some v -> quiet v ->
    (expands parse_expr retok attr item item' <-> replaced retok attr v item item').
Proof.
  intros parse_expr retok attr v item item' Ha Hp Q. rewrite (expands_visit _ _ _ v) by auto. split.
  - intros [d H]. eapply visit_sound; eauto.
  - apply visit_complete. exact Q.
Qed.
Print Assumptions C46_replaces_exactly.

(** No placeholder expression is left in the expansion. *)
Theorem C46_no_placeholder_left :
  forall parse_expr retok attr v item item',
    attr <> [] -> parse_expr attr = Some v -> quiet v ->
    expands parse_expr retok attr item item' -> ~ has_placeholder item'.
Proof.
  intros parse_expr retok attr v item item' Ha Hp Q E [s' [Hs P]].
  apply (C46_replaces_exactly _ _ _ v) in E; auto.
  destruct (replaced_inside _ _ _ _ _ E s' Hs) as [H|[s [H1 [R N]]]].
  - exact (proj1 (Q s' H) P).
  - inversion R as [t P0|t G|a a' p g N0 F|l a a' k k' Fa Fk]; subst.
    + contradiction.
    + exact (proj2 G (proj2 P)).
    + apply N0. exact (named_same_path _ _ _ _ _ (proj1 P)).
    + exact (nd_not_named _ _ _ (proj1 P)).
Qed.
Print Assumptions C46_no_placeholder_left.

(** An item without a placeholder is not changed, whatever the value. *)
Theorem C46_other_items_untouched :
  forall parse_expr retok attr v item item',
    attr <> [] -> parse_expr attr = Some v -> quiet item ->
    (expands parse_expr retok attr item item' <-> item' = item).
Proof.
  intros parse_expr retok attr v item item' Ha Hp Q. rewrite (expands_visit _ _ _ v) by auto.
  destruct (quiet_fixed retok attr v item Q) as [d H]. split.
  - intros [e E]. destruct (H (Nat.max d e) ltac:(lia)) as [H1 _].
    rewrite (visit_more _ _ _ e) in H1 by (try congruence; lia). congruence.
  - intros ->. exists d. apply (H d). lia.
Qed.
Print Assumptions C46_other_items_untouched.

(** Attribute texts: what stands between the placeholders is kept, and the value
    stands where they stood. *)
Theorem C46_attribute_text :
  forall p v s s', p <> [] -> text_replaced p v s s' ->
    exists pieces, s = PropertiesMangle.join p pieces /\ s' = PropertiesMangle.join v pieces /\
      pieces <> [] /\ Forall (fun x => ~ occurs p x) pieces.
Proof.
  intros p v s s' Hp R. induction R as [s N|a b b' F R [pieces [E1 [E2 [Hne HF]]]]].
  - exists [s]. repeat split; auto. discriminate.
  - exists (a :: pieces). destruct pieces as [|x pieces]; [congruence|]. repeat split.
    + rewrite E1. reflexivity.
    + rewrite E2. reflexivity.
    + discriminate.
    + constructor; [|exact HF]. intros [a1 [b1 E]].
      assert (L := F a1 (b1 ++ p ++ b)). rewrite E in L. rewrite <- !app_assoc in L. specialize (L eq_refl).
      rewrite !app_length in L. destruct p; [congruence|cbn in L; lia].
Qed.
Print Assumptions C46_attribute_text.

(** ... and the macro does compute that text. *)
Theorem C46_attribute_rewritten :
  forall retok v a,
    (forall a', visit_attribute retok v a = Done a' <-> attr_replaced retok v a a') /\
    (visit_attribute retok v a = Crash <-> attr_fails retok v a).
Proof. intros retok v a. split; [apply va_done|apply va_crash]. Qed.
Print Assumptions C46_attribute_rewritten.

(** ** Ending *)

(** The macro ends on every item, unless the value contains a placeholder below its
    root and the item contains one; then it never yields an item, and if nothing
    panics first the compiler's stack overflows. *)
Theorem C46_ends_unless_nested :
  forall parse_expr retok attr v,
    attr <> [] -> parse_expr attr = Some v ->
    (~ nested v -> forall item, exists d r, r <> Deep /\
       forall e, d <= e -> substitute parse_expr retok attr e item = Some r) /\
    (nested v -> forall item, has_placeholder item ->
       (forall item', ~ expands parse_expr retok attr item item') /\
       ((forall s, retok s <> None) -> forall d, substitute parse_expr retok attr d item = Some Deep)).
Proof.
  intros parse_expr retok attr v Ha Hp. split.
  - intros N item. destruct (not_nested_ends retok attr v item N) as [d D]. exists d, (visit retok attr v d item).
    split; [exact D|]. intros e L. unfold substitute. destruct attr as [|c attr]; [congruence|]. rewrite Hp.
    f_equal. apply visit_more; auto.
  - intros N item P. split.
    + intros item' E. apply (expands_visit _ _ _ v) in E; auto. destruct E as [d E]. eapply nested_never; eauto.
    + intros T d. unfold substitute. destruct attr as [|c attr]; [congruence|]. rewrite Hp. f_equal.
      assert (NC : forall e t, visit retok (c :: attr) v e t <> Crash).
      { assert (NA : forall a, ~ attr_fails retok (c :: attr) a) by (intros a [s [_ F]]; exact (T s F)).
        induction e as [|e IH]; intros t E; [discriminate|].
        destruct (visit_case retok (c :: attr) v e t) as [_ W|_ W|_ W]; rewrite W in E; try discriminate;
          apply walk_crash in E; destruct E as [[a [_ F]]|[k [_ F]]]; try exact (NA a F); exact (IH k F). }
      destruct (visit retok (c :: attr) v d item) eqn:E; [|exfalso; exact (NC _ _ E)|reflexivity].
      exfalso. eapply nested_never; eauto.
Qed.
Print Assumptions C46_ends_unless_nested.

(** It panics exactly if some attribute that mentions the placeholder cannot be
    read back as tokens once the value is in it. *)
Theorem C46_panics_exactly :
  forall parse_expr retok attr v item,
    attr <> [] -> parse_expr attr = Some v -> quiet v ->
    ((exists d, substitute parse_expr retok attr d item = Some Crash) <->
     exists s a, inside s item /\ ~ named s /\ In a (attrs_of s) /\ attr_fails retok attr a).
Proof.
  intros parse_expr retok attr v item Ha Hp Q.
  assert (S : forall d, substitute parse_expr retok attr d item = Some (visit retok attr v d item)).
  { intros d. unfold substitute. destruct attr as [|c attr]; [congruence|]. rewrite Hp. reflexivity. }
  split.
  - intros [d E]. rewrite S in E. apply (crash_bad retok attr v Q d item). congruence.
  - intros B. destruct (not_nested_ends retok attr v item (quiet_not_nested v Q)) as [d D]. exists d. rewrite S.
    destruct (visit retok attr v d item) eqn:E; [|reflexivity|congruence].
    exfalso. apply visit_sound in E; auto. exact (replaced_not_bad _ _ _ _ _ E B).
Qed.
Print Assumptions C46_panics_exactly.

(** ** The use in the repository: [#[substitute("path")] mod c_api] over items marked
    [#[remangle(substitute!())]]. *)
Definition quoted (p : str) : str := 34%N :: p ++ [34%N].
Definition argument (x : str) : str := lit "(" ++ x ++ lit ")".
(** Items marked [#[remangle x]], by their label. *)
Definition marked (item : node) (x : str) (label : str) : Prop :=
  exists attrs kids, inside (Nd label attrs kids) item /\ In (mkAttr (lit "remangle") x) attrs.

Lemma no_occ p s : p <> [] -> 1 <? length (split_on p 0 [] s) = false -> ~ occurs p s.
Proof. intros Hp E H. apply (split_many p s Hp) in H. apply Nat.ltb_ge in E. lia. Qed.
Lemma yes_occ p s : p <> [] -> 1 <? length (split_on p 0 [] s) = true -> occurs p s.
Proof. intros Hp E. destruct (occurs_dec p s Hp) as [H|H]; [exact H|]. rewrite (split_none p s Hp H) in E. discriminate. Qed.
Lemma arg_new v sp s' : sp = spelling1 \/ sp = spelling2 -> new_text v (argument sp) s' -> s' = argument v.
Proof.
  intros Hs N.
  assert (E : forall p, p = spelling1 \/ p = spelling2 -> p = sp ->
            text_replaced p v (argument sp) s' -> s' = argument v).
  { intros p Hp -> R. eapply text_replaced_fun; [exact R|].
    assert (Hne : sp <> []) by (destruct Hs as [->| ->]; discriminate).
    pose proof (split_join_spec sp v (argument sp) Hne) as J.
    replace (split_on sp 0 [] (argument sp)) with [lit "("; lit ")"] in J by (destruct Hs as [->| ->]; vm_compute; reflexivity).
    exact J. }
  destruct Hs as [->| ->]; destruct N as [[O R]|[N1 [O R]]].
  - apply (E spelling1); auto.
  - exfalso. apply N1. apply yes_occ; [discriminate|vm_compute; reflexivity].
  - exfalso. revert O. apply no_occ; [discriminate|vm_compute; reflexivity].
  - apply (E spelling2); auto.
Qed.

(** With the path in quotes as the value, every item marked with a placeholder ends
    up marked with the path, none appears or disappears ... *)
Theorem C46_marks_become_the_path :
  forall parse_expr retok path item item',
    let attr := quoted path in
    parse_expr attr = Some (Nd attr [] []) ->
    retok (argument attr) = Some (argument attr) ->
    (forall x label, marked item x label -> x = argument spelling1 \/ x = argument spelling2) ->
    expands parse_expr retok attr item item' ->
    forall x label,
      marked item' x label <->
      x = argument (quoted path) /\ exists y, marked item y label.
Proof.
  intros parse_expr retok path item item' attr Hp Ht Hm E x label.
  assert (Q : quiet (Nd attr [] [])).
  { intros s Hs. apply nd_inside in Hs. destruct Hs as [->|[y [[] _]]]. split; [|intros a []].
    intros P. exact (nd_not_named _ _ _ (proj1 P)). }
  apply (C46_replaces_exactly _ _ _ (Nd attr [] [])) in E; auto; [|discriminate].
  assert (A : forall a a', attr_replaced retok attr a a' -> at_path a = lit "remangle" ->
     (at_text a = argument spelling1 \/ at_text a = argument spelling2) -> a' = mkAttr (lit "remangle") (argument attr)).
  { intros [pa ta] [pa' ta'] [P R] Pa Ta. cbn [at_path at_text] in P, R, Pa, Ta. subst pa pa'. f_equal.
    assert (O : ~ silent ta).
    { intros [S1 S2]. destruct Ta as [->| ->]; [apply S1|apply S2]; apply yes_occ; try discriminate; vm_compute; reflexivity. }
    destruct R as [[S _]|[s [N Es]]]; [contradiction|].
    assert (s = argument attr) as -> by (destruct Ta as [->| ->]; [apply (arg_new attr spelling1)|apply (arg_new attr spelling2)]; auto).
    rewrite Ht in Es. congruence. }
  split.
  - intros [attrs [kids [Hin Ha]]].
    destruct (replaced_inside _ _ _ _ _ E _ Hin) as [H|[s [H1 [R N]]]].
    + exfalso. apply nd_inside in H. destruct H as [H|[y [[] _]]]. injection H as _ -> _. contradiction.
    + inversion R as [t P|t G| |l a a' k k' Fa Fk]; subst.
      * contradiction.
      * exfalso. exact (nd_not_named _ _ _ (proj1 G)).
      * destruct (F2_in_r _ _ _ _ Fa Ha) as [y [Hy Ry]].
        assert (Py : at_path y = lit "remangle") by (symmetry; exact (proj1 Ry)).
        assert (My : marked item (at_text y) label).
        { exists a, k. split; [exact H1|]. destruct y as [py ty]. cbn in Py. subst py. exact Hy. }
        assert (Y := A y _ Ry Py (Hm _ _ My)). split; [exact (f_equal at_text Y)|]. exists (at_text y). exact My.
  - intros [-> [y [attrs [kids [Hin Ha]]]]].
    destruct (replaced_keeps _ _ _ _ _ E _ Hin) as [s' [Hs' R]].
    inversion R as [t P|t G| |l a a' k k' Fa Fk]; subst.
    + exfalso. exact (nd_not_named _ _ _ (proj1 P)).
    + exfalso. exact (nd_not_named _ _ _ (proj1 G)).
    + destruct (F2_in_l _ _ _ _ Fa Ha) as [z [Hz Rz]].
      assert (z = mkAttr (lit "remangle") (argument attr)).
      { apply (A _ _ Rz); [reflexivity|]. apply (Hm y label). exists attrs, kids. auto. }
      subst z. exists a', k'. auto.
Qed.
Print Assumptions C46_marks_become_the_path.

(** ... so that the exported symbols of the module are the path, mangled, followed by
    the identifiers of the marked items. *)
Definition exports (item : node) (sym : str) : Prop :=
  exists path ident, marked item (argument (quoted path)) ident /\ sym = mangle_path path ++ ident.
Theorem C46_module_symbols :
  forall parse_expr retok path segs item item',
    let attr := quoted path in
    parse_expr attr = Some (Nd attr [] []) ->
    retok (argument attr) = Some (argument attr) ->
    Forall segment segs -> written path segs ->
    (forall x label, marked item x label -> x = argument spelling1 \/ x = argument spelling2) ->
    expands parse_expr retok attr item item' ->
    forall sym, exports item' sym <-> exists y ident, marked item y ident /\ sym = symbol segs ident.
Proof.
  intros parse_expr retok path segs item item' attr Hp Ht Hs Hw Hm E sym.
  assert (M := C46_marks_become_the_path parse_expr retok path item item' Hp Ht Hm E).
  assert (F : mangle_path path = concat (map (fun s => s ++ lit "__") segs)) by (apply C30_mangled_form; auto).
  split.
  - intros [p [i [H ->]]]. apply M in H. destruct H as [Eq [y Hy]].
    unfold argument, quoted in Eq. cbn in Eq. injection Eq as Eq. rewrite <- !app_assoc in Eq. apply app_inv_tail in Eq. subst p.
    exists y, i. split; [exact Hy|]. unfold symbol. rewrite F. reflexivity.
  - intros [y [i [Hy ->]]]. exists path, i. split; [apply M; eauto|]. unfold symbol. rewrite F. reflexivity.
Qed.
Print Assumptions C46_module_symbols.

(** ** Where "every placeholder and nothing else" fails *)

(** [retok] that accepts every text as it is. *)
Definition any_text (s : str) : option str := Some s.
Definition text_after (value text : string) : run_result attribute :=
  visit_attribute any_text (lit value) (mkAttr (lit "a") (lit text)).
Definition text_is (text : string) : run_result attribute := Done (mkAttr (lit "a") (lit text)).

Theorem C46_attribute_texts_refuted :
  (* another macro whose name merely ends in [substitute] is rewritten *)
  text_after "v" "(my_substitute! ())" = text_is "(my_v)" /\
  (* so is a text inside a string literal, e.g. of a doc comment *)
  text_after "v" "= ""write substitute! () here""" = text_is "= ""write v here""" /\
  (* with both spellings in one attribute only one is replaced *)
  text_after "v" "(substitute! (), substitute ! ())" = text_is "(v, substitute ! ())" /\
  (* a spelling without the blank, or with other brackets, is not replaced *)
  text_after "v" "(substitute!())" = text_is "(substitute!())" /\
  text_after "v" "(substitute! [])" = text_is "(substitute! [])" /\
  (* a qualified placeholder loses only its last segment *)
  text_after "v" "(rsharp :: substitute! ())" = text_is "(rsharp :: v)".
Proof. repeat split; vm_compute; reflexivity. Qed.
Print Assumptions C46_attribute_texts_refuted.

(** In expressions a qualified placeholder is replaced as a whole, whatever its
    arguments, while one inside the arguments of another macro is not touched. *)
Theorem C46_expressions_differ_refuted :
  let v := Nd (lit "5") [] [] in
  visit any_text (lit "5") v 3 (Mac [] [lit "rsharp"; lit "substitute"] (lit "a, b")) = Done v /\
  (forall retok value args d, str_eqb (last [lit "println"] []) macro_name = false /\
    visit retok value v (S d) (Mac [] [lit "println"] args) = Done (Mac [] [lit "println"] args)).
Proof. split; [vm_compute; reflexivity|]. intros. split; reflexivity. Qed.
Print Assumptions C46_expressions_differ_refuted.

(** ** Examples: hypotheses are met *)
Definition ex_retok (s : str) : option str := if existsb (N.eqb 35) s then None else Some s.
Definition ex_path : str := lit "tp_client::object".
Definition ex_value : node := Nd (quoted ex_path) [] [].
Definition ex_parse (s : str) : option node :=
  match s with 34%N :: _ => Some (Nd s [] []) | _ => None end.
Definition ex_mark : attribute := mkAttr (lit "remangle") (lit "(substitute! ())").
(** mod c_api { #[remangle(substitute!())] #[ffi_export] fn Object__state(..) { f(substitute!(), x) }
                #[remangle(substitute!())] fn Object__channel(..) { #[cfg(x)] substitute!() } } *)
Definition ex_item : node :=
  Nd (lit "c_api") []
    [ Nd (lit "Object__state") [ex_mark; mkAttr (lit "ffi_export") []]
        [ Nd (lit "call f") [] [ Mac [] [lit "substitute"] []; Nd (lit "x") [] [] ] ];
      Nd (lit "Object__channel") [ex_mark]
        [ Mac [mkAttr (lit "cfg") (lit "(x)")] [lit "substitute"] [] ] ].
Definition ex_marked : attribute := mkAttr (lit "remangle") (argument (quoted ex_path)).
Definition ex_item' : node :=
  Nd (lit "c_api") []
    [ Nd (lit "Object__state") [ex_marked; mkAttr (lit "ffi_export") []]
        [ Nd (lit "call f") [] [ ex_value; Nd (lit "x") [] [] ] ];
      Nd (lit "Object__channel") [ex_marked]
        [ Mac [mkAttr (lit "cfg") (lit "(x)")] [lit "substitute"] [] ] ].
Lemma ex_marks x label : marked ex_item x label -> x = argument spelling1 /\
  (label = lit "Object__state" \/ label = lit "Object__channel").
Proof.
  intros [a [k [Hin Ha]]].
  unfold ex_item in Hin.
  repeat match goal with
  | H : inside _ (Nd _ _ _) |- _ => apply nd_inside in H; destruct H as [H|[? [? H]]]
  | H : inside _ (Mac _ _ _) |- _ => apply mac_inside in H; discriminate H
  | H : In ?y [] |- _ => destruct H
  | H : In ?y (_ :: _), H' : inside _ ?y |- _ => destruct H as [<-|H]
  end; assert (Ea := f_equal attrs_of Hin); assert (El : label = match Nd label a k with Nd l _ _ => l | _ => label end) by reflexivity;
  rewrite Hin in El; cbn [attrs_of] in Ea; cbn beta iota in El; rewrite Ea in Ha; cbn [In] in Ha;
  repeat (destruct Ha as [Ha|Ha]); try contradiction; try (apply (f_equal at_path) in Ha; discriminate Ha);
  apply (f_equal at_text) in Ha; cbn [at_text ex_mark] in Ha; subst x; (split; [reflexivity|auto]).
Qed.
Example C46_example :
  expands ex_parse ex_retok (quoted ex_path) ex_item ex_item' /\
  (forall x label, marked ex_item x label -> x = argument spelling1 \/ x = argument spelling2) /\
  ex_retok (argument (quoted ex_path)) = Some (argument (quoted ex_path)) /\
  quiet ex_value /\ has_placeholder ex_item /\ ~ has_placeholder ex_item' /\
  exports ex_item' (lit "tp_client__object__Object__state").
Proof.
  assert (Q : quiet ex_value).
  { intros s Hs. apply nd_inside in Hs. destruct Hs as [->|[y [[] _]]]. split; [|intros a []].
    intros P. exact (nd_not_named _ _ _ (proj1 P)). }
  assert (E : expands ex_parse ex_retok (quoted ex_path) ex_item ex_item') by (exists 10; vm_compute; reflexivity).
  split; [exact E|]. split; [intros x l M; left; exact (proj1 (ex_marks x l M))|]. split; [vm_compute; reflexivity|].
  split; [exact Q|]. split; [|split].
  - exists (Mac [] [lit "substitute"] []). split; [|split; [exists [], [], []; reflexivity|reflexivity]].
    eapply in_kid; [left; reflexivity|]. eapply in_kid; [left; reflexivity|]. eapply in_kid; [left; reflexivity|]. constructor.
  - apply (C46_no_placeholder_left ex_parse ex_retok (quoted ex_path) ex_value ex_item); [discriminate|reflexivity|exact Q|exact E].
  - exists ex_path, (lit "Object__state"). split; [|vm_compute; reflexivity].
    eexists _, _. split; [eapply in_kid; [left; reflexivity|]; constructor|]. left. reflexivity.
Qed.
(** A value that contains a placeholder, and an attribute that cannot be read back. *)
Example C46_failures_example :
  (exists v item, nested v /\ has_placeholder item /\ forall d, visit any_text (lit "v") v d item = Deep) /\
  (exists a, attr_fails ex_retok (lit "#") a).
Proof.
  split.
  - pose (ph := Mac [] [lit "substitute"] []). pose (v := Nd (lit "call f") [] [ph]).
    assert (P : has_placeholder ph) by (exists ph; split; [constructor|split; [exists [], [], []; reflexivity|reflexivity]]).
    assert (N : nested v) by (exists ph; split; [left; reflexivity|exact P]).
    exists v, ph. split; [exact N|]. split; [exact P|]. intros d.
    assert (T := proj2 (C46_ends_unless_nested (fun _ => Some v) any_text (lit "v") v ltac:(discriminate) eq_refl) N ph P).
    destruct T as [_ T]. specialize (T ltac:(discriminate) d). unfold substitute in T. cbn [lit] in T. injection T as T. exact T.
  - exists ex_mark. apply va_crash. vm_compute. reflexivity.
Qed.
