(** C29: the code generated by [#[states]] and [#[channels]]. *)
From Verif Require Import Macro BaseProofs BaselineProofs PropertiesBaseline.
Import Coq.Strings.String.StringSyntax.
Open Scope string_scope.
Open Scope list_scope.
Open Scope nat_scope.

Lemma existsb_eqb f l : existsb (string_eqb f) l = true <-> In f l.
Proof.
  rewrite existsb_exists. split.
  - intros [x [H E]]. apply Coq.Strings.String.eqb_eq in E. subst. auto.
  - intros H. exists f. split; auto. apply Coq.Strings.String.eqb_refl.
Qed.

Lemma gen_loop_spec : forall fields g i,
  (forall g', gen_loop g i fields = Ok g' ->
     Forall (fun ft => ~ In (fst ft) reserved) fields /\
     g_fields g' = g_fields g ++ fields /\ g_getters g' = g_getters g ++ fields /\
     g_inits g' = g_inits g ++ combine (map fst fields) (seq i (length fields)) /\
     g_type_ids g' = g_type_ids g ++ map snd fields /\ g_prop_types g' = g_prop_types g ++ map snd fields /\
     g_names g' = g_names g ++ map fst fields) /\
  (forall e, gen_loop g i fields = Err e -> e = EReservedField /\ exists ft, In ft fields /\ In (fst ft) reserved) /\
  gen_loop g i fields <> Panic.
Proof.
  induction fields as [|[f t] rest IH]; intros g i; cbn [gen_loop].
  - split; [|split]; try discriminate. intros g' E. injection E as <-. cbn. rewrite !app_nil_r. auto 10.
  - destruct (existsb (string_eqb f) reserved) eqn:Er.
    + split; [|split]; try discriminate. intros e E. injection E as <-. split; auto.
      exists (f, t). split; [left; auto|]. apply existsb_eqb. exact Er.
    + destruct (IH (gen_field g i f t) (S i)) as [H1 [H2 H3]]. split; [|split; auto].
      * intros g' E. destruct (H1 g' E) as [F [A1 [A2 [A3 [A4 [A5 A6]]]]]].
        split; [constructor; auto; cbn [fst]; intros Hin; apply existsb_eqb in Hin; congruence|].
        rewrite A1, A2, A3, A4, A5, A6. cbn. rewrite <- !app_assoc. cbn. auto 10.
      * intros e E. destruct (H2 e E) as [He [ft [Hin Hr]]]. split; auto. exists ft. split; [right|]; auto.
Qed.

(** Which declarations are accepted. *)
Theorem C29_accepted_iff :
  forall d,
    expand d <> Panic /\
    ((exists g, expand d = Ok g) <->
     exists fields, d = DNamed fields /\
       forall f t, In (f, t) fields -> f <> "type_ids" /\ f <> "enumerate_types" /\ f <> "field_names").
Proof.
  intros d. destruct d as [fields|ts| | |]; cbn [expand];
    try (split; [discriminate|]; split; [intros [g E]; discriminate|intros [fs [E _]]; discriminate]).
  destruct (gen_loop_spec fields gen_empty 0) as [H1 [H2 H3]]. split; auto. split.
  - intros [g E]. exists fields. split; auto. intros f t Hin. destruct (H1 _ E) as [F _].
    rewrite Forall_forall in F. specialize (F _ Hin). cbn in F. intuition congruence.
  - intros [fs [E Hf]]. injection E as <-. destruct (gen_loop gen_empty 0 fields) as [g|e|] eqn:E; eauto; [|congruence].
    destruct (H2 _ eq_refl) as [_ [[f t] [Hin Hr]]]. destruct (Hf _ _ Hin) as [A [B C]]. cbn in Hr. intuition congruence.
Qed.
Print Assumptions C29_accepted_iff.

Theorem C29_rejections :
  (forall fields f t, In (f, t) fields -> In f ["type_ids"; "enumerate_types"; "field_names"] ->
     expand (DNamed fields) = Err EReservedField) /\
  (forall ts, expand (DUnnamed ts) = Err EOnlyNamed) /\ expand DUnit = Err EOnlyNamed /\
  expand DEnum = Err EOnlyStructs /\ expand DUnion = Err EOnlyStructs.
Proof.
  split; [|auto]. intros fields f t Hin Hr. destruct (gen_loop_spec fields gen_empty 0) as [H1 [H2 H3]].
  cbn [expand]. destruct (gen_loop gen_empty 0 fields) as [g|e|] eqn:E.
  - destruct (H1 _ eq_refl) as [F _]. rewrite Forall_forall in F. destruct (F _ Hin Hr).
  - destruct (H2 _ eq_refl) as [-> _]. reflexivity.
  - congruence.
Qed.
Print Assumptions C29_rejections.

Lemma assoc_nth {A} : forall (l : list (string * A)) i f a,
  NoDup (map fst l) -> nth_error l i = Some (f, a) -> assoc f l = Some a.
Proof.
  induction l as [|[x b] l IH]; intros i f a Hn E; [destruct i; discriminate|]. cbn in Hn. inversion Hn as [|? ? Hx Hl]; subst.
  destruct i; cbn in E.
  - injection E as -> ->. cbn. rewrite Coq.Strings.String.eqb_refl. reflexivity.
  - cbn. destruct (Coq.Strings.String.eqb_spec f x) as [->|].
    + destruct Hx. apply (in_map fst) in E || apply nth_error_In in E. apply (in_map fst) in E. exact E.
    + eapply IH; eauto.
Qed.
Lemma assoc_none {A} : forall (l : list (string * A)) f, ~ In f (map fst l) -> assoc f l = None.
Proof.
  induction l as [|[x b] l IH]; intros f H; auto. cbn in *. destruct (Coq.Strings.String.eqb_spec f x) as [->|]; [tauto|].
  apply IH. tauto.
Qed.

Lemma new_spec : forall fs inits id k,
  (forall i f t, nth_error fs i = Some (f, t) -> assoc f inits = Some (k + i)) ->
  flat_map (fun ft => match assoc (fst ft) inits with
                      | Some i => [(fst ft, mkPid (snd ft) i id)] | None => [] end) fs
  = map (fun p => (fst (fst p), mkPid (snd (fst p)) (snd p) id)) (combine fs (seq k (length fs))).
Proof.
  induction fs as [|[f t] fs IH]; intros inits id k H; auto. cbn.
  rewrite (H 0 f t eq_refl). rewrite Nat.add_0_r. cbn. f_equal. apply IH.
  intros i f' t' E. rewrite (H (S i) f' t' E). f_equal. lia.
Qed.

Lemma combine_nth_error {A B} : forall (l : list A) (m : list B) i a b,
  nth_error l i = Some a -> nth_error m i = Some b -> nth_error (combine l m) i = Some (a, b).
Proof. induction l; intros m i x y; destruct m, i; cbn; try discriminate; try congruence; auto. Qed.
Lemma seq_nth_error k n i : i < n -> nth_error (seq k n) i = Some (k + i).
Proof.
  revert k i. induction n; intros k i H; [lia|]. destruct i; cbn; [rewrite Nat.add_0_r; auto|]. rewrite IHn by lia. f_equal. lia.
Qed.
Lemma map_fst_combine {A B} : forall (l : list A) (m : list B), length l = length m -> map fst (combine l m) = l.
Proof. induction l; intros [|b m]; cbn; try discriminate; auto. intros H. f_equal. apply IHl. lia. Qed.

Lemma expand_new fields g h :
  NoDup (map fst fields) -> expand (DNamed fields) = Ok g ->
  gen_new g h = map (fun p => (fst (fst p), mkPid (snd (fst p)) (snd p) h)) (combine fields (seq 0 (length fields))).
Proof.
  intros Hn E. destruct (gen_loop_spec fields gen_empty 0) as [H1 _]. destruct (H1 _ E) as [_ [A1 [_ [A3 _]]]].
  unfold gen_new. rewrite A1. cbn [gen_empty g_fields app]. apply new_spec. intros i f t Ei.
  rewrite A3. cbn [gen_empty g_inits app]. apply assoc_nth with (i := i).
  - rewrite map_fst_combine; auto. rewrite map_length, seq_length. auto.
  - apply combine_nth_error; [rewrite nth_error_map, Ei; reflexivity|]. apply seq_nth_error. apply nth_error_Some. congruence.
Qed.

(** The [i]-th declared field's accessor returns the id with index [i], the given
    contract handle and the field's type; there are no other accessors, and the
    three static listings are exactly the declared types and names in order. *)
Theorem C29_accessors_and_listings :
  forall fields g,
    NoDup (map fst fields) -> expand (DNamed fields) = Ok g ->
    (forall h i f t, nth_error fields i = Some (f, t) -> gen_get g (gen_new g h) f = Some (mkPid t i h)) /\
    (forall h f, ~ In f (map fst fields) -> gen_get g (gen_new g h) f = None) /\
    g_type_ids g = map snd fields /\ g_prop_types g = map snd fields /\ g_names g = map fst fields /\
    g_fields g = fields.
Proof.
  intros fields g Hn E. destruct (gen_loop_spec fields gen_empty 0) as [H1 _].
  destruct (H1 _ E) as [_ [A1 [A2 [A3 [A4 [A5 A6]]]]]]. cbn in A1, A2, A4, A5, A6.
  split; [|split; [|auto]].
  - intros h i f t Ei. unfold gen_get. rewrite A2, (assoc_nth _ _ _ _ Hn Ei), (expand_new _ _ _ Hn E).
    apply assoc_nth with (i := i).
    + rewrite map_map. cbn [fst]. rewrite <- (map_map fst fst), map_fst_combine by (rewrite seq_length; auto). exact Hn.
    + rewrite nth_error_map, (combine_nth_error _ _ _ _ _ Ei (seq_nth_error 0 _ i (proj1 (nth_error_Some fields i) ltac:(congruence)))).
      reflexivity.
  - intros h f Hf. unfold gen_get. rewrite A2, (assoc_none _ _ Hf). reflexivity.
Qed.
Print Assumptions C29_accessors_and_listings.

(** The typed accessor and the dynamic lookups of a contract built from the
    generated code name the same field. *)
Theorem C29_accessors_agree_with_the_contract :
  forall sf cf gs gc id h,
    NoDup (map fst sf) -> NoDup (map fst cf) -> expand (DNamed sf) = Ok gs -> expand (DNamed cf) = Ok gc ->
    let C := generated_contract id gs gc in
    (forall i f t, nth_error sf i = Some (f, t) ->
       gen_get gs (gen_new gs h) f = ci_state_id (mkCinst C h) i /\
       gen_get gs (gen_new gs h) f = nth_error (state_ids C h) i /\ nth_error (ct_state_names C) i = Some f) /\
    (forall i f t, nth_error cf i = Some (f, t) ->
       gen_get gc (gen_new gc h) f = ci_chan_id (mkCinst C h) i /\
       gen_get gc (gen_new gc h) f = nth_error (chan_ids C h) i /\ nth_error (ct_chan_names C) i = Some f) /\
    length (state_ids C h) = length sf /\ length (chan_ids C h) = length cf.
Proof.
  intros sf cf gs gc id h Ns Nc Es Ec C.
  destruct (C29_accessors_and_listings _ _ Ns Es) as [G1 [_ [_ [P1 [N1 _]]]]].
  destruct (C29_accessors_and_listings _ _ Nc Ec) as [G2 [_ [_ [P2 [N2 _]]]]].
  split; [|split; [|split]].
  - intros i f t Ei. rewrite (G1 h i f t Ei). unfold ci_state_id, state_ids, C, generated_contract. cbn [ct_states ct_state_names ci_ty ci_handle].
    rewrite P1, N1, !nth_error_map, Ei. split; [reflexivity|]. split; [|reflexivity].
    rewrite iter_collect_ids, ids_from_nth. cbn [Nat.add]. rewrite nth_error_map, Ei. reflexivity.
  - intros i f t Ei. rewrite (G2 h i f t Ei). unfold ci_chan_id, chan_ids, C, generated_contract. cbn [ct_chans ct_chan_names ci_ty ci_handle].
    rewrite P2, N2, !nth_error_map, Ei. split; [reflexivity|]. split; [|reflexivity].
    rewrite iter_collect_ids, ids_from_nth. cbn [Nat.add]. rewrite nth_error_map, Ei. reflexivity.
  - unfold state_ids, C, generated_contract. cbn [ct_states]. rewrite iter_collect_ids, ids_from_length, P1, map_length. lia.
  - unfold chan_ids, C, generated_contract. cbn [ct_chans]. rewrite iter_collect_ids, ids_from_length, P2, map_length. lia.
Qed.
Print Assumptions C29_accessors_agree_with_the_contract.

(** End to end: after creating an object, binding through the accessor of the
    [i]-th declared field reads the [i]-th value given at creation. *)
Theorem C29_accessor_reads_the_declared_field :
  forall sf gs gc id h b vs cs o b' i f t v,
    NoDup (map fst sf) -> expand (DNamed sf) = Ok gs ->
    reach b -> object_create b (mkCinst (generated_contract id gs gc) h) vs cs = (Ok o, b') ->
    nth_error sf i = Some (f, t) -> nth_error vs i = Some v ->
    exists pid hs, gen_get gs (gen_new gs h) f = Some pid /\ prop_type v = t /\
      bind_state b' pid o = Ok hs /\ state_get b' t hs = Ok v.
Proof.
  intros sf gs gc id h b vs cs o b' i f t v Hn E Hb Ec Ei Ev.
  destruct (C29_accessors_and_listings _ _ Hn E) as [G [_ [_ [P _]]]].
  destruct (C06_new_state_reads_back _ _ _ _ _ _ _ _ Hb Ec Ev) as [pid [hs [E1 [E2 [E3 E4]]]]].
  unfold ci_state_id, generated_contract in E1. cbn [ci_ty ct_states ci_handle] in E1. rewrite P, nth_error_map, Ei in E1.
  cbn in E1. injection E1 as <-. exists (mkPid t i h), hs. cbn [pid_type] in E3, E4. auto.
Qed.
Print Assumptions C29_accessor_reads_the_declared_field.

(** An identifier and the name it means: a raw identifier [r#x] means [x].
    Which accepted declarations give code that compiles: those without a field
    called [new] and without vector fields. *)
Definition names (f n : string) : Prop :=
  f = Coq.Strings.String.append "r#" n \/ (f = n /\ forall m, f <> Coq.Strings.String.append "r#" m).
Lemma unraw_names f n : unraw f = n <-> names f n.
Proof.
  unfold names, unraw. destruct f as [|r [|h rest]].
  - split; [intros <-; right; split; [reflexivity|discriminate]|]. intros [E|[E _]]; [discriminate E|exact E].
  - split; [intros <-; right; split; [reflexivity|discriminate]|]. intros [E|[E _]]; [discriminate E|exact E].
  - cbn [Coq.Strings.String.append].
    destruct (Coq.Strings.Ascii.eqb_spec r (Coq.Strings.Ascii.ascii_of_N 114)) as [->|Nr];
      [destruct (Coq.Strings.Ascii.eqb_spec h (Coq.Strings.Ascii.ascii_of_N 35)) as [->|Nh]|]; cbn [andb].
    + split; [intros <-; left; reflexivity|]. intros [E|[_ E]]; [congruence|]. exfalso. exact (E rest eq_refl).
    + split; [intros <-; right; split; [reflexivity|]; intros m E; apply Nh; vm_compute; congruence|]. intros [E|[E _]]; [|exact E]. exfalso. apply Nh. vm_compute. congruence.
    + split; [intros <-; right; split; [reflexivity|]; intros m E; apply Nr; vm_compute; congruence|]. intros [E|[E _]]; [|exact E]. exfalso. apply Nr. vm_compute. congruence.
Qed.
Theorem C29_compiles_iff :
  forall fields g,
    (forall i j f t f' t' n, nth_error fields i = Some (f, t) -> nth_error fields j = Some (f', t') -> names f n -> names f' n -> i = j) ->
    expand (DNamed fields) = Ok g ->
    (compiles g <-> forall f t, In (f, t) fields -> ~ names f "new" /\ exists p, t = TPrim p).
Proof.
  intros fields g Hd E.
  assert (Hn : NoDup (map (fun ft => unraw (fst ft)) fields)).
  { apply NoDup_nth_error. intros i j Hi Ej. rewrite map_length in Hi. rewrite !nth_error_map in Ej.
    destruct (nth_error fields i) as [[f t]|] eqn:Fi; [|apply nth_error_None in Fi; lia].
    destruct (nth_error fields j) as [[f' t']|] eqn:Fj; [|discriminate Ej]. cbn in Ej.
    apply (Hd i j f t f' t' (unraw f) Fi Fj); apply unraw_names; congruence. }
  setoid_rewrite <- unraw_names. clear Hd.
  destruct (gen_loop_spec fields gen_empty 0) as [H1 _].
  destruct (H1 _ E) as [_ [_ [A2 _]]]. cbn in A2. unfold compiles, inherent_methods. rewrite A2. split.
  - intros [Hd Hc] f t Hin. inversion Hd as [|? ? Hx _]; subst. split.
    + intros En. apply Hx. rewrite <- En. apply (in_map (fun ft => unraw (fst ft)) _ _ Hin).
    + specialize (Hc _ _ Hin). destruct t; [discriminate|eauto].
  - intros H. split.
    + constructor; auto. intros Hin. apply in_map_iff in Hin. destruct Hin as [[f t] [En Hin]].
      destruct (H _ _ Hin) as [Hne _]. apply Hne. exact En.
    + intros f t Hin. destruct (H _ _ Hin) as [_ [p ->]]. reflexivity.
Qed.
Print Assumptions C29_compiles_iff.

(** The macro accepts a field named [new], although the code it generates then
    defines [new] twice; it accepts vector fields, although their getters cannot be
    compiled; and a raw identifier slips past the reserved-name check. *)
Theorem C29_accepted_code_need_not_compile_refuted :
  (exists fields g, NoDup (map fst fields) /\ expand (DNamed fields) = Ok g /\ In "new" (map fst fields) /\ ~ compiles g) /\
  (exists fields g p, NoDup (map fst fields) /\ expand (DNamed fields) = Ok g /\ In (TVec p) (map snd fields) /\ ~ compiles g).
Proof.
  split.
  - exists [("new", TPrim TU8)]. eexists. split; [repeat constructor; cbn; tauto|]. split; [reflexivity|]. split; [left; reflexivity|].
    intros [Hd _]. inversion Hd as [|? ? Hx _]; subst. apply Hx. left. reflexivity.
  - exists [("v", TVec TU8)]. eexists. exists TU8. split; [repeat constructor; cbn; tauto|]. split; [reflexivity|]. split; [left; reflexivity|].
    intros [_ Hc]. specialize (Hc "v" (TVec TU8) (or_introl eq_refl)). discriminate.
Qed.
Print Assumptions C29_accepted_code_need_not_compile_refuted.

Theorem C29_raw_identifiers_evade_the_check_refuted :
  exists f n g, names f n /\ In n reserved /\ expand (DNamed [(f, TPrim TU8)]) = Ok g /\ compiles g.
Proof.
  exists "r#type_ids", "type_ids". eexists. split; [left; reflexivity|]. split; [left; reflexivity|]. split; [reflexivity|]. split.
  - repeat constructor; cbn; intuition discriminate.
  - intros f t [E|[]]. injection E as <- <-. reflexivity.
Qed.
Print Assumptions C29_raw_identifiers_evade_the_check_refuted.

(** Hypotheses: the example contract of the repository
    (client/contract_example/rust/src/states.rs:20-30). *)
Definition exampleStates : list (string * ptype) :=
  [("u8_0", TPrim TU8); ("u8_1", TPrim TU8); ("i8_0", TPrim TI8); ("i8_1", TPrim TI8); ("f32_0", TPrim TF32);
   ("f32_1", TPrim TF32); ("str_0", TPrim TString); ("oh_0", TPrim TObjectHandle); ("ch_0", TPrim TContractDataHandle)].
Definition exampleGen : generated :=
  match expand (DNamed exampleStates) with Ok g => g | _ => gen_empty end.
Definition exampleContract : contract_ty :=
  generated_contract (mkCid "teleportal.example-ffi-contract" (1%N, 2%N, 3%N)) exampleGen gen_empty.
Example C29_example :
  NoDup (map fst exampleStates) /\ expand (DNamed exampleStates) = Ok exampleGen /\ compiles exampleGen /\
  gen_get exampleGen (gen_new exampleGen (mkIndex 3 0)) "str_0" = Some (mkPid (TPrim TString) 6 (mkIndex 3 0)) /\
  exists b o b',
    reach b /\
    object_create b (mkCinst exampleContract (mkIndex 0 0))
      [PPrim (VU8 1); PPrim (VU8 2); PPrim (VI8 3); PPrim (VI8 4); PPrim (VF32 0); PPrim (VF32 0); PPrim (VString "s");
       PPrim (VObjectHandle (mkIndex 0 0)); PPrim (VContractDataHandle (mkIndex 0 0))] [] = (Ok o, b').
Proof.
  split; [repeat constructor; cbn; intuition discriminate|]. split; [reflexivity|]. split.
  { assert (ND : NoDup (map (fun ft => unraw (fst ft)) exampleStates)) by (vm_compute; repeat constructor; cbn; intuition discriminate).
    apply (C29_compiles_iff exampleStates); [|reflexivity|].
    - intros i j f t f' t' n Fi Fj Nf Nf'. apply unraw_names in Nf, Nf'. rewrite NoDup_nth_error in ND. apply ND.
      + rewrite map_length. apply nth_error_Some. congruence.
      + rewrite !nth_error_map, Fi, Fj. cbn. congruence.
    - intros f t H. rewrite <- unraw_names. cbn in H. repeat (destruct H as [H|H]; [injection H as <- <-; split; [discriminate|eauto]|]). contradiction. }
  split; [reflexivity|].
  eexists (snd (brun (baseline_new KMain) [BRegister exampleContract])), _, _. split; [|vm_compute; reflexivity].
  exists KMain, [BRegister exampleContract]. apply bops_ok_steps. vm_compute. repeat split; repeat constructor.
Qed.
