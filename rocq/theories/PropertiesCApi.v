(** C44: the C API, used through the example contract. *)
From Verif Require Import CApiWrite Macro.
Import Coq.Strings.String.StringSyntax.
Open Scope string_scope.
Open Scope list_scope.
Open Scope nat_scope.

Lemma held_c H c b o ci ba bb oh : points H c b o ci ba bb oh -> held H c.
Proof. intros (Q & _). apply contract_at_some in Q. destruct Q as (a & -> & L). apply held_box. congruence. Qed.

(** The contract the example library registers is the struct it declares. *)
Theorem C44_example_is_the_declared_struct :
  exists g, expand (DNamed [("u8_0", TPrim TU8); ("u8_1", TPrim TU8); ("i8_0", TPrim TI8); ("i8_1", TPrim TI8);
                            ("f32_0", TPrim TF32); ("f32_1", TPrim TF32); ("str_0", TPrim TString);
                            ("oh_0", TPrim TObjectHandle); ("ch_0", TPrim TContractDataHandle)]) = Ok g /\
    Example = generated_contract (mkCid "teleportal.example-ffi-contract" (1%N, 2%N, 3%N)) g gen_empty.
Proof. eexists. split; reflexivity. Qed.
Print Assumptions C44_example_is_the_declared_struct.

(** A created object shows exactly the nine arguments it was created with. *)
Theorem C44_created_object_shows_its_arguments H c b u0 u1 i0 i1 f0 f1 sp op cp s oh ch o H' :
  reaches H -> loads H sp s -> loads H op oh -> loads H cp ch ->
  step H (ExampleContract__object_create c b u0 u1 i0 i1 f0 f1 sp op cp) = Done (RPtr o) H' ->
  shows H' c b o U8_0 (VU8 u0) /\ shows H' c b o U8_1 (VU8 u1) /\
  shows H' c b o I8_0 (VI8 i0) /\ shows H' c b o I8_1 (VI8 i1) /\
  shows H' c b o F32_0 (VF32 f0) /\ shows H' c b o F32_1 (VF32 f1) /\
  shows H' c b o Str_0 s /\ shows H' c b o Oh_0 oh /\ shows H' c b o Ch_0 ch.
Proof.
  intros R Ls Lo Lc E. pose proof (reaches_hinv _ R) as I. pose proof (proj1 (step_change _ _ _ _ I E)) as I'.
  cbn [step] in E.
  destruct (contract_at H c) as [ci|] eqn:Cc; [|discriminate]. destruct (base_at H b) as [[[a b0] e]|] eqn:B; [|discriminate].
  destruct (owned_val H TString sp) as [[sa s']|] eqn:Os; [|discriminate]. destruct (owned_val H TObjectHandle op) as [[oa oh']|] eqn:Oo; [|discriminate].
  destruct (owned_val H TContractDataHandle cp) as [[ca ch']|] eqn:Oc; [|discriminate].
  apply base_at_some in B. destruct B as [-> B]. apply contract_at_some in Cc. destruct Cc as (cb & -> & Cc).
  apply owned_val_some in Os. destruct Os as (-> & Os & Ts). apply loads_box in Ls. assert (s' = s) by congruence. subst s'.
  apply owned_val_some in Oo. destruct Oo as (-> & Oo & To). apply loads_box in Lo. assert (oh' = oh) by congruence. subst oh'.
  apply owned_val_some in Oc. destruct Oc as (-> & Oc & Tc). apply loads_box in Lc. assert (ch' = ch) by congruence. subst ch'.
  match type of E with context [object_create b0 ci ?vs []] => set (vs0 := vs) in *; destruct (object_create b0 ci vs0 []) as [[oi| |] b'] eqn:Cr0 end; try discriminate.
  apply new_box_done in E. destruct E as [Q ->]. injection Q as ->.
  destruct (create_ok _ _ _ _ _ (hi_base _ I _ _ _ B) (hi_con _ I _ _ Cc) Cr0) as (ob & Cr & X & Ho & _ & _ & _ & Tv & _ & _).
  set (K := free (free (free (put H a (CBase b' (S e))) sa) oa) ca) in *.
  assert (LK : forall x d, look (put H a (CBase b' (S e))) x = Some d -> (forall v, d <> CVal v) -> look K x = Some d).
  { intros x d Lx Nd. unfold K. rewrite !look_free.
    assert (Hx : forall z v, look H z = Some (CVal v) -> z <> x).
    { intros z v Lz ->. rewrite (look_put _ _ _ _ _ B) in Lx. destruct (Nat.eqb_spec a x); [subst; congruence|]. apply (Nd v). congruence. }
    destruct (Nat.eqb_spec ca x); [now apply Hx in Oc|]. destruct (Nat.eqb_spec oa x); [now apply Hx in Oo|].
    destruct (Nat.eqb_spec sa x); [now apply Hx in Os|]. exact Lx. }
  assert (P : points (K ++ [Some (CVal (VObjectHandle oi))]) (PBox cb) (PBox a) (PBox (length K)) ci a b' oi).
  { eapply box_points.
    - apply look_app_some, LK; [|discriminate]. rewrite (look_put _ _ _ _ _ B). destruct (Nat.eqb_spec a cb); [congruence|exact Cc].
    - apply look_app_some, LK; [|discriminate]. rewrite (look_put _ _ _ _ _ B), Nat.eqb_refl. reflexivity.
    - apply look_new. }
  assert (V : forall f v, nth_error vs0 (exfield_idx f) = Some (PPrim v) -> shows (K ++ [Some (CVal (VObjectHandle oi))]) (PBox cb) (PBox a) (PBox (length K)) f v).
  { intros f v Hv. apply (shows_char _ _ _ _ _ _ I'). exists ci, a, b', oi. split; [exact P|].
    unfold view. rewrite Ho. rewrite (cr_obj _ _ _ _ _ _ _ Cr).
    destruct (index_eqb_spec (ci_handle ci) (ci_handle ci)); [|congruence].
    pose proof (is_len _ _ _ _ _ (cr_st _ _ _ _ _ _ _ Cr)) as Len.
    destruct (nth_error (o_states ob) (exfield_idx f)) as [h|] eqn:Hh.
    2:{ apply nth_error_None in Hh. assert (exfield_idx f < length vs0) by (apply nth_error_Some; congruence). lia. }
    pose proof (proj2 (is_new _ _ _ _ _ (cr_st _ _ _ _ _ _ _ Cr) _ _ _ Hv Hh)) as Lk.
    assert (Tf : prop_type (PPrim v) = TPrim (exfield_prim f)).
    { pose proof (f_equal (fun l => nth_error l (exfield_idx f)) Tv) as Q. cbv beta in Q. rewrite nth_error_map, Hv in Q. cbn [option_map] in Q.
      destruct f; cbn in Q |- *; congruence. }
    rewrite <- Tf, Lk. reflexivity. }
  repeat split; apply V; reflexivity.
Qed.
Print Assumptions C44_created_object_shows_its_arguments.

(** The new object is a new one: its handle differs from that of every object of
    that baseline known so far. *)
Theorem C44_created_object_is_new H c b u0 u1 i0 i1 f0 f1 sp op cp o H' c1 o1 f v x :
  reaches H ->
  step H (ExampleContract__object_create c b u0 u1 i0 i1 f0 f1 sp op cp) = Done (RPtr o) H' ->
  shows H c1 b o1 f v -> loads H o1 x -> ~ loads H' o x.
Proof.
  intros R E S L L'. pose proof (reaches_hinv _ R) as I.
  apply (shows_char _ _ _ _ _ _ I) in S. destruct S as (ci1 & ba & bb & oh1 & (_ & -> & (e1 & B1) & O1) & V).
  cbn [step] in E.
  destruct (contract_at H c) as [ci|] eqn:Cc; [|discriminate]. destruct (base_at H (PBox ba)) as [[[a b0] e]|] eqn:B; [|discriminate].
  destruct (owned_val H TString sp) as [[sa s']|] eqn:Os; [|discriminate]. destruct (owned_val H TObjectHandle op) as [[oa oh']|] eqn:Oo; [|discriminate].
  destruct (owned_val H TContractDataHandle cp) as [[ca ch']|] eqn:Oc; [|discriminate].
  apply base_at_some in B. destruct B as [Q B]. injection Q as ->. assert (b0 = bb) by congruence. subst b0.
  apply contract_at_some in Cc. destruct Cc as (cb & -> & Cc).
  match type of E with context [object_create bb ci ?vs []] => destruct (object_create bb ci vs []) as [[oi| |] b'] eqn:Cr0 end; try discriminate.
  apply new_box_done in E. destruct E as [Q ->]. injection Q as ->.
  destruct (create_ok _ _ _ _ _ (hi_base _ I _ _ _ B) (hi_con _ I _ _ Cc) Cr0) as (ob & _ & _ & _ & Fr & _).
  apply loads_box in L'. rewrite look_new in L'. injection L' as <-.
  unfold loads in L. cbn [step] in L. unfold obj_handle_at in O1. destruct (val_at H o1) as [y|]; [|discriminate].
  injection L as ->. injection O1 as ->. destruct (view_field _ _ _ _ _ V) as (ob1 & h & Q & _). congruence.
Qed.
Print Assumptions C44_created_object_is_new.

(** Creation succeeds exactly when the baseline knows the contract's handle, and
    otherwise aborts the process: the client can ask beforehand. *)
Theorem C44_create_succeeds_iff_the_contract_is_known H c b hp H1 u0 u1 i0 i1 f0 f1 sp op cp s o ch :
  reaches H -> loads H sp (VString s) -> loads H op (VObjectHandle o) -> loads H cp (VContractDataHandle ch) ->
  held H sp -> held H op -> held H cp ->
  step H (ExampleContract__handle c) = Done (RPtr hp) H1 ->
  step H1 (Baseline__kind b) <> UB ->
  let created := step H (ExampleContract__object_create c b u0 u1 i0 i1 f0 f1 sp op cp) in
  let known := step H1 (Baseline__contract_data b hp) in
  (exists p H2 q H3, known = Done (RPtr p) H2 /\ created = Done (RPtr q) H3) \/ (known = Abort /\ created = Abort).
Proof.
  intros R Ls Lo Lc Hs Ho Hc Eh Ek. pose proof (reaches_hinv _ R) as I.
  destruct (held_is_box _ _ Hs) as [sa ->]. destruct (held_is_box _ _ Ho) as [oa ->]. destruct (held_is_box _ _ Hc) as [ca ->].
  apply loads_box in Ls. apply loads_box in Lo. apply loads_box in Lc.
  cbn [step] in Eh. destruct (contract_at H c) as [ci|] eqn:Cc; [|discriminate]. apply new_box_done in Eh. destruct Eh as [Q ->]. injection Q as ->.
  cbn [step] in Ek. destruct (base_at (H ++ _) b) as [[[a b0] e]|] eqn:B1; [|congruence]. clear Ek.
  assert (B : base_at H b = Some (a, b0, e)).
  { apply base_at_some in B1. destruct B1 as [-> B1]. apply base_at_some. split; [reflexivity|]. destruct (look_alloc_cases _ _ _ _ B1) as [L|[_ L]]; [exact L|discriminate]. }
  cbv zeta. cbn [step]. rewrite B1, Cc, B.
  rewrite (proj2 (owned_val_some H TString (PBox sa) sa _) (conj eq_refl (conj Ls eq_refl))).
  rewrite (proj2 (owned_val_some H TObjectHandle (PBox oa) oa _) (conj eq_refl (conj Lo eq_refl))).
  rewrite (proj2 (owned_val_some H TContractDataHandle (PBox ca) ca _) (conj eq_refl (conj Lc eq_refl))).
  unfold con_handle_at. cbn [val_at]. rewrite look_new. unfold contract_data_of.
  pose proof B as B'. apply base_at_some in B'. destruct B' as [-> Lb].
  pose proof Cc as Cc'. apply contract_at_some in Cc'. destruct Cc' as (cb & -> & Lcon).
  match goal with |- context [object_create b0 ci ?vs []] => destruct (create_spec b0 ci vs [] (ex_inv _ (hi_base _ I _ _ _ Lb))) as [[N [er E]]|[(Kn & _) (oi & ob & b' & E & _)]]; rewrite E end.
  - right. split; [|reflexivity]. destruct (get (b_contracts b0) (ci_handle ci)) as [cd|] eqn:G; [|reflexivity].
    exfalso. apply N. unfold creatable. rewrite (hi_con _ I _ _ Lcon). split; [congruence|]. split; reflexivity.
  - left. destruct (get (b_contracts b0) (ci_handle ci)) as [cd|] eqn:G; [|congruence]. unfold new_box, alloc. do 4 eexists. split; reflexivity.
Qed.
Print Assumptions C44_create_succeeds_iff_the_contract_is_known.

(** No call other than a write changes what is seen of objects whose boxes the
    client still holds. *)
Theorem C44_only_writes_change_fields H k r H' c b o f v :
  reaches H -> shows H c b o f v -> step H k = Done r H' ->
  held H' c -> held H' b -> held H' o ->
  (forall t s p, k <> State__value_set t s p) ->
  shows H' c b o f v.
Proof. intros R S E Hc Hb Ho N. eapply shows_frame; eauto using reaches_hinv. Qed.
Print Assumptions C44_only_writes_change_fields.

(** So what is seen lasts, whatever the program does, until it writes or gives up a box. *)
Lemma held_before H l H' a : hinv H -> continues H l H' -> a < length H -> held H' (PBox a) -> held H (PBox a).
Proof.
  intros I C. induction C as [H|H k r H1 l H2 E C IH]; intros La Hh; [exact Hh|].
  destruct (step_change _ _ _ _ I E) as [I1 Ch]. pose proof (step_length _ _ _ _ E) as Le.
  assert (H1h : held H1 (PBox a)) by (apply IH; auto; lia).
  apply held_box. apply held_box in H1h. specialize (Ch a). intros N. rewrite N in Ch.
  inversion Ch; subst; try congruence. lia.
Qed.
Theorem C44_fields_last_until_written H l H' c b o f v :
  reaches H -> shows H c b o f v -> held H o -> continues H l H' ->
  (forall t s p, ~ In (State__value_set t s p) l) ->
  held H' c -> held H' b -> held H' o ->
  shows H' c b o f v.
Proof.
  intros R S Ho C. revert R S Ho. induction C as [H|H k r H1 l H2 E C IH]; intros R S Ho N Hc' Hb' Ho'; [exact S|].
  assert (R1 : reaches H1) by (econstructor; eauto).
  pose proof (reaches_hinv _ R) as I. pose proof (reaches_hinv _ R1) as I1. pose proof (step_length _ _ _ _ E) as Le.
  assert (B : exists ca ba oa, c = PBox ca /\ b = PBox ba /\ o = PBox oa /\ ca < length H /\ ba < length H /\ oa < length H).
  { apply (shows_char _ _ _ _ _ _ I) in S. destruct S as (ci & ba & bb & oh & P & _).
    destruct (points_box _ _ _ _ _ _ _ _ P Ho) as (ca & oa & e & -> & Lc & -> & Lb & -> & Lo).
    exists ca, ba, oa. repeat split; auto; eapply look_lt; eauto. }
  destruct B as (ca & ba & oa & -> & -> & -> & La & Lb & Lo).
  assert (K : forall a, a < length H -> held H2 (PBox a) -> held H1 (PBox a)).
  { intros a Lt Hh. eapply held_before; eauto. lia. }
  apply IH; auto.
  - apply (shows_frame H k r H1); auto. intros t s p Q. apply (N t s p). left. exact Q.
  - intros t s p Hi. apply (N t s p). now right.
Qed.
Print Assumptions C44_fields_last_until_written.

(** A write through any pointer stores the boxed value or does not touch the field,
    and no two different fields change. *)
Theorem C44_a_write_stores_its_value H t s p r H' c b o f v :
  reaches H -> shows H c b o f v -> step H (State__value_set t s p) = Done r H' ->
  held H' c -> held H' b -> held H' o ->
  exists w, loads H p w /\ (shows H' c b o f v \/ shows H' c b o f w).
Proof. intros R S E Hc Hb Ho. eapply shows_set; eauto using reaches_hinv. Qed.
Print Assumptions C44_a_write_stores_its_value.

Theorem C44_a_write_changes_one_field H t s p r H' c1 b1 o1 f1 v1 c2 b2 o2 f2 v2 :
  reaches H -> step H (State__value_set t s p) = Done r H' ->
  shows H c1 b1 o1 f1 v1 -> held H' c1 -> held H' b1 -> held H' o1 -> ~ shows H' c1 b1 o1 f1 v1 ->
  shows H c2 b2 o2 f2 v2 -> held H' c2 -> held H' b2 -> held H' o2 -> ~ shows H' c2 b2 o2 f2 v2 ->
  b1 = b2 /\ f1 = f2 /\ forall x, loads H o1 x <-> loads H o2 x.
Proof. intros R. intros. eapply set_one_field; eauto using reaches_hinv. Qed.
Print Assumptions C44_a_write_changes_one_field.

(** Writing a field of an object that can be read never fails; the client then reads
    what it wrote, and everything else as before. *)
Theorem C44_write_then_read H c b o f v0 p v :
  reaches H -> shows H c b o f v0 -> held H o ->
  held H p -> loads H p v -> dynprim_type v = TPrim (exfield_prim f) -> o <> p ->
  exists H', write_field H c b o f p = Done RUnit H' /\
    shows H' c b o f v /\ ~ held H' p /\
    forall c1 b1 o1 f1 v1, shows H c1 b1 o1 f1 v1 -> held H o1 -> o1 <> p ->
      (b1 <> b \/ f1 <> f \/ (exists x y, loads H o x /\ loads H o1 y /\ x <> y)) ->
      shows H' c1 b1 o1 f1 v1.
Proof.
  intros R S Ho Hp Lp Tp Np. pose proof (reaches_hinv _ R) as I.
  destruct (held_is_box _ _ Hp) as [pa ->]. apply loads_box in Lp.
  assert (Ow : owned_val H (exfield_prim f) (PBox pa) = Some (pa, v)) by (apply owned_val_some; auto).
  apply (shows_char _ _ _ _ _ _ I) in S. destruct S as (ci & ba & bb & oh & P & V).
  destruct (write_field_ok _ _ _ _ _ _ _ _ _ _ _ _ _ I P V Ow) as (h & b' & H' & Bs & Ss & W & I' & Lk).
  assert (X : exinv bb) by (destruct P as (_ & _ & (e & Lb) & _); exact (hi_base _ I _ _ _ Lb)).
  assert (Fh : exists ob, obj_at bb oh = Some ob /\ nth_error (o_states ob) (exfield_idx f) = Some h).
  { apply c08_bind_state_iff in Bs. destruct Bs as (ob & ? & _ & ?). exists ob. auto. }
  destruct Fh as (ob & Fo & Fn).
  exists H'. split; [exact W|split; [|split]].
  - apply (shows_char _ _ _ _ _ _ I'). exists ci, ba, b', oh. split.
    + pose proof (keep_write _ _ _ _ _ _ _ _ _ _ _ _ _ _ _ _ _ _ _ _ _ _ _ I P V Ow Lk Ss P Ho Np) as K. now rewrite Nat.eqb_refl in K.
    + rewrite (view_set bb b' h v (ci_handle ci) oh f X Ss), V, Fo, Fn, Tp, tm_same_refl. reflexivity.
  - intros Hh. apply held_box in Hh. apply Hh. rewrite Lk by (eapply look_lt; eauto). now rewrite Nat.eqb_refl.
  - intros c1 b1 o1 f1 v1 S1 Ho1 Np1 D. apply (shows_char _ _ _ _ _ _ I) in S1. destruct S1 as (ci1 & ba1 & bb1 & oh1 & P1 & V1).
    pose proof (keep_write _ _ _ _ _ _ _ _ _ _ _ _ _ _ _ _ _ _ _ _ _ _ _ I P V Ow Lk Ss P1 Ho1 Np1) as K.
    apply (shows_char _ _ _ _ _ _ I'). destruct (Nat.eqb_spec ba ba1) as [<-|Nb].
    + exists ci1, ba, b', oh1. split; [exact K|].
      assert (bb1 = bb) by (destruct P as (_ & _ & (x1 & L1) & _), P1 as (_ & _ & (x2 & L2) & _); congruence). subst bb1.
      destruct (view_field _ _ _ _ _ V1) as (ob1 & h1 & Ob1 & _ & K1 & _ & F1).
      rewrite (view_set bb b' h v (ci_handle ci1) oh1 f1 X Ss), V1, Ob1, K1.
      destruct (tm_same (dynprim_type v) h (TPrim (exfield_prim f1)) h1) eqn:T; [|reflexivity]. exfalso.
      apply tm_same_true in T. destruct T as [T <-]. rewrite Tp in T. rewrite <- T in F1.
      assert (F : field_at bb oh (exfield_idx f) (TPrim (exfield_prim f)) h).
      { exists ob. repeat split; auto. destruct f; reflexivity. }
      destruct (ex_inj _ X _ _ _ _ _ _ F F1) as [Eo Ei]. apply exfield_idx_inj in Ei. subst oh1 f1.
      destruct P as (_ & -> & _ & O), P1 as (_ & -> & _ & O1).
      destruct D as [D|[D|(x & y & Lx & Ly & D)]]; try congruence.
      unfold loads in Lx, Ly. cbn [step] in Lx, Ly. unfold obj_handle_at in O, O1.
      destruct (val_at H o); [|discriminate]. destruct (val_at H o1); [|discriminate]. injection Lx as ->. injection Ly as ->.
      destruct x; try discriminate. destruct y; try discriminate. congruence.
    + exists ci1, ba1, bb1, oh1. auto.
Qed.
Print Assumptions C44_write_then_read.

(** Reading with live pointers is never undefined behaviour; and an object shows
    either all nine fields or none. *)
Theorem C44_reading_is_all_or_nothing H c b o f v :
  reaches H -> shows H c b o f v ->
  forall f', exists v', shows H c b o f' v' /\ dynprim_type v' = TPrim (exfield_prim f').
Proof.
  intros R S f'. pose proof (reaches_hinv _ R) as I. apply (shows_char _ _ _ _ _ _ I) in S. destruct S as (ci & ba & bb & oh & P & V).
  assert (X : exinv bb) by (destruct P as (_ & _ & (e & Lb) & _); exact (hi_base _ I _ _ _ Lb)).
  destruct (view_field _ _ _ _ _ V) as (ob & h & Ob & Ec & _).
  pose proof (ex_len _ X _ _ Ob) as Len. destruct (nth_error (o_states ob) (exfield_idx f')) as [h'|] eqn:Hn.
  2:{ apply nth_error_None in Hn. destruct f'; cbn in Hn; lia. }
  assert (Bs : bind_state bb (field_id ci f') oh = Ok h') by (apply c08_bind_state_iff; exists ob; auto).
  pose proof (bind_view bb ci oh f' X) as B. rewrite Bs in B. destruct B as (v' & Lk & V').
  exists v'. split.
  - apply (shows_char _ _ _ _ _ _ I). exists ci, ba, bb, oh. auto.
  - exact (bi_st_ty _ (ex_inv _ X) _ _ _ Lk).
Qed.
Print Assumptions C44_reading_is_all_or_nothing.

Theorem C44_reading_is_defined H c b o f hp H1 x :
  reaches H -> step H (ExampleContract__handle c) = Done (RPtr hp) H1 ->
  step H (Baseline__kind b) <> UB -> loads H o (VObjectHandle x) ->
  read_field H c b o f = Abort \/ exists v, shows H c b o f v.
Proof.
  intros R Eh Ek L. pose proof (reaches_hinv _ R) as I.
  cbn [step] in Eh. destruct (contract_at H c) as [ci|] eqn:Cc; [|discriminate]. apply contract_at_some in Cc. destruct Cc as (ca & -> & Lc).
  cbn [step] in Ek. destruct (base_at H b) as [[[ba bb] e]|] eqn:B; [|congruence]. apply base_at_some in B. destruct B as [-> Lb].
  assert (Ho : obj_handle_at H o = Some x).
  { unfold loads in L. cbn [step] in L. unfold obj_handle_at. destruct (val_at H o); [|discriminate]. injection L as ->. reflexivity. }
  pose proof (read_field_ok H _ _ o f ca ci ba bb e x (hi_base _ I _ _ _ Lb) eq_refl Lc eq_refl Lb Ho) as Q.
  destruct (view bb (ci_handle ci) x f) as [v|]; [right; exists v; exact Q|left; exact Q].
Qed.
Print Assumptions C44_reading_is_defined.

(** Ownership: a box (or the memory of a vector) lives from the call that returned it
    until it is passed to a function that takes it; nothing else frees or revives it. *)
Theorem C44_boxes_live_until_given_away H c r H' x :
  reaches H -> step H c = Done r H' ->
  held H' (PBox x) <-> (held H (PBox x) /\ ~ In (PBox x) (gives_away c)) \/ r = RPtr (PBox x) \/ exists n, r = RVec x n.
Proof.
  intros R E. pose proof (reaches_hinv _ R) as I.
  pose proof (step_lives _ _ _ _ x I E) as L. unfold lives in L.
  assert (Q : forall K, held K (PBox x) <-> live K x = true).
  { intros K. rewrite held_live. split; [intros (y & Q & Hl); injection Q as <-; exact Hl|eauto]. }
  now rewrite !Q.
Qed.
Print Assumptions C44_boxes_live_until_given_away.

(** Registration aborts exactly when the program registered before in that baseline. *)
Theorem C44_register_once_per_baseline l H b :
  session l H -> step H (Baseline__kind b) <> UB ->
  ((exists r, In (ExampleContract__register b, r) l) -> step H (ExampleContract__register b) = Abort) /\
  (~ (exists r, In (ExampleContract__register b, r) l) -> exists c H', step H (ExampleContract__register b) = Done (RPtr c) H').
Proof.
  intros S Ek. pose proof (reaches_hinv _ (session_reaches _ _ S)) as I. pose proof (session_sinv _ _ S) as Si.
  cbn [step] in Ek |- *. destruct (base_at H b) as [[[ba bb] e]|] eqn:B; [|congruence]. apply base_at_some in B. destruct B as [-> Lb].
  pose proof (hi_base _ I _ _ _ Lb) as X. rewrite <- (si_reg _ _ Si _ _ _ Lb).
  destruct (register_spec bb Example (ex_inv _ X)) as [[Hc E]|[N (cs & h & _ & E)]]; rewrite E.
  - split; [reflexivity|]. intros Nr. exfalso. apply Nr. destruct Hc as (h & cd & Hh & _). exists h. unfold con_at. rewrite Hh. discriminate.
  - split.
    + intros [h' Hh]. exfalso. apply N. destruct (con_at bb h') as [cd|] eqn:Q; [|congruence]. exists h', cd. split; [exact Q|]. eapply ex_con; eauto.
    + intros _. unfold new_box, alloc. eauto.
Qed.
Print Assumptions C44_register_once_per_baseline.

(** A baseline keeps the kind it was made with. *)
Theorem C44_kind_is_kept l H k b r H' :
  session l H -> In (Baseline__new k, RPtr b) l -> step H (Baseline__kind b) = Done r H' -> r = RKind k /\ H' = H.
Proof.
  intros S Hi E. pose proof (session_sinv _ _ S) as Si. cbn [step] in E.
  destruct (base_at H b) as [[[ba bb] e]|] eqn:B; [|discriminate]. apply base_at_some in B. destruct B as [-> Lb].
  injection E as <- <-. now rewrite (si_new _ _ Si _ _ Hi _ _ Lb).
Qed.
Print Assumptions C44_kind_is_kept.

(** Whatever contract data the client gets hold of is the example contract's. *)
Theorem C44_contract_data_names_the_example H i :
  reaches H ->
  (forall r H', step H (ContractId__name i) = Done r H' -> r = RName "teleportal.example-ffi-contract") /\
  (forall r H', step H (ContractId__version i) = Done r H' -> r = RVersion (1%N, 2%N, 3%N)).
Proof.
  intros R. pose proof (reaches_hinv _ R) as I. split; intros r H' E; cbn [step] in E; destruct i; try discriminate;
    (destruct (borrowed H a e) as [b|] eqn:B; [|discriminate]; apply borrowed_some in B; pose proof (hi_base _ I _ _ _ B) as X;
     unfold contract_data_of in E; destruct (get (b_contracts b) h) as [cd|] eqn:G; [|discriminate]; injection E as <- <-;
     rewrite (ex_con _ X h cd G); reflexivity).
Qed.
Print Assumptions C44_contract_data_names_the_example.

(** Objects can never be removed: the call aborts the process (it never returns). *)
Theorem C44_object_remove_never_returns_refuted H b o r H' :
  reaches H -> step H (ExampleContract__object_remove b o) <> Done r H'.
Proof.
  intros R E. pose proof (reaches_hinv _ R) as I. cbn [step] in E.
  destruct (base_at H b) as [[[a b0] e]|] eqn:B; [|discriminate]. destruct (owned_val H TObjectHandle o) as [[oa v]|]; [|discriminate].
  destruct v; try discriminate. apply base_at_some in B. destruct B as [-> B].
  rewrite (object_remove_spec b0 Example) in E by (apply bi_obj, ex_inv, (hi_base _ I _ _ _ B)).
  unfold remove_result in E. destruct (get (b_objects b0) _); cbn in E; discriminate.
Qed.
Print Assumptions C44_object_remove_never_returns_refuted.

Theorem C44_removing_a_live_object_aborts H c b o f v :
  reaches H -> shows H c b o f v -> held H o -> step H (ExampleContract__object_remove b o) = Abort.
Proof.
  intros R S Ho. pose proof (reaches_hinv _ R) as I. apply (shows_char _ _ _ _ _ _ I) in S. destruct S as (ci & ba & bb & oh & P & V).
  destruct (points_box _ _ _ _ _ _ _ _ P Ho) as (ca & oa & e & _ & _ & -> & Lb & -> & Lo).
  cbn [step base_at]. rewrite Lb. rewrite (proj2 (owned_val_some H TObjectHandle (PBox oa) oa _) (conj eq_refl (conj Lo eq_refl))).
  rewrite (object_remove_spec bb Example) by (apply bi_obj, ex_inv, (hi_base _ I _ _ _ Lb)).
  unfold remove_result. destruct (get (b_objects bb) oh); reflexivity.
Qed.
Print Assumptions C44_removing_a_live_object_aborts.

(** Nor can a program that uses only this library create a first object: creation
    consumes a boxed object handle, and only creation makes one. *)
Theorem C44_no_first_object_refuted l H :
  session l H -> (forall o r, ~ In (Other__object_handle o, r) l) ->
  forall c b u0 u1 i0 i1 f0 f1 sp op cp,
    step H (ExampleContract__object_create c b u0 u1 i0 i1 f0 f1 sp op cp) = UB.
Proof.
  intros S N.
  assert (Nh : forall a v, look H a = Some (CVal v) -> dynprim_type v <> TPrim TObjectHandle).
  { induction S as [|l H k r H' S IH E]; [intros [|a]; discriminate|].
    assert (N0 : forall o r, ~ In (Other__object_handle o, r) l) by (intros o r0 Hi; apply (N o r0); now right).
    assert (N1 : forall o, k <> Other__object_handle o) by (intros o ->; apply (N o r); now left).
    specialize (IH N0). pose proof (reaches_hinv _ (session_reaches _ _ S)) as I.
    intros a v L'. destruct (step_change _ _ _ _ I E) as [_ Ch]. specialize (Ch a). rewrite L' in Ch.
    destruct (look H a) as [x|] eqn:L; inversion Ch as [y Q|y Q|y Q1 Q2| | |]; subst; [eapply IH; eauto|].
    (* a new value box *)
    destruct k; cbn [step] in E;
      repeat match type of E with
      | context [match owned_val H TObjectHandle ?q with _ => _ end] =>
          let Q := fresh "Q" in destruct (owned_val H TObjectHandle q) as [[? ?]|] eqn:Q;
          [exfalso; apply owned_val_some in Q; destruct Q as (-> & Q & T); eapply IH; eauto|]
      | context [match ?x with _ => _ end] => destruct x eqn:?; try discriminate
      end;
      try (injection E as _ <-; exfalso; unfold free, put in L'; apply look_lt in L'; rewrite ?list_set_length in L'; lia);
      try (injection E as _ <-; exfalso; apply look_alloc_cases in L'; destruct L' as [L'|[_ L']];
           [apply look_lt in L'; lia|discriminate L']);
      (apply new_box_done in E; destruct E as [-> ->]; apply look_alloc_cases in L'; destruct L' as [L'|[Q L']];
       [exfalso; apply look_lt in L'; unfold free, put in L'; rewrite ?list_set_length in L'; lia|]); try discriminate;
      injection L' as ->; first [discriminate | exfalso; eapply N1; reflexivity]. }
  intros. cbn [step]. destruct (contract_at H c); [|reflexivity]. destruct (base_at H b) as [[[? ?] ?]|]; [|reflexivity].
  destruct (owned_val H TString sp) as [[? ?]|]; [|reflexivity].
  destruct (owned_val H TObjectHandle op) as [[oa v]|] eqn:Q; [|reflexivity].
  apply owned_val_some in Q. destruct Q as (_ & Lo & T). now apply Nh in Lo.
Qed.
Print Assumptions C44_no_first_object_refuted.

(** ** The list of a contract's objects *)

(** Only the handle matters, not where the client keeps it: in a box, in a list, or
    in a field of another object. *)
Theorem C44_handles_by_value H c b o1 o2 f x v :
  loads H o1 (VObjectHandle x) -> loads H o2 (VObjectHandle x) -> reaches H ->
  (shows H c b o1 f v <-> shows H c b o2 f v).
Proof.
  intros L1 L2 R. pose proof (reaches_hinv _ R) as I.
  assert (Q : forall o, loads H o (VObjectHandle x) -> obj_handle_at H o = Some x).
  { intros o L. unfold loads in L. cbn [step] in L. unfold obj_handle_at. destruct (val_at H o); [|discriminate]. injection L as ->. reflexivity. }
  apply Q in L1. apply Q in L2.
  split; intros S; apply (shows_char _ _ _ _ _ _ I) in S; destruct S as (ci & ba & bb & oh & (P1 & P2 & P3 & P4) & V);
    apply (shows_char _ _ _ _ _ _ I); exists ci, ba, bb, x; (split; [repeat split; auto|]); congruence.
Qed.
Print Assumptions C44_handles_by_value.

(** [ContractData__objects] lists the objects of the baseline: as many as it says, each
    once, and exactly the handles for which [Baseline__object] finds an object. *)
Theorem C44_objects_are_listed H b hp d a n H' :
  reaches H -> step H (Baseline__contract_data b hp) = Done (RPtr d) H ->
  step H (ContractData__objects d) = Done (RVec a n) H' ->
  (forall i, i < n -> exists o, loads H' (PElem a i) (VObjectHandle o)) /\
  (forall i, n <= i -> step H' (Load (PElem a i)) = UB) /\
  (forall i j v, loads H' (PElem a i) v -> loads H' (PElem a j) v -> i = j) /\
  (forall op o, loads H' op (VObjectHandle o) ->
     ((exists i, loads H' (PElem a i) (VObjectHandle o)) <->
      exists p, step H' (Baseline__object b op) = Done (RPtr p) H')).
Proof.
  intros R E0 E. pose proof (reaches_hinv _ R) as I. cbn [step] in E0.
  destruct (base_at H b) as [[[ba bb] e]|] eqn:B; [|discriminate]. apply base_at_some in B. destruct B as [-> Lb].
  destruct (con_handle_at H hp) as [h|]; [|discriminate]. destruct (contract_data_of bb h) as [cd| |] eqn:C; try discriminate.
  injection E0 as <-. cbn [step] in E. rewrite (proj2 (borrowed_some H ba e bb) Lb), C in E. injection E as <- <- <-.
  pose proof (hi_base _ I _ _ _ Lb) as X. unfold contract_data_of in C. destruct (get (b_contracts bb) h) as [cd'|] eqn:G; [|discriminate].
  injection C as ->.
  assert (LE : forall i v, loads (H ++ [Some (CObjs (cd_objects cd))]) (PElem (length H) i) v <->
                 exists o, nth_error (cd_objects cd) i = Some o /\ v = VObjectHandle o).
  { intros i v. unfold loads. cbn [step val_at]. rewrite look_new. destruct (nth_error (cd_objects cd) i) as [o|]; cbn [option_map].
    - split; [intros Q; injection Q as <-; eauto|intros (o' & Q & ->); injection Q as <-; reflexivity].
    - split; [discriminate|intros (o' & Q & _); discriminate]. }
  split; [|split; [|split]].
  - intros i Hi. destruct (nth_error (cd_objects cd) i) as [o|] eqn:Q; [|apply nth_error_None in Q; lia]. exists o. apply LE. eauto.
  - intros i Hi. cbn [step val_at]. rewrite look_new. apply nth_error_None in Hi. rewrite Hi. reflexivity.
  - intros i j v Li Lj. apply LE in Li. apply LE in Lj. destruct Li as (o & Qi & ->), Lj as (o' & Qj & Q). injection Q as <-.
    pose proof (bi_nodup _ (ex_inv _ X) _ _ G) as ND.
    apply (proj1 (NoDup_nth_error _) ND); [|congruence]. apply nth_error_Some. congruence.
  - intros op o L. cbn [step base_at]. rewrite (look_app_some _ _ _ _ Lb).
    assert (Ho : obj_handle_at (H ++ [Some (CObjs (cd_objects cd))]) op = Some o).
    { unfold loads in L. cbn [step] in L. unfold obj_handle_at. destruct (val_at _ op); [|discriminate]. injection L as ->. reflexivity. }
    rewrite Ho. unfold object_of. split.
    + intros [i Li]. apply LE in Li. destruct Li as (o' & Q & Z0). injection Z0 as <-. apply nth_error_In in Q.
      pose proof (ex_live _ X _ _ _ G Q) as N. unfold obj_at in N. destruct (get (b_objects bb) o); [cbn [ok_or]; eexists; reflexivity|congruence].
    + intros [p E]. destruct (get (b_objects bb) o) as [ob|] eqn:Ob; [|discriminate].
      destruct (bi_obj_con _ (ex_inv _ X) _ _ Ob) as (cd2 & G2 & In2).
      assert (Q : o_contract ob = h).
      { apply (bi_ids _ (ex_inv _ X) _ _ _ _ G2 G). rewrite (ex_con _ X _ _ G2), (ex_con _ X _ _ G). reflexivity. }
      rewrite Q, G in G2. injection G2 as <-. apply In_nth_error in In2. destruct In2 as [i Qi]. exists i. apply LE. eauto.
Qed.
Print Assumptions C44_objects_are_listed.

Lemma list_kept H k r H' a l : hinv H -> step H k = Done r H' -> look H a = Some (CObjs l) -> look H' a = Some (CObjs l).
Proof.
  intros I E L. destruct (step_change _ _ _ _ I E) as [_ Ch]. specialize (Ch a). rewrite L in Ch.
  assert (N : ~ In (PBox a) (gives_away k)).
  { assert (O : forall t p x, owned_val H t p = Some x -> p <> PBox a).
    { intros t p [a' v] Q ->. apply owned_val_some in Q. destruct Q as (Z0 & Q & _). congruence. }
    destruct k; cbn [gives_away In]; try tauto; cbn [step] in E.
    - intros [->|[]]. cbn [base_at] in E. rewrite L in E. discriminate.
    - intros [->|[]]. destruct (owned_val H t (PBox a)) eqn:Q; [exact (O _ _ _ Q eq_refl)|discriminate].
    - intros [->|[]]. destruct (state_ok H t s); [|discriminate]. cbn [negb] in E.
      destruct (owned_val H t (PBox a)) eqn:Q; [exact (O _ _ _ Q eq_refl)|discriminate].
    - intros [->|[]]. rewrite L in E. discriminate.
    - destruct (contract_at H c); [|discriminate]. destruct (base_at H b) as [[[? ?] ?]|]; [|discriminate].
      destruct (owned_val H TString str_0) as [[? ?]|] eqn:Q1; [|discriminate].
      destruct (owned_val H TObjectHandle oh_0) as [[? ?]|] eqn:Q2; [|discriminate].
      destruct (owned_val H TContractDataHandle ch_0) as [[? ?]|] eqn:Q3; [|discriminate].
      intros [->|[->|[->|[]]]]; [exact (O _ _ _ Q1 eq_refl)|exact (O _ _ _ Q2 eq_refl)|exact (O _ _ _ Q3 eq_refl)].
    - intros [->|[]]. destruct (base_at H b) as [[[? ?] ?]|]; [|discriminate].
      destruct (owned_val H TObjectHandle (PBox a)) eqn:Q; [exact (O _ _ _ Q eq_refl)|discriminate]. }
  assert (Lv : live H' a = true).
  { apply (step_lives _ _ _ _ a I E). left. split; [unfold live; now rewrite L|exact N]. }
  unfold live in Lv. destruct (look H' a) as [x|] eqn:L'; [|discriminate]. inversion Ch; subst; congruence.
Qed.

(** A list is a snapshot that stays for ever: no later call changes an element, and
    there is no function that takes the list back, so its memory is never freed. *)
Theorem C44_object_lists_are_permanent H a n d H1 l H2 i v :
  reaches H -> step H (ContractData__objects d) = Done (RVec a n) H1 -> continues H1 l H2 ->
  (loads H1 (PElem a i) v <-> loads H2 (PElem a i) v) /\ held H2 (PBox a).
Proof.
  intros R E C. assert (R1 : reaches H1) by (econstructor; eauto).
  assert (L : exists x, look H1 a = Some (CObjs x)).
  { cbn [step] in E. destruct d; try discriminate. destruct (borrowed H a0 e); [|discriminate].
    destruct (contract_data_of b h) as [cd| |]; try discriminate. injection E as <- _ <-. exists (cd_objects cd). apply look_new. }
  destruct L as [x L]. clear E R H.
  assert (L2 : look H2 a = Some (CObjs x)).
  { induction C as [H|H c r K l H2 E C IH]; [exact L|]. apply IH; [econstructor; eauto|].
    eapply list_kept; eauto. apply reaches_hinv. exact R1. }
  split; [|apply held_box; congruence]. unfold loads. cbn [step val_at]. rewrite L, L2.
  destruct (nth_error x i); cbn [option_map]; split; intros Q; try discriminate Q; injection Q as <-; reflexivity.
Qed.
Print Assumptions C44_object_lists_are_permanent.

(** A concrete program: two baselines, an object in each (the first one's handle
    argument comes from another library), a write, and the hypotheses above. *)
Fixpoint exec (l : list call) (H : heap) : option (list (call * ret) * heap) :=
  match l with
  | [] => Some ([], H)
  | c :: l =>
      match exec l H with
      | Some (s, H1) => match step H1 c with Done r H2 => Some ((c, r) :: s, H2) | _ => None end
      | None => None
      end
  end.
Lemma exec_session l : forall s H, exec l [] = Some (s, H) -> session s H.
Proof.
  induction l as [|c l IH]; cbn [exec]; intros s H E.
  - injection E as <- <-. constructor.
  - destruct (exec l []) as [[s1 H1]|]; [|discriminate]. destruct (step H1 c) as [r H2| |] eqn:Q; try discriminate.
    injection E as <- <-. econstructor; [apply IH; reflexivity|exact Q].
Qed.
(* latest first *)
Definition program : list call :=
  [ Box__new (VU8 77);                                                                  (* box 14 *)
    ExampleContract__object_create (PBox 3) (PBox 1) 1 2 (-3) (-4) 5 6 (PBox 10) (PBox 11) (PBox 12);  (* box 13 *)
    ExampleContract__handle (PBox 2); Other__object_handle (mkIndex 9 9); Box__new (VString "b");  (* 10 11 12, latest first *)
    ExampleContract__handle (PBox 2);                                                   (* box 9 *)
    Box__new (VU8 42);                                                                  (* box 8 *)
    ExampleContract__object_create (PBox 2) (PBox 0) 200 255 (-128) 127 0 1 (PBox 4) (PBox 5) (PBox 6); (* box 7 *)
    ExampleContract__handle (PBox 2);                                                   (* box 6 *)
    Other__object_handle (mkIndex 0 0);                                                 (* box 5 *)
    Box__new (VString "foobar");                                                        (* box 4 *)
    ExampleContract__register (PBox 1);                                                 (* box 3 *)
    ExampleContract__register (PBox 0);                                                 (* box 2 *)
    Baseline__new KFork;                                                                (* box 1 *)
    Baseline__new KMain ].                                                              (* box 0 *)
(* then: the contract data of the first baseline, and its objects *)
Example objects_example :
  match exec program [] with
  | Some (_, H) =>
      step H (Baseline__contract_data (PBox 0) (PBox 9)) = Done (RPtr (PData 0 2 (mkIndex 0 0))) H /\
      exists H', step H (ContractData__objects (PData 0 2 (mkIndex 0 0))) = Done (RVec 15 1) H' /\
        loads H' (PElem 15 0) (VObjectHandle (mkIndex 0 0)) /\ loads H' (PBox 7) (VObjectHandle (mkIndex 0 0)) /\
        step H' (Drop (PBox 15)) = UB
  | None => False
  end.
Proof. vm_compute. split; [reflexivity|]. eexists. split; [reflexivity|]. repeat split; reflexivity. Qed.

Definition seen (r : result) : option dynprim := match r with Done (RVal v) _ => Some v | _ => None end.
Lemma seen_shows H c b o f v : seen (read_field H c b o f) = Some v -> shows H c b o f v.
Proof. unfold seen, shows. destruct (read_field H c b o f) as [[]| |]; try discriminate. intros E; injection E as ->. eauto. Qed.


Lemma owned_val_typed H t p a v : owned_val H t p = Some (a, v) -> dynprim_type v = TPrim t.
Proof.
  unfold owned_val. destruct p; try discriminate. destruct (look H a0) as [[| |v0| | | |]|]; try discriminate.
  destruct (ptype_eqb (dynprim_type v0) (TPrim t)) eqn:Q; [|discriminate]. intros E. injection E as <- <-. destruct (ptype_eqb_spec (dynprim_type v0) (TPrim t)); [assumption|discriminate].
Qed.
Definition typed_cell (c : cell) : Prop := forall t v, c = CSt t v -> exists w, v = PPrim w /\ dynprim_type w = TPrim t.
Definition typed_cells (H : heap) : Prop := forall a c, look H a = Some c -> typed_cell c.
Lemma typed_app H c : typed_cells H -> typed_cell c -> typed_cells (H ++ [Some c]).
Proof. intros T C a d L. apply look_alloc_cases in L. destruct L as [L|[_ ->]]; [eapply T; eauto|exact C]. Qed.
Lemma typed_free H a : typed_cells H -> typed_cells (free H a).
Proof. intros T x d L. apply look_free_some in L. destruct L as [L _]. eapply T; eauto. Qed.
Lemma typed_put H a c : typed_cells H -> typed_cell c -> typed_cells (put H a c).
Proof.
  intros T C x d L. unfold look, put in L. rewrite nth_error_list_set in L. destruct (Nat.eqb a x).
  - destruct (Nat.ltb a (length H)); [injection L as <-; exact C|discriminate].
  - eapply T. exact L.
Qed.
Lemma typed_step H c r H' : typed_cells H -> step H c = Done r H' -> typed_cells H'.
Proof.
  intros T E. destruct c; cbn [step] in E.
  all: repeat match goal with
    | E : new_box _ _ = Done _ _ |- _ => apply new_box_done in E; destruct E as [_ ->]
    | E : Done _ _ = Done _ _ |- _ => injection E as _ <-
    | Q : owned_val _ _ _ = Some (_, _) |- _ => apply owned_val_typed in Q
    | E : context [match ?x with _ => _ end] |- _ => destruct x eqn:?; try discriminate E
    end.
  all: repeat first [assumption | apply typed_app | apply typed_free | apply typed_put].
  all: intros ? ? Q; try discriminate Q; injection Q as -> <-; eauto.
Qed.
Lemma reaches_typed H : reaches H -> typed_cells H.
Proof. induction 1; [intros a c L; destruct a; discriminate L|eapply typed_step; eauto]. Qed.

(** The pointer [State__value] returns can be read at once, and shows a value of the
    type asked for. *)
Theorem C44_value_pointers_show_a_value H t s q H' :
  reaches H -> step H (State__value t s) = Done (RPtr q) H' ->
  H' = H /\ exists v, loads H q v /\ prop_type (PPrim v) = TPrim t.
Proof.
  intros R E. pose proof (reaches_hinv _ R) as I. pose proof (reaches_typed _ R) as T. cbn [step] in E.
  destruct (state_ok H t s) eqn:O; [|discriminate]. injection E as <- <-. split; [reflexivity|].
  unfold loads. cbn [step]. destruct s; try discriminate O; cbn [state_ok] in O; cbn [val_at].
  - destruct (look H a) as [c|] eqn:L; [|discriminate]. destruct c; try discriminate. apply prim_eqb_eq in O. subst.
    destruct (T _ _ L _ _ eq_refl) as (w & -> & Q). exists w. auto.
  - apply andb_true_iff in O. destruct O as [Q O]. apply prim_eqb_eq in Q. subst.
    destruct (borrowed H a e) as [b|] eqn:B; [|discriminate]. apply borrowed_some in B. pose proof (ex_inv _ (hi_base _ I _ _ _ B)) as X.
    destruct (state_get b (TPrim t0) h) as [d| |] eqn:G; try discriminate. apply state_get_ok in G.
    pose proof (bi_st_ty _ X _ _ _ G) as Q. destruct d as [w|w]; [|destruct w; discriminate Q]. exists w. auto.
Qed.
Print Assumptions C44_value_pointers_show_a_value.

Theorem C44_example :
  exists l H, session l H /\ map fst l = program /\
    held H (PBox 2) /\ held H (PBox 0) /\ held H (PBox 7) /\ held H (PBox 14) /\
    shows H (PBox 2) (PBox 0) (PBox 7) U8_0 (VU8 200) /\ shows H (PBox 2) (PBox 0) (PBox 7) Str_0 (VString "foobar") /\
    shows H (PBox 3) (PBox 1) (PBox 13) I8_1 (VI8 (-4)) /\
    loads H (PBox 8) (VU8 42) /\
    (exists H', write_field H (PBox 2) (PBox 0) (PBox 7) U8_0 (PBox 8) = Done RUnit H' /\
       shows H' (PBox 2) (PBox 0) (PBox 7) U8_0 (VU8 42) /\ shows H' (PBox 2) (PBox 0) (PBox 7) U8_1 (VU8 255) /\
       shows H' (PBox 3) (PBox 1) (PBox 13) U8_0 (VU8 1)) /\
    step H (ExampleContract__register (PBox 0)) = Abort /\
    step H (ExampleContract__object_remove (PBox 0) (PBox 7)) = Abort.
Proof.
  assert (A : match exec program [] with
              | Some (l, H) =>
                  map fst l = program /\
                  (map (fun a => match look H a with Some _ => true | None => false end) [2; 0; 7; 14] = [true; true; true; true]) /\
                  seen (read_field H (PBox 2) (PBox 0) (PBox 7) U8_0) = Some (VU8 200) /\
                  seen (read_field H (PBox 2) (PBox 0) (PBox 7) Str_0) = Some (VString "foobar") /\
                  seen (read_field H (PBox 3) (PBox 1) (PBox 13) I8_1) = Some (VI8 (-4)) /\
                  seen (step H (Load (PBox 8))) = Some (VU8 42) /\
                  match write_field H (PBox 2) (PBox 0) (PBox 7) U8_0 (PBox 8) with
                  | Done RUnit H' =>
                      seen (read_field H' (PBox 2) (PBox 0) (PBox 7) U8_0) = Some (VU8 42) /\
                      seen (read_field H' (PBox 2) (PBox 0) (PBox 7) U8_1) = Some (VU8 255) /\
                      seen (read_field H' (PBox 3) (PBox 1) (PBox 13) U8_0) = Some (VU8 1)
                  | _ => False
                  end /\
                  step H (ExampleContract__register (PBox 0)) = Abort /\
                  step H (ExampleContract__object_remove (PBox 0) (PBox 7)) = Abort
              | None => False
              end).
  { vm_compute. repeat split; reflexivity. }
  destruct (exec program []) as [[l H]|] eqn:E; [|contradiction]. apply exec_session in E.
  destruct A as (A1 & A2 & A3 & A4 & A5 & A6 & A7 & A8 & A9).
  exists l, H. split; [exact E|split; [exact A1|]]. cbn [map] in A2.
  assert (Hd : forall a, (match look H a with Some _ => true | None => false end) = true -> held H (PBox a)).
  { intros a Q. apply held_box. destruct (look H a); congruence. }
  repeat split; try (apply seen_shows; assumption); try (apply Hd; congruence); auto.
  - apply loads_box. cbn [step val_at] in A6. destruct (look H 8) as [[]|]; cbn in A6; congruence.
  - destruct (write_field H (PBox 2) (PBox 0) (PBox 7) U8_0 (PBox 8)) as [[] H'| |]; try contradiction. exists H'.
    destruct A7 as (B1 & B2 & B3). repeat split; apply seen_shows; assumption.
Qed.
Print Assumptions C44_example.
