(** C07: objects behave as independent records. *)
From Verif Require Import RecordProofs PropertiesBaseline.
Import Coq.Strings.String.StringSyntax.
Open Scope string_scope.
Open Scope list_scope.
Open Scope nat_scope.

(** Every disciplined client history gets exactly the answers of the map of
    records of [RecordSpec], whatever the calls, from a new baseline on. *)
Theorem C07_objects_are_records :
  forall k ops,
    let answers := fst (crun (baseline_new k) ops) in
    all_disciplined rs_empty ops answers -> all_allowed rs_empty ops answers.
Proof. intros k ops. cbn. eapply records_refined. apply rrel_empty. Qed.
Print Assumptions C07_objects_are_records.

(** The abstract state after a history. *)
Fixpoint rfinal (s : rstate) (ops : list rop) (rs : list (outcome rret)) : rstate :=
  match ops, rs with
  | op :: ops', r :: rs' => rfinal (rnext s op r) ops' rs'
  | _, _ => s
  end.

Lemma rfinal_rrel ops : forall b s fs fc rs b',
  rrel b s fs fc -> crun b ops = (rs, b') -> existsb is_panic rs = false ->
  all_disciplined s ops rs -> exists fs' fc', rrel b' (rfinal s ops rs) fs' fc'.
Proof.
  induction ops as [|op ops IH]; intros b s fs fc rs b' Hr Hc Hp Hd; cbn in *.
  - injection Hc as <- <-. cbn. eauto.
  - destruct (cstep b op) as [r b1] eqn:Es. destruct (is_panic r) eqn:Ep.
    + injection Hc as <- <-. cbn in Hp. rewrite Ep in Hp. discriminate.
    + destruct (crun b1 ops) as [rs' b2] eqn:Er. injection Hc as <- <-. cbn in *. rewrite Ep in Hp. cbn in Hp.
      destruct Hd as [Hd Hd'].
      destruct (good_all _ _ _ _ _ Hr Hd _ _ Es) as [_ Hnext].
      destruct Hnext as [fs' [fc' Hr']]; [intros ->; discriminate|].
      eapply IH; eauto.
Qed.

(** After any disciplined history: writing through a handle obtained for field
    [i1] of object [o1] succeeds, a handle obtained for the same field reads the
    new value, and a handle obtained for any other field, of that or any other
    object (live or removed), reads what it read before. *)
Theorem C07_write_changes_exactly_one_field :
  forall k ops rs b,
    crun (baseline_new k) ops = (rs, b) -> existsb is_panic rs = false ->
    all_disciplined rs_empty ops rs ->
    let bound := is_bound (rs_bound (rfinal rs_empty ops rs)) in
    forall v h1 o1 i1, bound (prop_type v) h1 o1 i1 ->
    exists b', state_set b h1 v = (Ok tt, b') /\
      (forall t2 h2, bound t2 h2 o1 i1 -> t2 = prop_type v /\ state_get b' t2 h2 = Ok v) /\
      (forall t2 h2 o2 i2, bound t2 h2 o2 i2 -> (o2, i2) <> (o1, i1) ->
         state_get b' t2 h2 = state_get b t2 h2) /\
      b_channels b' = b_channels b /\ b_objects b' = b_objects b /\ b_contracts b' = b_contracts b.
Proof.
  intros k ops rs b Hc Hp Hd bound v h1 o1 i1 Hb1.
  destruct (rfinal_rrel _ _ _ _ _ _ _ (rrel_empty k) Hc Hp Hd) as [fs [fc Hr]].
  pose proof (rr_inv _ _ _ _ Hr) as Hb.
  destruct (bound_get _ _ _ _ _ _ _ _ Hr Hb1) as [ro1 [v1 [Ho1 [Hv1 [Ht1 [Hh1 Hl1]]]]]].
  destruct (state_set_spec b h1 v Hb) as [[Hn _]|[_ [m' [E [Hw Hl]]]]]; [congruence|].
  exists (with_states b m'). split; auto. split; [|split; [|auto]].
  - intros t2 h2 Hb2. destruct (bound_get _ _ _ _ _ _ _ _ Hr Hb2) as [ro2 [v2 [Ho2 [Hv2 [Ht2 [Hh2 Hl2]]]]]].
    assert (Et : t2 = prop_type v) by congruence. assert (Eh : h2 = h1) by congruence.
    rewrite Et, Eh.
    split; auto. apply state_get_ok. cbn [b_states with_states]. rewrite Hl, tm_same_refl. reflexivity.
  - intros t2 h2 o2 i2 Hb2 Hne.
    destruct (bound_get _ _ _ _ _ _ _ _ Hr Hb2) as [ro2 [v2 [Ho2 [Hv2 [Ht2 [Hh2 Hl2]]]]]].
    assert (Hg : tm_look m' t2 h2 = tm_look (b_states b) t2 h2).
    { rewrite Hl. destruct (tm_same (prop_type v) h1 t2 h2) eqn:Es; auto. exfalso.
      apply tm_same_true in Es. destruct Es as [Et <-]. apply Hne.
      destruct (ce_inj _ _ _ _ (rr_st _ _ _ _ Hr) o2 (ro_vals ro2) i2 v2 o1 (ro_vals ro1) i1 v1 h1) as [-> ->]; auto.
      - rewrite Ho2. reflexivity.
      - rewrite Ho1. reflexivity.
      - congruence. }
    rewrite Hl2 in Hg. rewrite (proj2 (state_get_ok (with_states b m') t2 h2 v2)) by auto.
    symmetry. apply state_get_ok. auto.
Qed.
Print Assumptions C07_write_changes_exactly_one_field.

(** A disciplined history: two objects, bindings, a write to one field, reads,
    removal of an object, reuse of its slot, reads through old bindings, and a
    wrong-contract binding. *)
Definition exRops : list rop :=
  [RRegister exC; RRegister exN;
   RCreate exC exH exVals [exChan]; RCreate exC exH exVals [exChan];
   RBind exC exH 0 (mkIndex 0 0%N); RBind exC exH 2 (mkIndex 0 0%N);
   RBind exC exH 0 (mkIndex 1 0%N);
   RSet (mkIndex 0 0%N) (PPrim (VU8 42));
   RGet (TPrim TU8) (mkIndex 0 0%N); RGet (TPrim TU8) (mkIndex 1 0%N); RGet (TPrim TU8) (mkIndex 2 0%N);
   RRemove exC (mkIndex 0 0%N); RCreate exC exH exVals [exChan];
   RGet (TPrim TU8) (mkIndex 0 0%N);
   RBind exC exH 0 (mkIndex 0 0%N); RBind exC exH 0 (mkIndex 0 1%N);
   RBind exN (mkIndex 1 0%N) 0 (mkIndex 0 1%N); RBind exC exH 3 (mkIndex 0 1%N);
   RUnregister exC exH [mkIndex 0 0%N; mkIndex 1 0%N; mkIndex 0 1%N]].
Definition exRanswers : list (outcome rret) :=
  [Ok (YHandle exH); Ok (YHandle (mkIndex 1 0%N));
   Ok (YHandle (mkIndex 0 0%N)); Ok (YHandle (mkIndex 1 0%N));
   Ok (YBound (TPrim TU8) (mkIndex 0 0%N)); Ok (YBound (TPrim TU8) (mkIndex 1 0%N));
   Ok (YBound (TPrim TU8) (mkIndex 2 0%N));
   Ok YUnit;
   Ok (YVal (PPrim (VU8 42))); Ok (YVal (PPrim (VU8 9))); Ok (YVal (PPrim (VU8 7)));
   Err EBindNoObject; Ok (YHandle (mkIndex 0 1%N));
   Ok (YVal (PPrim (VU8 42)));
   Err EBindNoObject; Ok (YBound (TPrim TU8) (mkIndex 4 0%N));
   Ok YNoField; Ok YNoField;
   Panic].
Example records_example :
  fst (crun (baseline_new KMain) exRops) = exRanswers /\
  all_disciplined rs_empty exRops exRanswers.
Proof.
  split; [vm_compute; reflexivity|].
  unfold exRops, exRanswers. cbn -[exC exN exVals exChan].
  repeat match goal with |- _ /\ _ => split end; auto;
    try (intros C' Hc; vm_compute in Hc; injection Hc as <-; reflexivity);
    try (repeat constructor; fail);
    try (eexists _, _; unfold is_bound; cbn; tauto).
Qed.

(** Without the discipline the property fails: [Contract::new] accepts any
    handle, so an id of a contract type with another layout binds to the object,
    and a write through its field 0 changes field 1. *)
Definition exBad : contract_ty :=
  mkCty (mkCid "ex.bad" (1%N, 0%N, 0%N)) [TPrim TString] ["s"] [] [].
Theorem C07_foreign_contract_type_aliases_refuted :
  exists b C C' c o id id' h b',
    reach b /\ ci_ty c = C /\
    (exists cd, con_at b (ci_handle c) = Some cd /\ cd_id cd = ct_id C) /\
    ct_id C' <> ct_id C /\
    ci_state_id c 1 = Some id /\
    ci_state_id (mkCinst C' (ci_handle c)) 0 = Some id' /\
    bind_state b id' o = Ok h /\
    obind (bind_state b id o) (state_get b (pid_type id)) = Ok (PPrim (VString "x")) /\
    state_set b h (PPrim (VString "overwritten")) = (Ok tt, b') /\
    obind (bind_state b' id o) (state_get b' (pid_type id)) = Ok (PPrim (VString "overwritten")).
Proof.
  eexists exB, exC, exBad, (mkCinst exC exH), (mkIndex 0 0%N), _, _, _, _.
  split; [exact exB_reach|]. split; [reflexivity|].
  split; [eexists; split; vm_compute; reflexivity|].
  split; [discriminate|].
  split; [vm_compute; reflexivity|]. split; [vm_compute; reflexivity|]. split; [vm_compute; reflexivity|].
  split; [vm_compute; reflexivity|]. split; vm_compute; reflexivity.
Qed.
Print Assumptions C07_foreign_contract_type_aliases_refuted.
