(** C14, in terms of records (C07): what a client that asserts the value of a field relies on. *)
From Verif Require Import Dynamic Baseline Engine BaselineSpec BaselineProofs RecordSpec RecordProofs PropertiesDynamic PropertiesRecord PropertiesBaseline PropertiesEngine.
Open Scope list_scope.
Open Scope nat_scope.

(** [same v d]: the two are values of one type, equal in the sense of that type's [==]. *)
Definition same (v d : dynprop) : Prop :=
  exists t (x y : rtype t), v = dyn_from t x /\ d = dyn_from t y /\ rtype_eqb t x y = true.

(** Any history of the fork, through any calls; a collaction that asserts values of fields,
    each by a handle obtained for that field.  It is accepted if every one of those fields
    holds the asserted value, and rejected otherwise; neither changes the realm.  (A handle
    obtained before its object was removed still names the field, C10.) *)
Theorem C14_assertions_are_about_records :
  forall k ops rs r c,
    RecordSpec.crun (baseline_new k) ops = (rs, r_fork r) -> existsb is_panic rs = false ->
    RecordSpec.all_disciplined rs_empty ops rs ->
    let s := rfinal rs_empty ops rs in
    (forall a, In a c -> exists h d o i, a = StateAssert h d /\ is_bound (rs_bound s) (dh_type h) (dh_index h) o i) ->
    let holds := forall h d o i, In (StateAssert h d) c -> is_bound (rs_bound s) (dh_type h) (dh_index h) o i ->
      exists ro v, rs_obj s o = Some ro /\ nth_error (ro_vals ro) i = Some v /\ same v d in
    (holds /\ apply_collaction r c = (Ok (Accepted c), r)) \/
    (~ holds /\ apply_collaction r c = (Ok (Rejected c), r)).
Proof.
  intros k ops rs r c Hc Hp Hd s Ha holds.
  destruct (rfinal_rrel _ _ _ _ _ _ _ (rrel_empty k) Hc Hp Hd) as [fs [fc Hr]]. fold s in Hr.
  assert (W : Forall (fun a => ~ is_write a) c).
  { apply Forall_forall. intros a K [h' [d' ->]]. destruct (Ha _ K) as (h & d & o & i & E & _). discriminate. }
  assert (G : forall h o i, is_bound (rs_bound s) (dh_type h) (dh_index h) o i ->
              exists ro v, rs_obj s o = Some ro /\ nth_error (ro_vals ro) i = Some v /\ state_get (r_fork r) (dh_type h) (dh_index h) = Ok v).
  { intros h o i B. destruct (bound_get _ _ _ _ _ _ _ _ Hr B) as [ro [v [H1 [H2 [H3 [H4 H5]]]]]].
    exists ro, v. split; [exact H1|]. split; [exact H2|]. apply state_get_ok. exact H5. }
  destruct (C14_accepted_iff_assertions_hold r c W) as [A [R O]].
  assert (E : holds <-> forall h d, In (StateAssert h d) c -> assertion_holds (r_fork r) h d).
  { split.
    - intros Hh h d K. destruct (Ha _ K) as (h' & d' & o & i & E & B). injection E as <- <-.
      destruct (Hh h d o i K B) as (ro & v & H1 & H2 & H3). destruct (G _ _ _ B) as (ro' & v' & H4 & H5 & H6).
      exists v. split; [congruence|exact H3].
    - intros Hh h d o i K B. destruct (Hh h d K) as (v & H1 & H2). destruct (G _ _ _ B) as (ro & v' & H4 & H5 & H6).
      exists ro, v'. split; [exact H4|]. split; [exact H5|]. replace v' with v by congruence. exact H2. }
  destruct O as [O|O].
  - left. split; [exact (proj2 E (proj1 A O))|exact O].
  - right. split; [|exact O]. intros Hh. pose proof (proj2 A (proj1 E Hh)) as Q. rewrite O in Q. discriminate.
Qed.
Print Assumptions C14_assertions_are_about_records.

(** Two objects; an assertion about a field of each, one of them written since. *)
Definition asOps : list RecordSpec.rop :=
  [RRegister exC; RCreate exC exH exVals [exChan]; RCreate exC exH exVals [exChan];
   RBind exC exH 0 (mkIndex 0 0%N); RBind exC exH 0 (mkIndex 1 0%N); RSet (mkIndex 0 0%N) (PPrim (VU8 42))].
Definition asAns : list (outcome rret) := fst (RecordSpec.crun (baseline_new KFork) asOps).
Definition asRealm : realm := mkRealm Coq.Strings.String.EmptyString 0%Z (baseline_new KMain) (snd (RecordSpec.crun (baseline_new KFork) asOps)).
Definition asH (n : nat) : dyn_handle := mkDh (TPrim TU8) (mkIndex n 0%N).
Example C14_assertions_met :
  RecordSpec.crun (baseline_new KFork) asOps = (asAns, r_fork asRealm) /\ existsb is_panic asAns = false /\
  RecordSpec.all_disciplined rs_empty asOps asAns /\
  is_bound (rs_bound (rfinal rs_empty asOps asAns)) (TPrim TU8) (mkIndex 0 0%N) (mkIndex 0 0%N) 0 /\
  is_bound (rs_bound (rfinal rs_empty asOps asAns)) (TPrim TU8) (mkIndex 2 0%N) (mkIndex 1 0%N) 0 /\
  fst (apply_collaction asRealm [StateAssert (asH 0) (PPrim (VU8 42)); StateAssert (asH 2) (PPrim (VU8 7))]) =
    Ok (Accepted [StateAssert (asH 0) (PPrim (VU8 42)); StateAssert (asH 2) (PPrim (VU8 7))]) /\
  fst (apply_collaction asRealm [StateAssert (asH 0) (PPrim (VU8 42)); StateAssert (asH 2) (PPrim (VU8 42))]) =
    Ok (Rejected [StateAssert (asH 0) (PPrim (VU8 42)); StateAssert (asH 2) (PPrim (VU8 42))]).
Proof.
  split; [apply surjective_pairing|]. split; [vm_compute; reflexivity|]. split.
  { replace asAns with ([Ok (YHandle exH); Ok (YHandle (mkIndex 0 0%N)); Ok (YHandle (mkIndex 1 0%N));
      Ok (YBound (TPrim TU8) (mkIndex 0 0%N)); Ok (YBound (TPrim TU8) (mkIndex 2 0%N)); Ok YUnit]) by (vm_compute; reflexivity).
    unfold asOps. cbn -[exC exVals exChan].
    repeat match goal with |- _ /\ _ => split end; auto;
      try (intros C' Hc; vm_compute in Hc; injection Hc as <-; reflexivity);
      try (repeat constructor; fail); try (eexists _, _; unfold is_bound; cbn; tauto). }
  split; [vm_compute; tauto|]. split; [vm_compute; tauto|]. split; vm_compute; reflexivity.
Qed.
