(** C03-C06, C08-C12, C32: contracts, objects, bindings, states and removal. *)
From Verif Require Import BaselineProofs BaselineMono.
Import Coq.Strings.String.StringSyntax.
Open Scope string_scope.
Open Scope list_scope.
Open Scope nat_scope.

(** ** C03 *)

(** [register_contract] succeeds exactly when no live contract has the same id. *)
Theorem C03_register_succeeds_iff_id_unused :
  forall b C, reach b ->
    ((exists c b', register_contract b C = (Ok c, b')) <->
     (forall h cd, con_at b h = Some cd -> cd_id cd <> ct_id C)).
Proof. exact c03_register_iff. Qed.
Print Assumptions C03_register_succeeds_iff_id_unused.

(** A call that does not succeed reports the error and changes nothing. *)
Theorem C03_failed_register_changes_nothing :
  forall b C r b', reach b -> register_contract b C = (r, b') -> is_ok r = false ->
    r = Err EContractAlreadyAdded /\ b' = b.
Proof. exact c03_register_fail. Qed.
Print Assumptions C03_failed_register_changes_nothing.

(** A successful call adds exactly one, empty, contract under a new handle. *)
Theorem C03_register_adds_one_contract :
  forall b C c b', reach b -> register_contract b C = (Ok c, b') ->
    ci_ty c = C /\ con_at b (ci_handle c) = None /\
    con_at b' (ci_handle c) = Some (mkCdata (ct_id C) []) /\
    (forall h, h <> ci_handle c -> con_at b' h = con_at b h) /\
    b_objects b' = b_objects b /\ b_states b' = b_states b /\
    b_channels b' = b_channels b /\ b_kind b' = b_kind b.
Proof. exact c03_register_ok. Qed.
Print Assumptions C03_register_adds_one_contract.

(** No two live contracts have the same id. *)
Theorem C03_ids_unique :
  forall b h1 h2 c1 c2, reach b ->
    con_at b h1 = Some c1 -> con_at b h2 = Some c2 -> cd_id c1 = cd_id c2 -> h1 = h2.
Proof. exact c03_ids_unique. Qed.
Print Assumptions C03_ids_unique.

(** A contract stays, with its id, until somebody unregisters its handle. *)
Theorem C03_registered_until_unregistered :
  forall b ops b' h cd, reach b -> bsteps b ops b' -> con_at b h = Some cd ->
    existsb (unregisters_op h) ops = false ->
    exists cd', con_at b' h = Some cd' /\ cd_id cd' = cd_id cd.
Proof. exact c03_persistent. Qed.
Print Assumptions C03_registered_until_unregistered.

(** ** C04 *)
Theorem C04_create_succeeds_iff_types_match :
  forall b c vs cs, reach b ->
    ((exists o b', object_create b c vs cs = (Ok o, b')) <->
     (con_at b (ci_handle c) <> None /\ map prop_type vs = ct_states (ci_ty c) /\
      map ch_type cs = ct_chans (ci_ty c))).
Proof. exact c04_create_iff. Qed.
Print Assumptions C04_create_succeeds_iff_types_match.

Theorem C04_failed_create_changes_nothing :
  forall b c vs cs r b', reach b -> object_create b c vs cs = (r, b') -> is_ok r = false ->
    r <> Panic /\ b' = b.
Proof. exact c04_create_fail. Qed.
Print Assumptions C04_failed_create_changes_nothing.

(** ** C05 *)
Theorem C05_create_disturbs_nothing_else :
  forall b c vs cs o b', reach b -> object_create b c vs cs = (Ok o, b') ->
    (* the handle resolved at no earlier moment of the baseline's life *)
    (forall b0 ops, reach b0 -> bsteps b0 ops b -> obj_at b0 o = None) /\
    (exists ob, obj_at b' o = Some ob /\ o_contract ob = ci_handle c /\ o_warp ob = timewarp_default) /\
    (forall o', o' <> o -> obj_at b' o' = obj_at b o') /\
    (forall t h v, st_at b t h = Some v -> st_at b' t h = Some v) /\
    (forall t h k, ch_at b t h = Some k -> ch_at b' t h = Some k) /\
    (forall h, h <> ci_handle c -> con_at b' h = con_at b h) /\
    (exists cd cd', con_at b (ci_handle c) = Some cd /\ con_at b' (ci_handle c) = Some cd' /\
       cd_id cd' = cd_id cd /\ (forall x, In x (cd_objects cd') <-> In x (cd_objects cd) \/ x = o)).
Proof. exact c05_create_frame. Qed.
Print Assumptions C05_create_disturbs_nothing_else.

(** ** C06 *)
Theorem C06_new_state_reads_back :
  forall b c vs cs o b' i v,
    reach b -> object_create b c vs cs = (Ok o, b') -> nth_error vs i = Some v ->
    exists id h, ci_state_id c i = Some id /\ bind_state b' id o = Ok h /\
      pid_type id = prop_type v /\ state_get b' (pid_type id) h = Ok v.
Proof. exact c06_readback_state. Qed.
Print Assumptions C06_new_state_reads_back.

Theorem C06_new_channel_reads_back :
  forall b c vs cs o b' i k,
    reach b -> object_create b c vs cs = (Ok o, b') -> nth_error cs i = Some k ->
    exists id h, ci_chan_id c i = Some id /\ bind_channel b' id o = Ok h /\
      pid_type id = ch_type k /\ channel_get b' (pid_type id) h = Ok k.
Proof. exact c06_readback_channel. Qed.
Print Assumptions C06_new_channel_reads_back.

(** ** C08 *)
Theorem C08_bind_state_exact :
  forall b id o h,
    bind_state b id o = Ok h <->
    exists ob, obj_at b o = Some ob /\ pid_contract id = o_contract ob /\
               nth_error (o_states ob) (pid_idx id) = Some h.
Proof. exact c08_bind_state_iff. Qed.
Print Assumptions C08_bind_state_exact.

Theorem C08_bind_channel_exact :
  forall b id o h,
    bind_channel b id o = Ok h <->
    exists ob, obj_at b o = Some ob /\ pid_contract id = o_contract ob /\
               nth_error (o_channels ob) (pid_idx id) = Some h.
Proof. exact c08_bind_channel_iff. Qed.
Print Assumptions C08_bind_channel_exact.

Theorem C08_bind_state_rejects_iff :
  forall b id o,
    ((obj_at b o = None) \/
     (exists ob, obj_at b o = Some ob /\
        (pid_contract id <> o_contract ob \/ length (o_states ob) <= pid_idx id))) <->
    exists e, bind_state b id o = Err e.
Proof. exact c08_bind_rejects. Qed.
Print Assumptions C08_bind_state_rejects_iff.

Theorem C08_bind_channel_rejects_iff :
  forall b id o,
    ((obj_at b o = None) \/
     (exists ob, obj_at b o = Some ob /\
        (pid_contract id <> o_contract ob \/ length (o_channels ob) <= pid_idx id))) <->
    exists e, bind_channel b id o = Err e.
Proof. exact c08_bind_channel_rejects. Qed.
Print Assumptions C08_bind_channel_rejects_iff.

(** A binding never changes while the object lives. *)
Theorem C08_state_binding_stable :
  forall b ops b' id o h, reach b -> bsteps b ops b' ->
    bind_state b id o = Ok h -> obj_at b' o <> None -> bind_state b' id o = Ok h.
Proof. exact c08_binding_stable. Qed.
Print Assumptions C08_state_binding_stable.

Theorem C08_channel_binding_stable :
  forall b ops b' id o h, reach b -> bsteps b ops b' ->
    bind_channel b id o = Ok h -> obj_at b' o <> None -> bind_channel b' id o = Ok h.
Proof. exact c08_binding_stable_channel. Qed.
Print Assumptions C08_channel_binding_stable.

(** [Object::state]/[Object::channel] agree with the checked versions, and panic
    exactly where those fail. *)
Theorem C08_object_accessors_agree :
  forall b id o ob, obj_at b o = Some ob ->
    (forall h, object_state ob id = Ok h <-> bind_state b id o = Ok h) /\
    (object_state ob id = Panic <-> exists e, bind_state b id o = Err e) /\
    (forall h, object_channel ob id = Ok h <-> bind_channel b id o = Ok h) /\
    (object_channel ob id = Panic <-> exists e, bind_channel b id o = Err e).
Proof.
  intros b id o ob Ho. unfold obj_at in Ho. unfold bind_state, bind_channel. rewrite Ho.
  unfold object_state, object_channel, object_bind.
  destruct (index_eqb (pid_contract id) (o_contract ob)); cbn.
  - destruct (nth_error (o_states ob) (pid_idx id)), (nth_error (o_channels ob) (pid_idx id)); cbn;
      repeat split; intros; try discriminate; eauto; try (destruct H; discriminate).
  - repeat split; intros; try discriminate; eauto.
Qed.
Print Assumptions C08_object_accessors_agree.

(** ** C09 *)
Theorem C09_state_has_handle_type :
  forall b t h v, reach b -> state_get b t h = Ok v -> prop_type v = t.
Proof. exact c09_state_typed. Qed.
Print Assumptions C09_state_has_handle_type.

Theorem C09_channel_has_handle_type :
  forall b t h c, reach b -> channel_get b t h = Ok c ->
    ch_type c = t /\ forall k, In k (ch_keys c) -> prop_type (k_value k) = t.
Proof. exact c09_channel_typed. Qed.
Print Assumptions C09_channel_has_handle_type.

Theorem C09_write_then_read :
  forall b h v b', reach b -> state_set b h v = (Ok tt, b') ->
    state_get b' (prop_type v) h = Ok v /\
    (forall t h', (t, h') <> (prop_type v, h) -> state_get b' t h' = state_get b t h') /\
    b_objects b' = b_objects b /\ b_contracts b' = b_contracts b /\ b_channels b' = b_channels b.
Proof. exact c09_write_read. Qed.
Print Assumptions C09_write_then_read.

(** A write succeeds exactly when a read does; a failing write changes nothing
    and neither accessor panics. *)
Theorem C09_write_succeeds_iff_readable :
  forall b h v r b', reach b -> state_set b h v = (r, b') ->
    (is_ok r = true <-> exists v0, state_get b (prop_type v) h = Ok v0) /\
    (is_ok r = false -> b' = b) /\ r <> Panic /\ state_get b (prop_type v) h <> Panic.
Proof.
  intros b h v r b' Hr H. pose proof (reach_binv _ Hr) as Hb.
  assert (Hnp : state_get b (prop_type v) h <> Panic) by apply tm_get_not_panic.
  destruct (state_set_spec b h v Hb) as [[Hn [e E]]|[Hn [m' [E _]]]]; rewrite E in H; injection H as <- <-; cbn.
  - repeat split; auto; try discriminate. intros [v0 H]. apply state_get_ok in H. congruence.
  - repeat split; auto; try discriminate. intros _.
    destruct (tm_look (b_states b) (prop_type v) h) as [v0|] eqn:E0; [|congruence].
    exists v0. apply state_get_ok. auto.
Qed.
Print Assumptions C09_write_succeeds_iff_readable.

(** Whatever is done through a handle that resolves to nothing fails with the error that
    reading gives, and changes nothing: reading, writing and removing agree. *)
Theorem C09_dead_handles_fail_alike :
  forall b h e,
    (forall v, state_get b (prop_type v) h = Err e -> state_set b h v = (Err e, b)) /\
    (forall t, state_get b t h = Err e -> state_remove b t h = (Err e, b)) /\
    (forall t ks, channel_get b t h = Err e -> channel_set_keys b t h ks = (Err e, b)) /\
    (forall t, channel_get b t h = Err e -> channel_remove b t h = (Err e, b)) /\
    (forall t, (state_get b t h = Err e \/ channel_get b t h = Err e) -> e = ENoArena \/ e = ENoSuchHandle).
Proof.
  intros b h e. unfold state_get, channel_get, tm_get, state_set, state_remove, channel_set_keys, channel_remove.
  split; [|split; [|split; [|split]]].
  - intros v H. destruct (b_states b (prop_type v)) as [a|]; [|congruence].
    destruct (get a h) eqn:G; cbn [ok_or] in H; [discriminate|]. rewrite (proj2 (set_none a h v) G). congruence.
  - intros t H. destruct (b_states b t) as [a|]; [|congruence].
    destruct (get a h) eqn:G; cbn [ok_or] in H; [discriminate|]. rewrite (remove_none a h G). congruence.
  - intros t ks H. destruct (b_channels b t) as [a|]; [|congruence].
    destruct (get a h) eqn:G; cbn [ok_or] in H; [discriminate|]. congruence.
  - intros t H. destruct (b_channels b t) as [a|]; [|congruence].
    destruct (get a h) eqn:G; cbn [ok_or] in H; [discriminate|]. rewrite (remove_none a h G). congruence.
  - intros t [H|H]; [destruct (b_states b t) as [a|]|destruct (b_channels b t) as [a|]]; try (left; congruence);
      destruct (get a h); cbn [ok_or] in H; try discriminate; right; congruence.
Qed.
Print Assumptions C09_dead_handles_fail_alike.

(** Removing answers what reading would have given, value or error, and leaves every other
    handle, of this type and of others, as it was. *)
Theorem C09_removal_returns_what_reading_gives :
  forall b t h,
    fst (state_remove b t h) = state_get b t h /\ fst (channel_remove b t h) = channel_get b t h /\
    (forall t' h', (t', h') <> (t, h) -> state_get (snd (state_remove b t h)) t' h' = state_get b t' h') /\
    (forall t' h', state_get (snd (channel_remove b t h)) t' h' = state_get b t' h').
Proof.
  intros b t h. unfold state_remove, channel_remove, state_get, channel_get, tm_get.
  assert (R : forall A (a : arena A), snd (aremove a h) = get a h) by (intros; apply remove_snd).
  split; [|split; [|split]].
  - destruct (b_states b t) as [a|]; [|reflexivity]. specialize (R _ a). destruct (aremove a h) as [a' [v|]]; cbn [fst snd] in *; rewrite <- R; reflexivity.
  - destruct (b_channels b t) as [a|]; [|reflexivity]. specialize (R _ a). destruct (aremove a h) as [a' [v|]]; cbn [fst snd] in *; rewrite <- R; reflexivity.
  - intros t' h' Hd. destruct (b_states b t) as [a|] eqn:Ea; [|reflexivity].
    destruct (aremove a h) as [a' [v|]] eqn:Er; cbn [snd b_states with_states]; [|reflexivity].
    unfold tm_set. destruct (ptype_eqb_spec t t') as [<-|N]; [|reflexivity]. rewrite Ea. unfold aremove in Er.
    destruct (nth_error (items a) (ix h)) as [[f|g w]|] eqn:En; try discriminate. destruct (N.eqb_spec g (gen h)) as [Eg|]; [|discriminate].
    injection Er as <- _. unfold get. cbn [items]. destruct (Nat.eq_dec (ix h) (ix h')) as [E|E].
    + rewrite <- E. rewrite nth_error_list_set_eq by (apply nth_error_Some; congruence). rewrite En.
      destruct (N.eqb_spec g (gen h')) as [F|F]; [|reflexivity]. destruct Hd. f_equal. destruct h, h'; cbn in *; congruence.
    + rewrite nth_error_list_set_neq by exact E. reflexivity.
  - intros t' h'. destruct (b_channels b t) as [a|]; [|reflexivity]. destruct (aremove a h) as [a' [v|]]; reflexivity.
Qed.
Print Assumptions C09_removal_returns_what_reading_gives.

(** ** C10: what object_remove does, exactly *)
Theorem C10_remove_exact_partial :
  forall b C o r b', reach b -> object_remove b C o = (r, b') ->
    (obj_at b o = None -> r = Err EObjectDidNotExist /\ b' = b) /\
    (forall ob, obj_at b o = Some ob ->
       r = (if fieldless C then Ok tt else Err EBindNoObject) /\
       obj_at b' o = None /\ (forall o', o' <> o -> obj_at b' o' = obj_at b o') /\
       b_states b' = b_states b /\ b_channels b' = b_channels b /\ b_contracts b' = b_contracts b).
Proof. exact c10_remove_exact. Qed.
Print Assumptions C10_remove_exact_partial.

(** ** C11: what unregister_contract does, exactly *)
Theorem C11_unregister_exact_partial :
  forall b C h ord r b', reach b ->
    (forall cd, con_at b h = Some cd -> Permutation ord (cd_objects cd)) ->
    unregister_contract b C h ord = (r, b') ->
    match con_at b h with
    | None => r = Err ENoContractToUnregister /\ b' = b
    | Some cd =>
        if contract_id_eqb (cd_id cd) (ct_id C) then
          ((r = Ok tt /\ con_at b' h = None /\
            (forall h', h' <> h -> con_at b' h' = con_at b h') /\
            (forall o, (exists ob, obj_at b o = Some ob /\ o_contract ob = h) -> obj_at b' o = None) /\
            (forall o, ~ (exists ob, obj_at b o = Some ob /\ o_contract ob = h) -> obj_at b' o = obj_at b o) /\
            b_states b' = b_states b /\ b_channels b' = b_channels b) /\
           (cd_objects cd = [] \/
            fieldless C = true /\ forall o, In o (cd_objects cd) -> obj_at b o <> None)) \/
          (r = Panic /\
           ~ (cd_objects cd = [] \/
              fieldless C = true /\ forall o, In o (cd_objects cd) -> obj_at b o <> None))
        else r = Err EHandleContractMismatch /\ b' = b
    end.
Proof. exact c11_unregister_exact. Qed.
Print Assumptions C11_unregister_exact_partial.

(** No other public operation of a baseline ever panics. *)
Theorem C11_only_unregister_panics :
  forall b op, reach b -> bop_ok b op -> fst (bstep b op) = Panic ->
    exists C h ord cd, op = BUnregister C h ord /\ con_at b h = Some cd /\
                       cd_id cd = ct_id C /\ cd_objects cd <> [].
Proof. exact bstep_panics_only_unregister. Qed.
Print Assumptions C11_only_unregister_panics.

(** ** C12 *)
Theorem C12_stale_object_never_resolves :
  forall b ops1 b1 ops2 b2 o ob,
    reach b -> bsteps b ops1 b1 -> bsteps b1 ops2 b2 ->
    obj_at b o = Some ob -> obj_at b1 o = None -> obj_at b2 o = None.
Proof. exact c12_object_stale. Qed.
Print Assumptions C12_stale_object_never_resolves.

Theorem C12_stale_contract_never_resolves :
  forall b ops1 b1 ops2 b2 h cd,
    reach b -> bsteps b ops1 b1 -> bsteps b1 ops2 b2 ->
    con_at b h = Some cd -> con_at b1 h = None -> con_at b2 h = None.
Proof. exact c12_contract_stale. Qed.
Print Assumptions C12_stale_contract_never_resolves.

(** ** C32 *)
Theorem C32_states_and_channels_only_grow :
  forall b ops b' t h, reach b -> bsteps b ops b' ->
    (st_at b t h <> None -> st_at b' t h <> None) /\
    (ch_at b t h <> None -> ch_at b' t h <> None).
Proof. exact c32_states_grow. Qed.
Print Assumptions C32_states_and_channels_only_grow.

(** ** Concrete baselines: the hypotheses above are met, and the clauses of C10
    and C11 that the code violates are violated by them. *)
Definition exC : contract_ty :=
  mkCty (mkCid "ex.ball" (1%N, 0%N, 0%N)) [TPrim TU8; TPrim TString; TPrim TU8] ["a"; "b"; "c"]
        [TPrim TF32] ["k"].
Definition exN : contract_ty := mkCty (mkCid "ex.null" (1%N, 0%N, 0%N)) [] [] [] [].
Definition exH : index := mkIndex 0 0%N.
Definition exChan : channel := mkChannel (TPrim TF32) [mkKey (PPrim (VF32 0)) 0].
Definition exVals : list dynprop := [PPrim (VU8 7); PPrim (VString "x"); PPrim (VU8 9)].

(** Run a list of operations from a new baseline, collecting the answers. *)
Fixpoint brun (b : baseline) (ops : list bop) : list (outcome bret) * baseline :=
  match ops with
  | [] => ([], b)
  | op :: t => let '(r, b1) := bstep b op in
               let '(rs, b2) := brun b1 t in (r :: rs, b2)
  end.

Fixpoint bops_ok (b : baseline) (ops : list bop) : Prop :=
  match ops with
  | [] => True
  | op :: t => bop_ok b op /\ is_panic (fst (bstep b op)) = false /\ bops_ok (snd (bstep b op)) t
  end.

Lemma bops_ok_steps ops : forall b, bops_ok b ops -> bsteps b ops (snd (brun b ops)).
Proof.
  induction ops as [|op t IH]; intros b H; cbn in *; [constructor|].
  destruct H as [Hok [Hp Ht]]. destruct (bstep b op) as [r b1] eqn:E. cbn in *.
  specialize (IH b1 Ht). destruct (brun b1 t) as [rs b2]. cbn in *.
  econstructor; eauto. intros ->. discriminate.
Qed.

Definition exOps : list bop :=
  [BRegister exC; BCreate (mkCinst exC exH) exVals [exChan];
   BCreate (mkCinst exC exH) exVals [exChan]].
Definition exB : baseline := snd (brun (baseline_new KMain) exOps).

Example exB_reach : reach exB.
Proof.
  exists KMain, exOps. apply bops_ok_steps. vm_compute. repeat split; repeat constructor.
Qed.

(** The two objects have distinct storage for equal types, the ids bind, a wrong
    index, a wrong contract and a dead object are rejected. *)
Example exB_reads :
  fst (brun (baseline_new KMain) exOps) =
    [Ok (RContract (mkCinst exC exH)); Ok (RHandle (mkIndex 0 0%N)); Ok (RHandle (mkIndex 1 0%N))] /\
  map (fun o => map (fun id => obind (bind_state exB id o) (state_get exB (pid_type id)))
                    (state_ids exC exH)) [mkIndex 0 0%N; mkIndex 1 0%N]
  = [map Ok exVals; map Ok exVals] /\
  bind_state exB (mkPid (TPrim TU8) 3 exH) (mkIndex 0 0%N) = Err EIdOutOfBounds /\
  bind_state exB (mkPid (TPrim TU8) 0 (mkIndex 1 0%N)) (mkIndex 0 0%N) = Err EIdWrongContract /\
  bind_state exB (mkPid (TPrim TU8) 0 exH) (mkIndex 2 0%N) = Err EBindNoObject /\
  fst (object_create exB (mkCinst exC exH) [PPrim (VU8 7)] [exChan]) = Err EFieldCountMismatch /\
  fst (object_create exB (mkCinst exC exH) [PPrim (VU8 7); PPrim (VU8 7); PPrim (VU8 7)] [exChan])
    = Err (EFieldTypeMismatch 1) /\
  fst (register_contract exB exC) = Err EContractAlreadyAdded /\
  is_ok (fst (register_contract exB exN)) = true.
Proof. vm_compute. auto 10. Qed.

(** C10, refuted: removing a live object of a contract that has fields returns an
    error although the object is gone, releases neither its states nor its
    channels, and leaves the handle in the contract's object set. *)
Theorem C10_remove_releases_data_refuted :
  exists b C o ob b',
    reach b /\ obj_at b o = Some ob /\
    (exists cd, con_at b (o_contract ob) = Some cd /\ cd_id cd = ct_id C) /\
    object_remove b C o = (Err EBindNoObject, b') /\
    obj_at b' o = None /\
    (exists cd, con_at b' (o_contract ob) = Some cd /\ In o (cd_objects cd)) /\
    (exists h, nth_error (o_states ob) 0 = Some h /\ st_at b' (TPrim TU8) h = Some (PPrim (VU8 7))) /\
    (exists h, nth_error (o_channels ob) 0 = Some h /\ ch_at b' (TPrim TF32) h = Some exChan).
Proof.
  eexists exB, exC, (mkIndex 0 0%N), _, _.
  split; [exact exB_reach|]. split; [vm_compute; reflexivity|].
  split; [eexists; split; vm_compute; reflexivity|].
  split; [vm_compute; reflexivity|]. split; [vm_compute; reflexivity|].
  split; [eexists; split; [vm_compute; reflexivity|vm_compute; auto]|].
  split; eexists; split; vm_compute; reflexivity.
Qed.
Print Assumptions C10_remove_releases_data_refuted.

(** C10, refuted for field-less contracts too: the call succeeds, but the stale
    handle stays in the contract's object set. *)
Definition exNOps : list bop := [BRegister exN; BCreate (mkCinst exN exH) [] []].
Definition exNB : baseline := snd (brun (baseline_new KMain) exNOps).
Example exNB_reach : reach exNB.
Proof. exists KMain, exNOps. apply bops_ok_steps. vm_compute. repeat split; repeat constructor. Qed.

Theorem C10_removed_object_stays_listed_refuted :
  exists b C o b',
    reach b /\ object_remove b C o = (Ok tt, b') /\ obj_at b' o = None /\
    exists h cd, con_at b' h = Some cd /\ In o (cd_objects cd).
Proof.
  eexists exNB, exN, (mkIndex 0 0%N), _.
  split; [exact exNB_reach|]. split; [vm_compute; reflexivity|]. split; [vm_compute; reflexivity|].
  eexists exH, _. split; [vm_compute; reflexivity|vm_compute; auto].
Qed.
Print Assumptions C10_removed_object_stays_listed_refuted.

(** C11, refuted: unregistering a contract with one live object panics if the
    contract has a field; and even without fields if an object was removed. *)
Theorem C11_unregister_panics_refuted :
  exists b C h cd,
    reach b /\ con_at b h = Some cd /\ cd_id cd = ct_id C /\
    fst (unregister_contract b C h (cd_objects cd)) = Panic.
Proof.
  eexists exB, exC, exH, _. split; [exact exB_reach|].
  split; [vm_compute; reflexivity|]. split; vm_compute; reflexivity.
Qed.
Print Assumptions C11_unregister_panics_refuted.

Definition exNOps2 : list bop := exNOps ++ [BRemove exN (mkIndex 0 0%N)].
Definition exNB2 : baseline := snd (brun (baseline_new KMain) exNOps2).
Example exNB2_reach : reach exNB2.
Proof. exists KMain, exNOps2. apply bops_ok_steps. vm_compute. repeat split; repeat constructor. Qed.

Theorem C11_unregister_after_remove_panics_refuted :
  exists b C h cd,
    reach b /\ fieldless C = true /\ con_at b h = Some cd /\ cd_id cd = ct_id C /\
    fst (unregister_contract b C h (cd_objects cd)) = Panic.
Proof.
  eexists exNB2, exN, exH, _. split; [exact exNB2_reach|]. split; [reflexivity|].
  split; [vm_compute; reflexivity|]. split; vm_compute; reflexivity.
Qed.
Print Assumptions C11_unregister_after_remove_panics_refuted.

(** Both outcomes of [C11_unregister_exact_partial] occur: with a live object and
    no fields the call succeeds and removes the object. *)
Example unregister_succeeds :
  fst (unregister_contract exNB exN exH [mkIndex 0 0%N]) = Ok tt /\
  obj_at (snd (unregister_contract exNB exN exH [mkIndex 0 0%N])) (mkIndex 0 0%N) = None /\
  con_at (snd (unregister_contract exNB exN exH [mkIndex 0 0%N])) exH = None.
Proof. vm_compute; auto. Qed.

(** C12/C32: an object is removed and its slot reused; the old handle is stale
    while its states still resolve. *)
Definition exRe : list bop :=
  [BRemove exC (mkIndex 0 0%N); BCreate (mkCinst exC exH) exVals [exChan]].
Example stale_object_example :
  bsteps exB exRe (snd (brun exB exRe)) /\
  fst (brun exB exRe) = [Err EBindNoObject; Ok (RHandle (mkIndex 0 1%N))] /\
  obj_at exB (mkIndex 0 0%N) <> None /\
  obj_at (snd (brun exB exRe)) (mkIndex 0 0%N) = None /\
  st_at (snd (brun exB exRe)) (TPrim TU8) (mkIndex 0 0%N) = Some (PPrim (VU8 7)).
Proof.
  split; [apply bops_ok_steps; vm_compute; repeat split; repeat constructor|].
  vm_compute. repeat split; auto; discriminate.
Qed.
