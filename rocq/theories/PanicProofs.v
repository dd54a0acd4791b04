(** Baselines that go on being used after a caught panic. *)
From Verif Require Export BaselineMono.

(** ** Specification *)

(** [csteps b ops b']: performing [ops] on [b] gives [b'].  When one of them panics, the caller
    catches the panic ([std::panic::catch_unwind], or a lock whose poisoning is ignored) and goes on
    using the baseline as the panic left it. *)
Inductive csteps : baseline -> list bop -> baseline -> Prop :=
| csteps_nil b : csteps b [] b
| csteps_cons b op r b1 ops b2 :
    bop_ok b op -> bstep b op = (r, b1) -> csteps b1 ops b2 -> csteps b (op :: ops) b2.
Definition creach (b : baseline) : Prop := exists k ops, csteps (baseline_new k) ops b.

(** What every history without a panic keeps (C05, C11): a live object's contract is registered, and
    lists it. *)
Definition consistent (b : baseline) : Prop := forall o ob, obj_at b o = Some ob ->
  exists cd, con_at b (o_contract ob) = Some cd /\ In o (cd_objects cd).

(** ** The invariant *)
Record cinv (b : baseline) : Prop := {
  pi_obj : ainv (b_objects b);
  pi_con : ainv (b_contracts b);
  pi_st : tm_wf (b_states b);
  pi_ch : tm_wf (b_channels b);
  pi_st_ty : forall t h v, tm_look (b_states b) t h = Some v -> prop_type v = t;
  pi_ch_ty : forall t h c, tm_look (b_channels b) t h = Some c -> ch_type c = t /\ channel_wt c;
  pi_ids : forall h1 h2 c1 c2, get (b_contracts b) h1 = Some c1 -> get (b_contracts b) h2 = Some c2 ->
             cd_id c1 = cd_id c2 -> h1 = h2;
  pi_con_obj : forall h cd o, get (b_contracts b) h = Some cd -> In o (cd_objects cd) ->
             dead (b_objects b) o \/ exists ob, get (b_objects b) o = Some ob /\ o_contract ob = h;
  pi_nodup : forall h cd, get (b_contracts b) h = Some cd -> NoDup (cd_objects cd)
}.

Lemma binv_cinv b : binv b -> cinv b.
Proof. intros []. constructor; auto. Qed.

Lemma p_register_spec b C :
  cinv b ->
  (has_contract_id b (ct_id C) /\ register_contract b C = (Err EContractAlreadyAdded, b)) \/
  (~ has_contract_id b (ct_id C) /\ exists cs h,
     insert (b_contracts b) (mkCdata (ct_id C) []) = Ok (cs, h) /\
     register_contract b C = (Ok (mkCinst C h), with_contracts b cs)).
Proof.
  intros Hb. unfold register_contract.
  destruct (existsb _ _) eqn:E.
  - left. split; auto. apply register_exists; auto.
  - right. split.
    + intros H. apply register_exists in H. congruence.
    + destruct (insert_ok _ (mkCdata (ct_id C) []) (pi_con _ Hb)) as [cs [h Hi]].
      exists cs, h. rewrite Hi. auto.
Qed.

Lemma p_register_cinv b C r b' : cinv b -> register_contract b C = (r, b') -> cinv b' /\ r <> Panic.
Proof.
  intros Hb Hr. destruct (p_register_spec b C Hb) as [[_ E]|[Hno [cs [h [Hi E]]]]]; rewrite E in Hr;
    injection Hr as <- <-; [split; [auto|discriminate]|]. split; [|discriminate].
  pose proof (insert_fresh _ _ _ _ (pi_con _ Hb) Hi) as Hfresh.
  assert (Hg : forall h', get cs h' = if index_eqb h h' then Some (mkCdata (ct_id C) []) else get (b_contracts b) h')
    by (intros; eapply insert_get; eauto using pi_con).
  destruct Hb. constructor; cbn; auto.
  - eapply insert_inv; eauto.
  - intros h1 h2 c1 c2. rewrite !Hg.
    destruct (index_eqb_spec h h1) as [<-|H1], (index_eqb_spec h h2) as [<-|H2]; auto; intros E1 E2 Ei.
    + exfalso. apply Hno. injection E1 as <-. exists h2, c2. auto.
    + exfalso. apply Hno. injection E2 as <-. exists h1, c1. auto.
    + eauto.
  - intros h' cd o. rewrite Hg. destruct (index_eqb_spec h h'); [|eauto].
    intros E1. injection E1 as <-. cbn. tauto.
  - intros h' cd. rewrite Hg. destruct (index_eqb_spec h h'); [|eauto].
    intros E1. injection E1 as <-. constructor.
Qed.

Lemma p_create_spec b c vs cs :
  cinv b ->
  (~ creatable b c vs cs /\ exists e, object_create b c vs cs = (Err e, b)) \/
  (creatable b c vs cs /\ exists oh ob b', object_create b c vs cs = (Ok oh, b') /\ created b c vs cs oh ob b').
Proof.
  intros Hb. unfold object_create, creatable.
  destruct (contains (b_contracts b) (ci_handle c)) eqn:Ec; cbn [negb].
  2:{ left. split; [|eauto]. intros [H _]. apply contains_get in H. congruence. }
  apply contains_get in Ec.
  destruct (check_types_cases (map prop_type vs) 0 (ct_states (ci_ty c))) as [[Es Hs]|[Es [e Hs]]]; rewrite Hs.
  2:{ left. split; [tauto|eauto]. }
  destruct (check_types_cases (map ch_type cs) 0 (ct_chans (ci_ty c))) as [[Eh Hh]|[Eh [e Hh]]]; rewrite Hh.
  2:{ left. split; [tauto|eauto]. }
  right. split; [auto|].
  destruct (states_create_ok vs b (pi_st _ Hb)) as [shs [ms [E1 I1]]]. rewrite E1.
  destruct (channels_create_ok cs (with_states b ms) (pi_ch _ Hb)) as [chs [mc [E2 I2]]]. rewrite E2.
  cbn in I2 |- *.
  set (ob := mkObject shs chs (ci_handle c) timewarp_default).
  destruct (insert_ok _ ob (pi_obj _ Hb)) as [os [oh Hi]]. rewrite Hi.
  destruct (get (b_contracts b) (ci_handle c)) as [cd|] eqn:Hg; [|congruence].
  destruct (set (b_contracts b) (ci_handle c) _) as [cts|] eqn:Hset.
  2:{ apply set_none in Hset. congruence. }
  eexists oh, ob, _. split; [reflexivity|].
  constructor; cbn; auto; [eauto| |].
  - apply tm_ins_spec; auto. apply pi_st; auto.
  - apply tm_ins_spec; auto. apply pi_ch; auto.
Qed.

Lemma p_created_contracts b c vs cs oh ob b' h :
  cinv b -> created b c vs cs oh ob b' ->
  get (b_contracts b') h =
    if index_eqb (ci_handle c) h
    then option_map (fun cd => mkCdata (cd_id cd) (set_insert oh (cd_objects cd))) (get (b_contracts b) h)
    else get (b_contracts b) h.
Proof.
  intros Hb Hc. destruct (cr_con _ _ _ _ _ _ _ Hc) as [cd [Hg Hs]].
  rewrite (set_get _ _ _ _ h (pi_con _ Hb) Hs).
  destruct (index_eqb_spec (ci_handle c) h); [subst; rewrite Hg|]; reflexivity.
Qed.

Lemma p_created_cinv b c vs cs oh ob b' :
  cinv b -> Forall channel_wt cs -> created b c vs cs oh ob b' -> cinv b'.
Proof.
  intros Hb Hwt Hc.
  pose proof (fun h => p_created_contracts b c vs cs oh ob b' h Hb Hc) as Hcon.
  destruct Hc as [_ Hoc _ Hi [cd0 [Hcd0 Hset]] Hst Hch].
  pose proof (fun h' => insert_get (b_objects b) ob (b_objects b') oh h' (pi_obj _ Hb) Hi) as Hog.
  pose proof (insert_fresh _ _ _ _ (pi_obj _ Hb) Hi) as Hfresh.
  pose proof (insert_not_dead _ _ _ _ (pi_obj _ Hb) Hi) as Hnd.
  constructor.
  - eapply insert_inv; eauto using pi_obj.
  - eapply set_inv; eauto using pi_con.
  - eapply is_wf; eauto.
  - eapply is_wf; eauto.
  - intros t h v Hv. destruct (is_only _ _ _ _ _ Hst _ _ _ Hv) as [Hv'|[i [_ [_ Ht]]]]; auto.
    eapply pi_st_ty; eauto.
  - intros t h v Hv. destruct (is_only _ _ _ _ _ Hch _ _ _ Hv) as [Hv'|[i [Hx [_ Ht]]]].
    + eapply pi_ch_ty; eauto.
    + split; auto. rewrite Forall_forall in Hwt. apply Hwt. eapply nth_error_In; eauto.
  - intros h1 h2 c1 c2. rewrite !Hcon.
    assert (Hx : forall h c', (if index_eqb (ci_handle c) h
       then option_map (fun cd => mkCdata (cd_id cd) (set_insert oh (cd_objects cd))) (get (b_contracts b) h)
       else get (b_contracts b) h) = Some c' -> exists c'', get (b_contracts b) h = Some c'' /\ cd_id c'' = cd_id c').
    { intros h c'. destruct (index_eqb (ci_handle c) h); eauto.
      destruct (get (b_contracts b) h) as [c''|]; [|discriminate]. cbn. intros E; injection E as <-. eauto. }
    intros E1 E2 Ei. destruct (Hx _ _ E1) as [d1 [G1 I1]], (Hx _ _ E2) as [d2 [G2 I2]].
    eapply pi_ids; eauto. congruence.
  - intros h cd o. rewrite Hcon.
    assert (Hold : forall cd', get (b_contracts b) h = Some cd' -> In o (cd_objects cd') ->
              dead (b_objects b') o \/ exists ob0, get (b_objects b') o = Some ob0 /\ o_contract ob0 = h).
    { intros cd' Hg Hin. destruct (pi_con_obj _ Hb _ _ _ Hg Hin) as [Hd|[ob0 [Hg0 He]]].
      - left. eapply dead_insert; eauto using pi_obj.
      - right. exists ob0. split; auto. rewrite Hog. destruct (index_eqb_spec oh o); [congruence|auto]. }
    destruct (index_eqb_spec (ci_handle c) h) as [<-|Hne]; [|eauto].
    rewrite Hcd0. cbn. intros E; injection E as <-. cbn. rewrite set_insert_in. intros [->|Hin]; [|eauto].
    right. exists ob. rewrite Hog, index_eqb_refl. auto.
  - intros h cd. rewrite Hcon. destruct (index_eqb (ci_handle c) h); [|eapply pi_nodup; eauto].
    destruct (get (b_contracts b) h) as [cd'|] eqn:Eg; [|discriminate]. cbn. intros E; injection E as <-.
    cbn. apply set_insert_nodup. eapply pi_nodup; eauto.
Qed.

Lemma p_remove_cinv b o : cinv b -> cinv (with_objects b (fst (aremove (b_objects b) o))).
Proof.
  intros Hb. pose proof (pi_obj _ Hb) as Ha. pose proof Hb as Hb'. destruct Hb.
  constructor; cbn; auto.
  - apply remove_inv; auto.
  - intros h cd o' Hg Hin. destruct (pi_con_obj0 _ _ _ Hg Hin) as [Hd|[ob [Ho Hc]]].
    + left. apply dead_remove; auto.
    + destruct (index_eqb_spec o o') as [<-|Hne].
      * left. eapply removed_dead; eauto.
      * right. exists ob. split; auto. rewrite remove_get by auto.
        destruct (index_eqb_spec o o'); [congruence|auto].
Qed.

Lemma p_object_remove_cinv b C o r b' : cinv b -> object_remove b C o = (r, b') -> cinv b' /\ r <> Panic.
Proof.
  intros Hb H. rewrite object_remove_spec in H by (apply pi_obj; auto). injection H as <- <-.
  split; [apply p_remove_cinv; auto|]. unfold remove_result.
  destruct (get (b_objects b) o); [destruct (fieldless C)|]; discriminate.
Qed.

Lemma p_unregister_spec b C h ord :
  cinv b ->
  (forall cd, get (b_contracts b) h = Some cd -> Permutation ord (cd_objects cd)) ->
  (get (b_contracts b) h = None /\ unregister_contract b C h ord = (Err ENoContractToUnregister, b)) \/
  (exists cd, get (b_contracts b) h = Some cd /\
     ((cd_id cd <> ct_id C /\ unregister_contract b C h ord = (Err EHandleContractMismatch, b)) \/
      (cd_id cd = ct_id C /\
        ((exists b', unregister_contract b C h ord = (Ok tt, b') /\ unregisters b C h b') \/
         (((exists o, In o (cd_objects cd) /\ get (b_objects b) o = None) \/
           (cd_objects cd <> [] /\ fieldless C = false)) /\
          fst (unregister_contract b C h ord) = Panic))))).
Proof.
  intros Hb Hord. unfold unregister_contract.
  destruct (get (b_contracts b) h) as [cd|] eqn:Eg; [|left; auto]. right. exists cd. split; auto.
  specialize (Hord cd eq_refl).
  destruct (contract_id_eqb_spec (cd_id cd) (ct_id C)) as [Ei|Ei]; cbn [negb]; [right|left; auto].
  split; auto.
  destruct (set (b_contracts b) h (mkCdata (cd_id cd) [])) as [cts|] eqn:Es.
  2:{ apply set_none in Es. congruence. }
  assert (Hnd : NoDup ord).
  { eapply Permutation_NoDup; [apply Permutation_sym; eauto|]. eapply pi_nodup; eauto. }
  destruct (remove_all_spec C ord (with_contracts b cts) (pi_obj _ Hb) Hnd)
    as [[os' [E [Hrm [Hl Hf]]]]|[Hbad E]].
  - left. rewrite E. eexists. split; [reflexivity|].
    pose proof (set_inv _ _ _ _ (pi_con _ Hb) Es) as Hcts.
    assert (Hcg : forall h', get cts h' = if index_eqb h h' then Some (mkCdata (cd_id cd) []) else get (b_contracts b) h')
      by (intros; eapply set_get; eauto using pi_con).
    exists cd, os'. cbn in *. repeat (split; [auto; fail|]).
    split; [eapply objs_removed_perm; eauto|].
    split; [intros o Ho; apply Hl; eapply Permutation_in; [apply Permutation_sym|]; eauto|].
    split.
    { destruct Hf as [->|]; auto. left. apply Permutation_nil; auto. }
    repeat (split; [reflexivity|]).
    split; [apply remove_inv; auto|]. split; [|split].
    + intros h'. rewrite remove_get by auto. rewrite Hcg. destruct (index_eqb h h'); auto.
    + intros h' Hd. apply dead_remove; auto. exact (dead_set _ _ _ _ _ (pi_con _ Hb) Es Hd).
    + eapply removed_dead with (v := mkCdata (cd_id cd) []); auto. rewrite Hcg, index_eqb_refl. reflexivity.
  - right. cbn in Hbad. split.
    + destruct Hbad as [[o [Ho Hn]]|[Hne Hf]].
      * left. exists o. split; auto. eapply Permutation_in; eauto.
      * right. split; auto. intros E0. rewrite E0 in Hord. apply Permutation_sym, Permutation_nil in Hord. congruence.
    + destruct (remove_all (with_contracts b cts) C ord) as [[u|e|] b2]; cbn in *; congruence.
Qed.

Lemma p_unregister_cinv b C h b' : cinv b -> unregisters b C h b' -> cinv b'.
Proof.
  intros Hb [cd [os' [Hg [Hid [[Ho1 [Ho2 [Ho3 Ho4]]] [Hall [_ [_ [Eo [Es [Ec [Hci [Hcg [_ _]]]]]]]]]]]]]]. 
  constructor; rewrite ?Eo, ?Es, ?Ec; auto; try apply Hb.
  - intros h1 h2 c1 c2. rewrite !Hcg. destruct (index_eqb h h1); [discriminate|].
    destruct (index_eqb h h2); [discriminate|]. apply Hb.
  - intros h' cd' o. rewrite Hcg. destruct (index_eqb_spec h h') as [|Hne]; [discriminate|].
    intros Hc Hin. destruct (pi_con_obj _ Hb _ _ _ Hc Hin) as [Hd|[ob [Hob Heq]]]; [left; auto|].
    right. exists ob. split; auto. rewrite Ho2. destruct (existsb (index_eqb o) (cd_objects cd)) eqn:E; auto.
    exfalso. apply existsb_index_in in E. destruct (pi_con_obj _ Hb _ _ _ Hg E) as [[Hn _]|[ob' [Hob' Heq']]]; congruence.
  - intros h' cd'. rewrite Hcg. destruct (index_eqb h h'); [discriminate|]. apply Hb.
Qed.

Lemma p_state_set_spec b h v :
  cinv b ->
  (tm_look (b_states b) (prop_type v) h = None /\ exists e, state_set b h v = (Err e, b)) \/
  (tm_look (b_states b) (prop_type v) h <> None /\ exists m', state_set b h v = (Ok tt, with_states b m') /\
     tm_wf m' /\ forall t' h', tm_look m' t' h' =
        if tm_same (prop_type v) h t' h' then Some v else tm_look (b_states b) t' h').
Proof.
  intros Hb. unfold state_set.
  destruct (b_states b (prop_type v)) as [a|] eqn:E.
  2:{ left. unfold tm_look. rewrite E. eauto. }
  assert (Hlk : tm_look (b_states b) (prop_type v) h = get a h) by (unfold tm_look; rewrite E; reflexivity).
  destruct (set a h v) as [a'|] eqn:Es.
  - right. destruct (tm_write_spec _ _ _ _ _ _ (pi_st _ Hb) E Es) as [Hw [Hn Hl]].
    split; auto. eexists; eauto.
  - left. apply set_none in Es. rewrite Hlk. eauto.
Qed.

Lemma p_state_set_cinv b h v r b' : cinv b -> state_set b h v = (r, b') -> cinv b' /\ r <> Panic.
Proof.
  intros Hb H. destruct (p_state_set_spec b h v Hb) as [[_ [e E]]|[_ [m' [E [Hw Hl]]]]]; rewrite E in H;
    injection H as <- <-; (split; [|discriminate]); auto.
  destruct Hb. constructor; cbn; auto.
  intros t h' v'. rewrite Hl. destruct (tm_same (prop_type v) h t h') eqn:Ee; [|eauto].
  apply tm_same_true in Ee. destruct Ee as [<- <-]. congruence.
Qed.

Lemma p_channel_set_spec b t h ks :
  cinv b ->
  (tm_look (b_channels b) t h = None /\ exists e, channel_set_keys b t h ks = (Err e, b)) \/
  (exists c m', tm_look (b_channels b) t h = Some c /\ channel_set_keys b t h ks = (Ok tt, with_channels b m') /\
     tm_wf m' /\ forall t' h', tm_look m' t' h' =
        if tm_same t h t' h' then Some (mkChannel (ch_type c) ks) else tm_look (b_channels b) t' h').
Proof.
  intros Hb. unfold channel_set_keys.
  destruct (b_channels b t) as [a|] eqn:E.
  2:{ left. unfold tm_look. rewrite E. eauto. }
  assert (Hlk : tm_look (b_channels b) t h = get a h) by (unfold tm_look; rewrite E; reflexivity).
  rewrite Hlk.
  destruct (get a h) as [c|] eqn:Eg; [|left; eauto].
  destruct (set a h (keyframes_set c ks)) as [a'|] eqn:Es.
  - right. destruct (tm_write_spec _ _ _ _ _ _ (pi_ch _ Hb) E Es) as [Hw [Hn Hl]].
    exists c. eexists; eauto.
  - apply set_none in Es. congruence.
Qed.

Lemma p_channel_set_cinv b t h ks r b' :
  cinv b -> Forall (fun k => prop_type (k_value k) = t) ks ->
  channel_set_keys b t h ks = (r, b') -> cinv b' /\ r <> Panic.
Proof.
  intros Hb Hk H. destruct (p_channel_set_spec b t h ks Hb) as [[_ [e E]]|[c [m' [Hc [E [Hw Hl]]]]]]; rewrite E in H;
    injection H as <- <-; (split; [|discriminate]); auto.
  pose proof (pi_ch_ty _ Hb _ _ _ Hc) as [Hty _].
  destruct Hb. constructor; cbn; auto.
  intros t' h' v'. rewrite Hl. destruct (tm_same t h t' h') eqn:Ee; [|eauto].
  apply tm_same_true in Ee. destruct Ee as [<- <-]. intros Ei; injection Ei as <-. cbn.
  split; auto. unfold channel_wt; cbn. rewrite Hty. exact Hk.
Qed.

Lemma p_set_warp_spec b o w :
  cinv b ->
  (get (b_objects b) o = None /\ object_set_warp b o w = (Err ENoSuchHandle, b)) \/
  (exists ob os, get (b_objects b) o = Some ob /\
     object_set_warp b o w = (Ok tt, with_objects b os) /\
     set (b_objects b) o (mkObject (o_states ob) (o_channels ob) (o_contract ob) w) = Some os /\
     ainv os /\ (forall o', dead (b_objects b) o' -> dead os o') /\
     forall o', get os o' = if index_eqb o o'
        then Some (mkObject (o_states ob) (o_channels ob) (o_contract ob) w) else get (b_objects b) o').
Proof.
  intros Hb. unfold object_set_warp. destruct (get (b_objects b) o) as [ob|] eqn:E; [|left; auto].
  right. destruct (set (b_objects b) o _) as [os|] eqn:Es.
  - exists ob, os. split; [auto|]. split; [auto|]. split; [auto|]. split; [|split].
    + eapply set_inv; eauto using pi_obj.
    + intros o' Hd. exact (dead_set _ _ _ _ _ (pi_obj _ Hb) Es Hd).
    + intros o'. eapply set_get; eauto using pi_obj.
  - apply set_none in Es. congruence.
Qed.

Lemma p_set_warp_cinv b o w r b' : cinv b -> object_set_warp b o w = (r, b') -> cinv b' /\ r <> Panic.
Proof.
  intros Hb H. destruct (p_set_warp_spec b o w Hb) as [[_ E]|[ob [os [Ho [E [_ [Ha [Hd Hg]]]]]]]]; rewrite E in H;
    injection H as <- <-; (split; [|discriminate]); auto.
  destruct Hb. constructor; cbn; auto.
  - intros h cd o' Hc Hin. destruct (pi_con_obj0 _ _ _ Hc Hin) as [Hd'|[ob' [Ho' He]]]; [left; auto|].
    right. rewrite Hg. destruct (index_eqb_spec o o') as [<-|]; [|eauto].
    rewrite Ho in Ho'. injection Ho' as <-. eexists; split; [reflexivity|]. auto.
Qed.

(** ** What the panic leaves behind *)
Lemma p_remove_all_panic C : forall ord b b',
  ainv (b_objects b) -> NoDup ord -> remove_all b C ord = (Panic, b') ->
  exists pre o post os', ord = pre ++ o :: post /\
    (forall x, In x pre -> get (b_objects b) x <> None) /\
    (fieldless C = true /\ get (b_objects b) o = None \/ fieldless C = false /\ pre = []) /\
    b' = with_objects b os' /\ objs_removed (b_objects b) os' (pre ++ [o]).
Proof.
  induction ord as [|o ord IH]; intros b b' Ha Hnd E; [discriminate|].
  inversion Hnd as [|? ? Hni Hnd']; subst. cbn [remove_all] in E.
  rewrite object_remove_spec in E by auto.
  set (os1 := fst (aremove (b_objects b) o)) in *.
  assert (Ha1 : ainv os1) by (apply remove_inv; auto).
  assert (Hg1 : forall x, get os1 x = if index_eqb o x then None else get (b_objects b) x)
    by (intros; apply remove_get; auto).
  assert (Hstop : objs_removed (b_objects b) os1 ([] ++ [o])).
  { split; [auto|]. split; [|split].
    - intros x. rewrite Hg1. cbn. rewrite orb_false_r.
      destruct (index_eqb_spec o x) as [->|]; [rewrite index_eqb_refl; auto|].
      destruct (index_eqb_spec x o); [congruence|auto].
    - intros x. apply dead_remove; auto.
    - intros x [<-|[]] Hn. destruct (get (b_objects b) o) eqn:Eg; [|congruence]. eapply removed_dead; eauto. }
  unfold remove_result in E.
  destruct (get (b_objects b) o) as [ob|] eqn:Eo.
  2:{ injection E as <-. exists [], o, ord, os1. split; [reflexivity|]. split; [intros x []|].
      split; [|auto]. destruct (fieldless C); auto. }
  destruct (fieldless C) eqn:Ef.
  2:{ injection E as <-. exists [], o, ord, os1. split; [reflexivity|]. split; [intros x []|]. auto. }
  destruct (IH (with_objects b os1) b' Ha1 Hnd' E) as [pre [o' [post [os' [-> [Hl [Hc [-> [Hai [Hg [Hd1 Hd2]]]]]]]]]]].
  cbn in Hl, Hc, Hg, Hd1, Hd2 |- *.
  assert (Hnin : forall x, In x pre \/ x = o' -> x <> o).
  { intros x Hx ->. apply Hni, in_or_app. destruct Hx as [Hx| ->]; [auto|right; left; auto]. }
  exists (o :: pre), o', post, os'. split; [reflexivity|]. split; [|split; [|split; [reflexivity|]]].
  - intros x [<-|Hx]; [congruence|]. specialize (Hl x Hx). rewrite Hg1 in Hl.
    destruct (index_eqb o x); [congruence|auto].
  - destruct Hc as [[_ Hn]|[? _]]; [|congruence]. left. split; auto. rewrite Hg1 in Hn.
    destruct (index_eqb_spec o o') as [<-|]; auto. destruct (Hnin o (or_intror eq_refl) eq_refl).
  - split; [auto|]. split; [|split].
    + intros x. rewrite Hg, Hg1. cbn [app existsb].
      destruct (index_eqb_spec x o) as [->|Hne]; cbn.
      * rewrite index_eqb_refl. destruct (existsb _ _); auto.
      * destruct (existsb (index_eqb x) (pre ++ [o'])); auto. destruct (index_eqb_spec o x); [congruence|auto].
    + intros x Hx. apply Hd1. apply dead_remove; auto.
    + intros x [<-|Hx] Hn.
      * apply Hd1. eapply removed_dead; eauto.
      * apply Hd2; auto. rewrite Hg1. destruct (index_eqb_spec o x); [|auto]. subst x.
        apply in_app_or in Hx. destruct (Hnin o); [|reflexivity].
        destruct Hx as [Hx|[Hx|[]]]; auto.
Qed.

Definition panicked (b : baseline) (C : contract_ty) (h : index) (ord : list index) (b' : baseline) : Prop :=
  exists cd pre o post, get (b_contracts b) h = Some cd /\ cd_id cd = ct_id C /\ ord = pre ++ o :: post /\
    (forall x, In x pre -> get (b_objects b) x <> None) /\
    (fieldless C = true /\ get (b_objects b) o = None \/ fieldless C = false /\ pre = []) /\
    objs_removed (b_objects b) (b_objects b') (pre ++ [o]) /\
    b_kind b' = b_kind b /\ b_states b' = b_states b /\ b_channels b' = b_channels b /\
    ainv (b_contracts b') /\
    (forall h', get (b_contracts b') h' = if index_eqb h h' then Some (mkCdata (cd_id cd) []) else get (b_contracts b) h') /\
    (forall h', dead (b_contracts b) h' -> dead (b_contracts b') h').

Lemma p_panicked b C h ord b' :
  cinv b -> (forall cd, get (b_contracts b) h = Some cd -> Permutation ord (cd_objects cd)) ->
  unregister_contract b C h ord = (Panic, b') -> panicked b C h ord b'.
Proof.
  intros Hb Hord. unfold unregister_contract.
  destruct (get (b_contracts b) h) as [cd|] eqn:Eg; [|discriminate].
  specialize (Hord cd eq_refl).
  destruct (contract_id_eqb_spec (cd_id cd) (ct_id C)) as [Ei|Ei]; cbn [negb]; [|discriminate].
  destruct (set (b_contracts b) h (mkCdata (cd_id cd) [])) as [cts|] eqn:Es.
  2:{ apply set_none in Es. congruence. }
  assert (Hnd : NoDup ord).
  { eapply Permutation_NoDup; [apply Permutation_sym; eauto|]. eapply pi_nodup; eauto. }
  assert (Hfst := remove_all_spec C ord (with_contracts b cts) (pi_obj _ Hb) Hnd).
  destruct (remove_all (with_contracts b cts) C ord) as [[u|e|] b2] eqn:E; [discriminate| |].
  { destruct Hfst as [[os' [F _]]|[_ F]]; discriminate F. }
  intros F. injection F as <-.
  destruct (p_remove_all_panic C ord (with_contracts b cts) b2 (pi_obj _ Hb) Hnd E) as [pre [o [post [os' [-> [Hl [Hc [-> Hrm]]]]]]]].
  exists cd, pre, o, post. cbn in *. repeat (split; [auto; fail|]).
  split; [eapply set_inv; eauto using pi_con|]. split.
  - intros h'. eapply set_get; eauto using pi_con.
  - intros h' Hd. exact (dead_set _ _ _ _ _ (pi_con _ Hb) Es Hd).
Qed.

Lemma p_panicked_cinv b C h ord b' : cinv b -> panicked b C h ord b' -> cinv b'.
Proof.
  intros Hb [cd [pre [o [post [Hg [Hid [-> [Hl [Hc [[Ho1 [Ho2 [Ho3 Ho4]]] [Hk [Es [Ec [Hci [Hcg Hcd]]]]]]]]]]]]]]].
  constructor; rewrite ?Es, ?Ec; auto; try apply Hb.
  - assert (Hold : forall h0 c, get (b_contracts b') h0 = Some c ->
              exists c0, get (b_contracts b) h0 = Some c0 /\ cd_id c0 = cd_id c).
    { intros h0 c. rewrite Hcg. destruct (index_eqb_spec h h0) as [<-|]; [|eauto].
      intros E; injection E as <-. exists cd. auto. }
    intros h1 h2 c1 c2 H1 H2 Ei. destruct (Hold _ _ H1) as [d1 [G1 I1]], (Hold _ _ H2) as [d2 [G2 I2]].
    eapply pi_ids; eauto. congruence.
  - intros h' cd' x. rewrite Hcg. destruct (index_eqb_spec h h') as [<-|Hne].
    { intros E; injection E as <-. intros []. }
    intros Hg' Hin. destruct (pi_con_obj _ Hb _ _ _ Hg' Hin) as [Hd|[ob [Hob Heq]]]; [left; auto|].
    destruct (existsb (index_eqb x) (pre ++ [o])) eqn:E.
    + left. apply existsb_index_in in E. apply Ho4; auto. congruence.
    + right. exists ob. rewrite Ho2, E. auto.
  - intros h' cd'. rewrite Hcg. destruct (index_eqb h h'); [|apply Hb].
    intros E; injection E as <-. constructor.
Qed.

(** ** Every step *)
Lemma cstep_cinv b op r b' : cinv b -> bop_ok b op -> bstep b op = (r, b') -> cinv b'.
Proof.
  intros Hb Hok Hs. destruct op; cbn [bstep] in Hs; unfold ret_map in Hs.
  - destruct (register_contract b C) as [r0 b0] eqn:E. cbn in Hs. injection Hs as <- <-.
    eapply p_register_cinv; eauto.
  - destruct (unregister_contract b C h ord) as [[u|e|] b0] eqn:E; cbn in Hs; injection Hs as <- <-.
    1,2: destruct (p_unregister_spec b C h ord Hb Hok) as [[_ F]|[cd [_ [[_ F]|[_ [[b1 [F Hu]]|[_ F]]]]]]];
      rewrite E in F; try discriminate F; try (injection F as -> ->; auto; fail).
    + injection F as _ ->. eapply p_unregister_cinv; eauto.
    + eapply p_panicked_cinv; [eauto|]. eapply p_panicked; eauto.
  - destruct (p_create_spec b c vs cs Hb) as [[_ [e E]]|[_ [oh [ob [b1 [E Hc]]]]]]; rewrite E in Hs;
      injection Hs as <- <-; auto. eapply p_created_cinv; eauto.
  - destruct (object_remove b C o) as [r0 b0] eqn:E. cbn in Hs. injection Hs as <- <-.
    eapply p_object_remove_cinv; eauto.
  - destruct (state_set b h v) as [r0 b0] eqn:E. cbn in Hs. injection Hs as <- <-.
    eapply p_state_set_cinv; eauto.
  - destruct (channel_set_keys b t h ks) as [r0 b0] eqn:E. cbn in Hs. injection Hs as <- <-.
    eapply p_channel_set_cinv; eauto.
  - destruct (object_set_warp b o w) as [r0 b0] eqn:E. cbn in Hs. injection Hs as <- <-.
    eapply p_set_warp_cinv; eauto.
Qed.

Lemma csteps_cinv b ops b' : cinv b -> csteps b ops b' -> cinv b'.
Proof. intros Hb Hs. induction Hs; auto. apply IHHs. eapply cstep_cinv; eauto. Qed.

Lemma creach_cinv b : creach b -> cinv b.
Proof. intros [k [ops Hs]]. eapply csteps_cinv; eauto using binv_cinv, binv_new. Qed.

Lemma bsteps_csteps b ops b' : bsteps b ops b' -> csteps b ops b'.
Proof. intros H. induction H; econstructor; eauto. Qed.
Lemma reach_creach b : reach b -> creach b.
Proof. intros [k [ops H]]. exists k, ops. apply bsteps_csteps; auto. Qed.
Lemma csteps_app b ops b1 ops' b2 : csteps b ops b1 -> csteps b1 ops' b2 -> csteps b (ops ++ ops') b2.
Proof. intros H. induction H; cbn; auto. intros. econstructor; eauto. Qed.
Lemma creach_csteps b ops b' : creach b -> csteps b ops b' -> creach b'.
Proof. intros [k [o1 H]] H'. exists k, (o1 ++ ops). eapply csteps_app; eauto. Qed.

(** ** What any such history preserves *)
Record pmono (b b' : baseline) : Prop := {
  pm_kind : b_kind b' = b_kind b;
  pm_st : forall t h, tm_look (b_states b) t h <> None -> tm_look (b_states b') t h <> None;
  pm_ch : forall t h, tm_look (b_channels b) t h <> None -> tm_look (b_channels b') t h <> None;
  pm_obj : forall o ob, get (b_objects b) o = Some ob ->
     (exists ob', get (b_objects b') o = Some ob' /\ o_states ob' = o_states ob /\
        o_channels ob' = o_channels ob /\ o_contract ob' = o_contract ob) \/ dead (b_objects b') o;
  pm_obj_dead : forall o, dead (b_objects b) o -> dead (b_objects b') o;
  pm_con : forall h cd, get (b_contracts b) h = Some cd ->
     (exists cd', get (b_contracts b') h = Some cd' /\ cd_id cd' = cd_id cd) \/ dead (b_contracts b') h;
  pm_con_dead : forall h, dead (b_contracts b) h -> dead (b_contracts b') h
}.

Lemma pmono_refl b : pmono b b.
Proof. constructor; auto; intros; left; eauto. Qed.

Lemma pmono_trans b1 b2 b3 : pmono b1 b2 -> pmono b2 b3 -> pmono b1 b3.
Proof.
  intros H1 H2. constructor.
  - rewrite (pm_kind _ _ H2). apply H1.
  - intros t h H. apply H2, H1; auto.
  - intros t h H. apply H2, H1; auto.
  - intros o ob H. destruct (pm_obj _ _ H1 _ _ H) as [[ob' [Hg [E1 [E2 E3]]]]|Hd].
    + destruct (pm_obj _ _ H2 _ _ Hg) as [[ob'' [Hg' [F1 [F2 F3]]]]|Hd]; [left|right; auto].
      exists ob''. repeat split; congruence.
    + right. apply H2; auto.
  - intros o H. apply H2, H1; auto.
  - intros h cd H. destruct (pm_con _ _ H1 _ _ H) as [[cd' [Hg E1]]|Hd].
    + destruct (pm_con _ _ H2 _ _ Hg) as [[cd'' [Hg' F1]]|Hd]; [left|right; auto].
      exists cd''. split; [auto|congruence].
    + right. apply H2; auto.
  - intros h H. apply H2, H1; auto.
Qed.

Lemma cstep_mono b op r b' :
  cinv b -> bop_ok b op -> bstep b op = (r, b') -> pmono b b'.
Proof.
  intros Hb Hok Hs. pose proof (pmono_refl b) as Hrefl.
  destruct op; cbn [bstep] in Hs; unfold ret_map in Hs.
  - destruct (p_register_spec b C Hb) as [[_ E]|[Hno [cs [h [Hi E]]]]]; rewrite E in Hs;
      injection Hs as <- <-; auto.
    constructor; cbn; auto; try apply Hrefl.
    + intros h' cd Hg. left. exists cd. split; [|auto].
      rewrite (insert_get _ _ _ _ h' (pi_con _ Hb) Hi).
      destruct (index_eqb_spec h h') as [<-|]; auto.
      pose proof (insert_fresh _ _ _ _ (pi_con _ Hb) Hi). congruence.
    + intros h' Hd. eapply dead_insert; eauto using pi_con.
  - destruct (unregister_contract b C h ord) as [[u|e|] b0] eqn:Eu; cbn in Hs; injection Hs as <- <-.
    1,2: destruct (p_unregister_spec b C h ord Hb Hok) as [[_ F]|[cd [_ [[_ F]|[_ [[b1 [F Hu]]|[_ F]]]]]]];
      rewrite Eu in F; try discriminate F; try (injection F as -> ->; auto; fail).
    + injection F as _ ->.
      destruct Hu as [cd' [os' [Hg [Hid [[Ho1 [Ho2 [Ho3 Ho4]]] [Hall [_ [Ek [Eo [Es [Ec [Hci [Hcg [Hcd Hdh]]]]]]]]]]]]]].
      constructor; auto; rewrite ?Es, ?Ec, ?Eo; auto.
      * intros o ob Hob. destruct (existsb (index_eqb o) (cd_objects cd')) eqn:Ex.
        -- right. apply existsb_index_in in Ex. apply Ho4; auto.
        -- left. exists ob. rewrite Ho2, Ex. auto.
      * intros h' cd'' Hg'. destruct (index_eqb_spec h h') as [<-|Hne]; [right; auto|].
        left. exists cd''. rewrite Hcg. destruct (index_eqb_spec h h'); [congruence|]. auto.
    + destruct (p_panicked _ _ _ _ _ Hb Hok Eu)
        as [cd [pre [o [post [Hg [Hid [-> [Hl [Hc [[Ho1 [Ho2 [Ho3 Ho4]]] [Hk [Es [Ec [Hci [Hcg Hcd]]]]]]]]]]]]]]].
      constructor; auto; rewrite ?Es, ?Ec; auto.
      * intros x ob Hob. destruct (existsb (index_eqb x) (pre ++ [o])) eqn:Ex.
        -- right. apply existsb_index_in in Ex. apply Ho4; auto. congruence.
        -- left. exists ob. rewrite Ho2, Ex. auto.
      * intros h' cd' Hg'. left. rewrite Hcg. destruct (index_eqb_spec h h') as [<-|Hne]; [|eauto].
        rewrite Hg in Hg'. injection Hg' as <-. eexists; split; [reflexivity|]. reflexivity.
  - destruct (p_create_spec b c vs cs Hb) as [[_ [e E]]|[_ [oh [ob [b1 [E Hc]]]]]]; rewrite E in Hs;
      injection Hs as <- <-; auto.
    pose proof (fun h => p_created_contracts b c vs cs oh ob b1 h Hb Hc) as Hcon.
    destruct Hc as [Hk Hoc _ Hi [cd0 [Hcd0 Hset]] Hst Hch].
    constructor; auto.
    + intros t h Hn. destruct (tm_look (b_states b) t h) as [v|] eqn:Ev; [|congruence].
      rewrite (is_old _ _ _ _ _ Hst _ _ _ Ev). discriminate.
    + intros t h Hn. destruct (tm_look (b_channels b) t h) as [v|] eqn:Ev; [|congruence].
      rewrite (is_old _ _ _ _ _ Hch _ _ _ Ev). discriminate.
    + intros o ob' Hg. left. exists ob'. split; auto.
      rewrite (insert_get _ _ _ _ o (pi_obj _ Hb) Hi). destruct (index_eqb_spec oh o) as [<-|]; auto.
      pose proof (insert_fresh _ _ _ _ (pi_obj _ Hb) Hi). congruence.
    + intros o Hd. eapply dead_insert; eauto using pi_obj.
    + intros h cd Hg. left. rewrite Hcon. destruct (index_eqb (ci_handle c) h).
      * rewrite Hg. cbn. eexists. split; reflexivity.
      * exists cd. auto.
    + intros h Hd. exact (dead_set _ _ _ _ _ (pi_con _ Hb) Hset Hd).
  - rewrite object_remove_spec in Hs by (apply pi_obj; auto). cbn in Hs. injection Hs as _ <-.
    pose proof (pi_obj _ Hb) as Ha.
    constructor; cbn; auto; try apply Hrefl.
    + intros o' ob Hg. destruct (index_eqb_spec o o') as [<-|Hne].
      * right. eapply removed_dead; eauto.
      * left. exists ob. rewrite remove_get by auto. destruct (index_eqb_spec o o'); [congruence|auto].
    + intros o' Hd. apply dead_remove; auto.
  - destruct (p_state_set_spec b h v Hb) as [[_ [e E]]|[_ [m' [E [Hw Hl]]]]]; rewrite E in Hs;
      injection Hs as <- <-; auto.
    constructor; cbn; auto; try apply Hrefl.
    intros t h' Hn. rewrite Hl. destruct (tm_same _ _ _ _); [discriminate|auto].
  - destruct (p_channel_set_spec b t h ks Hb) as [[_ [e E]]|[c [m' [Hc [E [Hw Hl]]]]]]; rewrite E in Hs;
      injection Hs as <- <-; auto.
    constructor; cbn; auto; try apply Hrefl.
    intros t' h' Hn. rewrite Hl. destruct (tm_same _ _ _ _); [discriminate|auto].
  - destruct (p_set_warp_spec b o w Hb) as [[_ E]|[ob [os [Ho [E [_ [Ha [Hd Hg]]]]]]]]; rewrite E in Hs;
      injection Hs as <- <-; auto.
    constructor; cbn; auto; try apply Hrefl.
    intros o' ob' Ho'. left. rewrite Hg. destruct (index_eqb_spec o o') as [<-|]; [|eauto].
    rewrite Ho in Ho'. injection Ho' as <-. eexists; split; [reflexivity|]. auto.
Qed.

Lemma csteps_mono b ops b' : cinv b -> csteps b ops b' -> pmono b b'.
Proof.
  intros Hb Hs. induction Hs as [b|b op r b1 ops b2 Hok Hst Hs IH]; [apply pmono_refl|].
  eapply pmono_trans; [eapply cstep_mono; eauto|]. apply IH. eapply cstep_cinv; eauto.
Qed.


(** ** Contracts of live objects were registered once *)
Lemma cstep_objs b op r b' o ob' :
  cinv b -> bop_ok b op -> bstep b op = (r, b') -> get (b_objects b') o = Some ob' ->
  (exists ob, get (b_objects b) o = Some ob /\ o_contract ob = o_contract ob') \/
  get (b_contracts b') (o_contract ob') <> None.
Proof.
  intros Hb Hok Hs. destruct op; cbn [bstep] in Hs; unfold ret_map in Hs.
  - destruct (p_register_spec b C Hb) as [[_ E]|[Hno [cs [h [Hi E]]]]]; rewrite E in Hs;
      injection Hs as <- <-; cbn; eauto.
  - destruct (unregister_contract b C h ord) as [[u|e|] b0] eqn:Eu; cbn in Hs; injection Hs as <- <-.
    1,2: destruct (p_unregister_spec b C h ord Hb Hok) as [[_ F]|[cd [_ [[_ F]|[_ [[b1 [F Hu]]|[_ F]]]]]]];
      rewrite Eu in F; try discriminate F; try (injection F as -> ->; eauto; fail).
    + injection F as _ ->. destruct Hu as [cd' [os' [_ [_ [[_ [Ho2 _]] [_ [_ [_ [-> _]]]]]]]]].
      rewrite Ho2. destruct (existsb _ _); [discriminate|eauto].
    + destruct (p_panicked _ _ _ _ _ Hb Hok Eu) as [cd [pre [x [post [_ [_ [_ [_ [_ [[_ [Ho2 _]] _]]]]]]]]]].
      rewrite Ho2. destruct (existsb _ _); [discriminate|eauto].
  - destruct (p_create_spec b c vs cs Hb) as [[_ [e E]]|[_ [oh [ob [b1 [E Hc]]]]]]; rewrite E in Hs;
      injection Hs as <- <-; eauto.
    pose proof (p_created_contracts b c vs cs oh ob b1 (ci_handle c) Hb Hc) as Hcon.
    rewrite index_eqb_refl in Hcon. destruct Hc as [_ Hoc _ Hi [cd0 [Hcd0 _]] _ _].
    rewrite (insert_get _ _ _ _ o (pi_obj _ Hb) Hi). destruct (index_eqb_spec oh o) as [<-|]; [|eauto].
    intros E'; injection E' as <-. right. rewrite Hoc, Hcon, Hcd0. discriminate.
  - rewrite object_remove_spec in Hs by (apply pi_obj; auto). cbn in Hs. injection Hs as _ <-. cbn.
    rewrite remove_get by (apply pi_obj; auto). destruct (index_eqb _ _); [discriminate|eauto].
  - destruct (p_state_set_spec b h v Hb) as [[_ [e E]]|[_ [m' [E [Hw Hl]]]]]; rewrite E in Hs;
      injection Hs as <- <-; cbn; eauto.
  - destruct (p_channel_set_spec b t h ks Hb) as [[_ [e E]]|[c [m' [Hc [E [Hw Hl]]]]]]; rewrite E in Hs;
      injection Hs as <- <-; cbn; eauto.
  - destruct (p_set_warp_spec b o0 w Hb) as [[_ E]|[ob [os [Ho [E [_ [Ha [Hd Hg]]]]]]]]; rewrite E in Hs;
      injection Hs as <- <-; [eauto|]. cbn. rewrite Hg. destruct (index_eqb_spec o0 o) as [<-|]; [|eauto].
    intros E'; injection E' as <-. left. exists ob. auto.
Qed.

Definition once (b : baseline) : Prop := forall o ob, get (b_objects b) o = Some ob ->
  get (b_contracts b) (o_contract ob) <> None \/ dead (b_contracts b) (o_contract ob).

Lemma csteps_once b ops b' : cinv b -> once b -> csteps b ops b' -> once b'.
Proof.
  intros Hb Ho Hs. induction Hs as [b|b op r b1 ops b2 Hok Hst Hs IH]; [auto|].
  apply IH; [eapply cstep_cinv; eauto|]. intros o ob Hob.
  pose proof (cstep_mono _ _ _ _ Hb Hok Hst) as Hm.
  destruct (cstep_objs _ _ _ _ _ _ Hb Hok Hst Hob) as [[ob0 [H0 E]]|]; [|auto].
  rewrite <- E. destruct (Ho _ _ H0) as [Hn|Hd].
  - destruct (get (b_contracts b) (o_contract ob0)) as [cd|] eqn:Eg; [|congruence].
    destruct (pm_con _ _ Hm _ _ Eg) as [[cd' [-> _]]|]; [left; discriminate|auto].
  - right. apply Hm; auto.
Qed.
Lemma creach_once b : creach b -> once b.
Proof.
  intros [k [ops H]]. eapply csteps_once; [apply binv_cinv, binv_new| |exact H].
  intros o ob Ho. cbn -[arena_new] in Ho. rewrite arena_new_get in Ho. discriminate.
Qed.
