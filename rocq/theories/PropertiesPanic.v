(** C61: using a baseline again after a caught panic. *)
From Verif Require Import PanicProofs PropertiesBaseline.

(** Only [unregister_contract] panics, also on a baseline that has been through panics. *)
Theorem C61_only_unregister_panics : forall b op,
  creach b -> bop_ok b op -> fst (bstep b op) = Panic -> exists C h ord, op = BUnregister C h ord.
Proof.
  intros b op Hr Hok. apply creach_cinv in Hr. destruct op; cbn [bstep]; unfold ret_map; cbn [fst].
  - destruct (register_contract b C) as [r b'] eqn:E. destruct (p_register_cinv _ _ _ _ Hr E) as [_ Hn].
    cbn. destruct r; cbn; congruence.
  - eauto.
  - destruct (p_create_spec b c vs cs Hr) as [[_ [e E]]|[_ [oh [ob [b1 [E Hc]]]]]]; rewrite E; discriminate.
  - destruct (object_remove b C o) as [r b'] eqn:E. destruct (p_object_remove_cinv _ _ _ _ _ Hr E) as [_ Hn].
    cbn. destruct r; cbn; congruence.
  - destruct (state_set b h v) as [r b'] eqn:E. destruct (p_state_set_cinv _ _ _ _ _ Hr E) as [_ Hn].
    cbn. destruct r; cbn; congruence.
  - destruct (channel_set_keys b t h ks) as [r b'] eqn:E.
    destruct (p_channel_set_cinv _ _ _ _ _ _ Hr Hok E) as [_ Hn]. cbn. destruct r; cbn; congruence.
  - destruct (object_set_warp b o w) as [r b'] eqn:E. destruct (p_set_warp_cinv _ _ _ _ _ Hr E) as [_ Hn].
    cbn. destruct r; cbn; congruence.
Qed.
Print Assumptions C61_only_unregister_panics.

(** When it does: the contract lists an object, and its type has a field or a listed object is gone. *)
Theorem C61_panics_iff : forall b C h ord, creach b ->
  (forall cd, con_at b h = Some cd -> Permutation ord (cd_objects cd)) ->
  (fst (unregister_contract b C h ord) = Panic <->
   exists cd, con_at b h = Some cd /\ cd_id cd = ct_id C /\
     ((cd_objects cd <> [] /\ fieldless C = false) \/ exists o, In o (cd_objects cd) /\ obj_at b o = None)).
Proof.
  intros b C h ord Hr Hord. apply creach_cinv in Hr. unfold con_at, obj_at in *.
  destruct (p_unregister_spec b C h ord Hr Hord) as [[Hg E]|[cd [Hg [[Hi E]|[Hi [[b1 [E Hu]]|[Hbad E]]]]]]].
  - rewrite E. split; [discriminate|]. intros [cd [H _]]. congruence.
  - rewrite E. split; [discriminate|]. intros [cd' [H [H' _]]]. congruence.
  - rewrite E. split; [discriminate|]. intros [cd' [H [_ Hbad]]].
    destruct Hu as [cd'' [os' [Hg' [_ [_ [Hall [Hf _]]]]]]]. rewrite Hg in Hg', H. injection Hg' as <-.
    injection H as <-. destruct Hbad as [[Hne Hf']|[o [Ho Hn]]]; [destruct Hf; congruence|].
    destruct (Hall _ Ho Hn).
  - split; [|auto]. intros _. exists cd. split; auto. split; auto. destruct Hbad; auto.
Qed.
Print Assumptions C61_panics_iff.

(** What the panic leaves behind: the contract stays registered but lists no object any more; of the
    objects it listed, in the order the set is walked, those up to and including the one that could
    not be removed are gone: the first one if the type has a field, else all up to the first that was gone already. *)
Theorem C61_panic_exact : forall b C h ord b', creach b ->
  (forall cd, con_at b h = Some cd -> Permutation ord (cd_objects cd)) ->
  unregister_contract b C h ord = (Panic, b') ->
  exists cd pre o post, con_at b h = Some cd /\ ord = pre ++ o :: post /\
    (forall x, In x pre -> obj_at b x <> None) /\
    (if fieldless C then obj_at b o = None else pre = []) /\
    con_at b' h = Some (mkCdata (cd_id cd) []) /\
    (forall h', h' <> h -> con_at b' h' = con_at b h') /\
    (forall x, In x (pre ++ [o]) -> obj_at b' x = None) /\
    (forall x, ~ In x (pre ++ [o]) -> obj_at b' x = obj_at b x) /\
    b_states b' = b_states b /\ b_channels b' = b_channels b /\ b_kind b' = b_kind b.
Proof.
  intros b C h ord b' Hr Hord E. apply creach_cinv in Hr.
  destruct (p_panicked _ _ _ _ _ Hr Hord E)
    as [cd [pre [o [post [Hg [Hid [-> [Hl [Hc [[Ho1 [Ho2 [Ho3 Ho4]]] [Hk [Es [Ec [Hci [Hcg Hcd]]]]]]]]]]]]]]].
  exists cd, pre, o, post. unfold con_at, obj_at. split; [auto|]. split; [auto|]. split; [auto|].
  split; [destruct (fieldless C), Hc as [[]|[]]; auto; discriminate|].
  split; [rewrite Hcg, index_eqb_refl; reflexivity|].
  split; [intros h' Hn; rewrite Hcg; destruct (index_eqb_spec h h'); congruence|].
  split; [intros x Hx; apply existsb_index_in in Hx; rewrite Ho2, Hx; reflexivity|].
  split; [|auto]. intros x Hx. rewrite Ho2. destruct (existsb (index_eqb x) (pre ++ [o])) eqn:Ex; auto.
  apply existsb_index_in in Ex. contradiction.
Qed.
Print Assumptions C61_panic_exact.

(** What caught panics do not break: contract ids are unique, handles are typed, a contract lists no
    object twice and no live object of another contract. *)
Theorem C61_still_sound : forall b, creach b ->
  (forall h1 h2 c1 c2, con_at b h1 = Some c1 -> con_at b h2 = Some c2 -> cd_id c1 = cd_id c2 -> h1 = h2) /\
  (forall t h v, state_get b t h = Ok v -> prop_type v = t) /\
  (forall t h c, channel_get b t h = Ok c -> ch_type c = t /\ forall k, In k (ch_keys c) -> prop_type (k_value k) = t) /\
  (forall h cd, con_at b h = Some cd -> NoDup (cd_objects cd)) /\
  (forall h cd o ob, con_at b h = Some cd -> In o (cd_objects cd) -> obj_at b o = Some ob -> o_contract ob = h).
Proof.
  intros b Hr. apply creach_cinv in Hr. split; [exact (pi_ids _ Hr)|].
  split; [intros t h v H; apply state_get_ok in H; eapply pi_st_ty; eauto|].
  split; [intros t h c H; apply channel_get_ok in H; destruct (pi_ch_ty _ Hr _ _ _ H) as [<- Hw];
          split; [auto|]; unfold channel_wt in Hw; rewrite Forall_forall in Hw; exact Hw|].
  split; [exact (pi_nodup _ Hr)|].
  intros h cd o ob Hc Hin Ho. destruct (pi_con_obj _ Hr _ _ _ Hc Hin) as [[Hn _]|[ob' [Ho' E]]]; unfold obj_at in Ho; congruence.
Qed.
Print Assumptions C61_still_sound.

(** Handles that stopped resolving never resolve again; states and channels stay; an object keeps its
    data and its contract for as long as it is there; the kind never changes. *)
Theorem C61_histories : forall b ops b', creach b -> csteps b ops b' ->
  b_kind b' = b_kind b /\
  (forall t h, (st_at b t h <> None -> st_at b' t h <> None) /\ (ch_at b t h <> None -> ch_at b' t h <> None)) /\
  (forall o ob ob', obj_at b o = Some ob -> obj_at b' o = Some ob' ->
     o_states ob' = o_states ob /\ o_channels ob' = o_channels ob /\ o_contract ob' = o_contract ob) /\
  (forall h cd cd', con_at b h = Some cd -> con_at b' h = Some cd' -> cd_id cd' = cd_id cd) /\
  (forall b1 ops1 o, creach b1 -> csteps b1 ops1 b -> obj_at b1 o <> None -> obj_at b o = None -> obj_at b' o = None) /\
  (forall b1 ops1 h, creach b1 -> csteps b1 ops1 b -> con_at b1 h <> None -> con_at b h = None -> con_at b' h = None).
Proof.
  intros b ops b' Hr Hs. pose proof (csteps_mono _ _ _ (creach_cinv _ Hr) Hs) as Hm.
  split; [apply Hm|]. split; [intros t h; rewrite !st_at_look, !ch_at_look; split; apply Hm|].
  unfold obj_at, con_at. split; [|split; [|split]].
  - intros o ob ob' Ho Ho'. destruct (pm_obj _ _ Hm _ _ Ho) as [[ob2 [Hg H]]|[Hd _]]; [|congruence].
    rewrite Ho' in Hg. injection Hg as <-. auto.
  - intros h cd cd' Hc Hc'. destruct (pm_con _ _ Hm _ _ Hc) as [[c2 [Hg H]]|[Hd _]]; congruence.
  - intros b1 ops1 o Hr1 Hs1 Hl Hn. pose proof (csteps_mono _ _ _ (creach_cinv _ Hr1) Hs1) as Hm1.
    destruct (get (b_objects b1) o) as [ob|] eqn:E; [|congruence].
    destruct (pm_obj _ _ Hm1 _ _ E) as [[ob2 [Hg _]]|Hd]; [congruence|]. apply Hm in Hd. apply Hd.
  - intros b1 ops1 h Hr1 Hs1 Hl Hn. pose proof (csteps_mono _ _ _ (creach_cinv _ Hr1) Hs1) as Hm1.
    destruct (get (b_contracts b1) h) as [cd|] eqn:E; [|congruence].
    destruct (pm_con _ _ Hm1 _ _ E) as [[c2 [Hg _]]|Hd]; [congruence|]. apply Hm in Hd. apply Hd.
Qed.
Print Assumptions C61_histories.

(** Registering and creating go on working as before. *)
Theorem C61_register_and_create_work : forall b, creach b ->
  (forall C, (exists c b', register_contract b C = (Ok c, b')) <->
             (forall h cd, con_at b h = Some cd -> cd_id cd <> ct_id C)) /\
  (forall c vs cs, (exists o b', object_create b c vs cs = (Ok o, b')) <->
     (con_at b (ci_handle c) <> None /\ map prop_type vs = ct_states (ci_ty c) /\ map ch_type cs = ct_chans (ci_ty c))) /\
  (forall c vs cs o b', object_create b c vs cs = (Ok o, b') ->
     obj_at b o = None /\ (forall o', o' <> o -> obj_at b' o' = obj_at b o') /\
     (exists cd, con_at b' (ci_handle c) = Some cd /\ In o (cd_objects cd)) /\
     (forall i v, nth_error vs i = Some v -> exists id h, ci_state_id c i = Some id /\
        bind_state b' id o = Ok h /\ state_get b' (prop_type v) h = Ok v) /\
     (forall i k, nth_error cs i = Some k -> exists id h, ci_chan_id c i = Some id /\
        bind_channel b' id o = Ok h /\ channel_get b' (ch_type k) h = Ok k)).
Proof.
  intros b Hr. apply creach_cinv in Hr. split; [|split].
  - intros C. destruct (p_register_spec b C Hr) as [[[h [cd [Hg Hi]]] E]|[Hno [cs [h [Hi E]]]]]; rewrite E.
    + split; [intros [c [b' H]]; discriminate|]. intros H. exfalso. eapply H; eauto.
    + split; [|eauto]. intros _ h' cd Hg He. apply Hno. exists h', cd; auto.
  - intros c vs cs. destruct (p_create_spec b c vs cs Hr) as [[Hn [e E]]|[Hy [oh [ob [b1 [E Hc]]]]]]; rewrite E.
    + split; [intros [o [b' H]]; discriminate|]. intros H. contradiction.
    + split; [intros _; exact Hy|eauto].
  - intros c vs cs o b' H.
    destruct (p_create_spec b c vs cs Hr) as [[_ [e E]]|[[_ [Ht Hu]] [oh [ob [b1 [E Hc]]]]]]; rewrite E in H; [discriminate|].
    injection H as <- <-. pose proof (p_created_contracts b c vs cs oh ob b1 (ci_handle c) Hr Hc) as Hcon.
    rewrite index_eqb_refl in Hcon. destruct Hc as [Hk Hoc Hw Hi [cd0 [Hcd0 _]] Hst Hch].
    pose proof (fun x => insert_get _ _ _ _ x (pi_obj _ Hr) Hi) as Hg.
    split; [exact (insert_fresh _ _ _ _ (pi_obj _ Hr) Hi)|].
    split; [intros o' Hn; unfold obj_at; rewrite Hg; destruct (index_eqb_spec oh o'); congruence|].
    split; [unfold con_at; rewrite Hcon, Hcd0; eexists; split; [reflexivity|]; apply set_insert_in; auto|].
    split.
    + intros i v Hv.
      assert (Hty : nth_error (ct_states (ci_ty c)) i = Some (prop_type v))
        by (rewrite <- Ht; apply map_nth_error; auto).
      assert (Hlen : i < length (o_states ob)) by (rewrite (is_len _ _ _ _ _ Hst); eapply nth_error_lt; eauto).
      destruct (nth_error (o_states ob) i) as [h|] eqn:Hh; [|apply nth_error_None in Hh; lia].
      exists (mkPid (prop_type v) i (ci_handle c)), h. unfold ci_state_id. rewrite Hty. cbn.
      split; [auto|]. split.
      * unfold bind_state. rewrite Hg, index_eqb_refl. unfold object_bind. cbn.
        rewrite Hoc, index_eqb_refl. cbn. rewrite Hh. reflexivity.
      * apply state_get_ok. eapply is_new; eauto.
    + intros i k Hv.
      assert (Hty : nth_error (ct_chans (ci_ty c)) i = Some (ch_type k))
        by (rewrite <- Hu; apply map_nth_error; auto).
      assert (Hlen : i < length (o_channels ob)) by (rewrite (is_len _ _ _ _ _ Hch); eapply nth_error_lt; eauto).
      destruct (nth_error (o_channels ob) i) as [h|] eqn:Hh; [|apply nth_error_None in Hh; lia].
      exists (mkPid (ch_type k) i (ci_handle c)), h. unfold ci_chan_id. rewrite Hty. cbn.
      split; [auto|]. split.
      * unfold bind_channel. rewrite Hg, index_eqb_refl. unfold object_bind. cbn.
        rewrite Hoc, index_eqb_refl. cbn. rewrite Hh. reflexivity.
      * apply channel_get_ok. eapply is_new; eauto.
Qed.
Print Assumptions C61_register_and_create_work.

(** Without a panic the books are kept: a live object's contract is registered and lists it. *)
Theorem C61_consistent_without_panics : forall b, reach b -> consistent b.
Proof. intros b Hr o ob Ho. exact (bi_obj_con _ (reach_binv _ Hr) o ob Ho). Qed.
Print Assumptions C61_consistent_without_panics.

(** A panic keeps them exactly when it happens to leave no object of the contract. *)
Theorem C61_consistent_after_panic_iff : forall b C h ord b', creach b -> consistent b ->
  (forall cd, con_at b h = Some cd -> Permutation ord (cd_objects cd)) ->
  unregister_contract b C h ord = (Panic, b') ->
  (consistent b' <-> forall o ob, obj_at b' o = Some ob -> o_contract ob <> h).
Proof.
  intros b C h ord b' Hr Hc Hord E.
  destruct (C61_panic_exact _ _ _ _ _ Hr Hord E) as [cd [pre [o [post [Hg [_ [_ [_ [Hg' [Hgo [Hin [Hout _]]]]]]]]]]]].
  split.
  - intros H x ob Hx Heq. destruct (H x ob Hx) as [cd' [Hc' Hi]]. rewrite Heq, Hg' in Hc'. injection Hc' as <-. destruct Hi.
  - intros H x ob Hx. assert (Hn := H x ob Hx). assert (Hx' : obj_at b x = Some ob).
    { rewrite <- Hx. symmetry. apply Hout. intros Hi. rewrite (Hin _ Hi) in Hx. discriminate. }
    rewrite Hgo by auto. apply Hc; auto.
Qed.
Print Assumptions C61_consistent_after_panic_iff.

(** Refuted: that a caught panic leaves the books in order.  Whenever a contract type with a field has
    two live objects, unregistering it panics and leaves one of them live but unlisted; unregistering it
    again then succeeds, and leaves that object without a contract. *)
Theorem C61_books_kept_refuted : forall b C h ord cd o1 o2 ob1 ob2, reach b ->
  con_at b h = Some cd -> cd_id cd = ct_id C -> fieldless C = false ->
  Permutation ord (cd_objects cd) -> o1 <> o2 ->
  obj_at b o1 = Some ob1 -> o_contract ob1 = h -> obj_at b o2 = Some ob2 -> o_contract ob2 = h ->
  exists b1 b2 o ob,
    unregister_contract b C h ord = (Panic, b1) /\
    (o = o1 \/ o = o2) /\ obj_at b1 o = Some ob /\ o_contract ob = h /\ con_at b1 h = Some (mkCdata (cd_id cd) []) /\
    ~ consistent b1 /\
    unregister_contract b1 C h [] = (Ok tt, b2) /\
    obj_at b2 o = Some ob /\ con_at b2 h = None /\ creach b2.
Proof.
  intros b C h ord cd o1 o2 ob1 ob2 Hr Hg Hid Hf Hp Hne H1 E1 H2 E2.
  pose proof (reach_creach _ Hr) as Hcr.
  assert (Hord : forall cd', con_at b h = Some cd' -> Permutation ord (cd_objects cd')) by (intros cd'; congruence).
  assert (Hl : In o1 (cd_objects cd)).
  { destruct (C61_consistent_without_panics b Hr _ _ H1) as [cd' [Hc Hi]]. congruence. }
  assert (Hpan : fst (unregister_contract b C h ord) = Panic).
  { apply C61_panics_iff; auto. exists cd. split; [auto|]. split; [auto|]. left. split; [|auto].
    intros E. rewrite E in Hl. destruct Hl. }
  destruct (unregister_contract b C h ord) as [r b1] eqn:E. cbn in Hpan. subst r.
  destruct (C61_panic_exact _ _ _ _ _ Hcr Hord E)
    as [cd' [pre [x [post [Hg' [_ [_ [Hpre [Hc1 [_ [Hin [Hout _]]]]]]]]]]]].
  rewrite Hg in Hg'. injection Hg' as <-. rewrite Hf in Hpre. subst pre. cbn in Hin, Hout.
  assert (Hsurv : exists o ob, (o = o1 \/ o = o2) /\ obj_at b1 o = Some ob /\ o_contract ob = h).
  { destruct (index_eqb_spec x o1) as [->|Hn].
    - exists o2, ob2. split; [auto|]. split; [|auto]. rewrite Hout; [auto|]. intros [?|[]]; congruence.
    - exists o1, ob1. split; [auto|]. split; [|auto]. rewrite Hout; [auto|]. intros [?|[]]; congruence. }
  destruct Hsurv as [o [ob [Ho [Hob Hh]]]].
  assert (Hs1 : csteps b [BUnregister C h ord] b1).
  { econstructor; [exact Hord| |constructor]. cbn. rewrite E. reflexivity. }
  pose proof (creach_csteps _ _ _ Hcr Hs1) as Hcr1. pose proof (creach_cinv _ Hcr1) as Hi1.
  assert (Hord1 : forall cd', con_at b1 h = Some cd' -> Permutation [] (cd_objects cd')).
  { intros cd'. rewrite Hc1. intros F; injection F as <-. constructor. }
  assert (Hu : exists b2, unregister_contract b1 C h [] = (Ok tt, b2) /\ unregisters b1 C h b2).
  { destruct (p_unregister_spec b1 C h [] Hi1 Hord1) as [[Hn _]|[cd' [Hg2 [[Hn _]|[_ [Hu|[Hbad _]]]]]]].
    - unfold con_at in Hc1. congruence.
    - unfold con_at in Hc1. rewrite Hc1 in Hg2. injection Hg2 as <-. contradiction.
    - exact Hu.
    - unfold con_at in Hc1. rewrite Hc1 in Hg2. injection Hg2 as <-. cbn in Hbad.
      destruct Hbad as [[? [[] _]]|[? _]]; congruence. }
  destruct Hu as [b2 [Hu1 Hu2]]. exists b1, b2, o, ob.
  split; [auto|]. split; [auto|]. split; [auto|]. split; [auto|]. split; [auto|].
  split; [|split; [auto|split; [|split]]].
  - intros Hcon. apply (proj1 (C61_consistent_after_panic_iff b C h ord b1 Hcr (C61_consistent_without_panics b Hr) Hord E) Hcon o ob Hob Hh).
  - destruct Hu2 as [cd2 [os' [Hg2 [_ [[_ [Ho2 _]] [_ [_ [_ [Eo _]]]]]]]]]. unfold con_at in Hc1. rewrite Hc1 in Hg2.
    injection Hg2 as <-. unfold obj_at in *. rewrite Eo, Ho2. cbn. auto.
  - destruct Hu2 as [cd2 [os' [_ [_ [_ [_ [_ [_ [_ [_ [_ [_ [Hcg _]]]]]]]]]]]]]. unfold con_at.
    rewrite Hcg, index_eqb_refl. reflexivity.
  - eapply (creach_csteps b1 [BUnregister C h []]); [exact Hcr1|]. econstructor; [exact Hord1| |constructor]. cbn. rewrite Hu1. reflexivity.
Qed.
Print Assumptions C61_books_kept_refuted.

(** Such an object stays without a contract for as long as it exists, also when the contract is
    registered again: no id of a registered contract ever binds to it. *)
Theorem C61_orphans_for_ever : forall b o ob ops b', creach b ->
  obj_at b o = Some ob -> con_at b (o_contract ob) = None -> csteps b ops b' ->
  (forall cd, con_at b' (o_contract ob) <> Some cd) /\
  (forall id h, con_at b' (pid_contract id) <> None -> bind_state b' id o <> Ok h /\ bind_channel b' id o <> Ok h).
Proof.
  intros b o ob ops b' Hr Ho Hn Hs. pose proof (csteps_mono _ _ _ (creach_cinv _ Hr) Hs) as Hm.
  destruct (creach_once _ Hr _ _ Ho) as [?|Hd]; [contradiction|]. apply Hm in Hd. destruct Hd as [Hd _].
  split; [unfold con_at; congruence|]. intros id h Hid.
  assert (Hx : forall ob', obj_at b' o = Some ob' -> o_contract ob' = o_contract ob).
  { intros ob' Ho'. apply (proj1 (proj2 (proj2 (C61_histories _ _ _ Hr Hs))) _ _ _ Ho Ho'). }
  split; intros Hb.
  - apply C08_bind_state_exact in Hb. destruct Hb as [ob' [Ho' [E _]]]. rewrite E, (Hx _ Ho') in Hid. contradiction.
  - apply C08_bind_channel_exact in Hb. destruct Hb as [ob' [Ho' [E _]]]. rewrite E, (Hx _ Ho') in Hid. contradiction.
Qed.
Print Assumptions C61_orphans_for_ever.

(** A concrete history: two objects, a caught panic, a second attempt, a new registration, a new object. *)
Theorem C61_met : let ord := [mkIndex 1 0%N; mkIndex 0 0%N] in
  let ops := [BUnregister exC exH ord; BUnregister exC exH []; BRegister exC] in
  exists b', csteps exB ops b' /\ creach exB /\ creach b' /\
    fst (brun exB ops) = [Panic; Ok RUnit; Ok (RContract (mkCinst exC (mkIndex 0 1%N)))] /\
    obj_at b' (mkIndex 1 0%N) = None /\ obj_at b' (mkIndex 0 0%N) = obj_at exB (mkIndex 0 0%N) /\
    obj_at b' (mkIndex 0 0%N) <> None /\ con_at b' exH = None.
Proof.
  assert (Hs : csteps exB [BUnregister exC exH [mkIndex 1 0%N; mkIndex 0 0%N]; BUnregister exC exH []; BRegister exC]
                 (snd (brun exB [BUnregister exC exH [mkIndex 1 0%N; mkIndex 0 0%N]; BUnregister exC exH []; BRegister exC]))).
  { econstructor; [|vm_compute; reflexivity|]; [intros cd E; vm_compute in E; injection E as <-; cbn; apply perm_swap|].
    econstructor; [|vm_compute; reflexivity|]; [intros cd E; vm_compute in E; injection E as <-; constructor|].
    econstructor; [exact Logic.I|vm_compute; reflexivity|]. vm_compute. apply csteps_nil. }
  pose proof (reach_creach _ exB_reach) as Hr.
  eexists. split; [exact Hs|]. split; [exact Hr|]. split; [exact (creach_csteps _ _ _ Hr Hs)|].
  split; [vm_compute; reflexivity|]. split; [vm_compute; reflexivity|]. split; [vm_compute; reflexivity|].
  split; [vm_compute; discriminate|vm_compute; reflexivity].
Qed.
Print Assumptions C61_met.
