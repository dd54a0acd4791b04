(** What any history preserves. *)
From Verif Require Export BaselineProofs.

Record bmono (b b' : baseline) : Prop := {
  bm_kind : b_kind b' = b_kind b;
  bm_st : forall t h, tm_look (b_states b) t h <> None -> tm_look (b_states b') t h <> None;
  bm_ch : forall t h, tm_look (b_channels b) t h <> None -> tm_look (b_channels b') t h <> None;
  bm_obj : forall o ob, get (b_objects b) o = Some ob ->
     (exists ob', get (b_objects b') o = Some ob' /\ o_states ob' = o_states ob /\
        o_channels ob' = o_channels ob /\ o_contract ob' = o_contract ob) \/ dead (b_objects b') o;
  bm_obj_dead : forall o, dead (b_objects b) o -> dead (b_objects b') o;
  bm_con : forall h cd, get (b_contracts b) h = Some cd ->
     (exists cd', get (b_contracts b') h = Some cd' /\ cd_id cd' = cd_id cd /\
        incl (cd_objects cd) (cd_objects cd')) \/ dead (b_contracts b') h;
  bm_con_dead : forall h, dead (b_contracts b) h -> dead (b_contracts b') h
}.

Lemma bmono_refl b : bmono b b.
Proof.
  constructor; auto.
  - intros o ob H. left. eauto.
  - intros h cd H. left. exists cd. auto using incl_refl.
Qed.

Lemma bmono_trans b1 b2 b3 : bmono b1 b2 -> bmono b2 b3 -> bmono b1 b3.
Proof.
  intros H1 H2. constructor.
  - rewrite (bm_kind _ _ H2). apply H1.
  - intros t h H. apply H2, H1; auto.
  - intros t h H. apply H2, H1; auto.
  - intros o ob H. destruct (bm_obj _ _ H1 _ _ H) as [[ob' [Hg [E1 [E2 E3]]]]|Hd].
    + destruct (bm_obj _ _ H2 _ _ Hg) as [[ob'' [Hg' [F1 [F2 F3]]]]|Hd]; [left|right; auto].
      exists ob''. repeat split; congruence.
    + right. apply H2; auto.
  - intros o H. apply H2, H1; auto.
  - intros h cd H. destruct (bm_con _ _ H1 _ _ H) as [[cd' [Hg [E1 E2]]]|Hd].
    + destruct (bm_con _ _ H2 _ _ Hg) as [[cd'' [Hg' [F1 F2]]]|Hd]; [left|right; auto].
      exists cd''. repeat split; [auto|congruence|]. eapply incl_tran; eauto.
    + right. apply H2; auto.
  - intros h H. apply H2, H1; auto.
Qed.

Lemma bstep_mono b op r b' :
  binv b -> bop_ok b op -> bstep b op = (r, b') -> r <> Panic -> bmono b b'.
Proof.
  intros Hb Hok Hs Hnp. pose proof (bmono_refl b) as Hrefl.
  destruct op; cbn [bstep] in Hs; unfold ret_map in Hs.
  - destruct (register_spec b C Hb) as [[_ E]|[Hno [cs [h [Hi E]]]]]; rewrite E in Hs;
      injection Hs as <- <-; auto.
    constructor; cbn; auto; try apply Hrefl.
    + intros h' cd Hg. left. exists cd. split; [|auto using incl_refl].
      rewrite (insert_get _ _ _ _ h' (bi_con _ Hb) Hi).
      destruct (index_eqb_spec h h') as [<-|]; auto.
      pose proof (insert_fresh _ _ _ _ (bi_con _ Hb) Hi). congruence.
    + intros h' Hd. eapply dead_insert; eauto using bi_con.
  - destruct (unregister_spec b C h ord Hb Hok) as [[_ E]|[cd [Hgc [[_ E]|[_ [[b1 [E Hu]]|[_ E]]]]]]].
    + rewrite E in Hs. injection Hs as <- <-. auto.
    + rewrite E in Hs. injection Hs as <- <-. auto.
    + rewrite E in Hs. injection Hs as <- <-.
      destruct Hu as [cd' [os' [Hg [Hid [[Ho1 [Ho2 [Ho3 Ho4]]] [Hall [_ [Ek [Eo [Es [Ec [Hci [Hcg [Hcd Hdh]]]]]]]]]]]]]].
      constructor; auto; rewrite ?Es, ?Ec, ?Eo; auto.
      * intros o ob Hob. destruct (existsb (index_eqb o) (cd_objects cd')) eqn:Ex.
        -- right. apply existsb_index_in in Ex. apply Ho4; auto.
        -- left. exists ob. rewrite Ho2, Ex. auto.
      * intros h' cd'' Hg'. destruct (index_eqb_spec h h') as [<-|Hne]; [right; auto|].
        left. exists cd''. rewrite Hcg. destruct (index_eqb_spec h h'); [congruence|]. auto using incl_refl.
    + rewrite E in Hs. cbn in Hs. injection Hs as <- <-. congruence.
  - destruct (create_spec b c vs cs Hb) as [[_ [e E]]|[_ [oh [ob [b1 [E Hc]]]]]]; rewrite E in Hs;
      injection Hs as <- <-; auto.
    pose proof (fun h => created_contracts b c vs cs oh ob b1 h Hb Hc) as Hcon.
    destruct Hc as [Hk Hoc _ Hi [cd0 [Hcd0 Hset]] Hst Hch].
    constructor; auto.
    + intros t h Hn. destruct (tm_look (b_states b) t h) as [v|] eqn:Ev; [|congruence].
      rewrite (is_old _ _ _ _ _ Hst _ _ _ Ev). discriminate.
    + intros t h Hn. destruct (tm_look (b_channels b) t h) as [v|] eqn:Ev; [|congruence].
      rewrite (is_old _ _ _ _ _ Hch _ _ _ Ev). discriminate.
    + intros o ob' Hg. left. exists ob'. split; auto.
      rewrite (insert_get _ _ _ _ o (bi_obj _ Hb) Hi). destruct (index_eqb_spec oh o) as [<-|]; auto.
      pose proof (insert_fresh _ _ _ _ (bi_obj _ Hb) Hi). congruence.
    + intros o Hd. eapply dead_insert; eauto using bi_obj.
    + intros h cd Hg. left. rewrite Hcon. destruct (index_eqb (ci_handle c) h).
      * rewrite Hg. cbn. eexists. split; [reflexivity|]. split; auto. intros x Hx. cbn. apply set_insert_in; auto.
      * exists cd. auto using incl_refl.
    + intros h Hd. exact (dead_set _ _ _ _ _ (bi_con _ Hb) Hset Hd).
  - rewrite object_remove_spec in Hs by (apply bi_obj; auto). cbn in Hs. injection Hs as _ <-.
    pose proof (bi_obj _ Hb) as Ha.
    constructor; cbn; auto; try apply Hrefl.
    + intros o' ob Hg. destruct (index_eqb_spec o o') as [<-|Hne].
      * right. eapply removed_dead; eauto.
      * left. exists ob. rewrite remove_get by auto. destruct (index_eqb_spec o o'); [congruence|auto].
    + intros o' Hd. apply dead_remove; auto.
  - destruct (state_set_spec b h v Hb) as [[_ [e E]]|[_ [m' [E [Hw Hl]]]]]; rewrite E in Hs;
      injection Hs as <- <-; auto.
    constructor; cbn; auto; try apply Hrefl.
    intros t h' Hn. rewrite Hl. destruct (tm_same _ _ _ _); [discriminate|auto].
  - destruct (channel_set_spec b t h ks Hb) as [[_ [e E]]|[c [m' [Hc [E [Hw Hl]]]]]]; rewrite E in Hs;
      injection Hs as <- <-; auto.
    constructor; cbn; auto; try apply Hrefl.
    intros t' h' Hn. rewrite Hl. destruct (tm_same _ _ _ _); [discriminate|auto].
  - destruct (set_warp_spec b o w Hb) as [[_ E]|[ob [os [Ho [E [_ [Ha [Hd Hg]]]]]]]]; rewrite E in Hs;
      injection Hs as <- <-; auto.
    constructor; cbn; auto; try apply Hrefl.
    intros o' ob' Ho'. left. rewrite Hg. destruct (index_eqb_spec o o') as [<-|]; [|eauto].
    rewrite Ho in Ho'. injection Ho' as <-. eexists; split; [reflexivity|]. auto.
Qed.

Lemma bsteps_mono b ops b' : binv b -> bsteps b ops b' -> bmono b b'.
Proof.
  intros Hb Hs. induction Hs as [b|b op r b1 ops b2 Hok Hst Hnp Hs IH]; [apply bmono_refl|].
  eapply bmono_trans; [eapply bstep_mono; eauto|]. apply IH. eapply bstep_binv; eauto.
Qed.

(** ** Observations in terms of lookups *)
Lemma st_at_look b t h : st_at b t h = tm_look (b_states b) t h.
Proof. apply tm_get_look. Qed.
Lemma ch_at_look b t h : ch_at b t h = tm_look (b_channels b) t h.
Proof. apply tm_get_look. Qed.
Lemma state_get_ok b t h v : state_get b t h = Ok v <-> tm_look (b_states b) t h = Some v.
Proof. apply tm_get_ok. Qed.
Lemma channel_get_ok b t h v : channel_get b t h = Ok v <-> tm_look (b_channels b) t h = Some v.
Proof. apply tm_get_ok. Qed.

(** ** C03 *)
Lemma c03_register_iff b C :
  reach b ->
  ((exists c b', register_contract b C = (Ok c, b')) <->
   (forall h cd, con_at b h = Some cd -> cd_id cd <> ct_id C)).
Proof.
  intros Hr. apply reach_binv in Hr. destruct (register_spec b C Hr) as [[[h [cd [Hg Hi]]] E]|[Hno [cs [h [Hi E]]]]]; rewrite E.
  - split; [intros [c [b' H]]; discriminate|]. intros H. exfalso. eapply H; eauto.
  - split; [|eauto]. intros _ h' cd Hg He. apply Hno. exists h', cd; auto.
Qed.

Lemma c03_register_fail b C r b' :
  reach b -> register_contract b C = (r, b') -> is_ok r = false ->
  r = Err EContractAlreadyAdded /\ b' = b.
Proof.
  intros Hr H Hn. apply reach_binv in Hr.
  destruct (register_spec b C Hr) as [[_ E]|[_ [cs [h [Hi E]]]]]; rewrite E in H; injection H as <- <-; auto.
  discriminate.
Qed.

Lemma c03_register_ok b C c b' :
  reach b -> register_contract b C = (Ok c, b') ->
  ci_ty c = C /\ con_at b (ci_handle c) = None /\
  con_at b' (ci_handle c) = Some (mkCdata (ct_id C) []) /\
  (forall h, h <> ci_handle c -> con_at b' h = con_at b h) /\
  b_objects b' = b_objects b /\ b_states b' = b_states b /\ b_channels b' = b_channels b /\ b_kind b' = b_kind b.
Proof.
  intros Hr H. apply reach_binv in Hr.
  destruct (register_spec b C Hr) as [[_ E]|[_ [cs [h [Hi E]]]]]; rewrite E in H; [discriminate|].
  injection H as <- <-. cbn. unfold con_at; cbn.
  split; auto. split; [eapply insert_fresh; eauto using bi_con|].
  rewrite (insert_get _ _ _ _ h (bi_con _ Hr) Hi), index_eqb_refl. split; auto. split; [|auto].
  intros h' Hne. rewrite (insert_get _ _ _ _ h' (bi_con _ Hr) Hi).
  destruct (index_eqb_spec h h'); congruence.
Qed.

Lemma c03_ids_unique b h1 h2 c1 c2 :
  reach b -> con_at b h1 = Some c1 -> con_at b h2 = Some c2 -> cd_id c1 = cd_id c2 -> h1 = h2.
Proof. intros Hr. apply reach_binv in Hr. apply (bi_ids _ Hr). Qed.

Lemma reach_steps b ops b' : reach b -> bsteps b ops b' -> reach b'.
Proof.
  intros [k [ops0 H0]] H. exists k, (ops0 ++ ops).
  induction H0 as [b0|b0 op r b1 ops1 b2 Hok Hs Hn H0 IH]; cbn; auto.
  econstructor; eauto.
Qed.

Definition unregisters_op (h : index) (op : bop) : bool :=
  match op with BUnregister _ h' _ => index_eqb h h' | _ => false end.

Lemma bstep_con_live b op r b' h cd :
  binv b -> bop_ok b op -> bstep b op = (r, b') -> r <> Panic ->
  unregisters_op h op = false -> get (b_contracts b) h = Some cd ->
  exists cd', get (b_contracts b') h = Some cd' /\ cd_id cd' = cd_id cd.
Proof.
  intros Hb Hok Hs Hnp Hu Hg. destruct op; cbn [bstep] in Hs; unfold ret_map in Hs.
  - destruct (register_spec b C Hb) as [[_ E]|[Hno [cs [h' [Hi E]]]]]; rewrite E in Hs;
      injection Hs as <- <-; [eauto|]. cbn. rewrite (insert_get _ _ _ _ h (bi_con _ Hb) Hi).
    destruct (index_eqb_spec h' h) as [->|]; [|eauto].
    pose proof (insert_fresh _ _ _ _ (bi_con _ Hb) Hi). congruence.
  - destruct (unregister_spec b C h0 ord Hb Hok) as [[_ E]|[cd' [Hgc [[_ E]|[_ [[b1 [E Hu']]|[_ E]]]]]]];
      rewrite E in Hs; cbn in Hs; injection Hs as <- <-; eauto; [|congruence].
    destruct Hu' as [cd2 [os' [_ [_ [_ [_ [_ [_ [_ [_ [_ [_ [Hcg _]]]]]]]]]]]]].
    exists cd. rewrite Hcg. cbn in Hu. destruct (index_eqb_spec h0 h) as [<-|]; auto.
    rewrite index_eqb_refl in Hu. discriminate.
  - destruct (create_spec b c vs cs Hb) as [[_ [e E]]|[_ [oh [ob [b1 [E Hc]]]]]]; rewrite E in Hs;
      injection Hs as <- <-; [eauto|].
    rewrite (created_contracts _ _ _ _ _ _ _ h Hb Hc). rewrite Hg.
    destruct (index_eqb (ci_handle c) h); cbn; eauto.
  - rewrite object_remove_spec in Hs by (apply bi_obj; auto). cbn in Hs. injection Hs as _ <-. cbn. eauto.
  - destruct (state_set_spec b h0 v Hb) as [[_ [e E]]|[_ [m' [E _]]]]; rewrite E in Hs;
      injection Hs as <- <-; eauto.
  - destruct (channel_set_spec b t h0 ks Hb) as [[_ [e E]]|[c [m' [_ [E _]]]]]; rewrite E in Hs;
      injection Hs as <- <-; eauto.
  - destruct (set_warp_spec b o w Hb) as [[_ E]|[ob [os [_ [E _]]]]]; rewrite E in Hs;
      injection Hs as <- <-; eauto.
Qed.

Lemma c03_persistent b ops b' h cd :
  reach b -> bsteps b ops b' -> con_at b h = Some cd ->
  existsb (unregisters_op h) ops = false ->
  exists cd', con_at b' h = Some cd' /\ cd_id cd' = cd_id cd.
Proof.
  intros Hr Hs. apply reach_binv in Hr. unfold con_at.
  revert cd. induction Hs as [b|b op r b1 ops b2 Hok Hst Hnp Hs IH]; intros cd Hg Hx; [eauto|].
  cbn in Hx. apply orb_false_iff in Hx. destruct Hx as [Hx1 Hx2].
  destruct (bstep_con_live _ _ _ _ _ _ Hr Hok Hst Hnp Hx1 Hg) as [cd1 [Hg1 He1]].
  destruct (IH (bstep_binv _ _ _ _ Hr Hok Hst Hnp) _ Hg1 Hx2) as [cd2 [Hg2 He2]].
  exists cd2. split; auto. congruence.
Qed.

(** ** C04 *)
Lemma c04_create_iff b c vs cs :
  reach b ->
  ((exists o b', object_create b c vs cs = (Ok o, b')) <->
   (con_at b (ci_handle c) <> None /\ map prop_type vs = ct_states (ci_ty c) /\
    map ch_type cs = ct_chans (ci_ty c))).
Proof.
  intros Hr. apply reach_binv in Hr.
  destruct (create_spec b c vs cs Hr) as [[Hn [e E]]|[Hy [oh [ob [b' [E _]]]]]]; rewrite E.
  - split; [intros [o [b' H]]; discriminate|]. intros H. exfalso. apply Hn. exact H.
  - split; [intros _; exact Hy|eauto].
Qed.

Lemma c04_create_fail b c vs cs r b' :
  reach b -> object_create b c vs cs = (r, b') -> is_ok r = false -> r <> Panic /\ b' = b.
Proof.
  intros Hr H Hn. apply reach_binv in Hr.
  destruct (create_spec b c vs cs Hr) as [[_ [e E]]|[_ [oh [ob [b1 [E _]]]]]]; rewrite E in H;
    injection H as <- <-; [split; [discriminate|auto]|discriminate].
Qed.

(** ** C05 *)
Lemma c05_create_frame b c vs cs o b' :
  reach b -> object_create b c vs cs = (Ok o, b') ->
  (forall b0 ops, reach b0 -> bsteps b0 ops b -> obj_at b0 o = None) /\
  (exists ob, obj_at b' o = Some ob /\ o_contract ob = ci_handle c /\ o_warp ob = timewarp_default) /\
  (forall o', o' <> o -> obj_at b' o' = obj_at b o') /\
  (forall t h v, st_at b t h = Some v -> st_at b' t h = Some v) /\
  (forall t h k, ch_at b t h = Some k -> ch_at b' t h = Some k) /\
  (forall h, h <> ci_handle c -> con_at b' h = con_at b h) /\
  (exists cd cd', con_at b (ci_handle c) = Some cd /\ con_at b' (ci_handle c) = Some cd' /\
     cd_id cd' = cd_id cd /\ (forall x, In x (cd_objects cd') <-> In x (cd_objects cd) \/ x = o)).
Proof.
  intros Hr H. apply reach_binv in Hr. unfold obj_at, con_at.
  destruct (create_spec b c vs cs Hr) as [[_ [e E]]|[_ [oh [ob [b1 [E Hc]]]]]]; rewrite E in H; [discriminate|].
  injection H as <- <-.
  pose proof (fun h => created_contracts b c vs cs oh ob b1 h Hr Hc) as Hcon.
  destruct Hc as [Hk Hoc Hw Hi [cd0 [Hcd0 Hset]] Hst Hch].
  pose proof (fun h' => insert_get (b_objects b) ob (b_objects b1) oh h' (bi_obj _ Hr) Hi) as Hog.
  repeat apply conj.
  - intros b0 ops Hr0 Hs. destruct (get (b_objects b0) oh) as [ob0|] eqn:E0; auto. exfalso.
    apply reach_binv in Hr0. destruct (bm_obj _ _ (bsteps_mono _ _ _ Hr0 Hs) _ _ E0) as [[ob' [Hg _]]|Hd].
    + pose proof (insert_fresh _ _ _ _ (bi_obj _ Hr) Hi). congruence.
    + exact (insert_not_dead _ _ _ _ (bi_obj _ Hr) Hi Hd).
  - exists ob. rewrite Hog, index_eqb_refl. auto.
  - intros o' Hne. rewrite Hog. destruct (index_eqb_spec oh o'); congruence.
  - intros t h v. rewrite !st_at_look. apply (is_old _ _ _ _ _ Hst).
  - intros t h v. rewrite !ch_at_look. apply (is_old _ _ _ _ _ Hch).
  - intros h Hne. rewrite Hcon. destruct (index_eqb_spec (ci_handle c) h); congruence.
  - exists cd0. rewrite Hcon, index_eqb_refl, Hcd0. cbn. eexists. split; [reflexivity|]. split; [reflexivity|].
    split; auto. intros x. cbn. rewrite set_insert_in. tauto.
Qed.

(** ** C06 *)
Lemma c06_readback_state b c vs cs o b' i v :
  reach b -> object_create b c vs cs = (Ok o, b') -> nth_error vs i = Some v ->
  exists id h, ci_state_id c i = Some id /\ bind_state b' id o = Ok h /\
    pid_type id = prop_type v /\ state_get b' (pid_type id) h = Ok v.
Proof.
  intros Hr H Hv. apply reach_binv in Hr.
  destruct (create_spec b c vs cs Hr) as [[_ [e E]]|[[_ [Ht _]] [oh [ob [b1 [E Hc]]]]]]; rewrite E in H; [discriminate|].
  injection H as <- <-.
  assert (Hty : nth_error (ct_states (ci_ty c)) i = Some (prop_type v))
    by (rewrite <- Ht; apply map_nth_error; auto).
  destruct Hc as [Hk Hoc Hw Hi Hcc Hst Hch].
  assert (Hlen : i < length (o_states ob)) by (rewrite (is_len _ _ _ _ _ Hst); eapply nth_error_lt; eauto).
  destruct (nth_error (o_states ob) i) as [h|] eqn:Hh; [|apply nth_error_None in Hh; lia].
  exists (mkPid (prop_type v) i (ci_handle c)), h. unfold ci_state_id. rewrite Hty. cbn.
  repeat split; auto.
  - unfold bind_state. rewrite (insert_get _ _ _ _ oh (bi_obj _ Hr) Hi), index_eqb_refl.
    unfold object_bind. cbn. rewrite Hoc, index_eqb_refl. cbn. rewrite Hh. reflexivity.
  - apply state_get_ok. eapply is_new; eauto.
Qed.

Lemma c06_readback_channel b c vs cs o b' i k :
  reach b -> object_create b c vs cs = (Ok o, b') -> nth_error cs i = Some k ->
  exists id h, ci_chan_id c i = Some id /\ bind_channel b' id o = Ok h /\
    pid_type id = ch_type k /\ channel_get b' (pid_type id) h = Ok k.
Proof.
  intros Hr H Hv. apply reach_binv in Hr.
  destruct (create_spec b c vs cs Hr) as [[_ [e E]]|[[_ [_ Ht]] [oh [ob [b1 [E Hc]]]]]]; rewrite E in H; [discriminate|].
  injection H as <- <-.
  assert (Hty : nth_error (ct_chans (ci_ty c)) i = Some (ch_type k))
    by (rewrite <- Ht; apply map_nth_error; auto).
  destruct Hc as [Hk Hoc Hw Hi Hcc Hst Hch].
  assert (Hlen : i < length (o_channels ob)) by (rewrite (is_len _ _ _ _ _ Hch); eapply nth_error_lt; eauto).
  destruct (nth_error (o_channels ob) i) as [h|] eqn:Hh; [|apply nth_error_None in Hh; lia].
  exists (mkPid (ch_type k) i (ci_handle c)), h. unfold ci_chan_id. rewrite Hty. cbn.
  repeat split; auto.
  - unfold bind_channel. rewrite (insert_get _ _ _ _ oh (bi_obj _ Hr) Hi), index_eqb_refl.
    unfold object_bind. cbn. rewrite Hoc, index_eqb_refl. cbn. rewrite Hh. reflexivity.
  - apply channel_get_ok. eapply is_new; eauto.
Qed.

(** ** C08 *)
Lemma object_bind_ok c l id h :
  object_bind c l id = Ok h <-> pid_contract id = c /\ nth_error l (pid_idx id) = Some h.
Proof.
  unfold object_bind. destruct (index_eqb_spec (pid_contract id) c); cbn.
  - destruct (nth_error l (pid_idx id)); cbn; split; [intros E; injection E as ->; auto|intros [_ E]; congruence|discriminate|intros [_ E]; congruence].
  - split; [discriminate|tauto].
Qed.

Lemma object_bind_no_panic c l id : object_bind c l id <> Panic.
Proof.
  unfold object_bind. destruct (index_eqb _ _); cbn; [|discriminate].
  destruct (nth_error l (pid_idx id)); discriminate.
Qed.

Lemma c08_bind_state_iff b id o h :
  bind_state b id o = Ok h <->
  exists ob, obj_at b o = Some ob /\ pid_contract id = o_contract ob /\
             nth_error (o_states ob) (pid_idx id) = Some h.
Proof.
  unfold bind_state, obj_at. destruct (get (b_objects b) o) as [ob|].
  - rewrite object_bind_ok. split; [intros [? ?]; eauto|]. intros [ob' [E [H1 H2]]]. injection E as <-. auto.
  - split; [discriminate|]. intros [ob [E _]]. discriminate.
Qed.

Lemma c08_bind_channel_iff b id o h :
  bind_channel b id o = Ok h <->
  exists ob, obj_at b o = Some ob /\ pid_contract id = o_contract ob /\
             nth_error (o_channels ob) (pid_idx id) = Some h.
Proof.
  unfold bind_channel, obj_at. destruct (get (b_objects b) o) as [ob|].
  - rewrite object_bind_ok. split; [intros [? ?]; eauto|]. intros [ob' [E [H1 H2]]]. injection E as <-. auto.
  - split; [discriminate|]. intros [ob [E _]]. discriminate.
Qed.

Lemma c08_bind_rejects b id o :
  ((obj_at b o = None) \/
   (exists ob, obj_at b o = Some ob /\
      (pid_contract id <> o_contract ob \/ length (o_states ob) <= pid_idx id))) <->
  exists e, bind_state b id o = Err e.
Proof.
  unfold bind_state, obj_at. destruct (get (b_objects b) o) as [ob|].
  - split.
    + intros [?|[ob' [E H]]]; [discriminate|]. injection E as <-. unfold object_bind.
      destruct (index_eqb_spec (pid_contract id) (o_contract ob)); cbn; [|eauto].
      destruct H as [H|H]; [tauto|]. apply nth_error_None in H. rewrite H. cbn. eauto.
    + intros [e He]. right. exists ob. split; auto. unfold object_bind in He.
      destruct (index_eqb_spec (pid_contract id) (o_contract ob)); cbn in He; [|auto].
      right. apply nth_error_None. destruct (nth_error (o_states ob) (pid_idx id)); [discriminate|auto].
  - split; eauto.
Qed.

Lemma c08_bind_channel_rejects b id o :
  ((obj_at b o = None) \/
   (exists ob, obj_at b o = Some ob /\
      (pid_contract id <> o_contract ob \/ length (o_channels ob) <= pid_idx id))) <->
  exists e, bind_channel b id o = Err e.
Proof.
  unfold bind_channel, obj_at. destruct (get (b_objects b) o) as [ob|].
  - split.
    + intros [?|[ob' [E H]]]; [discriminate|]. injection E as <-. unfold object_bind.
      destruct (index_eqb_spec (pid_contract id) (o_contract ob)); cbn; [|eauto].
      destruct H as [H|H]; [tauto|]. apply nth_error_None in H. rewrite H. cbn. eauto.
    + intros [e He]. right. exists ob. split; auto. unfold object_bind in He.
      destruct (index_eqb_spec (pid_contract id) (o_contract ob)); cbn in He; [|auto].
      right. apply nth_error_None. destruct (nth_error (o_channels ob) (pid_idx id)); [discriminate|auto].
  - split; eauto.
Qed.

Lemma c08_binding_stable b ops b' id o h :
  reach b -> bsteps b ops b' -> bind_state b id o = Ok h -> obj_at b' o <> None ->
  bind_state b' id o = Ok h.
Proof.
  intros Hr Hs Hbind Hl. apply reach_binv in Hr.
  apply c08_bind_state_iff in Hbind. destruct Hbind as [ob [Ho [Hc Hn]]].
  destruct (bm_obj _ _ (bsteps_mono _ _ _ Hr Hs) _ _ Ho) as [[ob' [Hg [E1 [E2 E3]]]]|[Hd _]].
  - apply c08_bind_state_iff. exists ob'. split; auto. split; congruence.
  - unfold obj_at in Hl. congruence.
Qed.

Lemma c08_binding_stable_channel b ops b' id o h :
  reach b -> bsteps b ops b' -> bind_channel b id o = Ok h -> obj_at b' o <> None ->
  bind_channel b' id o = Ok h.
Proof.
  intros Hr Hs Hbind Hl. apply reach_binv in Hr.
  apply c08_bind_channel_iff in Hbind. destruct Hbind as [ob [Ho [Hc Hn]]].
  destruct (bm_obj _ _ (bsteps_mono _ _ _ Hr Hs) _ _ Ho) as [[ob' [Hg [E1 [E2 E3]]]]|[Hd _]].
  - apply c08_bind_channel_iff. exists ob'. split; auto. split; congruence.
  - unfold obj_at in Hl. congruence.
Qed.

(** ** C09 *)
Lemma c09_state_typed b t h v : reach b -> state_get b t h = Ok v -> prop_type v = t.
Proof. intros Hr H. apply reach_binv in Hr. apply state_get_ok in H. eapply bi_st_ty; eauto. Qed.

Lemma c09_channel_typed b t h c :
  reach b -> channel_get b t h = Ok c ->
  ch_type c = t /\ forall k, In k (ch_keys c) -> prop_type (k_value k) = t.
Proof.
  intros Hr H. apply reach_binv in Hr. apply channel_get_ok in H.
  destruct (bi_ch_ty _ Hr _ _ _ H) as [Ht Hw]. split; auto.
  unfold channel_wt in Hw. rewrite Forall_forall in Hw. intros k Hk. rewrite <- Ht. auto.
Qed.

Lemma c09_write_read b h v b' :
  reach b -> state_set b h v = (Ok tt, b') ->
  state_get b' (prop_type v) h = Ok v /\
  (forall t h', (t, h') <> (prop_type v, h) -> state_get b' t h' = state_get b t h') /\
  b_objects b' = b_objects b /\ b_contracts b' = b_contracts b /\ b_channels b' = b_channels b.
Proof.
  intros Hr H. apply reach_binv in Hr.
  unfold state_set in H. destruct (b_states b (prop_type v)) as [a|] eqn:E; [|discriminate].
  destruct (set a h v) as [a'|] eqn:Es; [|discriminate]. injection H as <-.
  pose proof (bi_st _ Hr _ _ E) as Ha.
  unfold state_get, tm_get, tm_set; cbn. rewrite ptype_eqb_refl.
  rewrite (set_get _ _ _ _ h Ha Es), index_eqb_refl. split; auto. split; auto.
  intros t h' Hne. destruct (ptype_eqb_spec (prop_type v) t) as [<-|]; auto.
  rewrite E, (set_get _ _ _ _ h' Ha Es). destruct (index_eqb_spec h h') as [<-|]; congruence.
Qed.

(** ** C10 *)
Lemma c10_remove_exact b C o r b' :
  reach b -> object_remove b C o = (r, b') ->
  (obj_at b o = None -> r = Err EObjectDidNotExist /\ b' = b) /\
  (forall ob, obj_at b o = Some ob ->
     r = (if fieldless C then Ok tt else Err EBindNoObject) /\
     obj_at b' o = None /\ (forall o', o' <> o -> obj_at b' o' = obj_at b o') /\
     b_states b' = b_states b /\ b_channels b' = b_channels b /\ b_contracts b' = b_contracts b).
Proof.
  intros Hr H. apply reach_binv in Hr. pose proof (bi_obj _ Hr) as Ha.
  rewrite object_remove_spec in H by auto. injection H as <- <-. unfold obj_at, remove_result. cbn.
  split.
  - intros Hn. rewrite Hn. split; auto. rewrite remove_none by auto. cbn. apply with_objects_id.
  - intros ob Ho. rewrite Ho. rewrite remove_get, index_eqb_refl by auto. repeat split; auto.
    intros o' Hne. rewrite remove_get by auto. destruct (index_eqb_spec o o'); congruence.
Qed.

(** ** C11 *)
Lemma c11_unregister_exact b C h ord r b' :
  reach b ->
  (forall cd, con_at b h = Some cd -> Permutation ord (cd_objects cd)) ->
  unregister_contract b C h ord = (r, b') ->
  match con_at b h with
  | None => r = Err ENoContractToUnregister /\ b' = b
  | Some cd =>
      if contract_id_eqb (cd_id cd) (ct_id C) then
        ((r = Ok tt /\ con_at b' h = None /\
          (forall h', h' <> h -> con_at b' h' = con_at b h') /\
          (forall o, (exists ob, obj_at b o = Some ob /\ o_contract ob = h) -> obj_at b' o = None) /\
          (forall o, ~ (exists ob, obj_at b o = Some ob /\ o_contract ob = h) -> obj_at b' o = obj_at b o) /\
          b_states b' = b_states b /\ b_channels b' = b_channels b) /\
         (cd_objects cd = [] \/
          fieldless C = true /\ forall o, In o (cd_objects cd) -> obj_at b o <> None)) \/
        (r = Panic /\
         ~ (cd_objects cd = [] \/
            fieldless C = true /\ forall o, In o (cd_objects cd) -> obj_at b o <> None))
      else r = Err EHandleContractMismatch /\ b' = b
  end.
Proof.
  intros Hr Hord H. apply reach_binv in Hr. unfold con_at, obj_at in *.
  destruct (unregister_spec b C h ord Hr Hord) as [[Hg E]|[cd [Hg [[Hi E]|[Hi Hrest]]]]]; rewrite Hg.
  - rewrite E in H. injection H as <- <-. auto.
  - destruct (contract_id_eqb_spec (cd_id cd) (ct_id C)); [congruence|].
    rewrite E in H. injection H as <- <-. auto.
  - destruct (contract_id_eqb_spec (cd_id cd) (ct_id C)); [|congruence].
    destruct Hrest as [[b1 [E Hu]]|[Hbad E]].
    + left. rewrite E in H. injection H as <- <-.
      destruct Hu as [cd' [os' [Hg' [_ [[Ho1 [Ho2 [Ho3 Ho4]]] [Hall [Hf [Ek [Eo [Es [Ec [Hci [Hcg _]]]]]]]]]]]]].
      rewrite Hg in Hg'. injection Hg' as <-.
      split; [|destruct Hf; auto].
      rewrite Eo. split; auto. split; [rewrite Hcg, index_eqb_refl; auto|].
      split; [intros h' Hne; rewrite Hcg; destruct (index_eqb_spec h h'); congruence|].
      split; [|split; [|auto]].
      * intros o [ob [Ho Hc]]. rewrite Ho2. destruct (bi_obj_con _ Hr _ _ Ho) as [cd'' [Hg'' Hin]].
        rewrite Hc, Hg in Hg''. injection Hg'' as <-. apply existsb_index_in in Hin. rewrite Hin. reflexivity.
      * intros o Hno. rewrite Ho2. destruct (existsb (index_eqb o) (cd_objects cd)) eqn:Ex; auto.
        exfalso. apply existsb_index_in in Ex. destruct (bi_con_obj _ Hr _ _ _ Hg Ex) as [[Hd _]|Hl].
        -- apply (Hall o Ex Hd).
        -- apply Hno. exact Hl.
    + right. rewrite H in E. cbn in E. split; auto.
      destruct Hbad as [[o [Hin Hn]]|[Hne Hf]].
      * intros [E0|[_ Hx]]; [rewrite E0 in Hin; destruct Hin|]. apply (Hx o Hin Hn).
      * intros [E0|[Hx _]]; congruence.
Qed.

(** ** C12 *)
Lemma c12_object_stale b ops1 b1 ops2 b2 o ob :
  reach b -> bsteps b ops1 b1 -> bsteps b1 ops2 b2 ->
  obj_at b o = Some ob -> obj_at b1 o = None -> obj_at b2 o = None.
Proof.
  intros Hr H1 H2 Ho Hn. apply reach_binv in Hr. unfold obj_at in *.
  destruct (bm_obj _ _ (bsteps_mono _ _ _ Hr H1) _ _ Ho) as [[ob' [Hg _]]|Hd]; [congruence|].
  apply (bm_obj_dead _ _ (bsteps_mono _ _ _ (bsteps_binv _ _ _ Hr H1) H2) _ Hd).
Qed.

Lemma c12_contract_stale b ops1 b1 ops2 b2 h cd :
  reach b -> bsteps b ops1 b1 -> bsteps b1 ops2 b2 ->
  con_at b h = Some cd -> con_at b1 h = None -> con_at b2 h = None.
Proof.
  intros Hr H1 H2 Ho Hn. apply reach_binv in Hr. unfold con_at in *.
  destruct (bm_con _ _ (bsteps_mono _ _ _ Hr H1) _ _ Ho) as [[ob' [Hg _]]|Hd]; [congruence|].
  apply (bm_con_dead _ _ (bsteps_mono _ _ _ (bsteps_binv _ _ _ Hr H1) H2) _ Hd).
Qed.

(** ** C32 *)
Lemma c32_states_grow b ops b' t h :
  reach b -> bsteps b ops b' ->
  (st_at b t h <> None -> st_at b' t h <> None) /\ (ch_at b t h <> None -> ch_at b' t h <> None).
Proof.
  intros Hr Hs. apply reach_binv in Hr. rewrite !st_at_look, !ch_at_look.
  pose proof (bsteps_mono _ _ _ Hr Hs) as Hm. split; apply Hm.
Qed.

(** Only unregistering a live, matching contract can panic. *)
Lemma bstep_panics_only_unregister b op :
  reach b -> bop_ok b op -> fst (bstep b op) = Panic ->
  exists C h ord cd, op = BUnregister C h ord /\ con_at b h = Some cd /\ cd_id cd = ct_id C /\ cd_objects cd <> [].
Proof.
  intros Hr Hok H. apply reach_binv in Hr. destruct op; cbn [bstep] in H; unfold ret_map in H; cbn in H.
  - destruct (register_spec b C Hr) as [[_ E]|[_ [cs [h [_ E]]]]]; rewrite E in H; discriminate.
  - destruct (unregister_spec b C h ord Hr Hok) as [[_ E]|[cd [Hg [[_ E]|[Hi [[b1 [E _]]|[Hbad E]]]]]]];
      try (rewrite E in H; discriminate).
    exists C, h, ord, cd. repeat split; auto. intros E0. destruct Hbad as [[o [Hin _]]|[Hne _]]; [|congruence].
    rewrite E0 in Hin. destruct Hin.
  - destruct (create_spec b c vs cs Hr) as [[_ [e E]]|[_ [oh [ob [b1 [E _]]]]]]; rewrite E in H; discriminate.
  - rewrite object_remove_spec in H by (apply bi_obj; auto). cbn in H. unfold remove_result in H.
    destruct (get (b_objects b) o); [destruct (fieldless C)|]; discriminate.
  - destruct (state_set_spec b h v Hr) as [[_ [e E]]|[_ [m' [E _]]]]; rewrite E in H; discriminate.
  - destruct (channel_set_spec b t h ks Hr) as [[_ [e E]]|[c [m' [_ [E _]]]]]; rewrite E in H; discriminate.
  - destruct (set_warp_spec b o w Hr) as [[_ E]|[ob [os [_ [E _]]]]]; rewrite E in H; discriminate.
Qed.
