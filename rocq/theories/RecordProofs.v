(** Proof of C07: a disciplined client sees a map of independent records. *)
From Verif Require Export BaselineMono RecordSpec.

(** ** Fields and their storage *)
Section Cells.
Context {X : Type} (ty : X -> ptype).

(** [f o] are the storage handles of object [o]'s fields [recs o]; no two fields
    of the same type share a handle. *)
Record cells (m : typemap X) (recs : index -> option (list X)) (f : index -> list index) : Prop := {
  ce_len : forall o xs, recs o = Some xs -> length (f o) = length xs;
  ce_get : forall o xs i x h, recs o = Some xs -> nth_error xs i = Some x -> nth_error (f o) i = Some h ->
     tm_look m (ty x) h = Some x;
  ce_inj : forall o1 xs1 i1 x1 o2 xs2 i2 x2 h,
     recs o1 = Some xs1 -> nth_error xs1 i1 = Some x1 -> nth_error (f o1) i1 = Some h ->
     recs o2 = Some xs2 -> nth_error xs2 i2 = Some x2 -> nth_error (f o2) i2 = Some h ->
     ty x1 = ty x2 -> o1 = o2 /\ i1 = i2
}.

Lemma cells_ext m recs recs' f :
  cells m recs f -> (forall o, recs' o = recs o) -> cells m recs' f.
Proof.
  intros [H1 H2 H3] E. constructor.
  - intros o xs. rewrite E. apply H1.
  - intros o xs i x h. rewrite E. apply H2.
  - intros o1 xs1 i1 x1 o2 xs2 i2 x2 h. rewrite !E. apply H3.
Qed.

Lemma cells_create m recs f xs hs m' o :
  cells m recs f -> ins_spec ty m xs hs m' -> recs o = None ->
  cells m' (upd recs o (Some xs)) (upd f o hs).
Proof.
  intros Hc Hi Hn. unfold upd. constructor.
  - intros o' ys. destruct (index_eqb_spec o o') as [<-|]; [|apply Hc].
    intros E; injection E as <-. apply (is_len _ _ _ _ _ Hi).
  - intros o' ys i x h. destruct (index_eqb_spec o o') as [<-|].
    + intros E; injection E as <-. intros Hx Hh. apply (is_new _ _ _ _ _ Hi i x h Hx Hh).
    + intros Hr Hx Hh. apply (is_old _ _ _ _ _ Hi). eapply ce_get; eauto.
  - assert (Hold : forall o' ys i x h j y, recs o' = Some ys -> nth_error ys i = Some x ->
        nth_error (f o') i = Some h -> nth_error xs j = Some y -> nth_error hs j = Some h -> ty x = ty y -> False).
    { intros o' ys i x h j y Hr Hx Hh Hy Hhj Ht.
      destruct (is_new _ _ _ _ _ Hi j y h Hy Hhj) as [Hnone _].
      rewrite <- Ht in Hnone. rewrite (ce_get _ _ _ Hc _ _ _ _ _ Hr Hx Hh) in Hnone. discriminate. }
    intros o1 xs1 i1 x1 o2 xs2 i2 x2 h.
    destruct (index_eqb_spec o o1) as [<-|N1], (index_eqb_spec o o2) as [<-|N2].
    + intros E1; injection E1 as <-. intros Hx1 Hh1 E2; injection E2 as <-. intros Hx2 Hh2 Ht.
      split; auto. eapply (is_inj _ _ _ _ _ Hi); eauto.
    + intros E1; injection E1 as <-. intros Hx1 Hh1 Hr2 Hx2 Hh2 Ht. exfalso. eapply (Hold o2); eauto.
    + intros Hr1 Hx1 Hh1 E2; injection E2 as <-. intros Hx2 Hh2 Ht. exfalso. eapply (Hold o1); eauto.
    + intros. eapply (ce_inj _ _ _ Hc o1 xs1 i1 x1 o2 xs2 i2 x2 h); eauto.
Qed.

Lemma cells_write m recs f o xs i x h x' m' :
  cells m recs f -> recs o = Some xs -> nth_error xs i = Some x -> nth_error (f o) i = Some h ->
  ty x' = ty x ->
  (forall t' h', tm_look m' t' h' = if tm_same (ty x) h t' h' then Some x' else tm_look m t' h') ->
  cells m' (upd recs o (Some (list_set xs i x'))) f.
Proof.
  intros Hc Hr Hx Hh Ht Hm. pose proof (nth_error_lt _ _ _ Hx) as Hlt.
  assert (Hty : forall o' ys j y, upd recs o (Some (list_set xs i x')) o' = Some ys -> nth_error ys j = Some y ->
     exists ys0 y0, recs o' = Some ys0 /\ nth_error ys0 j = Some y0 /\ ty y0 = ty y).
  { intros o' ys j y. unfold upd. destruct (index_eqb_spec o o') as [<-|].
    - intros E; injection E as <-. intros Hy. exists xs.
      destruct (Nat.eq_dec i j) as [<-|Hne].
      + rewrite nth_error_list_set_eq in Hy by auto. injection Hy as <-. exists x; auto.
      + rewrite nth_error_list_set_neq in Hy by auto. exists y; auto.
    - intros Hr' Hy. exists ys, y; auto. }
  constructor.
  - intros o' ys. unfold upd. destruct (index_eqb_spec o o') as [<-|]; [|apply Hc].
    intros E; injection E as <-. rewrite list_set_length. eapply ce_len; eauto.
  - intros o' ys j y h' Hr' Hy Hh'. rewrite Hm.
    destruct (tm_same (ty x) h (ty y) h') eqn:Es.
    + apply tm_same_true in Es. destruct Es as [Et <-].
      destruct (Hty _ _ _ _ Hr' Hy) as [ys0 [y0 [Hr0 [Hy0 Ht0]]]].
      destruct (ce_inj _ _ _ Hc o xs i x o' ys0 j y0 h Hr Hx Hh Hr0 Hy0 Hh') as [<- <-]; [congruence|].
      unfold upd in Hr'. rewrite index_eqb_refl in Hr'. injection Hr' as <-.
      rewrite nth_error_list_set_eq in Hy by auto. congruence.
    + unfold upd in Hr'. destruct (index_eqb_spec o o') as [<-|].
      * injection Hr' as <-. destruct (Nat.eq_dec i j) as [<-|Hne].
        -- exfalso. rewrite nth_error_list_set_eq in Hy by auto. injection Hy as <-.
           rewrite Hh in Hh'. injection Hh' as <-. rewrite Ht, tm_same_refl in Es. discriminate.
        -- rewrite nth_error_list_set_neq in Hy by auto. eapply ce_get; eauto.
      * eapply ce_get; eauto.
  - intros o1 xs1 i1 x1 o2 xs2 i2 x2 h' H1 H2 H3 H4 H5 H6 H7.
    destruct (Hty _ _ _ _ H1 H2) as [ya [a [Ha1 [Ha2 Ha3]]]].
    destruct (Hty _ _ _ _ H4 H5) as [yb [b [Hb1 [Hb2 Hb3]]]].
    eapply (ce_inj _ _ _ Hc o1 ya i1 a o2 yb i2 b h'); eauto; congruence.
Qed.
End Cells.

(** ** The refinement relation *)
Definition seen {A} (a : arena A) (h : index) : Prop := get a h <> None \/ dead a h.

Record rrel (b : baseline) (s : rstate) (fs fc : index -> list index) : Prop := {
  rr_inv : binv b;
  rr_con : forall h, match rs_con s h with
     | Some C => exists cd, get (b_contracts b) h = Some cd /\ cd_id cd = ct_id C /\ cd_objects cd = rs_mem s h
     | None => get (b_contracts b) h = None end;
  rr_ucon : forall h, In h (rs_used_con s) -> seen (b_contracts b) h;
  rr_uobj : forall o, In o (rs_used_obj s) -> seen (b_objects b) o;
  rr_used : forall o, rs_obj s o <> None -> In o (rs_used_obj s);
  rr_live : forall o ro, live_obj s o = Some ro ->
     get (b_objects b) o = Some (mkObject (fs o) (fc o) (ro_contract ro) (ro_warp ro)) /\
     exists C, rs_con s (ro_contract ro) = Some C /\ map prop_type (ro_vals ro) = ct_states C /\
       map ch_type (ro_chans ro) = ct_chans C;
  rr_dead : forall o, live_obj s o = None -> get (b_objects b) o = None;
  rr_st : cells prop_type (b_states b) (fun o => option_map ro_vals (rs_obj s o)) fs;
  rr_ch : cells ch_type (b_channels b) (fun o => option_map ro_chans (rs_obj s o)) fc;
  rr_bound : forall t sh o i, is_bound (rs_bound s) t sh o i ->
     exists ro v, rs_obj s o = Some ro /\ nth_error (ro_vals ro) i = Some v /\ prop_type v = t /\
       nth_error (fs o) i = Some sh;
  rr_bound_ch : forall t sh o i, is_bound (rs_bound_ch s) t sh o i ->
     exists ro v, rs_obj s o = Some ro /\ nth_error (ro_chans ro) i = Some v /\ ch_type v = t /\
       nth_error (fc o) i = Some sh
}.

Lemma rrel_empty k : rrel (baseline_new k) rs_empty (fun _ => []) (fun _ => []).
Proof.
  constructor; cbn -[arena_new]; try (intros; discriminate); try tauto; auto using binv_new.
  - intros h. apply arena_new_get.
  - intros o _. apply arena_new_get.
  - constructor; intros; discriminate.
  - constructor; intros; discriminate.
Qed.

Lemma seen_obj_mono b b' o : bmono b b' -> seen (b_objects b) o -> seen (b_objects b') o.
Proof.
  intros Hm [Hl|Hd]; [|right; apply Hm; auto].
  destruct (get (b_objects b) o) as [ob|] eqn:E; [|congruence].
  destruct (bm_obj _ _ Hm _ _ E) as [[ob' [Hg _]]|Hd]; [left; congruence|right; auto].
Qed.
Lemma seen_con_mono b b' o : bmono b b' -> seen (b_contracts b) o -> seen (b_contracts b') o.
Proof.
  intros Hm [Hl|Hd]; [|right; apply Hm; auto].
  destruct (get (b_contracts b) o) as [ob|] eqn:E; [|congruence].
  destruct (bm_con _ _ Hm _ _ E) as [[ob' [Hg _]]|Hd]; [left; congruence|right; auto].
Qed.

(** Mutating calls are the operations of [bop]. *)
Definition bop_of (op : rop) : option bop :=
  match op with
  | RRegister C => Some (BRegister C)
  | RUnregister C h ord => Some (BUnregister C h ord)
  | RCreate C h vs cs => Some (BCreate (mkCinst C h) vs cs)
  | RRemove C o => Some (BRemove C o)
  | RSet sh v => Some (BSetState sh v)
  | RSetCh t sh ks => Some (BSetKeys t sh ks)
  | RSetWarp o w => Some (BSetWarp o w)
  | _ => None
  end.

Lemma bop_of_step op bo b r b' :
  bop_of op = Some bo -> cstep b op = (r, b') ->
  exists r', bstep b bo = (r', b') /\ (r' = Panic <-> r = Panic).
Proof.
  intros E H. destruct op; cbn in E; try discriminate; injection E as <-; cbn [bstep cstep] in *;
    unfold ret_map, on_fst in *; injection H as <- <-; (eexists; split; [reflexivity|]);
    match goal with |- context [fst ?x] => destruct (fst x) end; cbn; split; congruence.
Qed.

Lemma bop_none_step op b r b' :
  bop_of op = None -> cstep b op = (r, b') -> b' = b.
Proof.
  intros E H. destruct op; cbn in E; try discriminate; cbn [cstep] in H;
    try (destruct (ci_state_id _ _)); try (destruct (ci_chan_id _ _)); congruence.
Qed.

Lemma disciplined_bop_ok b s fs fc op bo :
  rrel b s fs fc -> disciplined s op -> bop_of op = Some bo -> bop_ok b bo.
Proof.
  intros Hr Hd E. destruct op; cbn in E; try discriminate; injection E as <-; cbn in *; auto; try tauto.
  intros cd Hg. pose proof (rr_con _ _ _ _ Hr h) as Hc.
  destruct (rs_con s h) as [C'|]; [|congruence]. destruct Hc as [cd' [Hg' [_ Ho]]].
  rewrite Hg in Hg'. injection Hg' as <-. rewrite Ho. apply Hd. discriminate.
Qed.

Lemma cstep_keeps b s fs fc op r b' :
  rrel b s fs fc -> disciplined s op -> cstep b op = (r, b') -> r <> Panic -> binv b' /\ bmono b b'.
Proof.
  intros Hr Hd Hs Hn. pose proof (rr_inv _ _ _ _ Hr) as Hb.
  destruct (bop_of op) as [bo|] eqn:E.
  - destruct (bop_of_step _ _ _ _ _ E Hs) as [r' [Hs' Hp]].
    assert (r' <> Panic) by tauto.
    pose proof (disciplined_bop_ok _ _ _ _ _ _ Hr Hd E).
    split; [eapply bstep_binv|eapply bstep_mono]; eauto.
  - rewrite (bop_none_step _ _ _ _ E Hs). split; auto using bmono_refl.
Qed.

(** Consequences of the relation *)
Lemma rr_obj_none b s fs fc o :
  rrel b s fs fc -> rs_obj s o = None -> live_obj s o = None.
Proof. intros _ H. unfold live_obj. rewrite H. reflexivity. Qed.

Lemma live_obj_some s o ro : live_obj s o = Some ro -> rs_obj s o = Some ro /\ ro_live ro = true.
Proof.
  unfold live_obj. destruct (rs_obj s o) as [r|]; [|discriminate].
  destruct (ro_live r) eqn:E; [|discriminate]. intros H; injection H as <-. auto.
Qed.

Lemma rr_live_iff b s fs fc o :
  rrel b s fs fc -> (live_obj s o <> None <-> get (b_objects b) o <> None).
Proof.
  intros Hr. destruct (live_obj s o) as [ro|] eqn:E.
  - destruct (rr_live _ _ _ _ Hr _ _ E) as [Hg _]. rewrite Hg. split; discriminate.
  - rewrite (rr_dead _ _ _ _ Hr _ E). tauto.
Qed.

Lemma lookup_bound_in l t sh f : lookup_bound l t sh = Some f -> In ((t, sh), f) l.
Proof.
  induction l as [|[[t' sh'] f'] l IH]; cbn; [discriminate|].
  destruct (ptype_eqb_spec t t') as [->|]; cbn; auto.
  destruct (index_eqb_spec sh sh') as [->|]; auto. intros H; injection H as ->. auto.
Qed.
Lemma lookup_bound_none l t sh : lookup_bound l t sh = None -> forall f, ~ In ((t, sh), f) l.
Proof.
  induction l as [|[[t' sh'] f'] l IH]; cbn; [auto|].
  destruct (ptype_eqb_spec t t') as [->|]; cbn; [destruct (index_eqb_spec sh sh') as [->|]|]; try discriminate;
    intros H f [E|Hin]; try congruence; eapply IH; eauto.
Qed.

Lemma option_map_some {A B} (f : A -> B) o y : option_map f o = Some y -> exists x, o = Some x /\ y = f x.
Proof. destruct o; cbn; [intros H; injection H as <-; eauto|discriminate]. Qed.

(** Bound handles read what the record holds. *)
Lemma bound_get b s fs fc t sh o i :
  rrel b s fs fc -> is_bound (rs_bound s) t sh o i ->
  exists ro v, rs_obj s o = Some ro /\ nth_error (ro_vals ro) i = Some v /\ prop_type v = t /\
    nth_error (fs o) i = Some sh /\ tm_look (b_states b) t sh = Some v.
Proof.
  intros Hr Hi. destruct (rr_bound _ _ _ _ Hr _ _ _ _ Hi) as [ro [v [Ho [Hv [Ht Hh]]]]].
  exists ro, v. repeat split; auto. subst t. eapply (ce_get _ _ _ _ (rr_st _ _ _ _ Hr) o); eauto.
  rewrite Ho. reflexivity.
Qed.
Lemma bound_ch_get b s fs fc t sh o i :
  rrel b s fs fc -> is_bound (rs_bound_ch s) t sh o i ->
  exists ro v, rs_obj s o = Some ro /\ nth_error (ro_chans ro) i = Some v /\ ch_type v = t /\
    nth_error (fc o) i = Some sh /\ tm_look (b_channels b) t sh = Some v.
Proof.
  intros Hr Hi. destruct (rr_bound_ch _ _ _ _ Hr _ _ _ _ Hi) as [ro [v [Ho [Hv [Ht Hh]]]]].
  exists ro, v. repeat split; auto. subst t. eapply (ce_get _ _ _ _ (rr_ch _ _ _ _ Hr) o); eauto.
  rewrite Ho. reflexivity.
Qed.

(** A relation that only depends on the pieces: rebuild it when only the object
    map of the specification and the liveness change. *)

(** ** Each call *)
Definition good (b : baseline) (s : rstate) (fs fc : index -> list index) (op : rop) : Prop :=
  forall r b', cstep b op = (r, b') ->
    allowed s op r /\ (r <> Panic -> exists fs' fc', rrel b' (rnext s op r) fs' fc').

Lemma good_register b s fs fc C : rrel b s fs fc -> good b s fs fc (RRegister C).
Proof.
  intros Hr r b' Hs. pose proof (rr_inv _ _ _ _ Hr) as Hb.
  assert (Hkeep := cstep_keeps _ _ _ _ (RRegister C) _ _ Hr I Hs).
  cbn [cstep] in Hs. unfold on_fst in Hs.
  assert (Hex : has_contract_id b (ct_id C) <-> exists h C', rs_con s h = Some C' /\ ct_id C' = ct_id C).
  { split.
    - intros [h [cd [Hg Hi]]]. pose proof (rr_con _ _ _ _ Hr h) as Hc.
      destruct (rs_con s h) as [C'|] eqn:E; [|congruence]. destruct Hc as [cd' [Hg' [Hid _]]].
      exists h, C'. split; congruence.
    - intros [h [C' [E Hi]]]. pose proof (rr_con _ _ _ _ Hr h) as Hc. rewrite E in Hc.
      destruct Hc as [cd [Hg [Hid _]]]. exists h, cd. split; congruence. }
  destruct (register_spec b C Hb) as [[Hy E]|[Hno [cs [h [Hi E]]]]]; rewrite E in Hs; injection Hs as <- <-; cbn in *.
  - split; [left; split; [apply Hex; auto|reflexivity]|]. intros _. eauto.
  - rewrite Hex in Hno. pose proof (insert_fresh _ _ _ _ (bi_con _ Hb) Hi) as Hfresh.
    assert (Hget : forall h', get cs h' = if index_eqb h h' then Some (mkCdata (ct_id C) []) else get (b_contracts b) h')
      by (intros; eapply insert_get; eauto using bi_con).
    assert (Hcon : rs_con s h = None).
    { pose proof (rr_con _ _ _ _ Hr h) as Hc. destruct (rs_con s h); auto.
      destruct Hc as [cd [Hg _]]. congruence. }
    split.
    + right. split; auto. exists h. split; auto. intros Hin.
      destruct (rr_ucon _ _ _ _ Hr h Hin) as [Hl|Hd]; [congruence|].
      exact (insert_not_dead _ _ _ _ (bi_con _ Hb) Hi Hd).
    + intros Hn. destruct (Hkeep Hn) as [Hb' Hm]. exists fs, fc.
      constructor; cbn; auto; try apply Hr.
      * intros h'. unfold upd. rewrite Hget. destruct (index_eqb_spec h h') as [<-|].
        -- eexists; split; [reflexivity|]. auto.
        -- apply (rr_con _ _ _ _ Hr).
      * intros h' [<-|Hin]; [left; rewrite Hget, index_eqb_refl; discriminate|].
        apply (seen_con_mono _ _ _ Hm). apply (rr_ucon _ _ _ _ Hr); auto.
      * intros o ro Hl. destruct (rr_live _ _ _ _ Hr o ro Hl) as [Hg [C' [Hc Ht]]]. split; auto.
        exists C'. split; auto. unfold upd. destruct (index_eqb_spec h (ro_contract ro)); [congruence|auto].
Qed.

Lemma good_create b s fs fc C h vs cs :
  rrel b s fs fc -> disciplined s (RCreate C h vs cs) -> good b s fs fc (RCreate C h vs cs).
Proof.
  intros Hr Hd r b' Hs. pose proof (rr_inv _ _ _ _ Hr) as Hb.
  assert (Hkeep := cstep_keeps _ _ _ _ _ _ _ Hr Hd Hs).
  destruct Hd as [HC Hwt]. cbn [cstep] in Hs. unfold on_fst in Hs.
  pose proof (rr_con _ _ _ _ Hr h) as Hcon.
  destruct (create_spec b (mkCinst C h) vs cs Hb) as [[Hn [e E]]|[Hy [oh [ob [b1 [E Hc]]]]]];
    pose proof E as E0; rewrite E in Hs; injection Hs as <- <-; cbn in *.
  - split; [|intros _; eauto].
    unfold creatable in Hn. cbn in Hn.
    destruct (rs_con s h) as [C'|] eqn:Ec.
    + right. split; auto. destruct Hcon as [cd [Hg _]]. intros [H1 H2]. apply Hn. repeat split; auto. congruence.
    + unfold object_create in E0. cbn in E0.
      destruct (contains (b_contracts b) h) eqn:Ect; cbn in E0; [|congruence].
      apply contains_get in Ect. congruence.
  - destruct Hy as [Hl [Ht1 Ht2]]. cbn in *.
    destruct (rs_con s h) as [C'|] eqn:Ec; [|congruence]. specialize (HC C' eq_refl). subst C'.
    pose proof (fun h' => created_contracts b _ vs cs oh ob b1 h' Hb Hc) as Hcc. cbn in Hcc.
    pose proof (cr_obj _ _ _ _ _ _ _ Hc) as Hoc. pose proof (cr_warp _ _ _ _ _ _ _ Hc) as Hw.
    pose proof (cr_insert _ _ _ _ _ _ _ Hc) as Hi. cbn in Hoc.
    pose proof (insert_fresh _ _ _ _ (bi_obj _ Hb) Hi) as Hfresh.
    assert (Hget : forall o', get (b_objects b1) o' = if index_eqb oh o' then Some ob else get (b_objects b) o')
      by (intros; eapply insert_get; eauto using bi_obj).
    assert (Hnew : ~ In oh (rs_used_obj s)).
    { intros Hin. destruct (rr_uobj _ _ _ _ Hr oh Hin) as [Hx|Hx]; [congruence|].
      exact (insert_not_dead _ _ _ _ (bi_obj _ Hb) Hi Hx). }
    assert (Hro : rs_obj s oh = None).
    { destruct (rs_obj s oh) eqn:Ex; auto. exfalso. apply Hnew. apply (rr_used _ _ _ _ Hr). congruence. }
    split; [left; repeat split; eauto|].
    intros Hn. destruct (Hkeep Hn) as [Hb' Hm].
    exists (upd fs oh (o_states ob)), (upd fc oh (o_channels ob)).
    constructor; cbn; auto.
    + intros h'. rewrite Hcc. unfold upd. destruct (index_eqb_spec h h') as [<-|Hne].
      * rewrite Ec. destruct Hcon as [cd [Hg [Hid Hob]]]. rewrite Hg. cbn. eexists; split; [reflexivity|].
        split; auto. cbn. unfold set_insert. destruct (existsb (index_eqb oh) (cd_objects cd)) eqn:Ex; [|congruence].
        exfalso. apply existsb_index_in in Ex.
        destruct (bi_con_obj _ Hb _ _ _ Hg Ex) as [Hdd|[ob' [Hob' _]]]; [|congruence].
        exact (insert_not_dead _ _ _ _ (bi_obj _ Hb) Hi Hdd).
      * apply (rr_con _ _ _ _ Hr).
    + intros h' Hin. apply (seen_con_mono _ _ _ Hm). apply (rr_ucon _ _ _ _ Hr); auto.
    + intros o [<-|Hin]; [left; rewrite Hget, index_eqb_refl; discriminate|].
      apply (seen_obj_mono _ _ _ Hm). apply (rr_uobj _ _ _ _ Hr); auto.
    + intros o. unfold upd. destruct (index_eqb_spec oh o) as [<-|]; auto.
      intros Hx. right. apply (rr_used _ _ _ _ Hr); auto.
    + intros o ro. unfold live_obj, upd; cbn. rewrite Hget. destruct (index_eqb_spec oh o) as [<-|Hne].
      * cbn. intros Ex; injection Ex as <-. cbn. split; [|eauto].
        f_equal. destruct ob; cbn in *; subst; reflexivity.
      * intros Hlo. destruct (rr_live _ _ _ _ Hr o ro Hlo) as [Hg Hc']. split; auto.
    + intros o. unfold live_obj, upd; cbn. rewrite Hget. destruct (index_eqb_spec oh o) as [<-|Hne].
      * discriminate.
      * apply (rr_dead _ _ _ _ Hr).
    + eapply cells_ext; [eapply (cells_create _ _ _ _ _ _ _ oh (rr_st _ _ _ _ Hr) (cr_st _ _ _ _ _ _ _ Hc))|].
      * cbn. rewrite Hro. reflexivity.
      * intros o. cbn. unfold upd. destruct (index_eqb oh o); reflexivity.
    + eapply cells_ext; [eapply (cells_create _ _ _ _ _ _ _ oh (rr_ch _ _ _ _ Hr) (cr_ch _ _ _ _ _ _ _ Hc))|].
      * cbn. rewrite Hro. reflexivity.
      * intros o. cbn. unfold upd. destruct (index_eqb oh o); reflexivity.
    + intros t sh o i Hi'. destruct (rr_bound _ _ _ _ Hr _ _ _ _ Hi') as [ro [v [Ho Hrest]]].
      exists ro, v. unfold upd. destruct (index_eqb_spec oh o) as [<-|]; [congruence|auto].
    + intros t sh o i Hi'. destruct (rr_bound_ch _ _ _ _ Hr _ _ _ _ Hi') as [ro [v [Ho Hrest]]].
      exists ro, v. unfold upd. destruct (index_eqb_spec oh o) as [<-|]; [congruence|auto].
Qed.

Lemma good_bind b s fs fc C h i o :
  rrel b s fs fc -> disciplined s (RBind C h i o) -> good b s fs fc (RBind C h i o).
Proof.
  intros Hr Hd r b' Hs. cbn in Hd. cbn [cstep] in Hs. unfold ci_state_id in Hs. cbn in Hs.
  cbn [allowed]. destruct (nth_error (ct_states C) i) as [t|] eqn:Et; cbn in Hs.
  2:{ injection Hs as <- <-. split; auto. intros _. cbn. eauto. }
  injection Hs as <- <-. unfold bind_state.
  destruct (live_obj s o) as [ro|] eqn:El.
  2:{ rewrite (rr_dead _ _ _ _ Hr _ El). cbn. split; auto. intros _; eauto. }
  destruct (rr_live _ _ _ _ Hr _ _ El) as [Hg [C' [Hc [Ht _]]]]. rewrite Hg.
  unfold object_bind; cbn. destruct (index_eqb_spec h (ro_contract ro)) as [->|]; cbn.
  2:{ split; auto. intros _; eauto. }
  rewrite (Hd C' Hc) in *. pose proof (live_obj_some _ _ _ El) as [Ho _].
  assert (Hlen : length (fs o) = length (ro_vals ro))
    by (apply (ce_len _ _ _ _ (rr_st _ _ _ _ Hr) o); rewrite Ho; reflexivity).
  assert (Hi : i < length (ro_vals ro)).
  { rewrite <- (map_length prop_type), Ht. eapply nth_error_lt; eauto. }
  destruct (nth_error (fs o) i) as [sh|] eqn:Eh; [|apply nth_error_None in Eh; lia].
  cbn. split; [eauto|]. intros _. exists fs, fc. destruct Hr. constructor; cbn; auto.
  intros t' sh' o' i' [E|Hin]; [|auto]. injection E as <- <- <- <-.
  destruct (nth_error (ro_vals ro) i) as [v|] eqn:Ev; [|apply nth_error_None in Ev; lia].
  exists ro, v. repeat split; auto. apply (map_nth_error prop_type) in Ev. rewrite Ht, Et in Ev. congruence.
Qed.

Lemma good_bind_ch b s fs fc C h i o :
  rrel b s fs fc -> disciplined s (RBindCh C h i o) -> good b s fs fc (RBindCh C h i o).
Proof.
  intros Hr Hd r b' Hs. cbn in Hd. cbn [cstep] in Hs. unfold ci_chan_id in Hs. cbn in Hs.
  cbn [allowed]. destruct (nth_error (ct_chans C) i) as [t|] eqn:Et; cbn in Hs.
  2:{ injection Hs as <- <-. split; auto. intros _. cbn. eauto. }
  injection Hs as <- <-. unfold bind_channel.
  destruct (live_obj s o) as [ro|] eqn:El.
  2:{ rewrite (rr_dead _ _ _ _ Hr _ El). cbn. split; auto. intros _; eauto. }
  destruct (rr_live _ _ _ _ Hr _ _ El) as [Hg [C' [Hc [_ Ht]]]]. rewrite Hg.
  unfold object_bind; cbn. destruct (index_eqb_spec h (ro_contract ro)) as [->|]; cbn.
  2:{ split; auto. intros _; eauto. }
  rewrite (Hd C' Hc) in *. pose proof (live_obj_some _ _ _ El) as [Ho _].
  assert (Hlen : length (fc o) = length (ro_chans ro))
    by (apply (ce_len _ _ _ _ (rr_ch _ _ _ _ Hr) o); rewrite Ho; reflexivity).
  assert (Hi : i < length (ro_chans ro)).
  { rewrite <- (map_length ch_type), Ht. eapply nth_error_lt; eauto. }
  destruct (nth_error (fc o) i) as [sh|] eqn:Eh; [|apply nth_error_None in Eh; lia].
  cbn. split; [eauto|]. intros _. exists fs, fc. destruct Hr. constructor; cbn; auto.
  intros t' sh' o' i' [E|Hin]; [|auto]. injection E as <- <- <- <-.
  destruct (nth_error (ro_chans ro) i) as [v|] eqn:Ev; [|apply nth_error_None in Ev; lia].
  exists ro, v. repeat split; auto. apply (map_nth_error ch_type) in Ev. rewrite Ht, Et in Ev. congruence.
Qed.

Lemma good_get b s fs fc t sh :
  rrel b s fs fc -> disciplined s (RGet t sh) -> good b s fs fc (RGet t sh).
Proof.
  intros Hr _ r b' Hs. cbn in Hs. injection Hs as <- <-. cbn. split; [|intros _; eauto].
  intros o i Hi. destruct (bound_get _ _ _ _ _ _ _ _ Hr Hi) as [ro [v [Ho [Hv [_ [_ Hl]]]]]].
  exists ro, v. repeat split; auto. apply state_get_ok in Hl. rewrite Hl. reflexivity.
Qed.
Lemma good_get_ch b s fs fc t sh :
  rrel b s fs fc -> disciplined s (RGetCh t sh) -> good b s fs fc (RGetCh t sh).
Proof.
  intros Hr _ r b' Hs. cbn in Hs. injection Hs as <- <-. cbn. split; [|intros _; eauto].
  intros o i Hi. destruct (bound_ch_get _ _ _ _ _ _ _ _ Hr Hi) as [ro [v [Ho [Hv [_ [_ Hl]]]]]].
  exists ro, v. repeat split; auto. apply channel_get_ok in Hl. rewrite Hl. reflexivity.
Qed.

Lemma live_obj_set_vals s o ro vs o' :
  rs_obj s o = Some ro ->
  live_obj (with_robj s (upd (rs_obj s) o (Some (set_vals ro vs)))) o' =
  if index_eqb o o' then option_map (fun r => set_vals r vs) (live_obj s o) else live_obj s o'.
Proof.
  intros Ho. unfold live_obj, with_robj, upd; cbn. destruct (index_eqb_spec o o') as [<-|]; auto.
  rewrite Ho. cbn. destruct (ro_live ro); reflexivity.
Qed.
Lemma live_obj_set_chans s o ro vs o' :
  rs_obj s o = Some ro ->
  live_obj (with_robj s (upd (rs_obj s) o (Some (set_chans ro vs)))) o' =
  if index_eqb o o' then option_map (fun r => set_chans r vs) (live_obj s o) else live_obj s o'.
Proof.
  intros Ho. unfold live_obj, with_robj, upd; cbn. destruct (index_eqb_spec o o') as [<-|]; auto.
  rewrite Ho. cbn. destruct (ro_live ro); reflexivity.
Qed.

Lemma map_list_set_same {A B} (f : A -> B) (l : list A) i x y :
  nth_error l i = Some x -> f y = f x -> map f (list_set l i y) = map f l.
Proof.
  revert i; induction l as [|a l IH]; intros [|i] H E; cbn in *; try discriminate; auto.
  - injection H as ->. congruence.
  - f_equal. eapply IH; eauto.
Qed.

Lemma good_set b s fs fc sh v :
  rrel b s fs fc -> disciplined s (RSet sh v) -> good b s fs fc (RSet sh v).
Proof.
  intros Hr Hd r b' Hs. pose proof (rr_inv _ _ _ _ Hr) as Hb.
  assert (Hkeep := cstep_keeps _ _ _ _ _ _ _ Hr Hd Hs).
  destruct Hd as [o0 [i0 Hb0]]. cbn [cstep] in Hs. unfold on_fst in Hs.
  destruct (bound_get _ _ _ _ _ _ _ _ Hr Hb0) as [ro0 [v0 [_ [_ [_ [_ Hl0]]]]]].
  destruct (state_set_spec b sh v Hb) as [[Hn _]|[_ [m' [E [Hw Hl]]]]]; [congruence|].
  rewrite E in Hs. cbn in Hs. injection Hs as <- <-. split; [reflexivity|].
  intros Hn. destruct (Hkeep Hn) as [Hb' Hm]. exists fs, fc. cbn [rnext].
  destruct (lookup_bound (rs_bound s) (prop_type v) sh) as [[o i]|] eqn:El.
  2:{ exfalso. eapply lookup_bound_none; eauto. }
  apply lookup_bound_in in El.
  destruct (bound_get _ _ _ _ _ _ _ _ Hr El) as [ro [w [Ho [Hv [Ht [Hh Hlk]]]]]].
  unfold write_val. rewrite Ho.
  pose proof (live_obj_set_vals s o ro (list_set (ro_vals ro) i v)) as Hlive.
  constructor; cbn -[live_obj]; auto; try apply Hr.
  - intros o'. unfold upd. destruct (index_eqb_spec o o') as [<-|]; [|apply Hr].
    intros _. apply (rr_used _ _ _ _ Hr). congruence.
  - intros o' ro'. rewrite Hlive by auto. destruct (index_eqb_spec o o') as [<-|]; [|apply Hr].
    intros Hx. apply option_map_some in Hx. destruct Hx as [ro1 [Hx ->]].
    destruct (rr_live _ _ _ _ Hr _ _ Hx) as [Hg [C [Hc [Ht1 Ht2]]]]. cbn. split; auto.
    exists C. repeat split; auto. apply live_obj_some in Hx. destruct Hx as [Hx _].
    rewrite Ho in Hx. injection Hx as <-. erewrite map_list_set_same; eauto.
  - intros o'. rewrite Hlive by auto. destruct (index_eqb_spec o o') as [<-|]; [|apply Hr].
    intros Hx. apply (rr_dead _ _ _ _ Hr). destruct (live_obj s o); [discriminate|auto].
  - eapply cells_ext.
    + eapply (cells_write _ _ _ _ o (ro_vals ro) i w sh v m' (rr_st _ _ _ _ Hr)); auto.
      * cbn. rewrite Ho. reflexivity.
      * intros t' h'. rewrite Hl, Ht. reflexivity.
    + intros o'. unfold upd. destruct (index_eqb o o'); reflexivity.
  - eapply cells_ext; [apply Hr|]. intros o'. unfold upd. destruct (index_eqb_spec o o') as [<-|]; auto.
    rewrite Ho. reflexivity.
  - intros t sh' o' i' Hi'. destruct (rr_bound _ _ _ _ Hr _ _ _ _ Hi') as [ro' [v' [Ho' [Hv' [Ht' Hh']]]]].
    unfold upd. destruct (index_eqb_spec o o') as [<-|]; [|eauto 8].
    rewrite Ho in Ho'. injection Ho' as <-.
    destruct (Nat.eq_dec i i') as [<-|Hne]; eexists.
    + exists v. split; [reflexivity|]. cbn. rewrite nth_error_list_set_eq by (eapply nth_error_lt; eauto).
      repeat split; auto. congruence.
    + exists v'. split; [reflexivity|]. cbn. rewrite nth_error_list_set_neq by auto. auto.
  - intros t sh' o' i' Hi'. destruct (rr_bound_ch _ _ _ _ Hr _ _ _ _ Hi') as [ro' [v' [Ho' [Hv' [Ht' Hh']]]]].
    unfold upd. destruct (index_eqb_spec o o') as [<-|]; [|eauto 8].
    rewrite Ho in Ho'. injection Ho' as <-. eexists. exists v'. split; [reflexivity|]. auto.
Qed.

Lemma good_set_ch b s fs fc t sh ks :
  rrel b s fs fc -> disciplined s (RSetCh t sh ks) -> good b s fs fc (RSetCh t sh ks).
Proof.
  intros Hr Hd r b' Hs. pose proof (rr_inv _ _ _ _ Hr) as Hb.
  assert (Hkeep := cstep_keeps _ _ _ _ _ _ _ Hr Hd Hs).
  destruct Hd as [[o0 [i0 Hb0]] Hks]. cbn [cstep] in Hs. unfold on_fst in Hs.
  destruct (bound_ch_get _ _ _ _ _ _ _ _ Hr Hb0) as [ro0 [v0 [_ [_ [_ [_ Hl0]]]]]].
  destruct (channel_set_spec b t sh ks Hb) as [[Hn _]|[c [m' [Hc0 [E [Hw Hl]]]]]]; [congruence|].
  rewrite E in Hs. cbn in Hs. injection Hs as <- <-. split; [reflexivity|].
  intros Hn. destruct (Hkeep Hn) as [Hb' Hm]. exists fs, fc. cbn [rnext].
  destruct (lookup_bound (rs_bound_ch s) t sh) as [[o i]|] eqn:El.
  2:{ exfalso. eapply lookup_bound_none; eauto. }
  apply lookup_bound_in in El.
  destruct (bound_ch_get _ _ _ _ _ _ _ _ Hr El) as [ro [w [Ho [Hv [Ht [Hh Hlk]]]]]].
  assert (c = w) by congruence. subst c.
  unfold write_keys. rewrite Ho, Hv.
  set (w' := mkChannel (ch_type w) ks).
  pose proof (live_obj_set_chans s o ro (list_set (ro_chans ro) i w')) as Hlive.
  constructor; cbn -[live_obj]; auto; try apply Hr.
  - intros o'. unfold upd. destruct (index_eqb_spec o o') as [<-|]; [|apply Hr].
    intros _. apply (rr_used _ _ _ _ Hr). congruence.
  - intros o' ro'. rewrite Hlive by auto. destruct (index_eqb_spec o o') as [<-|]; [|apply Hr].
    intros Hx. apply option_map_some in Hx. destruct Hx as [ro1 [Hx ->]].
    destruct (rr_live _ _ _ _ Hr _ _ Hx) as [Hg [C [Hc [Ht1 Ht2]]]]. cbn. split; auto.
    exists C. repeat split; auto. apply live_obj_some in Hx. destruct Hx as [Hx _].
    rewrite Ho in Hx. injection Hx as <-. erewrite map_list_set_same; eauto.
  - intros o'. rewrite Hlive by auto. destruct (index_eqb_spec o o') as [<-|]; [|apply Hr].
    intros Hx. apply (rr_dead _ _ _ _ Hr). destruct (live_obj s o); [discriminate|auto].
  - eapply cells_ext; [apply Hr|]. intros o'. unfold upd. destruct (index_eqb_spec o o') as [<-|]; auto.
    rewrite Ho. reflexivity.
  - eapply cells_ext.
    + eapply (cells_write _ _ _ _ o (ro_chans ro) i w sh w' m' (rr_ch _ _ _ _ Hr)); auto.
      * cbn. rewrite Ho. reflexivity.
      * intros t' h'. rewrite Hl, <- Ht. reflexivity.
    + intros o'. unfold upd. destruct (index_eqb o o'); reflexivity.
  - intros t' sh' o' i' Hi'. destruct (rr_bound _ _ _ _ Hr _ _ _ _ Hi') as [ro' [v' [Ho' [Hv' [Ht' Hh']]]]].
    unfold upd. destruct (index_eqb_spec o o') as [<-|]; [|eauto 8].
    rewrite Ho in Ho'. injection Ho' as <-. eexists. exists v'. split; [reflexivity|]. auto.
  - intros t' sh' o' i' Hi'. destruct (rr_bound_ch _ _ _ _ Hr _ _ _ _ Hi') as [ro' [v' [Ho' [Hv' [Ht' Hh']]]]].
    unfold upd. destruct (index_eqb_spec o o') as [<-|]; [|eauto 8].
    rewrite Ho in Ho'. injection Ho' as <-.
    destruct (Nat.eq_dec i i') as [<-|Hne]; eexists.
    + exists w'. split; [reflexivity|]. cbn. rewrite nth_error_list_set_eq by (eapply nth_error_lt; eauto).
      repeat split; auto. cbn. congruence.
    + exists v'. split; [reflexivity|]. cbn. rewrite nth_error_list_set_neq by auto. auto.
Qed.

Lemma live_obj_kill s o ro o' :
  rs_obj s o = Some ro ->
  live_obj (with_robj s (upd (rs_obj s) o (Some (kill ro)))) o' =
  if index_eqb o o' then None else live_obj s o'.
Proof.
  intros Ho. unfold live_obj, with_robj, upd; cbn. destruct (index_eqb_spec o o') as [<-|]; auto.
Qed.

Lemma good_remove b s fs fc C o : rrel b s fs fc -> good b s fs fc (RRemove C o).
Proof.
  intros Hr r b' Hs. pose proof (rr_inv _ _ _ _ Hr) as Hb. pose proof (bi_obj _ Hb) as Ha.
  assert (Hkeep := cstep_keeps _ _ _ _ (RRemove C o) _ _ Hr I Hs).
  cbn [cstep] in Hs. unfold on_fst in Hs. rewrite object_remove_spec in Hs by auto.
  injection Hs as <- <-. unfold remove_result in *. cbn [allowed fst] in *. split.
  - destruct (live_obj s o) as [ro|] eqn:El.
    + destruct (rr_live _ _ _ _ Hr _ _ El) as [Hg _]. rewrite Hg. destruct (fieldless C); reflexivity.
    + rewrite (rr_dead _ _ _ _ Hr _ El). reflexivity.
  - intros Hn. destruct (Hkeep Hn) as [Hb' Hm]. exists fs, fc. cbn [rnext]. clear Hkeep Hn.
    assert (Hget : forall o', get (fst (aremove (b_objects b) o)) o' = if index_eqb o o' then None else get (b_objects b) o')
      by (intros; apply remove_get; auto).
    destruct (rs_obj s o) as [ro|] eqn:Ho.
    + pose proof (live_obj_kill s o ro) as Hlive. cbn in Hb', Hm |- *.
      constructor; cbn -[live_obj]; auto; try apply Hr.
      * intros o' Hin. apply (seen_obj_mono _ _ _ Hm). apply (rr_uobj _ _ _ _ Hr); auto.
      * intros o'. unfold upd. destruct (index_eqb_spec o o') as [<-|]; [|apply Hr].
        intros _. apply (rr_used _ _ _ _ Hr). congruence.
      * intros o' ro'. rewrite Hlive, Hget by auto. destruct (index_eqb_spec o o') as [<-|]; [discriminate|apply Hr].
      * intros o'. rewrite Hlive, Hget by auto. destruct (index_eqb_spec o o') as [<-|]; [auto|apply Hr].
      * eapply cells_ext; [apply Hr|]. intros o'. unfold upd. destruct (index_eqb_spec o o') as [<-|]; auto.
        rewrite Ho. reflexivity.
      * eapply cells_ext; [apply Hr|]. intros o'. unfold upd. destruct (index_eqb_spec o o') as [<-|]; auto.
        rewrite Ho. reflexivity.
      * intros t' sh' o' i' Hi'. destruct (rr_bound _ _ _ _ Hr _ _ _ _ Hi') as [ro' [v' [Ho' [Hv' [Ht' Hh']]]]].
        unfold upd. destruct (index_eqb_spec o o') as [<-|]; [|eauto 8].
        rewrite Ho in Ho'. injection Ho' as <-. eexists. exists v'. split; [reflexivity|]. auto.
      * intros t' sh' o' i' Hi'. destruct (rr_bound_ch _ _ _ _ Hr _ _ _ _ Hi') as [ro' [v' [Ho' [Hv' [Ht' Hh']]]]].
        unfold upd. destruct (index_eqb_spec o o') as [<-|]; [|eauto 8].
        rewrite Ho in Ho'. injection Ho' as <-. eexists. exists v'. split; [reflexivity|]. auto.
    + pose proof (rr_obj_none _ _ _ _ _ Hr Ho) as Hl. pose proof (rr_dead _ _ _ _ Hr _ Hl) as Hg.
      rewrite remove_none by auto. cbn. rewrite with_objects_id. auto.
Qed.

Lemma live_obj_warp s o ro w o' :
  rs_obj s o = Some ro ->
  live_obj (with_robj s (upd (rs_obj s) o (Some (set_rwarp ro w)))) o' =
  if index_eqb o o' then option_map (fun r => set_rwarp r w) (live_obj s o) else live_obj s o'.
Proof.
  intros Ho. unfold live_obj, with_robj, upd; cbn. destruct (index_eqb_spec o o') as [<-|]; auto.
  rewrite Ho. cbn. destruct (ro_live ro); reflexivity.
Qed.

Lemma good_set_warp b s fs fc o w : rrel b s fs fc -> good b s fs fc (RSetWarp o w).
Proof.
  intros Hr r b' Hs. pose proof (rr_inv _ _ _ _ Hr) as Hb.
  assert (Hkeep := cstep_keeps _ _ _ _ (RSetWarp o w) _ _ Hr I Hs).
  cbn [cstep] in Hs. unfold on_fst in Hs. cbn [allowed].
  destruct (set_warp_spec b o w Hb) as [[Hn E]|[ob [os [Ho [E [_ [Ha [Hd Hg]]]]]]]]; rewrite E in Hs; cbn in Hs;
    injection Hs as <- <-.
  - destruct (live_obj s o) as [ro|] eqn:El.
    + destruct (rr_live _ _ _ _ Hr _ _ El) as [Hg _]. congruence.
    + split; auto. intros _. cbn. eauto.
  - destruct (live_obj s o) as [ro|] eqn:El; [|rewrite (rr_dead _ _ _ _ Hr _ El) in Ho; discriminate].
    split; auto. intros Hn. destruct (Hkeep Hn) as [Hb' Hm]. exists fs, fc. cbn [rnext].
    destruct (rr_live _ _ _ _ Hr _ _ El) as [Hgo [C [Hc [Ht1 Ht2]]]].
    rewrite Ho in Hgo. injection Hgo as ->. cbn in Hg.
    pose proof (live_obj_some _ _ _ El) as [Hro Hli]. rewrite Hro.
    pose proof (live_obj_warp s o ro w) as Hlive.
    constructor; cbn -[live_obj]; auto; try apply Hr.
    * intros o' Hin. apply (seen_obj_mono _ _ _ Hm). apply (rr_uobj _ _ _ _ Hr); auto.
    * intros o'. unfold upd. destruct (index_eqb_spec o o') as [<-|]; [|apply Hr].
      intros _. apply (rr_used _ _ _ _ Hr). congruence.
    * intros o' ro'. rewrite Hlive, Hg by auto. destruct (index_eqb_spec o o') as [<-|]; [|apply Hr].
      rewrite El. cbn. intros Hx; injection Hx as <-. cbn. eauto.
    * intros o'. rewrite Hlive, Hg by auto. destruct (index_eqb_spec o o') as [<-|]; [|apply Hr].
      rewrite El. discriminate.
    * eapply cells_ext; [apply Hr|]. intros o'. unfold upd. destruct (index_eqb_spec o o') as [<-|]; auto.
      rewrite Hro. reflexivity.
    * eapply cells_ext; [apply Hr|]. intros o'. unfold upd. destruct (index_eqb_spec o o') as [<-|]; auto.
      rewrite Hro. reflexivity.
    * intros t' sh' o' i' Hi'. destruct (rr_bound _ _ _ _ Hr _ _ _ _ Hi') as [ro' [v' [Ho' [Hv' [Ht' Hh']]]]].
      unfold upd. destruct (index_eqb_spec o o') as [<-|]; [|eauto 8].
      rewrite Hro in Ho'. injection Ho' as <-. eexists. exists v'. split; [reflexivity|]. auto.
    * intros t' sh' o' i' Hi'. destruct (rr_bound_ch _ _ _ _ Hr _ _ _ _ Hi') as [ro' [v' [Ho' [Hv' [Ht' Hh']]]]].
      unfold upd. destruct (index_eqb_spec o o') as [<-|]; [|eauto 8].
      rewrite Hro in Ho'. injection Ho' as <-. eexists. exists v'. split; [reflexivity|]. auto.
Qed.

Lemma good_get_warp b s fs fc o : rrel b s fs fc -> good b s fs fc (RGetWarp o).
Proof.
  intros Hr r b' Hs. cbn in Hs. injection Hs as <- <-. cbn. split; [|intros _; eauto].
  unfold object_of. destruct (live_obj s o) as [ro|] eqn:El.
  - destruct (rr_live _ _ _ _ Hr _ _ El) as [Hg _]. rewrite Hg. reflexivity.
  - rewrite (rr_dead _ _ _ _ Hr _ El). reflexivity.
Qed.

Lemma good_unregister b s fs fc C h ord :
  rrel b s fs fc -> disciplined s (RUnregister C h ord) -> good b s fs fc (RUnregister C h ord).
Proof.
  intros Hr Hd r b' Hs. pose proof (rr_inv _ _ _ _ Hr) as Hb.
  assert (Hkeep := cstep_keeps _ _ _ _ _ _ _ Hr Hd Hs).
  cbn [cstep] in Hs. unfold on_fst in Hs.
  pose proof (disciplined_bop_ok _ _ _ _ _ _ Hr Hd eq_refl) as Hok. cbn in Hok.
  pose proof (rr_con _ _ _ _ Hr h) as Hcon. cbn [allowed].
  destruct (unregister_spec b C h ord Hb Hok) as [[Hn E]|[cd [Hg Hrest]]].
  { rewrite E in Hs. cbn in Hs. injection Hs as <- <-.
    destruct (rs_con s h) as [C'|]; [destruct Hcon as [cd [Hg _]]; congruence|]. split; auto.
    intros _. cbn. eauto. }
  destruct (rs_con s h) as [C'|] eqn:Ec; [|congruence].
  destruct Hcon as [cd' [Hg' [Hid Hmem]]]. rewrite Hg in Hg'. injection Hg' as <-.
  rewrite <- Hid. destruct Hrest as [[Hi E]|[Hi Hrest]].
  { rewrite E in Hs. cbn in Hs. injection Hs as <- <-.
    destruct (contract_id_eqb_spec (cd_id cd) (ct_id C)); [congruence|]. split; auto. intros _. cbn. eauto. }
  destruct (contract_id_eqb_spec (cd_id cd) (ct_id C)); [|congruence].
  destruct Hrest as [[b1 [E Hu]]|[Hbad E]].
  - rewrite E in Hs. cbn in Hs. injection Hs as <- <-.
    destruct Hu as [cd' [os' [Hg' [_ [[Ho1 [Ho2 [Ho3 Ho4]]] [Hall [Hf [Ek [Eo [Es [Ech [Hci [Hcg _]]]]]]]]]]]]].
    rewrite Hg in Hg'. injection Hg' as <-.
    split.
    + left. split; auto. rewrite <- Hmem. destruct Hf as [->|Hf]; [auto|]. right. split; auto.
      intros o Ho. apply (rr_live_iff _ _ _ _ _ Hr). auto.
    + intros Hn. destruct (Hkeep Hn) as [Hb' Hm]. exists fs, fc. cbn [rnext].
      assert (Hin : forall o ro, live_obj s o = Some ro -> (existsb (index_eqb o) (cd_objects cd) = true <-> h = ro_contract ro)).
      { intros o ro Hl. rewrite existsb_index_in. destruct (rr_live _ _ _ _ Hr _ _ Hl) as [Hgo _]. split.
        - intros Hi'. destruct (bi_con_obj _ Hb _ _ _ Hg Hi') as [[Hx _]|[ob' [Hx Hy]]]; [congruence|].
          rewrite Hgo in Hx. injection Hx as <-. cbn in Hy. auto.
        - intros ->. destruct (bi_obj_con _ Hb _ _ Hgo) as [cd'' [Hx Hy]]. cbn in Hx. congruence. }
      set (s' := rnext s (RUnregister C h ord) (Ok YUnit)).
      assert (Hlive : forall o, live_obj s' o =
        match live_obj s o with Some ro => if index_eqb h (ro_contract ro) then None else Some ro | None => None end).
      { intros o. unfold live_obj, s'; cbn. destruct (rs_obj s o) as [ro|]; auto.
        destruct (index_eqb h (ro_contract ro)) eqn:Ex; cbn; destruct (ro_live ro) eqn:Er; cbn; rewrite ?Ex; auto. }
      fold s'.
      constructor; auto.
      * intros h'. cbn. unfold upd. rewrite Hcg. destruct (index_eqb_spec h h') as [<-|]; auto.
        apply (rr_con _ _ _ _ Hr).
      * intros h' Hi'. apply (seen_con_mono _ _ _ Hm). apply (rr_ucon _ _ _ _ Hr); auto.
      * intros o' Hi'. apply (seen_obj_mono _ _ _ Hm). apply (rr_uobj _ _ _ _ Hr); auto.
      * intros o. cbn. intros Hx. apply (rr_used _ _ _ _ Hr). intros Hx'. rewrite Hx' in Hx. congruence.
      * intros o ro. rewrite Hlive, Eo. destruct (live_obj s o) as [ro1|] eqn:El; [|discriminate].
        destruct (index_eqb_spec h (ro_contract ro1)) as [|Hne]; [discriminate|].
        intros Hx; injection Hx as <-. destruct (rr_live _ _ _ _ Hr _ _ El) as [Hgo [C1 [Hc1 Ht]]].
        split.
        -- rewrite Ho2. destruct (existsb (index_eqb o) (cd_objects cd)) eqn:Ex; auto.
           exfalso. apply Hne. apply (Hin _ _ El). auto.
        -- exists C1. split; auto. cbn. unfold upd. destruct (index_eqb_spec h (ro_contract ro1)); [congruence|auto].
      * intros o. rewrite Hlive, Eo, Ho2. destruct (live_obj s o) as [ro1|] eqn:El.
        -- destruct (index_eqb_spec h (ro_contract ro1)) as [Heq|]; [|discriminate]. intros _.
           apply (Hin _ _ El) in Heq. rewrite Heq. reflexivity.
        -- intros _. rewrite (rr_dead _ _ _ _ Hr _ El). destruct (existsb _ _); auto.
      * rewrite Es. eapply cells_ext; [apply Hr|]. intros o. cbn. destruct (rs_obj s o) as [ro|]; auto. cbn.
        destruct (index_eqb h (ro_contract ro)); reflexivity.
      * rewrite Ech. eapply cells_ext; [apply Hr|]. intros o. cbn. destruct (rs_obj s o) as [ro|]; auto. cbn.
        destruct (index_eqb h (ro_contract ro)); reflexivity.
      * intros t' sh' o' i' Hi'. destruct (rr_bound _ _ _ _ Hr _ _ _ _ Hi') as [ro' [v' [Ho' [Hv' [Ht' Hh']]]]].
        cbn. rewrite Ho'. eexists _, v'. split; [reflexivity|]. destruct (index_eqb h (ro_contract ro')); auto.
      * intros t' sh' o' i' Hi'. destruct (rr_bound_ch _ _ _ _ Hr _ _ _ _ Hi') as [ro' [v' [Ho' [Hv' [Ht' Hh']]]]].
        cbn. rewrite Ho'. eexists _, v'. split; [reflexivity|]. destruct (index_eqb h (ro_contract ro')); auto.
  - assert (r = Panic) as ->.
    { injection Hs as <- <-. destruct (fst (unregister_contract b C h ord)); cbn; congruence. }
    split; [|congruence]. right. split; auto. rewrite <- Hmem.
    destruct Hbad as [[o [Hin Hn]]|[Hne Hf]].
    + intros [E0|[_ Hx]]; [rewrite E0 in Hin; destruct Hin|].
      specialize (Hx o Hin). apply (rr_live_iff _ _ _ _ _ Hr) in Hx. congruence.
    + intros [E0|[Hx _]]; congruence.
Qed.

Lemma good_all b s fs fc op : rrel b s fs fc -> disciplined s op -> good b s fs fc op.
Proof.
  intros Hr Hd. destruct op.
  - apply good_register; auto.
  - apply good_unregister; auto.
  - apply good_create; auto.
  - apply good_remove; auto.
  - apply good_bind; auto.
  - apply good_bind_ch; auto.
  - apply good_get; auto.
  - apply good_set; auto.
  - apply good_get_ch; auto.
  - apply good_set_ch; auto.
  - apply good_get_warp; auto.
  - apply good_set_warp; auto.
Qed.

Lemma records_refined ops : forall b s fs fc,
  rrel b s fs fc -> all_disciplined s ops (fst (crun b ops)) -> all_allowed s ops (fst (crun b ops)).
Proof.
  induction ops as [|op ops IH]; intros b s fs fc Hr Hd; cbn in *; auto.
  destruct (cstep b op) as [r b1] eqn:Es.
  destruct (is_panic r) eqn:Ep; cbn in *.
  - destruct Hd as [Hd _]. rewrite Ep. split; auto. apply (good_all _ _ _ _ _ Hr Hd _ _ Es).
  - destruct (crun b1 ops) as [rs b2] eqn:Er. cbn in *. rewrite Ep. destruct Hd as [Hd Hd'].
    destruct (good_all _ _ _ _ _ Hr Hd _ _ Es) as [Ha Hnext]. split; auto.
    destruct Hnext as [fs' [fc' Hr']]; [intros ->; discriminate|].
    specialize (IH _ _ _ _ Hr'). rewrite Er in IH. apply IH; auto.
Qed.
