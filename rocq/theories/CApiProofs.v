(** Proofs about the C API. *)
From Verif Require Export BaselineMono CApiSpec.
Open Scope nat_scope.

(** ** Heaps *)
Lemma look_lt H a c : look H a = Some c -> a < length H.
Proof. unfold look. intros E. apply nth_error_Some. destruct (nth_error H a); congruence. Qed.
Lemma look_app H K a : a < length H -> look (H ++ K) a = look H a.
Proof. intros L. unfold look. now rewrite nth_error_app1. Qed.
Lemma look_new H c : look (H ++ [Some c]) (length H) = Some c.
Proof. unfold look. rewrite nth_error_app2 by lia. rewrite Nat.sub_diag. reflexivity. Qed.
Lemma look_app_some H K a c : look H a = Some c -> look (H ++ K) a = Some c.
Proof. intros E. rewrite look_app; [exact E|]. eapply look_lt; eauto. Qed.
Lemma look_alloc_cases H c a d : look (H ++ [Some c]) a = Some d -> look H a = Some d \/ (a = length H /\ d = c).
Proof.
  intros E. destruct (Nat.lt_ge_cases a (length H)) as [L|L].
  - rewrite look_app in E by exact L. auto.
  - right. pose proof (look_lt _ _ _ E) as L'. rewrite app_length in L'. cbn in L'. assert (a = length H) by lia. subst a.
    rewrite look_new in E. split; congruence.
Qed.
Lemma look_free H a x : look (free H a) x = if Nat.eqb a x then None else look H x.
Proof.
  unfold look, free. rewrite nth_error_list_set. destruct (Nat.eqb_spec a x) as [<-|]; [|reflexivity].
  destruct (Nat.ltb_spec a (length H)); reflexivity.
Qed.
Lemma look_put H a c x d : look H a = Some d -> look (put H a c) x = if Nat.eqb a x then Some c else look H x.
Proof.
  intros E. apply look_lt in E. unfold look, put. rewrite nth_error_list_set. destruct (Nat.eqb_spec a x) as [<-|]; [|reflexivity].
  destruct (Nat.ltb_spec a (length H)); [reflexivity|lia].
Qed.
Lemma look_free_some H a x c : look (free H a) x = Some c -> look H x = Some c /\ x <> a.
Proof. rewrite look_free. destruct (Nat.eqb_spec a x); [discriminate|]. auto. Qed.

Lemma prim_eqb_eq a b : prim_eqb a b = true <-> a = b.
Proof. destruct a, b; cbn; split; congruence. Qed.
Lemma prim_eqb_refl a : prim_eqb a a = true.
Proof. now apply prim_eqb_eq. Qed.

Lemma base_at_some H p a b e : base_at H p = Some (a, b, e) <-> p = PBox a /\ look H a = Some (CBase b e).
Proof.
  unfold base_at. destruct p as [a'| | | | | | |]; try (split; [discriminate|intros [E _]; discriminate]).
  split.
  - destruct (look H a') as [[]|] eqn:L; try discriminate. intros E; injection E as <- <- <-. auto.
  - intros [E L]. injection E as <-. now rewrite L.
Qed.
Lemma contract_at_some H p c : contract_at H p = Some c <-> exists a, p = PBox a /\ look H a = Some (CCon c).
Proof.
  unfold contract_at. destruct p as [a'| | | | | | |]; try (split; [discriminate|intros (? & E & _); discriminate]).
  split.
  - destruct (look H a') as [[]|] eqn:L; try discriminate. intros E; injection E as <-. eauto.
  - intros (a & E & L). injection E as <-. now rewrite L.
Qed.
Lemma sh_at_some H t p h : sh_at H t p = Some h <-> exists a, p = PBox a /\ look H a = Some (CSh t h).
Proof.
  unfold sh_at. destruct p as [a'| | | | | | |]; try (split; [discriminate|intros (? & E & _); discriminate]).
  split.
  - destruct (look H a') as [[]|] eqn:L; try discriminate. destruct (prim_eqb t t0) eqn:E; [|discriminate]. apply prim_eqb_eq in E. subst t0.
    intros E; injection E as <-. eauto.
  - intros (a & E & L). injection E as <-. now rewrite L, prim_eqb_refl.
Qed.
Lemma sid_at_some H t p h : sid_at H t p = Some h <-> exists a, p = PBox a /\ look H a = Some (CSid t h).
Proof.
  unfold sid_at. destruct p as [a'| | | | | | |]; try (split; [discriminate|intros (? & E & _); discriminate]).
  split.
  - destruct (look H a') as [[]|] eqn:L; try discriminate. destruct (prim_eqb t t0) eqn:E; [|discriminate]. apply prim_eqb_eq in E. subst t0.
    intros E; injection E as <-. eauto.
  - intros (a & E & L). injection E as <-. now rewrite L, prim_eqb_refl.
Qed.
Lemma owned_val_some H t p a v : owned_val H t p = Some (a, v) <->
  p = PBox a /\ look H a = Some (CVal v) /\ dynprim_type v = TPrim t.
Proof.
  unfold owned_val. destruct p as [a'| | | | | | |]; try (split; [discriminate|intros (E & _); discriminate]).
  split.
  - destruct (look H a') as [[]|] eqn:L; try discriminate. destruct (ptype_eqb (dynprim_type v0) (TPrim t)) eqn:E; [|discriminate].
    destruct (ptype_eqb_spec (dynprim_type v0) (TPrim t)); [|discriminate]. intros X; injection X as <- <-. auto.
  - intros (E & L & T). injection E as <-. rewrite L, T. destruct (ptype_eqb_spec (TPrim t) (TPrim t)); [reflexivity|congruence].
Qed.
Lemma obj_handle_box H a o : obj_handle_at H (PBox a) = Some o <-> look H a = Some (CVal (VObjectHandle o)).
Proof.
  unfold obj_handle_at, val_at. destruct (look H a) as [[| |[]| | | |]|]; split; try discriminate; intros E; injection E as <-; reflexivity.
Qed.
Lemma loads_box H a v : loads H (PBox a) v <-> look H a = Some (CVal v).
Proof.
  unfold loads. cbn [step val_at]. destruct (look H a) as [[]|]; split; try discriminate; intros E; injection E as <-; reflexivity.
Qed.
Lemma borrowed_some H a e b : borrowed H a e = Some b <-> look H a = Some (CBase b e).
Proof.
  unfold borrowed. destruct (look H a) as [[b' e'| | | | | |]|]; try (split; discriminate).
  destruct (Nat.eqb_spec e e') as [->|N]; split; try discriminate; intros E; injection E; intros; subst; try reflexivity; congruence.
Qed.

(** ** The baselines of a session *)
Definition field_at (b : baseline) (o : index) (i : nat) (t : ptype) (h : index) : Prop :=
  exists ob, obj_at b o = Some ob /\ nth_error (o_states ob) i = Some h /\ nth_error (ct_states Example) i = Some t.
Record exinv (b : baseline) : Prop := {
  ex_inv : binv b;
  ex_con : forall h cd, con_at b h = Some cd -> cd_id cd = ct_id Example;
  ex_len : forall o ob, obj_at b o = Some ob -> length (o_states ob) = 9;
  ex_get : forall o i t h, field_at b o i t h -> tm_look (b_states b) t h <> None;
  ex_inj : forall o1 i1 o2 i2 t h, field_at b o1 i1 t h -> field_at b o2 i2 t h -> o1 = o2 /\ i1 = i2;
  ex_live : forall h cd o, con_at b h = Some cd -> In o (cd_objects cd) -> obj_at b o <> None
}.

Lemma obj_at_new k o : obj_at (baseline_new k) o = None.
Proof. unfold obj_at, baseline_new. cbn [b_objects]. apply arena_new_get. Qed.
Lemma con_at_new k o : con_at (baseline_new k) o = None.
Proof. unfold con_at, baseline_new. cbn [b_contracts]. apply arena_new_get. Qed.
Lemma exinv_new k : exinv (baseline_new k).
Proof.
  constructor.
  - apply binv_new.
  - intros h cd. rewrite con_at_new. discriminate.
  - intros o ob. rewrite obj_at_new. discriminate.
  - intros o i t h (ob & E & _). rewrite obj_at_new in E. discriminate.
  - intros o1 i1 o2 i2 t h (ob & E & _). rewrite obj_at_new in E. discriminate.
  - intros h cd o E. rewrite con_at_new in E. discriminate.
Qed.

Lemma register_ok b c b' : exinv b -> register_contract b Example = (Ok c, b') ->
  exinv b' /\ ci_ty c = Example /\ b_objects b' = b_objects b /\ b_states b' = b_states b /\ b_kind b' = b_kind b /\
  con_at b' (ci_handle c) <> None /\ (forall h, con_at b h <> None -> con_at b' h = con_at b h) /\
  (forall h, con_at b h = None).
Proof.
  intros X E. destruct (register_spec b Example (ex_inv _ X)) as [[_ E']|[N (cs & h & Hi & E')]]; rewrite E in E'; [discriminate|].
  injection E' as -> ->. cbn [ci_ty ci_handle b_objects b_states b_kind with_contracts].
  assert (None_ : forall h, con_at b h = None).
  { intros h'. destruct (con_at b h') as [cd|] eqn:Ec; [|reflexivity]. exfalso. apply N. exists h', cd. split; [exact Ec|]. eapply ex_con; eauto. }
  assert (G : forall h', con_at (with_contracts b cs) h' = if index_eqb h h' then Some (mkCdata (ct_id Example) []) else con_at b h').
  { intros h'. unfold con_at. cbn [b_contracts with_contracts]. apply (insert_get _ _ _ _ h' (bi_con _ (ex_inv _ X)) Hi). }
  split; [|split; [reflexivity|split; [reflexivity|split; [reflexivity|split; [reflexivity|split; [|split; [|exact None_]]]]]]].
  - constructor.
    + eapply register_binv; [exact (ex_inv _ X)|exact E].
    + intros h' cd. rewrite G, None_. destruct (index_eqb h h'); [|discriminate]. intros Q; injection Q as <-. reflexivity.
    + exact (ex_len _ X).
    + exact (ex_get _ X).
    + exact (ex_inj _ X).
    + intros h' cd o. rewrite G, None_. destruct (index_eqb h h'); [|discriminate]. intros Q; injection Q as <-. intros [].
  - rewrite G. destruct (index_eqb_spec h h); [discriminate|congruence].
  - intros h' Hh. rewrite None_ in Hh. congruence.
Qed.

Lemma create_ok b c vs o b' : exinv b -> ci_ty c = Example -> object_create b c vs [] = (Ok o, b') ->
  exists ob, created b c vs [] o ob b' /\ exinv b' /\ obj_at b' o = Some ob /\ obj_at b o = None /\
    (forall o' ob', obj_at b o' = Some ob' -> obj_at b' o' = Some ob') /\
    (forall o' ob', obj_at b' o' = Some ob' -> o' = o /\ ob' = ob \/ obj_at b o' = Some ob') /\
    map prop_type vs = ct_states Example /\ b_kind b' = b_kind b /\
    (forall h, con_at b h <> None <-> con_at b' h <> None).
Proof.
  intros X T E. pose proof (ex_inv _ X) as Hb.
  destruct (create_spec b c vs [] Hb) as [[_ [e E']]|[Cb (oh & ob & b1 & E' & Cr)]]; rewrite E in E'; [discriminate|].
  injection E' as <- <-. exists ob. split; [exact Cr|].
  pose proof (insert_get _ _ _ _ o (bi_obj _ Hb) (cr_insert _ _ _ _ _ _ _ Cr)) as G0.
  assert (G : forall o', obj_at b' o' = if index_eqb o o' then Some ob else obj_at b o').
  { intros o'. unfold obj_at. apply (insert_get _ _ _ _ o' (bi_obj _ Hb) (cr_insert _ _ _ _ _ _ _ Cr)). }
  pose proof (insert_fresh _ _ _ _ (bi_obj _ Hb) (cr_insert _ _ _ _ _ _ _ Cr)) as Fr.
  destruct Cb as (_ & Tv & _). rewrite T in Tv.
  assert (Lo : length (o_states ob) = 9).
  { rewrite (is_len _ _ _ _ _ (cr_st _ _ _ _ _ _ _ Cr)). apply (f_equal (@length ptype)) in Tv. rewrite map_length in Tv. exact Tv. }
  assert (New : forall i t h, nth_error (o_states ob) i = Some h -> nth_error (ct_states Example) i = Some t ->
            exists v, nth_error vs i = Some v /\ prop_type v = t /\ tm_look (b_states b) t h = None /\ tm_look (b_states b') t h = Some v).
  { intros i t h Hh Ht. rewrite <- Tv, nth_error_map in Ht. destruct (nth_error vs i) as [v|] eqn:Ev; [|discriminate]. injection Ht as <-.
    exists v. destruct (is_new _ _ _ _ _ (cr_st _ _ _ _ _ _ _ Cr) i v h Ev Hh). auto. }
  assert (Old : forall t h, tm_look (b_states b) t h <> None -> tm_look (b_states b') t h <> None).
  { intros t h Hh. destruct (tm_look (b_states b) t h) as [v|] eqn:Ev; [|congruence].
    rewrite (is_old _ _ _ _ _ (cr_st _ _ _ _ _ _ _ Cr) _ _ _ Ev). discriminate. }
  assert (FA : forall o' i t h, field_at b' o' i t h ->
            (o' = o /\ nth_error (o_states ob) i = Some h /\ nth_error (ct_states Example) i = Some t) \/ field_at b o' i t h).
  { intros o' i t h (ob' & H1 & H2 & H3). rewrite G in H1. destruct (index_eqb_spec o o') as [<-|].
    - injection H1 as <-. left. auto.
    - right. exists ob'. auto. }
  assert (Con : forall h, con_at b h <> None <-> con_at b' h <> None).
  { intros h. destruct (cr_con _ _ _ _ _ _ _ Cr) as (cd & Hg & Hs). unfold con_at.
    rewrite (set_get _ _ _ _ h (bi_con _ Hb) Hs). destruct (index_eqb_spec (ci_handle c) h) as [<-|]; [|tauto]. rewrite Hg. split; discriminate. }
  split; [|split; [|split; [exact Fr|split; [|split; [|split; [exact Tv|split; [exact (cr_kind _ _ _ _ _ _ _ Cr)|exact Con]]]]]]].
  - constructor.
    + eapply created_binv; eauto.
    + intros h cd Hc. destruct (cr_con _ _ _ _ _ _ _ Cr) as (cd0 & Hg & Hs). unfold con_at in Hc.
      rewrite (set_get _ _ _ _ h (bi_con _ Hb) Hs) in Hc. destruct (index_eqb_spec (ci_handle c) h) as [<-|].
      * injection Hc as <-. cbn. eapply (ex_con _ X); exact Hg.
      * eapply (ex_con _ X); exact Hc.
    + intros o' ob' Ho. rewrite G in Ho. destruct (index_eqb o o'); [injection Ho as <-; exact Lo|eapply ex_len; eauto].
    + intros o' i t h F. destruct (FA _ _ _ _ F) as [(-> & H1 & H2)|F'].
      * destruct (New _ _ _ H1 H2) as (v & _ & _ & _ & Q). congruence.
      * apply Old. eapply ex_get; eauto.
    + intros o1 i1 o2 i2 t h F1 F2. destruct (FA _ _ _ _ F1) as [(-> & H1 & H2)|F1'], (FA _ _ _ _ F2) as [(-> & H3 & H4)|F2'].
      * split; [reflexivity|]. destruct (New _ _ _ H1 H2) as (v & V1 & V2 & _ & _). destruct (New _ _ _ H3 H4) as (w & W1 & W2 & _ & _).
        eapply (is_inj _ _ _ _ _ (cr_st _ _ _ _ _ _ _ Cr)); eauto. congruence.
      * exfalso. destruct (New _ _ _ H1 H2) as (v & _ & _ & Q & _). exact (ex_get _ X _ _ _ _ F2' Q).
      * exfalso. destruct (New _ _ _ H3 H4) as (v & _ & _ & Q & _). exact (ex_get _ X _ _ _ _ F1' Q).
      * eapply ex_inj; eauto.
    + intros h cd x Hc Hx. destruct (cr_con _ _ _ _ _ _ _ Cr) as (cd0 & Hg & Hs). unfold con_at in Hc.
      rewrite (set_get _ _ _ _ h (bi_con _ Hb) Hs) in Hc. rewrite G.
      destruct (index_eqb_spec o x) as [<-|NE]; [discriminate|]. destruct (index_eqb_spec (ci_handle c) h) as [<-|].
      * injection Hc as <-. cbn [cd_objects] in Hx. apply set_insert_in in Hx. destruct Hx as [Hx|Hx]; [congruence|].
        exact (ex_live _ X _ _ _ Hg Hx).
      * exact (ex_live _ X _ _ _ Hc Hx).
  - rewrite G. destruct (index_eqb_spec o o); [reflexivity|congruence].
  - intros o' ob' Ho. rewrite G. destruct (index_eqb_spec o o') as [<-|]; [|exact Ho]. unfold obj_at in Ho. congruence.
  - intros o' ob' Ho. rewrite G in Ho. destruct (index_eqb_spec o o') as [<-|]; [injection Ho as <-; auto|auto].
Qed.

Lemma set_ok b h v b' : exinv b -> state_set b h v = (Ok tt, b') ->
  exinv b' /\ b_objects b' = b_objects b /\ b_contracts b' = b_contracts b /\ b_kind b' = b_kind b /\
  forall t h', tm_look (b_states b') t h' = if tm_same (prop_type v) h t h' then Some v else tm_look (b_states b) t h'.
Proof.
  intros X E. destruct (state_set_spec b h v (ex_inv _ X)) as [[_ [e E']]|[_ (m & E' & Hw & Hl)]]; rewrite E in E'; [discriminate|].
  injection E' as ->. cbn [b_objects b_contracts b_kind with_states b_states].
  split; [|repeat split; auto]. constructor.
  - eapply state_set_binv; [exact (ex_inv _ X)|exact E].
  - exact (ex_con _ X).
  - exact (ex_len _ X).
  - intros o i t h' F. cbn [b_states with_states]. rewrite Hl. destruct (tm_same _ _ _ _); [discriminate|]. exact (ex_get _ X _ _ _ _ F).
  - exact (ex_inj _ X).
  - exact (ex_live _ X).
Qed.
